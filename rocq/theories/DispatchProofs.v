From Verif Require Import Base BaseLemmas UtfModel WriterModel ReaderModel CodecSpec CodecProofs ObjModel ObjReader
  KernelModel ObjSpec HidlSpec HidlTrip DispatchModel DispatchSpec.

Lemma same_text_eq a b : same_text a b = true <-> a = b.
Proof. unfold same_text. destruct (list_eq_dec Z.eq_dec a b); split; congruence. Qed.

Lemma base_utf8 : utf8 hidl_base_interface = hidl_base_interface.
Proof. vm_compute. reflexivity. Qed.

Lemma strv_last_some l x : strv_last l = Some x -> exists r, l = r ++ [x].
Proof.
  induction l as [|a r IH]; cbn [strv_last]; [discriminate|].
  destruct r as [|b r1].
  - intros [= ->]. exists []. reflexivity.
  - intros H. destruct (IH H) as (r2 & E). exists (a :: r2). rewrite E. reflexivity.
Qed.
Lemma strv_last_app r x : strv_last (r ++ [x]) = Some x.
Proof.
  induction r as [|a r IH]; [reflexivity|].
  destruct r as [|b r1]; [reflexivity|]. exact IH.
Qed.
Lemma strv_last_none l : strv_last l = None -> l = [].
Proof.
  induction l as [|a r IH]; [reflexivity|]. cbn [strv_last].
  destruct r as [|b r1]; [discriminate|]. intros H. specialize (IH H). discriminate.
Qed.

Lemma interfaces_ok given ba tx :
  object_interfaces (map in_text given) (map in_text (lo_ifaces (init_base given ba tx))).
Proof.
  unfold init_base, object_interfaces. cbn [lo_ifaces].
  destruct (strv_last given) as [x|] eqn:E.
  - destruct (strv_last_some _ _ E) as (r & ->).
    destruct (same_text (in_text x) hidl_base_interface) eqn:T; cbn [negb].
    + apply same_text_eq in T. left. split; [|reflexivity].
      exists (map in_text r). rewrite map_app. cbn [map]. rewrite T. reflexivity.
    + right. split.
      * intros (r1 & H). rewrite map_app in H. cbn [map] in H. apply app_inj_tail in H.
        destruct H as [_ H]. apply same_text_eq in H. congruence.
      * rewrite map_app. reflexivity.
  - apply strv_last_none in E. subst given. right. split; [|reflexivity].
    intros (r & H). destruct r; discriminate.
Qed.

Lemma init_base_nonempty given ba tx : lo_ifaces (init_base given ba tx) <> [].
Proof.
  unfold init_base. cbn [lo_ifaces]. destruct (strv_last given) as [x|] eqn:E.
  - destruct (strv_last_some _ _ E) as (r & ->). destruct (negb _); destruct r; discriminate.
  - destruct given; discriminate.
Qed.

Lemma text_nonempty t : append_value [] (VString16 (Some t)) <> Ok [].
Proof.
  rewrite append_value_eq. cbn [Datatypes.app chunk]. intros E.
  assert (H : match utf8_prefix (utf8 t) with [] => empty16_chunk | x => units_chunk (utf16 x) end = []) by congruence.
  destruct (utf8_prefix (utf8 t)) as [|a l].
  - discriminate.
  - apply (f_equal blen) in H. rewrite units_chunk_len in H. change (blen []) with 0 in H.
    pose proof (blen_nonneg _ (utf16 (a :: l))).
    pose proof (align4_spec ((blen (utf16 (a :: l)) + 1) * 2)). lia.
Qed.

(* The queries are recognized *)
Lemma asked_looper o iface code q : asks code iface q -> can_handle o iface code = LOOPER.
Proof.
  destruct q; cbn [asks]; intros H; [subst code; reflexivity|subst code; reflexivity| | |];
    destruct H as [H1 H2]; subst code iface; unfold can_handle; cbn -[same_text hidl_base_interface utf8]; rewrite base_utf8;
    (replace (same_text hidl_base_interface hidl_base_interface) with true; [reflexivity|];
     symmetry; apply same_text_eq; reflexivity).
Qed.

(* ... and nothing else is *)
Lemma looper_asked o iface code : can_handle o iface code = LOOPER -> exists q, asks code iface q.
Proof.
  unfold can_handle. destruct (Z.eqb_spec code PING_TRANSACTION); [exists QPing; subst; reflexivity|].
  destruct (Z.eqb_spec code INTERFACE_TRANSACTION); [exists QInterface; subst; reflexivity|].
  cbn [orb].
  assert (Hb : forall s, same_text s (utf8 hidl_base_interface) = true -> s = hidl_base_interface).
  { intros s H. apply same_text_eq in H. rewrite base_utf8 in H. exact H. }
  destruct (Z.eqb_spec code HIDL_PING_TRANSACTION);
    [|destruct (Z.eqb_spec code HIDL_GET_DESCRIPTOR_TRANSACTION);
      [|destruct (Z.eqb_spec code HIDL_DESCRIPTOR_CHAIN_TRANSACTION)]]; cbn [orb].
  4: destruct (lo_txproc o); discriminate.
  all: destruct iface as [s|]; [|destruct (lo_txproc o); discriminate];
    destruct (same_text s (utf8 hidl_base_interface)) eqn:T; [|destruct (lo_txproc o); discriminate];
    apply Hb in T; subst s code; intros _.
  - exists QHidlPing. split; reflexivity.
  - exists QHidlDescriptor. split; reflexivity.
  - exists QHidlChain. split; reflexivity.
Qed.

Lemma looper_reply o iface code q n r :
  lo_ifaces o = n :: r -> asks code iface q ->
  handle_looper o code =
    (Some (match q with
           | QPing | QHidlPing => [OpPlain (VInt32 0)]
           | QInterface => [OpPlain (VString16 (Some (in_text n)))]
           | QHidlDescriptor => [OpPlain (VInt32 0); OpHidlString (iname_cstr n)]
           | QHidlChain => [OpPlain (VInt32 0); OpHidlStringVec (map iname_cstr (n :: r))]
           end), 0).
Proof.
  intros E H. unfold handle_looper. rewrite E. cbn [nth_error option_map].
  destruct q; cbn [asks] in H; [| |destruct H as [H _]..]; subst code; reflexivity.
Qed.

Lemma query_trip cm pr al e o iface code q :
  let i := k_io e in
  lo_ifaces o <> [] -> Forall (iname_ok i (k_mem e)) (lo_ifaces o) -> 16 * blen (lo_ifaces o) < 2 ^ 32 ->
  (forall j, is_addr i (al j)) -> asks code iface q ->
  exists ops, handle_looper o code = (Some ops, 0) /\
  exists d, w_ops i pr al wd_empty ops = Ok d /\
    (blen (wd_bytes d) < 2 ^ 31 ->
     Forall (fun b => holds (k_mem e) (fst b) (snd b)) (wd_heap d) ->
     0 < k_sgbase e -> k_sgbase e + align8 (wd_bufsize d) < 2 ^ (8 * psz i) ->
     exists g p, k_send e (wd_bytes d) (wd_offsets d) (wd_bufsize d) = Some g /\
       read_items cm i pr g (reader_init 0 (blen (m_data g)) (wd_offsets d)) (query_kinds q) =
       Ok (query_items q (map in_text (lo_ifaces o)), p) /\
       r_ptr p = blen (m_data g) /\ r_objects p = []).
Proof.
  intros i Hne Hn Hlen Hal Hq.
  destruct (lo_ifaces o) as [|n r] eqn:Ei; [congruence|].
  rewrite (looper_reply o iface code q n r Ei Hq). eexists. split; [reflexivity|].
  match goal with |- context [w_ops _ _ _ _ ?x] => set (l := x) end.
  assert (Hok : Forall (call_ok i pr (k_mem e)) l).
  { assert (Hz : call_ok i pr (k_mem e) (OpPlain (VInt32 0))).
    { split; [cbn [value_ok]; unfold in_range; lia|exact I]. }
    inversion Hn as [|x y (N1 & N2 & N3) N4]; subst.
    destruct q; unfold l; repeat (apply Forall_cons; [first [exact Hz|idtac]|]); try apply Forall_nil.
    - split; [split; assumption|exact I].
    - exact N3.
    - split; [|rewrite blen_map; exact Hlen]. rewrite Forall_map.
      refine (Forall_impl _ _ Hn). intros a (_ & _ & A). exact A. }
  assert (Hf : Forall (foreign e) l).
  { destruct q; unfold l; repeat (apply Forall_cons; [exact I|]); apply Forall_nil. }
  assert (Hst : starts_plain l).
  { destruct q; unfold l; eexists _, _; (split; [reflexivity|]);
      first [discriminate|apply text_nonempty]. }
  destruct (trip cm pr al e l Hal Hok Hf (plain_well _ Hst)) as (d & E & H). fold i in E, H.
  exists d. split; [exact E|]. intros H1 H2 H3 H4.
  destruct (H H1 H2 H3 H4) as (g & rs & p & S1 & R & G & P1 & P2 & _).
  exists g, p. split; [exact S1|]. split; [|auto].
  assert (Ek : map (rkind_of i) l = query_kinds q).
  { unfold l. destruct q; reflexivity. }
  rewrite Ek in R. rewrite R. f_equal. f_equal. unfold l in G. clear - G.
  destruct q; cbn [query_items map hd iname_cstr] in *;
  repeat match goal with
  | H : Forall2 _ (_ :: _) _ |- _ => inversion H; clear H; subst
  | H : Forall2 _ [] _ |- _ => inversion H; clear H; subst
  | H : got _ _ _ _ _ |- _ => cbn [got expected option_map map] in H; subst
  end; try reflexivity.
  - unfold iname_cstr in *. subst y0. reflexivity.
  - rewrite !map_map. reflexivity.
Qed.
