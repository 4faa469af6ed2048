(* Proofs about clients and service managers *)
From Verif Require Import Base BaseLemmas UtfModel WriterModel ReaderModel CodecSpec CodecProofs ObjModel ObjReader
  KernelModel ObjSpec HidlSpec HidlTrip RpcModel RpcSpec RpcProofs ClientModel ClientSpec.
From Coq Require Import Sorted.
From Coq Require Permutation.

(* ------------------------------------------------------------------ *)
(* Ranges *)

Lemma find_range_None rs code :
  find_range rs code = None <-> Forall (fun r => rg_last r < code) rs.
Proof.
  induction rs as [|r rs IH]; cbn [find_range].
  - split; [constructor|reflexivity].
  - destruct (Z.leb_spec code (rg_last r)).
    + split; [discriminate|]. intros H1. inversion H1; subst. lia.
    + rewrite IH. split; intros H1; [constructor; assumption|inversion H1; assumption].
Qed.

Lemma find_range_first rs code r :
  StronglySorted (fun a b => sort_ranges a b <= 0) rs -> find_range rs code = Some r ->
  In r rs /\ code <= rg_last r /\
  forall r2, In r2 rs -> code <= rg_last r2 -> rg_last r <= rg_last r2.
Proof.
  induction 1 as [|x rs Hs IH Hf]; cbn [find_range]; [discriminate|].
  destruct (Z.leb_spec code (rg_last x)).
  - intros E. injection E as <-. split; [left; reflexivity|]. split; [assumption|].
    intros r2 [<-|H2] _; [lia|]. rewrite Forall_forall in Hf. specialize (Hf r2 H2).
    unfold sort_ranges in Hf. destruct (Z.ltb_spec (rg_last x) (rg_last r2)); [lia|].
    destruct (Z.ltb_spec (rg_last r2) (rg_last x)); lia.
  - intros E. destruct (IH E) as (H1 & H2 & H3). split; [right; assumption|].
    split; [assumption|]. intros r2 [<-|Hr]; [lia|]. apply H3; assumption.
Qed.

(* A range which was made for this interface *)
Definition made (pr : protocol) (x : iface_info) (r : range) : Prop :=
  rg_iface r = if_iface x /\ rg_last r = if_last x /\
  exists hdr, new_iface pr (if_iface x) = Ok hdr /\ rg_header r = Some hdr /\ rg_basic r = hdr.

Lemma init_ranges_made pr infos : forall rs,
  init_ranges pr infos = Ok rs -> Forall2 (made pr) infos rs.
Proof.
  induction infos as [|x infos IH]; cbn [init_ranges]; intros rs E.
  - injection E as <-. constructor.
  - unfold init_range in E. destruct (new_iface pr (if_iface x)) as [hdr|f] eqn:Eh; cbn [bind] in E; [|discriminate].
    destruct (init_ranges pr infos) as [rs1|f]; cbn [bind] in E; [|discriminate].
    injection E as <-. constructor; [|apply IH; reflexivity].
    repeat split. exists hdr. auto.
Qed.

Lemma init_ranges_ok pr infos :
  Forall (fun x => exists hdr, new_iface pr (if_iface x) = Ok hdr) infos ->
  exists rs, init_ranges pr infos = Ok rs.
Proof.
  induction 1 as [|x infos (hdr & E) _ (rs & IH)]; cbn [init_ranges]; [eauto|].
  unfold init_range. rewrite E. cbn [bind]. rewrite IH. cbn [bind]. eauto.
Qed.

Lemma forall2_in_r {A B} (P : A -> B -> Prop) l1 l2 y :
  Forall2 P l1 l2 -> In y l2 -> exists x, In x l1 /\ P x y.
Proof.
  induction 1 as [|a b l1 l2 H _ IH]; [contradiction|]. intros [<-|Hy].
  - exists a. split; [left; reflexivity|assumption].
  - destruct (IH Hy) as (x & H1 & H2). exists x. split; [right; assumption|assumption].
Qed.

Lemma forall2_in_l {A B} (P : A -> B -> Prop) l1 l2 x :
  Forall2 P l1 l2 -> In x l1 -> exists y, In y l2 /\ P x y.
Proof.
  induction 1 as [|a b l1 l2 H _ IH]; [contradiction|]. intros [<-|Hy].
  - exists b. split; [left; reflexivity|assumption].
  - destruct (IH Hy) as (y & H1 & H2). exists y. split; [right; assumption|assumption].
Qed.

Lemma ranges_match qs pr infos rs code :
  qsort_contract sort_ranges qs -> infos <> [] -> client_new2 qs pr infos = Ok rs ->
  match find_range rs code with
  | Some r => exists x, best_match infos code x /\ made pr x r
  | None => Forall (fun x => if_last x < code) infos
  end.
Proof.
  intros Hq Hne E. destruct infos as [|x0 infos0]; [congruence|]. cbn [client_new2] in E.
  set (infos := x0 :: infos0) in *. destruct (init_ranges pr infos) as [rs0|] eqn:E0; cbn [bind] in E; [|discriminate].
  injection E as <-. apply init_ranges_made in E0.
  destruct (Hq rs0) as [Hp Hs].
  destruct (find_range (qs rs0) code) as [r|] eqn:Ef.
  - destruct (find_range_first _ _ _ Hs Ef) as (H1 & H2 & H3).
    apply (Permutation.Permutation_in _ (Permutation.Permutation_sym Hp)) in H1.
    destruct (forall2_in_r _ _ _ _ E0 H1) as (x & Hx & Hm). exists x. split; [|assumption].
    destruct Hm as (_ & M2 & _). split; [assumption|]. split; [lia|].
    intros y Hy Hc. destruct (forall2_in_l _ _ _ _ E0 Hy) as (r2 & Hr2 & _ & N2 & _).
    rewrite <- M2, <- N2. apply H3; [|lia]. apply (Permutation.Permutation_in _ Hp); assumption.
  - apply find_range_None in Ef. rewrite Forall_forall in *. intros y Hy.
    destruct (forall2_in_l _ _ _ _ E0 Hy) as (r2 & Hr2 & _ & N2 & _).
    rewrite <- N2. apply Ef. apply (Permutation.Permutation_in _ Hp); assumption.
Qed.

(* ------------------------------------------------------------------ *)
(* Lists *)

Lemma aidl_list_done m k c peer names :
  cl_dead c = false -> cl_ranges c <> [] -> names_services m peer names ->
  forall fuel got rest, names = got ++ rest -> (length rest < fuel)%nat ->
  exists txs, aidl_list m k c peer fuel got = Ok (Some (names, txs)) /\
    exists q, new_request c = Some q /\
    txs = map (fun n => (LIST_SERVICES_TRANSACTION,
                         {| rq_header := rq_header q; rq_ops := list_args k (Z.of_nat n) |}))
              (seq (length got) (S (length rest))).
Proof.
  intros Hd Hr [Hn He]. induction fuel as [|fuel IH]; intros got rest E Hf; [lia|].
  cbn [aidl_list].
  assert (Hq : exists q, new_request c = Some q /\ rq_ops q = []).
  { unfold new_request. destruct (cl_ranges c) as [|r rr]; [congruence|]. eexists. split; reflexivity. }
  destruct Hq as (q & Eq & Eo).
  unfold sync_reply2. rewrite Hd, Eq. cbn [append_ops pick_request]. rewrite Eo. cbn [app].
  destruct rest as [|s rest].
  - rewrite app_nil_r in E. subst got.
    destruct (ipc_sync_reply (peer (length names))) as [r st] eqn:Ei.
    destruct He as [He|(r1 & He & Ht)].
    + unfold no_reply in He. rewrite Ei in He. cbn [fst] in He. subst r.
      eexists. split; [reflexivity|]. exists q. split; [reflexivity|]. reflexivity.
    + rewrite Ei in He. cbn [fst] in He. subst r. rewrite Ht. cbn [bind].
      eexists. split; [reflexivity|]. exists q. split; [reflexivity|]. reflexivity.
  - assert (H1 : nth_error names (length got) = Some s).
    { rewrite E, nth_error_app2 by lia. rewrite Nat.sub_diag. reflexivity. }
    destruct (Hn _ _ H1) as (r1 & He1 & Ht).
    destruct (ipc_sync_reply (peer (length got))) as [r st] eqn:Ei.
    cbn [fst] in He1. subst r. rewrite Ht. cbn [bind].
    destruct (IH (got ++ [s]) rest) as (txs & E2 & q2 & Eq2 & T2).
    { rewrite <- app_assoc. exact E. } { cbn [length] in Hf. lia. }
    rewrite E2. cbn [bind]. eexists. split; [reflexivity|]. exists q. split; [reflexivity|].
    rewrite Eq in Eq2. injection Eq2 as <-. rewrite T2. rewrite app_length. cbn [length].
    rewrite Nat.add_1_r. reflexivity.
Qed.

Lemma aidl_list_endless m k c peer :
  cl_dead c = false -> cl_ranges c <> [] ->
  (forall n, exists s, text_reply m (peer n) (Some s)) ->
  forall fuel got, aidl_list m k c peer fuel got = Ok None.
Proof.
  intros Hd Hr Hp. induction fuel as [|fuel IH]; intros got; [reflexivity|]. cbn [aidl_list].
  assert (Hq : exists q, new_request c = Some q).
  { unfold new_request. destruct (cl_ranges c) as [|r rr]; [congruence|]. eauto. }
  destruct Hq as (q & Eq). unfold sync_reply2. rewrite Hd, Eq. cbn [append_ops pick_request].
  destruct (Hp (length got)) as (s & r1 & He & Ht).
  destruct (ipc_sync_reply (peer (length got))) as [r st]. cbn [fst] in He. subst r.
  rewrite Ht. cbn [bind]. rewrite IH. reflexivity.
Qed.

(* ------------------------------------------------------------------ *)
(* Lists in one reply *)

Lemma int32_read m mem p v p1 :
  read_kind m mem p KInt32 = Ok (RNum v, p1) -> rd_int32 mem p = Ok (Some v, p1).
Proof.
  cbn [read_kind]. unfold wrap. destruct (rd_int32 mem p) as [[[w|] q]|f]; intros E; try discriminate.
  injection E as -> ->. reflexivity.
Qed.

Lemma int32_read_any m mem p r p1 :
  read_kind m mem p KInt32 = Ok (r, p1) -> exists v, rd_int32 mem p = Ok (v, p1).
Proof.
  cbn [read_kind]. unfold wrap. destruct (rd_int32 mem p) as [[[w|] q]|f]; intros E; try discriminate; assert (Hq : q = p1) by congruence; rewrite Hq; eauto.
Qed.

Lemma string16_read m mem p t p1 :
  read_kind m mem p KString16 = Ok (RText t, p1) -> rd_string16 m mem p = Ok (t, p1).
Proof.
  cbn [read_kind]. unfold wrap, rd_string16.
  destruct (rd_nullable_string16 m mem p) as [[[w|] q]|f]; intros E; try discriminate.
  injection E as -> ->. reflexivity.
Qed.

Lemma kinds_cons m mem p k ks r rs p2 :
  read_kinds m mem p (k :: ks) = Ok (r :: rs, p2) ->
  exists p1, read_kind m mem p k = Ok (r, p1) /\ read_kinds m mem p1 ks = Ok (rs, p2).
Proof.
  cbn [read_kinds]. destruct (read_kind m mem p k) as [[x p1]|f]; cbn [bind]; [|discriminate].
  destruct (read_kinds m mem p1 ks) as [[xs q]|f] eqn:E2; cbn [bind]; [|discriminate].
  intros E. injection E as -> -> ->. eauto.
Qed.

Lemma read_names_ok m mem names : forall p p2,
  read_kinds m mem p (map (fun _ => KString16) names) =
    Ok (map (fun s => RText (Some (utf8 s))) names, p2) ->
  read_names m mem p (length names) = Ok (map (fun s => Some (utf8 s)) names).
Proof.
  induction names as [|s names IH]; intros p p2 E; cbn [map length read_names] in *; [reflexivity|].
  apply kinds_cons in E. destruct E as (p1 & E1 & E2). rewrite (string16_read _ _ _ _ _ E1).
  cbn [bind]. rewrite (IH _ _ E2). reflexivity.
Qed.

Lemma visible_map names : visible (map (fun s => Some (utf8 s)) names) = map utf8 names.
Proof. induction names as [|s names IH]; cbn [map visible]; [reflexivity|]. rewrite IH; reflexivity. Qed.

Lemma chunk_string16_pos s : 1 <= blen (chunk (VString16 (Some s))).
Proof.
  cbn [chunk]. destruct (utf8_prefix (utf8 s)) as [|c t].
  - unfold empty16_chunk. vm_compute. discriminate.
  - unfold units_chunk. rewrite blen_app, blen_le.
    match goal with |- context [blen ?x] => pose proof (blen_nonneg _ x) end. lia.
Qed.

Lemma aidl3_list_ok m st names :
  in_range (- 2 ^ 31) (2 ^ 31) st -> Forall (fun s => Forall is_scalar s /\ ~ In 0 s) names ->
  exists b, append_values [] (VInt32 st :: VInt32 (blen names) ::
                              map (fun s => VString16 (Some s)) names) = Ok b /\
    (blen b < 2 ^ 31 ->
     exists l, aidl3_list_reply m (fst (ipc_sync_reply (data_answer b))) = Ok l /\
       visible l = map utf8 names /\ length l = length names).
Proof.
  intros Hst Hn.
  set (vs := VInt32 st :: VInt32 (blen names) :: map (fun s => VString16 (Some s)) names).
  destruct (append_values [] vs) as [b|f] eqn:Eb; [|rewrite append_values_eq in Eb; discriminate].
  exists b. split; [reflexivity|]. intros Hb.
  assert (Hlen : 0 <= blen names < 2 ^ 31).
  { split; [apply blen_nonneg|]. rewrite append_values_eq in Eb.
    assert (E : b = [] ++ flat_map chunk vs) by congruence. rewrite E in Hb.
    unfold vs in Hb. cbn [app flat_map] in Hb. rewrite !blen_app in Hb.
    assert (Hc : blen names <= blen (flat_map chunk (map (fun s => VString16 (Some s)) names))).
    { clear. induction names as [|s names IH]; cbn [map flat_map]; [reflexivity|].
      rewrite blen_cons, blen_app. pose proof (chunk_string16_pos s). lia. }
    pose proof (blen_nonneg _ (chunk (VInt32 st))).
    pose proof (blen_nonneg _ (chunk (VInt32 (blen names)))). lia. }
  assert (Hv : Forall value_ok vs).
  { unfold vs. constructor; [exact Hst|]. constructor.
    - cbn [value_ok]. unfold in_range. lia.
    - apply Forall_map. exact Hn. }
  destruct (parcel_roundtrip_lemma m vs [] Hv) as (b1 & Eb1 & Hr).
  rewrite Eb in Eb1. assert (b1 = b) by congruence. subst b1. specialize (Hr Hb).
  unfold vs in Hr. cbn [map kind_of expected] in Hr.
  apply kinds_cons in Hr. destruct Hr as (p1 & R1 & Hr).
  apply kinds_cons in Hr. destruct Hr as (p2 & R2 & Hr).
  rewrite !map_map in Hr. cbn [kind_of expected option_map] in Hr.
  exists (map (fun s => Some (utf8 s)) names).
  split; [|split; [apply visible_map|apply map_length]].
  unfold data_answer, ipc_sync_reply. cbn [an_status an_reply fst Z.eqb orb aidl3_list_reply m_data].
  rewrite (int32_read _ _ _ _ _ R1). cbn [bind]. rewrite (int32_read _ _ _ _ _ R2). cbn [bind].
  unfold blen at 1. rewrite Nat2Z.id. exact (read_names_ok _ _ _ _ _ Hr).
Qed.

(* A reply of eight bytes makes an array of any size *)
Lemma names_at_end m mem p n :
  r_ptr p = r_end p -> read_names m mem p n = Ok (repeat None n).
Proof.
  intros E. induction n as [|n IH]; cbn [read_names repeat]; [reflexivity|].
  assert (H : rd_string16 m mem p = Ok (None, p)).
  { unfold rd_string16, rd_nullable_string16, rd_map, rd_nullable_utf16.
    destruct (Z.leb_spec (r_ptr p + 4) (r_end p)); [lia|reflexivity]. }
  rewrite H. cbn [bind]. rewrite IH. reflexivity.
Qed.

Lemma aidl3_list_any m n :
  0 <= n < 2 ^ 31 ->
  aidl3_list_reply m (fst (ipc_sync_reply (data_answer (le 4 0 ++ le 4 n)))) =
    Ok (repeat None (Z.to_nat n)).
Proof.
  intros Hn. unfold data_answer, ipc_sync_reply.
  cbn [an_status an_reply fst Z.eqb orb aidl3_list_reply m_data].
  set (mem := le 4 0 ++ le 4 n).
  assert (Hv : Forall value_ok [VInt32 0; VInt32 n]).
  { repeat constructor; cbn [value_ok]; unfold in_range; lia. }
  destruct (parcel_roundtrip_lemma m _ [] Hv) as (b & Eb & Hr).
  rewrite append_values_eq in Eb.
  assert (E : b = mem) by (assert (E : b = [] ++ flat_map chunk [VInt32 0; VInt32 n]) by congruence; exact E).
  subst b. assert (Hl : blen mem = 8) by (unfold mem; rewrite blen_app, !blen_le; reflexivity).
  specialize (Hr ltac:(rewrite Hl; reflexivity)). cbn [map kind_of expected] in Hr.
  apply kinds_cons in Hr. destruct Hr as (p1 & R1 & Hr).
  apply kinds_cons in Hr. destruct Hr as (p2 & R2 & Hr).
  rewrite (int32_read _ _ _ _ _ R1). cbn [bind]. rewrite (int32_read _ _ _ _ _ R2). cbn [bind].
  cbn [read_kinds] in Hr. assert (E : p2 = {| r_start := 0; r_end := blen mem; r_ptr := blen mem; r_objects := [] |}) by congruence.
  apply names_at_end. rewrite E. reflexivity.
Qed.

(* ------------------------------------------------------------------ *)
(* Registrations *)

Lemma add_service_sends k c n obj a q :
  cl_dead c = false -> new_request c = Some q ->
  sm_add_service k c n obj a =
  (Some (an_status a),
   Some (add_service_code k,
         {| rq_header := rq_header q; rq_ops := rq_ops q ++ add_service_args k n obj |})).
Proof.
  intros Hd Hq. unfold sm_add_service, sync_reply2. rewrite Hd, Hq. reflexivity.
Qed.

Lemma new_request_empty c q : new_request c = Some q -> rq_ops q = [].
Proof.
  unfold new_request. destruct (cl_ranges c) as [|r rs]; [discriminate|]. intros E.
  injection E as <-. reflexivity.
Qed.

Lemma items_cons cm i pr g p k ks r rs p2 :
  read_items cm i pr g p (k :: ks) = Ok (r :: rs, p2) ->
  exists p1, read_item cm i pr g p k = Ok (r, p1) /\ read_items cm i pr g p1 ks = Ok (rs, p2).
Proof.
  cbn [read_items]. destruct (read_item cm i pr g p k) as [[x p1]|f]; cbn [bind]; [|discriminate].
  destruct (read_items cm i pr g p1 ks) as [[xs q]|f] eqn:E2; cbn [bind]; [|discriminate].
  intros E. injection E as -> -> ->. eauto.
Qed.

Lemma items_cons2 cm i pr g p k ks l p2 :
  read_items cm i pr g p (k :: ks) = Ok (l, p2) ->
  exists x xs p1, read_item cm i pr g p k = Ok (x, p1) /\ read_items cm i pr g p1 ks = Ok (xs, p2) /\ l = x :: xs.
Proof.
  cbn [read_items]. destruct (read_item cm i pr g p k) as [[x p1]|f]; cbn [bind]; [|discriminate].
  destruct (read_items cm i pr g p1 ks) as [[xs q]|f] eqn:E2; cbn [bind]; [|discriminate].
  intros E. exists x, xs, p1. rewrite E2. split; [reflexivity|]. split; congruence.
Qed.

Lemma registration_trip cm pr al e k c n obj q :
  let i := k_io e in
  k <> SmAidl4 -> name_kind_ok k n -> cl_dead c = false -> new_request c = Some q ->
  all_bytes (rq_header q) -> rq_header q <> [] -> blen (rq_header q) mod 4 = 0 ->
  (forall j, is_addr i (al j)) -> call_ok i pr (k_mem e) (name_op n) ->
  call_ok i pr (k_mem e) (OpLocal (Some obj)) ->
  forall a, exists q1, snd (sm_add_service k c n (Some obj) a) = Some (add_service_code k, q1) /\
  exists d, w_ops i pr al wd_empty (request_ops q1) = Ok d /\
    (blen (wd_bytes d) < 2 ^ 31 ->
     Forall (fun b => holds (k_mem e) (fst b) (snd b)) (wd_heap d) ->
     0 < k_sgbase e -> k_sgbase e + align8 (wd_bufsize d) < 2 ^ (8 * psz i) ->
     exists g p, k_send e (wd_bytes d) (wd_offsets d) (wd_bufsize d) = Some g /\
       read_items cm i pr g (reader_init 0 (blen (m_data g)) (wd_offsets d))
         (RKPlain (KRaw (length (rq_header q))) :: registration_kinds k n) =
       Ok (IPlain (RBytes (rq_header q)) ::
           registration_items k n (u32 (k_node e (lo_ptr obj))), p) /\
       r_ptr p = blen (m_data g) /\ r_objects p = []).
Proof.
  intros i Hk Hn Hd Hq Hb Hne Hm4 Hal Hc1 Hc2 a.
  rewrite (add_service_sends k c n (Some obj) a q Hd Hq). cbn [snd].
  rewrite (new_request_empty c q Hq). cbn [Datatypes.app].
  eexists. split; [reflexivity|]. unfold request_ops. cbn [rq_header rq_ops].
  set (l := OpPlain (VRaw (rq_header q)) :: add_service_args k n (Some obj)).
  assert (Hok : Forall (call_ok i pr (k_mem e)) l).
  { unfold l. constructor; [exact (conj Hb Hm4)|].
    destruct k; cbn [add_service_args]; repeat (apply Forall_cons; [first [exact Hc1|exact Hc2|split; [cbn [value_ok]; unfold in_range, DUMP_FLAG_PRIORITY_DEFAULT, AIDL4_STABILITY, fourcc; lia|exact I]]|]); apply Forall_nil. }
  assert (Hf : Forall (foreign e) l).
  { unfold l. constructor; [exact I|].
    destruct k; cbn [add_service_args]; repeat (apply Forall_cons; [first [exact I|destruct n; exact I]|]); apply Forall_nil. }
  assert (Hst : starts_plain l).
  { unfold l, starts_plain. eexists _, _. split; [reflexivity|]. rewrite append_value_eq. cbn [Datatypes.app chunk]. intros E; congruence. }
  destruct (trip cm pr al e l Hal Hok Hf (plain_well _ Hst)) as (d & E & H). fold i in E, H.
  exists d. split; [exact E|]. intros H1 H2 H3 H4.
  destruct (H H1 H2 H3 H4) as (g & rs & p & S & R & G & P1 & P2 & _).
  exists g, p. split; [exact S|]. split; [|auto].
  assert (Ek : map (rkind_of i) l = RKPlain (KRaw (length (rq_header q))) :: registration_kinds k n).
  { unfold l. destruct k, n; try contradiction; try congruence; reflexivity. }
  rewrite Ek in R. rewrite R. f_equal. f_equal. unfold l in G. clear - G Hn Hk.
  inversion G as [|x y l1 l2 G1 G2]; subst. cbn [got expected] in G1. subst y. f_equal.
  destruct k, n; try contradiction; try congruence;
  cbn [add_service_args name_op registration_items] in *;
  repeat match goal with
  | H : Forall2 _ (_ :: _) _ |- _ => inversion H; clear H; subst
  | H : Forall2 _ [] _ |- _ => inversion H; clear H; subst
  | H : got _ _ _ _ _ |- _ => cbn [got expected option_map] in H; subst
  end; reflexivity.
Qed.

(* Lists of hidl services *)
Lemma hidl_list_ok pr al e c l :
  let i := k_io e in
  cl_dead c = false -> cl_ranges c <> [] ->
  (forall j, is_addr i (al j)) -> call_ok i pr (k_mem e) (OpHidlStringVec l) ->
  exists d, w_ops i pr al wd_empty [OpPlain (VInt32 0); OpHidlStringVec l] = Ok d /\
    (blen (wd_bytes d) < 2 ^ 31 ->
     Forall (fun b => holds (k_mem e) (fst b) (snd b)) (wd_heap d) ->
     0 < k_sgbase e -> k_sgbase e + align8 (wd_bufsize d) < 2 ^ (8 * psz i) ->
     exists g, k_send e (wd_bytes d) (wd_offsets d) (wd_bufsize d) = Some g /\
       forall st, exists tx,
       hidl_list i c {| an_status := st; an_reply := Some (g, wd_offsets d) |} =
         Ok (Some (map cstr_text l), Some tx)).
Proof.
  intros i Hd Hr Hal Hc.
  assert (Hok : Forall (call_ok i pr (k_mem e)) [OpPlain (VInt32 0); OpHidlStringVec l]).
  { constructor; [split; [cbn [value_ok]; unfold in_range; lia|exact I]|]. constructor; [exact Hc|constructor]. }
  assert (Hf : Forall (foreign e) [OpPlain (VInt32 0); OpHidlStringVec l]).
  { repeat constructor. }
  assert (Hst : starts_plain [OpPlain (VInt32 0); OpHidlStringVec l]).
  { eexists _, _. split; [reflexivity|]. discriminate. }
  destruct (trip Strict pr al e _ Hal Hok Hf (plain_well _ Hst)) as (d & E & H). fold i in E, H.
  exists d. split; [exact E|]. intros H1 H2 H3 H4.
  destruct (H H1 H2 H3 H4) as (g & rs & p & S & R & G & _ & _ & _).
  exists g. split; [exact S|]. intros st.
  inversion G as [|x y l1 l2 G1 G2]; subst. inversion G2 as [|x2 y2 l3 l4 G3 G4]; subst.
  inversion G4; subst. cbn [got expected] in G1, G3. subst y y2.
  cbn [map rkind_of kind_of] in R.
  apply items_cons in R. destruct R as (p1 & R1 & R).
  apply items_cons in R. destruct R as (p2 & R2 & R).
  cbn [read_item] in R1, R2.
  destruct (read_kind Strict (m_data g) (reader_init 0 (blen (m_data g)) (wd_offsets d)) KInt32) as [[r q]|f] eqn:Er;
    cbn [bind] in R1; [|discriminate].
  assert (Hrq : r = RNum 0 /\ q = p1) by (split; congruence). destruct Hrq as [-> ->].
  assert (Hq : exists rq, new_request c = Some rq).
  { unfold new_request. destruct (cl_ranges c) as [|r1 rr]; [congruence|]. eauto. }
  destruct Hq as (rq & Eq).
  unfold hidl_list, sync_reply2. rewrite Hd, Eq. cbn [pick_request ipc_sync_reply an_status an_reply].
  rewrite Bool.orb_true_r.
  rewrite (int32_read _ _ _ _ _ Er). cbn [bind]. unfold wrapi in R2.
  destruct (rd_hidl_string_vec i g p1) as [[[t|] q]|f]; try discriminate.
  assert (t = map cstr_text l) by congruence. subst t. cbn [bind]. eauto.
Qed.

(* ------------------------------------------------------------------ *)
(* There is a sorting function *)
Fixpoint put (r : range) (l : list range) : list range :=
  match l with
  | [] => [r]
  | x :: rest => if rg_last r <=? rg_last x then r :: l else x :: put r rest
  end.
Definition put_all (l : list range) : list range := fold_right put [] l.

Lemma put_perm r l : Permutation.Permutation (r :: l) (put r l).
Proof.
  induction l as [|x l IH]; cbn [put]; [apply Permutation.Permutation_refl|].
  destruct (rg_last r <=? rg_last x); [apply Permutation.Permutation_refl|].
  eapply Permutation.perm_trans; [apply Permutation.perm_swap|]. apply Permutation.perm_skip. exact IH.
Qed.

Lemma sort_ranges_le a b : sort_ranges a b <= 0 <-> rg_last a <= rg_last b.
Proof.
  unfold sort_ranges. destruct (Z.ltb_spec (rg_last a) (rg_last b)); [split; lia|].
  destruct (Z.ltb_spec (rg_last b) (rg_last a)); split; lia.
Qed.

Lemma put_sorted r l :
  StronglySorted (fun a b => sort_ranges a b <= 0) l ->
  StronglySorted (fun a b => sort_ranges a b <= 0) (put r l).
Proof.
  induction 1 as [|x l Hs IH Hf]; cbn [put]; [repeat constructor|].
  destruct (Z.leb_spec (rg_last r) (rg_last x)).
  - constructor; [constructor; assumption|]. constructor; [apply sort_ranges_le; assumption|].
    rewrite Forall_forall in *. intros y Hy. specialize (Hf y Hy). rewrite sort_ranges_le in *. lia.
  - constructor; [exact IH|]. rewrite Forall_forall in *. intros y Hy.
    apply (Permutation.Permutation_in _ (Permutation.Permutation_sym (put_perm r l))) in Hy.
    destruct Hy as [<-|Hy]; [apply sort_ranges_le; lia|auto].
Qed.

Lemma put_all_sorts : qsort_contract sort_ranges put_all.
Proof.
  intros l. induction l as [|r l [IH1 IH2]]; cbn [put_all fold_right]; [split; constructor|].
  split.
  - eapply Permutation.perm_trans; [apply Permutation.perm_skip, IH1|]. apply put_perm.
  - apply put_sorted. exact IH2.
Qed.
