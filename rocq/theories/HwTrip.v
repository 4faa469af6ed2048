(* The notification of a HIDL manager is understood *)
From Verif Require Import Base BaseLemmas WriterModel ReaderModel CodecSpec CodecProofs ObjModel ObjReader
  KernelModel ObjSpec HidlSpec HidlTrip SafeSpec SafeProofs ClientProofs HwModel.

Lemma bool_read m mem p v p1 :
  read_kind m mem p KBool = Base.Ok (RBool v, p1) -> rd_bool mem p = Base.Ok (Some v, p1).
Proof.
  cbn [read_kind]. unfold wrap. destruct (rd_bool mem p) as [[[w|] q]|f]; intros E; try discriminate.
  injection E as -> ->. reflexivity.
Qed.
Lemma string_read cm i pr g p t p1 :
  read_item cm i pr g p RKString = Base.Ok (IString t, p1) -> rd_hidl_string i g p = Base.Ok (Some t, p1).
Proof.
  cbn [read_item]. unfold wrapi. destruct (rd_hidl_string i g p) as [[[w|] q]|f]; intros E; try discriminate.
  injection E as -> ->. reflexivity.
Qed.

(* the end of the data stays where it is *)
Definition keeps {A} (p : reader) (r : rd A) : Prop :=
  match r with Base.Ok (_, p1) => r_end p1 = r_end p | Base.Fault _ => True end.
Lemma keeps_buffer i g p : keeps p (rd_buffer_object i g p).
Proof.
  unfold rd_buffer_object. destruct (can_read_object p); [|reflexivity].
  destruct (decode_buffer_object i g (r_ptr p)) as [[[b|] n]|f]; cbn; auto.
Qed.
Lemma keeps_string i g p : keeps p (rd_hidl_string i g p).
Proof.
  unfold rd_hidl_string. pose proof (keeps_buffer i g p) as K.
  destruct (rd_buffer_object i g p) as [[[b|] p1]|f]; cbn [Base.bind]; try exact K.
  destruct (_ && _); [|exact K]. pose proof (keeps_buffer i g p1) as K1.
  destruct (rd_buffer_object i g p1) as [[[b2|] p2]|f]; cbn [Base.bind]; cbn [keeps fail] in *; try congruence; auto.
  destruct (check_string _ _ _ _ _) as [t|f]; cbn in *; auto. congruence.
Qed.
Lemma keeps_bool mem p : keeps p (rd_bool mem p).
Proof.
  unfold rd_bool, rd_map, rd_uint32. destruct (can_read p 4); cbn; auto.
  destruct (load mem (r_ptr p) 4); cbn; auto.
Qed.
Lemma keeps_raw mem p n : keeps p (rd_raw mem p n).
Proof.
  revert p. induction n as [|n IH]; intros p; cbn [rd_raw]; [reflexivity|].
  assert (K : keeps p (rd_byte mem p)).
  { unfold rd_byte. destruct (_ <? _); cbn; auto. destruct (load mem (r_ptr p) 1); cbn; auto. }
  destruct (rd_byte mem p) as [[[b|] q]|f]; try exact K.
  pose proof (IH q) as K1. destruct (rd_raw mem q n) as [[[l|] q1]|f]; cbn in *; auto; congruence.
Qed.
Lemma keeps_read cm i pr g p k x p1 : (k = RKString \/ k = RKPlain KBool \/ exists n, k = RKPlain (KRaw n)) ->
  read_item cm i pr g p k = Base.Ok (x, p1) -> r_end p1 = r_end p.
Proof.
  intros [->|[->|(n & ->)]]; cbn [read_item read_kind]; unfold wrapi, wrap.
  - pose proof (keeps_string i g p) as K. destruct (rd_hidl_string i g p) as [[[t|] q]|f]; cbn in *; intros E; congruence.
  - pose proof (keeps_bool (m_data g) p) as K. destruct (rd_bool (m_data g) p) as [[[t|] q]|f]; cbn in *; intros E; congruence.
  - pose proof (keeps_raw (m_data g) p n) as K. destruct (rd_raw (m_data g) p n) as [[[t|] q]|f]; cbn in *; intros E; congruence.
Qed.

Lemma registration_understood cm pr al e header a fq b nm pre :
  let i := k_io e in
  let message := [OpPlain (VRaw header); OpHidlString (Some (a, fq)); OpHidlString (Some (b, nm)); OpPlain (VBool pre)] in
  all_bytes header -> header <> [] -> blen header mod 4 = 0 ->
  (forall j, is_addr i (al j)) ->
  string_ok i (k_mem e) (Some (a, fq)) -> string_ok i (k_mem e) (Some (b, nm)) ->
  exists d, w_ops i pr al wd_empty message = Base.Ok d /\
    (blen (wd_bytes d) < 2 ^ 31 ->
     Forall (fun x => holds (k_mem e) (fst x) (snd x)) (wd_heap d) ->
     0 < k_sgbase e -> k_sgbase e + align8 (wd_bufsize d) < 2 ^ (8 * psz i) ->
     exists g p, k_send e (wd_bytes d) (wd_offsets d) (wd_bufsize d) = Some g /\
       read_item cm i pr g (reader_init 0 (blen (m_data g)) (wd_offsets d)) (RKPlain (KRaw (length header))) =
         Base.Ok (IPlain (RBytes header), p) /\
       handle_registration i g p = Base.Ok (Some (fq ++ [47] ++ nm))).
Proof.
  intros i message Hb Hne Hm Hal Ha Hn.
  assert (Hok : Forall (call_ok i pr (k_mem e)) message).
  { unfold message. constructor; [exact (conj Hb Hm)|]. constructor; [exact Ha|]. constructor; [exact Hn|].
    constructor; [split; exact I|constructor]. }
  assert (Hf : Forall (foreign e) message) by (unfold message; repeat constructor).
  assert (Hst : starts_plain message).
  { unfold message, starts_plain. eexists _, _. split; [reflexivity|]. rewrite append_value_eq. cbn [Datatypes.app chunk]. intros E; congruence. }
  destruct (trip cm pr al e _ Hal Hok Hf (plain_well _ Hst)) as (d & E & H). fold i in E, H.
  exists d. split; [exact E|]. intros H1 H2 H3 H4.
  destruct (H H1 H2 H3 H4) as (g & rs & p & K & R & G & End & _ & _).
  inversion G as [|x y l1 l2 G1 G']; subst. inversion G' as [|x2 y2 l3 l4 G2 G'']; subst.
  inversion G'' as [|x3 y3 l5 l6 G3 G''']; subst. inversion G''' as [|x4 y4 l7 l8 G4 G5]; subst.
  inversion G5; subst. cbn [got expected] in G1, G2, G3, G4. subst y y2 y3 y4.
  unfold message in R. cbn [map rkind_of kind_of] in R.
  apply items_cons in R. destruct R as (p1 & R1 & R).
  apply items_cons in R. destruct R as (p2 & R2 & R).
  apply items_cons in R. destruct R as (p3 & R3 & R).
  apply items_cons in R. destruct R as (p4 & R4 & R).
  exists g, p1. split; [exact K|]. split; [exact R1|].
  unfold handle_registration. rewrite (string_read _ _ _ _ _ _ _ R2). cbn [Base.bind].
  rewrite (string_read _ _ _ _ _ _ _ R3). cbn [Base.bind].
  cbn [read_item] in R4. destruct (read_kind cm (m_data g) p3 KBool) as [[r q]|f] eqn:Er; cbn [Base.bind] in R4; [|discriminate].
  assert (Hrq : r = RBool pre /\ q = p4) by (split; congruence). destruct Hrq as [-> ->].
  rewrite (bool_read _ _ _ _ _ Er). cbn [Base.bind].
  cbn [read_items] in R. injection R as <-.
  assert (X : r_end p4 = blen (m_data g)).
  { assert (R4' : read_item cm i pr g p3 (RKPlain KBool) = Base.Ok (IPlain (RBool pre), p4)) by (cbn [read_item]; rewrite Er; reflexivity).
    rewrite (keeps_read _ _ _ _ _ _ _ _ (or_intror (or_introl eq_refl)) R4').
    rewrite (keeps_read _ _ _ _ _ _ _ _ (or_introl eq_refl) R3).
    rewrite (keeps_read _ _ _ _ _ _ _ _ (or_introl eq_refl) R2).
    rewrite (keeps_read _ _ _ _ _ _ _ _ (or_intror (or_intror (ex_intro _ _ eq_refl))) R1). reflexivity. }
  unfold r_at_end. rewrite X, End, Z.leb_refl. reflexivity.
Qed.

(* Whatever the peer sends, apart from strings of 2^32 - 1 bytes *)
Lemma registration_any_data cm pr e data offs bufsize g n x p :
  0 < k_sgbase e -> k_sgbase e + align8 bufsize < 2 ^ (8 * psz (k_io e)) -> 0 <= bufsize ->
  byte_memory (k_mem e) -> Forall (fun o => 0 <= o) offs -> all_bytes data -> blen data < 2 ^ 31 ->
  k_send e data offs bufsize = Some g -> no_huge_string g ->
  read_item cm (k_io e) pr g (reader_init 0 (blen data) offs) (RKPlain (KRaw n)) = Base.Ok (x, p) ->
  exists t, handle_registration (k_io e) g p = Base.Ok t.
Proof.
  intros H1 H2 H3 H4 H5 H6 H7 H8 H9 R.
  destruct (send_delivered e data offs bufsize g H1 H2 H3 H4 H5 H6 H8) as [D L].
  assert (Hs : blen (m_data g) < 2 ^ 31) by (rewrite L; exact H7).
  assert (A0 : at_data g offs (reader_init 0 (blen data) offs)).
  { unfold at_data, inside, reader_init. cbn [r_start r_end r_ptr r_objects].
    pose proof (blen_nonneg _ data). rewrite L. split; [lia|]. split; [reflexivity|]. split; [lia|].
    apply incl_refl. }
  assert (NB : forall q k, k = KBool \/ (exists n, k = KRaw n) -> ~ bad_item cm (k_io e) pr g q (RKPlain k)).
  { intros q k [->|(m & ->)]; cbn [bad_item]; unfold bad_call; tauto. }
  destruct (item_read_safe cm (k_io e) pr g offs D Hs H9 _ _ A0 (NB _ _ (or_intror (ex_intro _ n eq_refl)))) as (y & q & E & A & _).
  rewrite R in E. injection E as <- <-.
  unfold handle_registration.
  destruct (string_safe (k_io e) g offs D H9 p A) as (o1 & p1 & -> & A1 & _). cbn [Base.bind].
  destruct (string_safe (k_io e) g offs D H9 p1 A1) as (o2 & p2 & -> & A2 & _). cbn [Base.bind].
  destruct o1 as [f|]; [|eauto]. destruct o2 as [m|]; [|eauto].
  destruct (item_read_safe cm (k_io e) pr g offs D Hs H9 _ _ A2 (NB _ _ (or_introl eq_refl))) as (y & q & E & _).
  cbn [read_item read_kind] in E. unfold wrap in E.
  destruct (rd_bool (m_data g) p2) as [[[b|] p3]|f0]; cbn in E; try discriminate; cbn [Base.bind]; eauto.
  destruct (r_at_end p3); eauto.
Qed.
