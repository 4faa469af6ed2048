From Verif Require Import BaseLemmas Base UtfModel WriterModel ReaderModel CodecSpec CodecSafety ObjModel ObjReader KernelModel ObjSpec
  HidlSpec HidlRead TxModel RpcModel RpcSpec RpcProofs WholeModel WholeSpec WholeProofs ShortModel ShortSpec.
From Verif Require CmdModel CmdSpec ClientModel.

(* ------------------------------------------------------------------ *)
(* Appending *)
Lemma lrq_call_is c self s : lrq_call c self s = writer_call c self (same_as s).
Proof. destruct self as [d|]; destruct s; reflexivity. Qed.
Lemma lrp_call_is c self s : lrp_call c self s = writer_call c self (same_as s).
Proof. destruct self as [d|]; destruct s; reflexivity. Qed.
Lemma lrq_add_is c self a : lrq_add c self a = writer_add c self a.
Proof. destruct a; [apply lrq_call_is|reflexivity|reflexivity]. Qed.
Lemma lrp_add_is c self a : lrp_add c self a = writer_add c self a.
Proof. destruct a; [apply lrp_call_is|reflexivity|]. destruct self; reflexivity. Qed.

Lemma fill_ext f g self l : (forall s a, f s a = g s a) -> fill f self l = fill g self l.
Proof. intros E. revert self. induction l as [|a l IH]; intros self; cbn [fill]; [reflexivity|]. rewrite E. destruct (g self a); cbn [bind]; auto. Qed.

Lemma fill_null c l : fill (writer_add c) None l = Ok None.
Proof. induction l as [|a l IH]; [reflexivity|]. cbn [fill writer_add writer_call bind]. exact IH. Qed.

Lemma fill_ops c d l : fill (writer_add c) (Some d) l =
  let* d1 := w_ops (c_io c) (c_protocol c) (c_alloc c) d (map adds l) in Ok (Some d1).
Proof.
  revert d. induction l as [|a l IH]; intros d; [reflexivity|]. cbn [fill map w_ops].
  unfold writer_add at 1, writer_call. destruct (w_op _ _ _ d (adds a)); cbn [bind]; auto.
Qed.

Lemma fill_made f c d l d1 : (forall s a, f s a = writer_add c s a) ->
  fill f (Some d) l = Ok (Some d1) -> w_ops (c_io c) (c_protocol c) (c_alloc c) d (map adds l) = Ok d1.
Proof.
  intros E H. rewrite (fill_ext _ _ _ _ E), fill_ops in H. destruct (w_ops _ _ _ _ _); cbn [bind] in H; congruence.
Qed.

Lemma ready_made e c l d pl : sendable e c l d pl -> w_ops (c_io c) (c_protocol c) (c_alloc c) wd_empty l = Ok d ->
  ready e (c_protocol c) (c_alloc c) l d pl.
Proof.
  intros (H0 & H1 & H2 & H3 & H4 & H5 & H6 & H7 & H8 & H9 & H10 & H11) Hw. rewrite H0 in Hw.
  unfold ready. auto 20.
Qed.

(* ------------------------------------------------------------------ *)
(* Reading *)

(* The answers, given the message and a new reader *)
Definition answers_of (cm : cmode) (c : ctx) (g : message) (p : reader) : answers :=
  {| a_int32 := only (rd_int32 (m_data g) p); a_uint32 := only (rd_uint32 (m_data g) p);
     a_int64 := only (rd_int64 (m_data g) p); a_uint64 := only (rd_uint64 (m_data g) p);
     a_string8 := only (rd_string8 (m_data g) p); a_string16 := only (rd_string16 cm (m_data g) p);
     a_object := only (rd_object (c_io c) (c_protocol c) g p) |}.

Lemma only_map {A B} (f : A -> B) (x : rd A) : only (rd_map f x) = let* v := only x in Ok (option_map f v).
Proof. unfold only, rd_map. destruct x as [[[a|] p]|]; reflexivity. Qed.

Lemma rrq_is cm c r : rrq_answers cm c (Some r) = answers_of cm c (in_data r) (in_args r).
Proof.
  unfold rrq_answers, answers_of, rrq_int32, rrq_int64, rrq_uint32, rrq_uint64, rrq_string8, rrq_string16, rrq_object, rrq_init_reader2.
  unfold rd_int32, rd_int64. now rewrite !only_map.
Qed.
Lemma rrp_is cm c r : rrp_answers cm c (Some r) = answers_of cm c (fst (rrp_init_reader2 r)) (snd (rrp_init_reader2 r)).
Proof.
  unfold rrp_answers, answers_of, rrp_int32, rrp_int64, rrp_uint32, rrp_uint64, rrp_string8, rrp_string16, rrp_object.
  destruct (rrp_init_reader2 r) as [g p]. cbn [fst snd]. unfold rd_int32, rd_int64. now rewrite !only_map.
Qed.

Lemma only_num {A} (f : A -> result) (x : rd A) v q : (forall a b, f a = f b -> a = b) -> (forall a, f a <> RFail) ->
  wrap f x = Ok (f v, q) -> only x = Ok (Some v).
Proof.
  intros Hi Hn H. unfold wrap in H. unfold only. destruct x as [[[a|] p]|]; cbn [bind]; try discriminate.
  - injection H as H _. apply Hi in H. now subst.
  - injection H as H _. symmetry in H. elim (Hn v H).
Qed.

Lemma reads_shows cm e c g p l : c_io c = k_io e -> reads cm e (c_protocol c) g p l ->
  r_end p = blen (m_data g) -> show_first e l (answers_of cm c g p).
Proof.
  intros Hio (rs & p1 & E & F & Hp & Ho) He. destruct l as [|o l]; cbn [map read_items] in E.
  - injection E as <- <-. cbn [show_first]. unfold no_answers, answers_of. cbn [a_int32 a_uint32 a_int64 a_uint64 a_string8 a_string16 a_object].
    assert (K : forall n, 0 < n < 2 ^ 31 -> can_read p n = false).
    { intros n Hn. unfold can_read. apply Z.leb_gt. rewrite Hp, He, Z.sub_diag. unfold u64. rewrite Z.mod_small by lia. rewrite Z.mod_small by lia. lia. }
    unfold rd_int32, rd_int64, rd_uint32, rd_uint64. rewrite !K by lia.
    assert (KL : forall n, 0 < n -> r_ptr p + n <=? r_end p = false) by (intros; apply Z.leb_gt; lia).
    do 4 (split; [reflexivity|]). split.
    { unfold rd_string8. replace (r_end p - r_ptr p) with 0 by lia. reflexivity. }
    split.
    { unfold rd_string16, rd_nullable_string16, rd_nullable_utf16. rewrite KL by lia. reflexivity. }
    { unfold rd_object, rd_nullable_object, can_read_object. rewrite Ho. reflexivity. }
  - destruct (read_item cm (k_io e) (c_protocol c) g p (rkind_of (k_io e) o)) as [[r p2]|] eqn:Er; [|discriminate].
    cbn [bind] in E. destruct (read_items cm (k_io e) (c_protocol c) g p2 _) as [[rs2 p3]|]; [|discriminate].
    cbn [bind] in E. injection E as <- <-. assert (G := F). inversion_clear G as [|? ? ? ? G1 _]. rename G1 into G.
    cbn [show_first]. destruct o as [v|o|h|fd df|ptr sz pa|sl f pa|b cnt es|s|ls|m ptr t pa|m ptr cnt t]; try exact Logic.I; cbn [rkind_of got] in Er, G.
    + subst r. cbn [read_item] in Er. destruct (read_kind cm (m_data g) p (kind_of v)) as [[x p4]|] eqn:Ek; [|discriminate].
      cbn [bind] in Er. injection Er as -> _.
      destruct v; try exact Logic.I; cbn [shows answers_of a_int32 a_uint32 a_int64 a_uint64 a_string8 a_string16 kind_of expected read_kind] in *.
      1,2,3,4: eapply (only_num RNum); [congruence|discriminate|exact Ek].
      * eapply (only_num (fun s => RText (Some s))); [congruence|discriminate|exact Ek].
      * unfold rd_string16, only. unfold wrap in Ek. destruct (rd_nullable_string16 cm (m_data g) p) as [[[a|] q]|]; try discriminate.
        cbn [bind]. injection Ek as -> _. reflexivity.
    + destruct o as [o|]; [|exact Logic.I]. subst r. cbn [read_item] in Er. unfold wrapi in Er. cbn [shows answers_of a_object].
      unfold rd_object, only. rewrite Hio. destruct (rd_nullable_object _ _ g p) as [[[a|] q]|]; try discriminate. cbn [bind]. congruence.
    + destruct h as [h|]; [|exact Logic.I]. destruct (k_ref e h) as [h2|] eqn:Eh; [|destruct G]. subst r.
      cbn [read_item] in Er. unfold wrapi in Er. cbn [shows answers_of a_object]. exists h2. split; [exact Eh|].
      unfold rd_object, only. rewrite Hio. destruct (rd_nullable_object _ _ g p) as [[[a|] q]|]; try discriminate. cbn [bind]. congruence.
Qed.

Lemma received_end cm i pr a cmd payload x : receive cm i pr a cmd payload = Ok (Some x) -> r_end (in_args x) = blen (m_data (in_data x)).
Proof.
  unfold receive. destruct (DriverModel.decode_cmd _ _ _ _); try discriminate. destruct (has_data _).
  - destruct (received a _) as [g objs]. destruct (set_data _ _ _ _ _) as [[iface h]|]; [|discriminate]. cbn [bind].
    intros H. injection H as <-. cbn [in_args in_data]. unfold args_reader, reader_init. cbn [r_end]. lia.
  - intros H. injection H as <-. reflexivity.
Qed.

Lemma request_shortcuts cm e c name hdr handle code oneway l d pl :
  let i := k_io e in
  new_iface (c_protocol c) (Some name) = Ok hdr -> iface_ok (c_protocol c) name -> has_header (c_protocol c) code ->
  CmdSpec.is_u32 handle -> CmdSpec.is_u32 code ->
  fill (lrq_add c) (Some (new_request_data hdr)) l = Ok (Some d) ->
  sendable e c (OpPlain (VRaw hdr) :: map adds l) d pl ->
  exists cmd t g, CmdModel.command i (request_call handle code (negb oneway) d pl) = Ok cmd /\
    k_accept e cmd = Some (false, t, g, wd_offsets d) /\ tr_target t = handle /\
    forall a, arrives i g (wd_offsets d) a ->
    exists x, receive cm i (c_protocol c) a (BR_TRANSACTION i) (arriving i t a) = Ok (Some x) /\
      rrq_interface (Some x) = Some name /\ rrq_sender_pid (Some x) = sgn 32 (ar_pid a) /\
      rrq_sender_euid (Some x) = ar_euid a /\
      show_first e (map adds l) (rrq_answers cm c (Some x)).
Proof.
  intros i Hn Hi Hh Hha Hco Hf Hs.
  assert (Hr : ready e (c_protocol c) (c_alloc c) (OpPlain (VRaw hdr) :: map adds l) d pl).
  { apply ready_made; [exact Hs|]. cbn [w_ops w_op]. unfold wd_plain. cbn [append_value]. unfold w_bytes.
    cbn [wd_empty wd_bytes Datatypes.app bind]. exact (fill_made _ c _ _ _ (lrq_add_is c) Hf). }
  destruct (request_arrives cm e (c_protocol c) (c_alloc c) name (map adds l) hdr handle code oneway d pl Hn Hi Hh Hha Hco Hr)
    as (cmd & t & g & Ec & Ea & Et & Hx). fold i in Ec, Hx.
  exists cmd, t, g. split; [exact Ec|]. split; [exact Ea|]. split; [exact Et|].
  intros a Ha. destruct (Hx a Ha) as (x & Ex & Ex2 & Hrd). exists x. split; [exact Ex|].
  pose proof (received_end _ _ _ _ _ _ _ Ex) as He.
  assert (Q : in_iface x = Some name /\ in_pid x = ar_pid a /\ in_euid x = ar_euid a /\ in_data x = g) by (rewrite Ex2; cbn; auto).
  destruct Q as (Q1 & Q2 & Q3 & Q4). unfold rrq_interface, rrq_sender_pid, rrq_sender_euid. rewrite Q1, Q2, Q3.
  do 3 (split; [reflexivity|]). rewrite rrq_is, Q4. rewrite Q4 in He.
  apply (reads_shows cm e c g (in_args x)); [apply Hs|exact Hrd|exact He].
Qed.

Lemma reply_shortcuts cm e c l d pl :
  let i := k_io e in
  fill (lrp_add c) (Some wd_empty) l = Ok (Some d) -> sendable e c (map adds l) d pl -> starts_well (map adds l) ->
  exists cmd t g, CmdModel.command i (reply_call d pl) = Ok cmd /\
    k_accept e cmd = Some (true, t, g, wd_offsets d) /\
    forall a, arrives i g (wd_offsets d) a ->
    exists an, reply_answer i a (BR_REPLY i) (arriving i t a) = Some an /\ ClientModel.an_status an = 0 /\
      (rrp_is_empty (Some (ClientModel.an_reply an)) = true <-> l = []) /\
      show_first e (map adds l) (rrp_answers cm c (Some (ClientModel.an_reply an))).
Proof.
  intros i Hf Hs Hst.
  assert (Hr : ready e (c_protocol c) (c_alloc c) (map adds l) d pl).
  { apply ready_made; [exact Hs|]. exact (fill_made _ c _ _ _ (lrp_add_is c) Hf). }
  destruct (reply_arrives_nonempty cm e (c_protocol c) (c_alloc c) (map adds l) d pl Hr Hst) as (cmd & t & g & Ec & Ea & Hrd & Hne & Han).
  fold i in Ec, Han. exists cmd, t, g. split; [exact Ec|]. split; [exact Ea|].
  intros a Ha. eexists. split; [exact (Han a Ha)|]. split; [reflexivity|]. cbn [ClientModel.an_reply].
  destruct l as [|x l]; cbn [map] in *.
  - split; [cbn; tauto|]. rewrite rrp_is. cbn [rrp_init_reader2 fst snd]. cbn [show_first]. repeat split.
  - split.
    + cbn [rrp_is_empty]. specialize (Hne ltac:(discriminate)). destruct (Z.eqb_spec (blen (m_data g)) 0); [lia|]. split; discriminate.
    + rewrite rrp_is. cbn [rrp_init_reader2 fst snd]. apply reads_shows; [apply Hs|exact Hrd|reflexivity].
Qed.

(* ------------------------------------------------------------------ *)
(* Any data *)
Lemma object_safe i pr g p : inside (m_data g) p -> blen (m_data g) < 2 ^ 31 -> exists x, only (rd_object i pr g p) = Ok x.
Proof.
  intros (I1 & I2 & I3 & I4) Hb. unfold rd_object, rd_nullable_object, only.
  destruct (can_read_object p); [|cbn; eauto]. unfold decode_binder_object.
  assert (Hrem : r_remaining p = r_end p - r_ptr p) by (unfold r_remaining, u64; apply Z.mod_small; lia).
  rewrite Hrem. destruct (Z.leb_spec (flat_size i) (r_end p - r_ptr p)) as [F|]; [|cbn; eauto].
  assert (Hfl : flat_size i = 8 + 2 * psz i) by reflexivity.
  assert (psz i = 4 \/ psz i = 8) by (destruct i; cbn; auto).
  rewrite !field32_in, fieldp_in by lia. cbn [bind].
  destruct (_ =? TYPE_HANDLE); [cbn [bind]; destruct (_ =? 0); cbn; eauto|].
  destruct (_ =? TYPE_BINDER); [|cbn; eauto].
  destruct (_ =? 0); cbn [bind]; [destruct (_ =? 0); cbn; eauto|cbn; eauto].
Qed.

Lemma kind_only {A} (f : A -> result) cm mem p k (x : rd A) : inside mem p -> blen mem < 2 ^ 31 -> all_bytes mem ->
  ~ bad_call cm mem p k -> read_kind cm mem p k = wrap f x -> exists v, only x = Ok v.
Proof.
  intros I1 I2 I3 Hb E. destruct (read_kind_safe cm mem p k I1 I2 I3 Hb) as (r & q & E2 & _). rewrite E in E2.
  unfold wrap in E2. unfold only. destruct x as [[[a|] p1]|]; [| |discriminate]; cbn; eauto.
Qed.

Lemma any_safe cm c g p : inside (m_data g) p -> blen (m_data g) < 2 ^ 31 -> all_bytes (m_data g) ->
  answers_safe cm (m_data g) p (answers_of cm c g p).
Proof.
  intros I1 I2 I3. unfold answers_safe, answers_of. cbn [a_int32 a_uint32 a_int64 a_uint64 a_string8 a_string16 a_object].
  assert (N : forall k, match k with KByteArray | KString16 | KUtf16 | KNullableString8 => False | _ => True end -> ~ bad_call cm (m_data g) p k)
    by (intros k Hk [_ B]; destruct k; cbn in *; tauto).
  split; [eapply (kind_only RNum cm _ p KInt32); eauto; apply N; exact Logic.I|].
  split; [eapply (kind_only RNum cm _ p KUint32); eauto; apply N; exact Logic.I|].
  split; [eapply (kind_only RNum cm _ p KInt64); eauto; apply N; exact Logic.I|].
  split; [eapply (kind_only RNum cm _ p KUint64); eauto; apply N; exact Logic.I|].
  split; [eapply (kind_only (fun s => RText (Some s)) cm _ p KString8); eauto; apply N; exact Logic.I|].
  split; [apply object_safe; auto|].
  intros Hb. destruct (kind_only RText cm (m_data g) p KString16 _ I1 I2 I3 Hb eq_refl) as (v & E).
  unfold only in *. unfold rd_string16. destruct (rd_nullable_string16 cm (m_data g) p) as [[w q]|]; [|discriminate]. cbn. eauto.
Qed.

Lemma request_safe cm c g objs code iface h x : all_bytes (m_data g) -> blen (m_data g) < 2 ^ 31 ->
  name_length_ok (c_protocol c) (m_data g) ->
  set_data (c_protocol c) cm (m_data g) objs code = Ok (iface, h) ->
  in_data x = g -> in_args x = args_reader (m_data g) objs h ->
  answers_safe cm (m_data g) (in_args x) (rrq_answers cm c (Some x)).
Proof.
  intros H1 H2 H3 H4 <- Ha. destruct (header_inside cm (c_protocol c) (m_data (in_data x)) objs code H1 H2 H3) as (i2 & h2 & E & _ & _ & Hin).
  rewrite E in H4. injection H4 as <- <-. rewrite rrq_is. apply any_safe; auto. rewrite Ha. exact Hin.
Qed.

Lemma reply_safe cm c (r : remote_reply) : let g := fst (rrp_init_reader2 r) in
  all_bytes (m_data g) -> blen (m_data g) < 2 ^ 31 ->
  answers_safe cm (m_data g) (snd (rrp_init_reader2 r)) (rrp_answers cm c (Some r)).
Proof.
  intros g H1 H2. rewrite rrp_is. fold g. apply any_safe; auto.
  unfold g. destruct r as [[g0 objs]|]; cbn; unfold inside; cbn; pose proof (blen_nonneg _ (m_data g)); unfold g in *; cbn in *; lia.
Qed.
