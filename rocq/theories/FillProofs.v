(* Proofs for FillProps.v: what append calls add doesn't depend on the bytes which are
   already there *)
From Verif Require Import Base BaseLemmas UtfModel WriterModel ReaderModel CodecSpec
  CodecProofs CodecSafety ObjModel ObjReader KernelModel ObjSpec ObjProofs ObjInvariant FillModel.

Section Same.
  Variables c1 c2 : bytes.
  Hypothesis Hc : blen c1 = blen c2.

  (* the same but for the beginning *)
  Definition same (d1 d2 : wdata) : Prop :=
    exists t, wd_bytes d1 = c1 ++ t /\ wd_bytes d2 = c2 ++ t /\ wd_offsets d1 = wd_offsets d2 /\
      wd_bufsize d1 = wd_bufsize d2 /\ wd_heap d1 = wd_heap d2 /\ wd_nalloc d1 = wd_nalloc d2.

  Lemma same_data d1 d2 l : same d1 d2 -> same (add_data d1 l) (add_data d2 l).
  Proof.
    intros (t & H1 & H2 & H). exists (t ++ l). unfold add_data, wd_set_bytes.
    cbn [wd_bytes wd_offsets wd_bufsize wd_heap wd_nalloc]. rewrite H1, H2, <- !app_assoc. auto.
  Qed.

  Lemma same_object d1 d2 l n : same d1 d2 -> same (add_object d1 l n) (add_object d2 l n).
  Proof.
    intros (t & H1 & H2 & H3 & H4 & H5 & H6). exists (t ++ l). unfold add_object, add_bufsize, record_offset, add_data, wd_set_bytes.
    cbn [wd_bytes wd_offsets wd_bufsize wd_heap wd_nalloc].
    rewrite H1, H2, H3, H4, H5, H6, <- !app_assoc, !blen_app, Hc. auto 8.
  Qed.

  Lemma same_heap d1 d2 al b : same d1 d2 -> same (heap_add al d1 b) (heap_add al d2 b).
  Proof.
    intros (t & H1 & H2 & H3 & H4 & H5 & H6). exists t. unfold heap_add.
    cbn [wd_bytes wd_offsets wd_bufsize wd_heap wd_nalloc]. rewrite H3, H4, H5, H6. auto 8.
  Qed.

  Lemma same_nalloc d1 d2 : same d1 d2 -> wd_nalloc d1 = wd_nalloc d2.
  Proof. intros (t & H). intuition. Qed.

  Lemma same_buffer i d1 d2 p n pa : same d1 d2 ->
    exists k e1 e2, w_buffer_object i d1 p n pa = Ok (k, e1) /\ w_buffer_object i d2 p n pa = Ok (k, e2) /\ same e1 e2.
  Proof.
    intros H. rewrite !w_buffer_eq. assert (E : wd_offsets d1 = wd_offsets d2) by (destruct H as (t & H); intuition).
    rewrite E. eexists _, _, _. split; [reflexivity|]. split; [reflexivity|]. apply same_object. exact H.
  Qed.

  Lemma same_elems f n es : forall d1 d2 k buf,
    (forall d1 d2 a off, same d1 d2 -> exists e1 e2, f d1 a off = Ok e1 /\ f d2 a off = Ok e2 /\ same e1 e2) ->
    same d1 d2 -> exists e1 e2, w_elems f d1 n es k buf = Ok e1 /\ w_elems f d2 n es k buf = Ok e2 /\ same e1 e2.
  Proof.
    induction n as [|n IH]; intros d1 d2 k buf Hf H; cbn [w_elems]; [exists d1, d2; auto|].
    cbv zeta. destruct (Hf d1 d2 (buf + u32 (es * k)) (u32 (es * k)) H) as (e1 & e2 & E1 & E2 & He).
    rewrite E1, E2. cbn [bind]. apply IH; assumption.
  Qed.

  Lemma same_fields i m t : forall d1 d2 obj index off, same d1 d2 ->
    exists e1 e2, w_fields i m t d1 obj index off = Ok e1 /\ w_fields i m t d2 obj index off = Ok e2 /\ same e1 e2.
  Proof.
    induction t as [s fs IH] using wtype_ind2. intros d1 d2 obj index off H.
    cbn [w_fields]. revert d1 d2 H; induction IH as [|[foff f] fs Hf IHF IHfs]; intros d1 d2 H; [exists d1, d2; auto|].
    cbv zeta. cbn [snd field_ind] in Hf. destruct f as [ft|[et|]|].
    1, 3, 4: edestruct (same_buffer i d1 d2) as (k & e1 & e2 & E1 & E2 & He); [exact H|]; rewrite E1, E2; cbn [bind]; apply IHfs; exact He.
    edestruct (same_buffer i d1 d2) as (k & e1 & e2 & E1 & E2 & He); [exact H|]. rewrite E1, E2. cbn [bind].
    edestruct (same_elems (fun d a o => w_fields i m et d a k o)) as (g1 & g2 & G1 & G2 & Hg);
      [intros x y a o Hxy; apply Hf; exact Hxy|exact He|].
    rewrite G1, G2. cbn [bind]. apply IHfs. exact Hg.
  Qed.

  Lemma same_strings i index l : forall d1 d2 off, same d1 d2 ->
    exists e1 e2, w_string_bufs i d1 index off l = Ok e1 /\ w_string_bufs i d2 index off l = Ok e2 /\ same e1 e2.
  Proof.
    induction l as [|s l IH]; intros d1 d2 off H; cbn [w_string_bufs]; [exists d1, d2; auto|].
    cbv zeta. destruct s as [[a t]|];
      (edestruct (same_buffer i d1 d2) as (k & e1 & e2 & E1 & E2 & He); [exact H|]; rewrite E1, E2; cbn [bind]; apply IH; exact He).
  Qed.

  Lemma same_op i pr al d1 d2 o : op_ok i o -> same d1 d2 ->
    exists e1 e2, w_op i pr al d1 o = Ok e1 /\ w_op i pr al d2 o = Ok e2 /\ same e1 e2.
  Proof.
    intros Hok H. pose proof (same_nalloc d1 d2 H) as Hn. destruct o; cbn [w_op op_ok] in *.
    - rewrite !wd_plain_eq. eexists _, _. split; [reflexivity|]. split; [reflexivity|]. apply same_data. exact H.
    - rewrite !w_local_eq. eexists _, _. split; [reflexivity|]. split; [reflexivity|].
      destruct o; [apply same_object|apply same_data]; exact H.
    - rewrite !w_remote_eq. eexists _, _. split; [reflexivity|]. split; [reflexivity|].
      destruct handle; [apply same_object|apply same_data]; exact H.
    - rewrite !w_fd_eq. eexists _, _. split; [reflexivity|]. split; [reflexivity|]. apply same_object. exact H.
    - edestruct (same_buffer i d1 d2) as (k & e1 & e2 & E1 & E2 & He); [exact H|]. rewrite E1, E2. cbn [bind]. eauto.
    - destruct f as [f|]; cbn [w_fds].
      + cbv zeta. rewrite !wd_int64_eq. cbn [bind].
        edestruct (same_buffer i) as (k & e1 & e2 & E1 & E2 & He); [apply same_data; exact H|]. rewrite E1, E2. cbn [bind].
        destruct Hok as [H0 H1]. rewrite !w_fda_eq by assumption.
        eexists _, _. split; [reflexivity|]. split; [reflexivity|]. apply same_object. exact He.
      + rewrite !wd_int64_eq. eexists _, _. split; [reflexivity|]. split; [reflexivity|]. apply same_data. exact H.
    - unfold w_hidl_vec. cbv zeta.
      assert (E0 : exists buf e1 e2, memdup_ptr al d1 base (u32 (count * elemsize)) = Ok (buf, e1) /\
                   memdup_ptr al d2 base (u32 (count * elemsize)) = Ok (buf, e2) /\ same e1 e2).
      { unfold memdup_ptr. destruct base as [b|]; [|eauto 8].
        destruct (Z.eqb_spec (u32 (count * elemsize)) 0); [eauto 8|].
        pose proof (u32_range (count * elemsize)). rewrite load_inside by lia. cbn [bind]. rewrite Hn.
        eexists _, _, _. split; [reflexivity|]. split; [reflexivity|]. apply same_heap. exact H. }
      destruct E0 as (buf & e1 & e2 & E1 & E2 & He). rewrite E1, E2. cbn [bind]. rewrite (same_nalloc _ _ He).
      edestruct (same_buffer i) as (k & f1 & f2 & F1 & F2 & Hf); [apply same_heap; exact He|]. rewrite F1, F2. cbn [bind].
      edestruct (same_buffer i) as (k1 & g1 & g2 & G1 & G2 & Hg); [exact Hf|]. rewrite G1, G2. cbn [bind]. eauto.
    - unfold w_hidl_string. cbv zeta. rewrite Hn.
      edestruct (same_buffer i) as (k & f1 & f2 & F1 & F2 & Hf); [apply same_heap; exact H|]. rewrite F1, F2. cbn [bind].
      destruct s as [[a t]|];
        (edestruct (same_buffer i) as (k1 & g1 & g2 & G1 & G2 & Hg); [exact Hf|]; rewrite G1, G2; cbn [bind]; eauto).
    - unfold w_hidl_string_vec. cbv zeta. destruct (0 <? blen l).
      + cbn [heap_add wd_nalloc]. rewrite Hn.
        edestruct (same_buffer i) as (k & f1 & f2 & F1 & F2 & Hf); [apply same_heap, same_heap; exact H|].
        rewrite F1, F2. cbn [bind]. assert (E : wd_offsets f1 = wd_offsets f2) by (destruct Hf as (t & Hf); intuition). rewrite E.
        edestruct (same_buffer i) as (k1 & g1 & g2 & G1 & G2 & Hg); [exact Hf|]. rewrite G1, G2. cbn [bind].
        apply same_strings. exact Hg.
      + rewrite Hn. edestruct (same_buffer i) as (k & f1 & f2 & F1 & F2 & Hf); [apply same_heap; exact H|].
        rewrite F1, F2. cbn [bind].
        edestruct (same_buffer i) as (k1 & g1 & g2 & G1 & G2 & Hg); [exact Hf|]. rewrite G1, G2. cbn [bind]. eauto.
    - unfold w_struct. edestruct (same_buffer i) as (k & f1 & f2 & F1 & F2 & Hf); [exact H|]. rewrite F1, F2. cbn [bind].
      apply same_fields. exact Hf.
    - unfold w_struct_vec. cbv zeta. rewrite Hn.
      edestruct (same_buffer i) as (k & f1 & f2 & F1 & F2 & Hf); [apply same_heap; exact H|]. rewrite F1, F2. cbn [bind].
      edestruct (same_buffer i) as (k1 & g1 & g2 & G1 & G2 & Hg); [exact Hf|]. rewrite G1, G2. cbn [bind].
      apply same_elems; [|exact Hg]. intros x y a o Hxy. apply same_fields. exact Hxy.
  Qed.

  Lemma same_ops i pr al l : forall d1 d2, Forall (op_ok i) l -> same d1 d2 ->
    exists e1 e2, w_ops i pr al d1 l = Ok e1 /\ w_ops i pr al d2 l = Ok e2 /\ same e1 e2.
  Proof.
    induction l as [|o l IH]; intros d1 d2 Hl H; cbn [w_ops]; [exists d1, d2; auto|].
    inversion Hl as [|? ? Ho Hr]; subst.
    destruct (same_op i pr al d1 d2 o Ho H) as (e1 & e2 & E1 & E2 & He). rewrite E1, E2. cbn [bind]. apply IH; assumption.
  Qed.
End Same.

Lemma overwrite_prefix p x t v : blen x = 4 -> blen (p ++ x ++ t) < 2 ^ 32 ->
  w_overwrite_int32 (p ++ x ++ t) (blen p) v = Ok (p ++ le 4 v ++ t).
Proof.
  intros Hx Hl. unfold w_overwrite_int32, store. pose proof (blen_nonneg _ p). pose proof (blen_nonneg _ t).
  rewrite !blen_app, Hx in *. replace (u64 (blen p + 4)) with (blen p + 4) by (unfold u64; rewrite Z.mod_small; lia).
  replace (blen p + 4 <=? blen p + (4 + blen t)) with true by lia. rewrite blen_le.
  replace ((0 <=? blen p) && (blen p + Z.of_nat 4 <=? blen p + (4 + blen t))) with true by lia.
  f_equal. unfold poke. rewrite ztake_app_exact by reflexivity. f_equal. f_equal.
  rewrite app_assoc. apply zdrop_app_exact. rewrite blen_app, blen_le, Hx. reflexivity.
Qed.

Theorem filled_in i pr al d x v l : Forall (op_ok i) l ->
  exists d1 d2, w_ops i pr al d (OpPlain (VInt32 x) :: l) = Ok d1 /\
    w_ops i pr al d (OpPlain (VInt32 v) :: l) = Ok d2 /\
    (blen (wd_bytes d1) < 2 ^ 32 -> wd_overwrite_int32 d1 (w_bytes_written d) v = Ok d2).
Proof.
  intros Hl. cbn [w_ops w_op]. rewrite !wd_plain_eq. cbn [bind chunk].
  edestruct (same_ops (wd_bytes d ++ le 4 x) (wd_bytes d ++ le 4 v)) as (d1 & d2 & E1 & E2 & t & H1 & H2 & H3 & H4 & H5 & H6);
    [rewrite !blen_app, !blen_le; reflexivity|exact Hl| |].
  2: { exists d1, d2. split; [exact E1|]. split; [exact E2|]. intros Hb. unfold wd_overwrite_int32, wd_plain, w_bytes_written.
    rewrite H1, <- app_assoc in Hb |- *. rewrite overwrite_prefix; [|apply blen_le|exact Hb]. cbn [bind].
    rewrite app_assoc, <- H2. unfold wd_set_bytes. rewrite H3, H4, H5, H6. destruct d2; reflexivity. }
  exists []. unfold add_data, wd_set_bytes. cbn [wd_bytes wd_offsets wd_bufsize wd_heap wd_nalloc]. rewrite !app_nil_r. auto 8.
Qed.
