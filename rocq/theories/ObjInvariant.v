(* The invariant of the object writer holds for every sequence of calls *)
From Verif Require Import Base BaseLemmas UtfModel WriterModel ReaderModel CodecSpec
  CodecProofs CodecSafety ObjModel ObjReader KernelModel ObjSpec ObjProofs.

Section WtypeInd.
  Variable P : wtype -> Prop.
  Definition field_ind (f : wfield) : Prop :=
    match f with FVec (Some t) => P t | _ => True end.
  Hypothesis H : forall s fs, Forall (fun p => field_ind (snd p)) fs -> P (WType s fs).
  Fixpoint wtype_ind2 (t : wtype) : P t :=
    match t with
    | WType s fs =>
      H s fs ((fix go (l : list (Z * wfield)) : Forall (fun p => field_ind (snd p)) l :=
                 match l with
                 | [] => Forall_nil _
                 | (o, f) :: r =>
                   Forall_cons (o, f)
                     (match f as f0 return field_ind f0 with
                      | FPointer _ => I
                      | FVec (Some t0) => wtype_ind2 t0
                      | FVec None => I
                      | FString => I
                      end) (go r)
                 end) fs)
    end.
End WtypeInd.

Lemma good_elems i f wants n es d ws k buf :
  (forall d ws a off, wd_good i d ws ->
     exists d1, f d a off = Ok d1 /\ wd_good i d1 (ws ++ wants a)) ->
  wd_good i d ws ->
  exists d1, w_elems f d n es (Z.of_nat k) buf = Ok d1 /\
    wd_good i d1 (ws ++ flat_map (fun k => wants (buf + u32 (es * Z.of_nat k))) (seq k n)).
Proof.
  intros Hf. revert d ws k; induction n as [|n IH]; intros d ws k Hg; cbn [w_elems seq flat_map].
  - exists d. rewrite app_nil_r. auto.
  - destruct (Hf d ws (buf + u32 (es * Z.of_nat k)) (u32 (es * Z.of_nat k)) Hg)
      as (d1 & E1 & G1).
    cbv zeta. rewrite E1. cbn [bind].
    destruct (IH d1 _ (S k) G1) as (d2 & E2 & G2).
    replace (Z.of_nat k + 1) with (Z.of_nat (S k)) by lia.
    rewrite E2. exists d2. rewrite app_assoc. auto.
Qed.

Lemma good_fields i m t : forall d ws obj index off,
  wd_good i d ws ->
  exists d1, w_fields i m t d obj index off = Ok d1 /\
    wd_good i d1 (ws ++ fields_wants i m t obj).
Proof.
  induction t as [s fs IH] using wtype_ind2. intros d ws obj index off Hg.
  cbn [w_fields fields_wants].
  revert d ws Hg; induction IH as [|[foff f] fs Hf IHF IHfs]; intros d ws Hg.
  - exists d. rewrite app_nil_r. auto.
  - cbv zeta. cbn [snd field_ind] in Hf.
    destruct f as [ft|[et|]|].
    + edestruct (good_buffer i d ws) as (d1 & E1 & G1); [exact Hg|].
      rewrite E1. cbn [bind].
      destruct (IHfs _ _ G1) as (d2 & E2 & G2). rewrite E2.
      exists d2. split; [reflexivity|]. rewrite app_assoc. exact G2.
    + edestruct (good_buffer i d ws) as (d1 & E1 & G1); [exact Hg|].
      rewrite E1. cbn [bind].
      destruct (good_elems i
                  (fun d2 a o => w_fields i m et d2 a (blen (wd_offsets d)) o)
                  (fun a => fields_wants i m et a)
                  (Z.to_nat (mread32 m (obj + foff + 8))) (wt_size et)
                  d1 _ 0 (mread_ptr i m (obj + foff))
                  (fun d ws a o => Hf d ws a _ o) G1)
        as (d2 & E2 & G2).
      change (Z.of_nat 0) with 0 in E2. rewrite E2. cbn [bind].
      destruct (IHfs _ _ G2) as (d3 & E3 & G3). rewrite E3.
      exists d3. split; [reflexivity|].
      rewrite app_assoc. rewrite <- (app_assoc ws) in G3. exact G3.
    + edestruct (good_buffer i d ws) as (d1 & E1 & G1); [exact Hg|].
      rewrite E1. cbn [bind].
      destruct (IHfs _ _ G1) as (d2 & E2 & G2). rewrite E2.
      exists d2. split; [reflexivity|]. rewrite app_assoc. exact G2.
    + edestruct (good_buffer i d ws) as (d1 & E1 & G1); [exact Hg|].
      rewrite E1. cbn [bind].
      destruct (IHfs _ _ G1) as (d2 & E2 & G2). rewrite E2.
      exists d2. split; [reflexivity|]. rewrite app_assoc. exact G2.
Qed.

Lemma good_string_bufs i d ws index off l :
  wd_good i d ws ->
  exists d1, w_string_bufs i d index off l = Ok d1 /\
    wd_good i d1 (ws ++ map (fun s => WBuffer (cstr_size s)) l).
Proof.
  revert d ws off; induction l as [|s l IH]; intros d ws off Hg; cbn [w_string_bufs map].
  - exists d. rewrite app_nil_r. auto.
  - destruct s as [[a t]|]; cbn [cstr_size].
    + destruct (good_buffer i d ws a (u32 (blen t + 1))
                  (Some {| pa_index := index; pa_offset := off |}) Hg) as (d1 & E1 & G1).
      rewrite E1. cbn [bind].
      destruct (IH d1 _ (u32 (off + 16)) G1) as (d2 & E2 & G2). rewrite E2.
      exists d2. split; [reflexivity|]. rewrite <- app_assoc in G2. exact G2.
    + destruct (good_buffer i d ws 0 0
                  (Some {| pa_index := index; pa_offset := off |}) Hg) as (d1 & E1 & G1).
      rewrite E1. cbn [bind].
      destruct (IH d1 _ (u32 (off + 16)) G1) as (d2 & E2 & G2). rewrite E2.
      exists d2. split; [reflexivity|]. rewrite <- app_assoc in G2. exact G2.
Qed.

Lemma blen_ints l : blen (ints_image l) = 4 * blen l.
Proof.
  unfold ints_image. induction l as [|x l IH]; cbn [map concat]; [reflexivity|].
  rewrite blen_app, IH, blen_le, blen_cons. lia.
Qed.

Lemma blen_fds f : blen (fds_image f) = 12 + 4 * (blen (fs_fds f) + blen (fs_ints f)).
Proof. unfold fds_image. rewrite !blen_app, !blen_le, !blen_ints. lia. Qed.

Lemma good_op i pr al d ws o :
  op_ok i o -> wd_good i d ws ->
  exists d1, w_op i pr al d o = Ok d1 /\ wd_good i d1 (ws ++ op_wants i o).
Proof.
  intros Hok Hg. destruct o; cbn [w_op op_wants op_ok] in *.
  - rewrite wd_plain_eq. eexists. split; [reflexivity|]. rewrite app_nil_r.
    apply good_data; assumption.
  - rewrite w_local_eq. eexists. split; [reflexivity|]. destruct o as [o|].
    + apply good_object; [apply image_local|assumption].
    + rewrite app_nil_r. apply good_data; assumption.
  - rewrite w_remote_eq. eexists. split; [reflexivity|]. destruct handle as [h|].
    + apply good_object; [apply image_remote|assumption].
    + rewrite app_nil_r. apply good_data; assumption.
  - rewrite w_fd_eq. eexists. split; [reflexivity|].
    apply good_object; [apply image_fd|assumption].
  - destruct (good_buffer i d ws ptr size pa Hg) as (d1 & E1 & G1).
    rewrite E1. exists d1. auto.
  - destruct f as [f|]; cbn [w_fds].
    + cbv zeta. rewrite wd_int64_eq. cbn [bind].
      edestruct (good_buffer i) as (d1 & E1 & G1); [apply good_data; exact Hg|].
      rewrite E1. cbn [bind]. destruct Hok as [H0 H1].
      rewrite w_fda_eq by assumption. eexists. split; [reflexivity|].
      rewrite blen_fds.
      change [?a; ?b] with ([a] ++ [b]). rewrite app_assoc.
      apply good_object; [apply image_fda|exact G1].
    + rewrite wd_int64_eq. eexists. split; [reflexivity|]. rewrite app_nil_r.
      apply good_data; assumption.
  - unfold w_hidl_vec. cbv zeta.
    assert (E0 : exists buf d1, memdup_ptr al d base (u32 (count * elemsize)) = Ok (buf, d1) /\
                 wd_good i d1 ws).
    { unfold memdup_ptr. destruct base as [b|]; [|exists 0, d; auto].
      destruct (Z.eqb_spec (u32 (count * elemsize)) 0); [exists 0, d; auto|].
      pose proof (u32_range (count * elemsize)).
      rewrite load_inside by lia.
      cbn [bind]. eexists _, _. split; [reflexivity|]. apply heap_add_good; assumption. }
    destruct E0 as (buf & d1 & E1 & G1). rewrite E1. cbn [bind].
    edestruct (good_buffer i) as (d2 & E2 & G2); [apply heap_add_good; exact G1|].
    rewrite E2. cbn [bind].
    edestruct (good_buffer i) as (d3 & E3 & G3); [exact G2|].
    rewrite E3. cbn [bind]. exists d3. split; [reflexivity|].
    rewrite <- app_assoc in G3. exact G3.
  - unfold w_hidl_string. cbv zeta.
    edestruct (good_buffer i) as (d2 & E2 & G2); [apply heap_add_good; exact Hg|].
    rewrite E2. cbn [bind].
    destruct s as [[a t]|].
    + edestruct (good_buffer i) as (d3 & E3 & G3); [exact G2|].
      rewrite E3. cbn [bind]. exists d3. split; [reflexivity|].
      rewrite <- app_assoc in G3. exact G3.
    + edestruct (good_buffer i) as (d3 & E3 & G3); [exact G2|].
      rewrite E3. cbn [bind]. exists d3. split; [reflexivity|].
      rewrite <- app_assoc in G3. exact G3.
  - unfold w_hidl_string_vec. cbv zeta.
    destruct l as [|s l].
    + change (0 <? blen (@nil cstring)) with false. cbv iota.
      edestruct (good_buffer i) as (d2 & E2 & G2); [apply heap_add_good; exact Hg|].
      rewrite E2. cbn [bind].
      edestruct (good_buffer i) as (d3 & E3 & G3); [exact G2|].
      rewrite E3. cbn [bind]. exists d3. split; [reflexivity|].
      rewrite <- app_assoc in G3. exact G3.
    + replace (0 <? blen (s :: l)) with true
        by (rewrite blen_cons; pose proof (blen_nonneg _ l); lia).
      edestruct (good_buffer i) as (d2 & E2 & G2);
        [apply heap_add_good, heap_add_good; exact Hg|].
      rewrite E2. cbn [bind].
      edestruct (good_buffer i) as (d3 & E3 & G3); [exact G2|].
      rewrite E3. cbn [bind].
      edestruct (good_string_bufs i) as (d4 & E4 & G4); [exact G3|].
      rewrite E4. exists d4. split; [reflexivity|].
      rewrite <- !app_assoc in G4. exact G4.
  - unfold w_struct.
    edestruct (good_buffer i) as (d2 & E2 & G2); [exact Hg|].
    rewrite E2. cbn [bind].
    edestruct (good_fields i m t) as (d3 & E3 & G3); [exact G2|].
    rewrite E3. exists d3. split; [reflexivity|].
    rewrite <- app_assoc in G3. exact G3.
  - unfold w_struct_vec. cbv zeta.
    edestruct (good_buffer i) as (d2 & E2 & G2); [apply heap_add_good; exact Hg|].
    rewrite E2. cbn [bind].
    edestruct (good_buffer i) as (d3 & E3 & G3); [exact G2|].
    rewrite E3. cbn [bind].
    destruct (good_elems i
                (fun d4 a o => w_fields i m t d4 a (blen (wd_offsets d2)) o)
                (fun a => fields_wants i m t a)
                (Z.to_nat count) (wt_size t) d3 _ 0 ptr
                (fun d ws a o => good_fields i m t d ws a _ o) G3)
      as (d4 & E4 & G4).
    change (Z.of_nat 0) with 0 in E4. rewrite E4. exists d4. split; [reflexivity|].
    rewrite <- !app_assoc in G4. exact G4.
Qed.

Lemma good_ops i pr al l : forall d ws,
  Forall (op_ok i) l -> wd_good i d ws ->
  exists d1, w_ops i pr al d l = Ok d1 /\ wd_good i d1 (ws ++ flat_map (op_wants i) l).
Proof.
  induction l as [|o l IH]; intros d ws Hok Hg; cbn [w_ops flat_map].
  - exists d. rewrite app_nil_r. auto.
  - inversion Hok as [|x y Ho Hl]; subst.
    destruct (good_op i pr al d ws o Ho Hg) as (d1 & E1 & G1). rewrite E1. cbn [bind].
    destruct (IH d1 _ Hl G1) as (d2 & E2 & G2). exists d2.
    rewrite app_assoc. auto.
Qed.

Lemma good_empty i : wd_good i wd_empty [].
Proof. split; [exact I|reflexivity]. Qed.

Lemma ops_objects i pr al l :
  Forall (op_ok i) l ->
  exists d, w_ops i pr al wd_empty l = Ok d /\
    objects_at i (wd_bytes d) 0 (wd_offsets d) (flat_map (op_wants i) l) /\
    wd_bufsize d = space_needed i (wd_bytes d) (wd_offsets d).
Proof.
  intros H. destruct (good_ops i pr al l wd_empty [] H (good_empty i)) as (d & E & G1 & G2).
  exists d. auto.
Qed.
