(* Proofs about the array of descriptors of a native handle *)
From Verif Require Import Base BaseLemmas WriterModel ObjModel ObjReader KernelModel ObjSpec
  ObjProofs ObjInvariant HidlSpec.

Lemma usz_small i v : 0 <= v < 2 ^ (8 * psz i) -> usz i v = v.
Proof. intros H. unfold usz. apply Z.mod_small; exact H. Qed.

Lemma w_ops_snoc i pr al o : forall l d,
  w_ops i pr al d (l ++ [o]) = bind (w_ops i pr al d l) (fun d1 => w_op i pr al d1 o).
Proof.
  induction l as [|x l IH]; intros d; cbn [app w_ops].
  - cbn [bind]. destruct (w_op i pr al d o); reflexivity.
  - destruct (w_op i pr al d x); cbn [bind]; [apply IH|reflexivity].
Qed.

Lemma fds_slice f : slice (fds_image f) 12 (4 * blen (fs_fds f)) = ints_image (fs_fds f).
Proof.
  unfold fds_image. rewrite (app_assoc (le 4 (fs_version f))), (app_assoc (le 4 _ ++ le 4 _)).
  apply slice_app_exact; [rewrite !blen_app, !blen_le; reflexivity|].
  rewrite blen_ints; reflexivity.
Qed.

Lemma descriptors_found i pr al l s f pa :
  Forall (op_ok i) (l ++ [OpFds s (Some f) pa]) ->
  blen (fds_image f) < 2 ^ 32 -> 0 <= fs_ptr f < 2 ^ (8 * psz i) ->
  exists d, w_ops i pr al wd_empty (l ++ [OpFds s (Some f) pa]) = Ok d /\
    (blen (wd_offsets d) < 2 ^ 31 -> fds_found i f (wd_bytes d) (wd_offsets d)).
Proof.
  intros Hok Hs Hp. apply Forall_app in Hok. destruct Hok as [Hl Ho].
  pose proof (Forall_inv Ho) as [H0 H1].
  destruct (ops_objects i pr al l Hl) as (d & E & _). rewrite w_ops_snoc, E. cbn [bind w_op w_fds].
  cbv zeta. rewrite wd_int64_eq. cbn [bind]. rewrite w_buffer_eq. cbn [bind].
  rewrite w_fda_eq by assumption. eexists. split; [reflexivity|].
  rewrite blen_fds in Hs. pose proof (blen_nonneg _ (fs_fds f)). pose proof (blen_nonneg _ (fs_ints f)).
  assert (HP : 2 ^ 32 <= 2 ^ (8 * psz i)) by (destruct i; vm_compute; discriminate).
  set (t := 12 + 4 * (blen (fs_fds f) + blen (fs_ints f))) in *.
  rewrite (usz_small i t) by (unfold t; lia).
  intros Hn.
  cbn [add_object add_bufsize record_offset add_data wd_set_bytes wd_bytes wd_offsets] in *.
  set (B := wd_bytes d ++ le 8 t). set (O := wd_offsets d) in *.
  set (I1 := buffer_image i (fs_ptr f) t pa).
  set (I2 := fda_image i (blen (fs_fds f)) (blen O) 12).
  exists O, (blen B), (blen (B ++ I1)), 12.
  split; [rewrite <- app_assoc; reflexivity|].
  rewrite !blen_app, !blen_cons, !blen_nil in Hn. pose proof (blen_nonneg _ O).
  assert (F1 : k_type (B ++ I1 ++ I2) (blen B) = TYPE_PTR /\
     kp_buffer (k_ptr i (B ++ I1 ++ I2) (blen B)) = fs_ptr f /\
     kp_length (k_ptr i (B ++ I1 ++ I2) (blen B)) = t).
  { unfold I1, buffer_image.
    destruct pa as [p|];
      (edestruct (ptr_fields i) as [F1 F2]; split; [exact F1|]; rewrite F2;
       cbn [kp_buffer kp_length]; rewrite !usz_small by (unfold t; lia); auto). }
  destruct F1 as (F1 & F2 & F3).
  destruct (fda_fields i (blen (fs_fds f)) (blen O) 12 (B ++ I1) []) as (G1 & G2 & G3 & G4).
  fold I2 in G1, G2, G3, G4. rewrite app_nil_r in G1, G2, G3, G4.
  rewrite usz_small in G2, G3, G4 by lia.
  rewrite <- app_assoc in G1, G2, G3, G4. rewrite <- app_assoc.
  cbn [pa_index pa_offset]. fold I2. rewrite F3, blen_fds. fold t.
  split; [exact F1|]. split; [exact F2|]. split; [reflexivity|].
  split; [exact G1|]. split; [exact G2|]. split; [exact G3|]. split; [exact G4|].
  split; [unfold t; lia|]. apply fds_slice.
Qed.
