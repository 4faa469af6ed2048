(* HIDL values as trees of buffers *)
From Verif Require Import Base BaseLemmas UtfModel WriterModel ReaderModel CodecSpec
  CodecProofs CodecSafety ObjModel ObjReader KernelModel ObjSpec ObjProofs ObjInvariant
  TreeProofs PieceProofs HidlSpec.

(* Pointers to the kids are in the places which they name *)
Fixpoint slots_ok (i : io) (t : tree) : Prop :=
  match t with
  | Node a d ks =>
    (fix go (l : list (Z * tree)) : Prop :=
       match l with
       | [] => True
       | (c, t1) :: r => slice d c (psz i) = le (psize i) (t_addr t1) /\ slots_ok i t1 /\ go r
       end) ks
  end.
Definition kslots_ok (i : io) (d : bytes) : list (Z * tree) -> Prop :=
  fix go (l : list (Z * tree)) : Prop :=
    match l with
    | [] => True
    | (c, t1) :: r => slice d c (psz i) = le (psize i) (t_addr t1) /\ slots_ok i t1 /\ go r
    end.
Lemma slots_ok_node i a d ks : slots_ok i (Node a d ks) <-> kslots_ok i d ks.
Proof. reflexivity. Qed.

(* ------------------------------------------------------------------ *)
(* Trees of structures *)

Definition leaf (a : Z) (d : bytes) : tree := Node a d [].

(* elements of a vector: [f] gives the kids of the structure at this address *)
Definition elems_kids (f : Z -> Z -> list (Z * tree)) (buf size : Z) (k n : nat)
  : list (Z * tree) :=
  flat_map (fun j => f (buf + Z.of_nat j * size) (Z.of_nat j * size)) (seq k n).

Fixpoint t_fields (i : io) (m : memory) (t : wtype) (obj offset : Z) {struct t}
  : list (Z * tree) :=
  match t with
  | WType _ fields =>
    (fix go (fs : list (Z * wfield)) : list (Z * tree) :=
       match fs with
       | [] => []
       | (foff, f) :: r =>
         let p := mread_ptr i m (obj + foff) in
         let n := mread32 m (obj + foff + 8) in
         (offset + foff,
          match f with
          | FPointer ft => leaf p (mread m p (wt_size ft))
          | FVec None => leaf p []
          | FVec (Some et) =>
            Node p (mread m p (n * wt_size et))
              (elems_kids (fun a o => t_fields i m et a o) p (wt_size et) 0 (Z.to_nat n))
          | FString => leaf p (if p =? 0 then [] else mread m p (n + 1))
          end) :: go r
       end) fields
  end.

(* The same function on the list of fields *)
Definition fs_kids (i : io) (m : memory) (obj offset : Z) : list (Z * wfield) -> list (Z * tree) :=
  fix go (fs : list (Z * wfield)) : list (Z * tree) :=
    match fs with
    | [] => []
    | (foff, f) :: r =>
      let p := mread_ptr i m (obj + foff) in
      let n := mread32 m (obj + foff + 8) in
      (offset + foff,
       match f with
       | FPointer ft => leaf p (mread m p (wt_size ft))
       | FVec None => leaf p []
       | FVec (Some et) =>
         Node p (mread m p (n * wt_size et))
           (elems_kids (fun a o => t_fields i m et a o) p (wt_size et) 0 (Z.to_nat n))
       | FString => leaf p (if p =? 0 then [] else mread m p (n + 1))
       end) :: go r
    end.
Lemma t_fields_eq i m s fs obj offset :
  t_fields i m (WType s fs) obj offset = fs_kids i m obj offset fs.
Proof. reflexivity. Qed.

Lemma f_emit_app i self ks ls : forall n,
  f_emit i self n (ks ++ ls) = f_emit i self n ks ++ f_emit i self (n + Z.of_nat (f_count ks)) ls.
Proof.
  induction ks as [|[c t] ks IH]; intros n; cbn [f_emit f_count app].
  - f_equal; lia.
  - rewrite IH, app_assoc. do 2 f_equal. lia.
Qed.
Lemma f_count_app ks ls : f_count (ks ++ ls) = (f_count ks + f_count ls)%nat.
Proof. induction ks as [|[c t] ks IH]; cbn [f_count app]; lia. Qed.
Lemma f_space_app ks ls : f_space (ks ++ ls) = f_space ks + f_space ls.
Proof. induction ks as [|[c t] ks IH]; cbn [f_space app]; lia. Qed.

(* ------------------------------------------------------------------ *)
(* The writer emits these trees *)

Definition kept (d d1 : wdata) : Prop := wd_heap d1 = wd_heap d /\ wd_nalloc d1 = wd_nalloc d.
Lemma kept_refl d : kept d d. Proof. split; reflexivity. Qed.
Lemma kept_trans a b c : kept a b -> kept b c -> kept a c.
Proof. intros [A B] [C D]. split; congruence. Qed.

Definition forest_grown (i : io) (d d1 : wdata) (self : Z) (ks : list (Z * tree)) : Prop :=
  grown i d d1 (f_emit i self (blen (wd_offsets d)) ks) (f_space ks) /\ kept d d1.

Lemma forest_nil i d self : forest_grown i d d self [].
Proof. split; [apply grown_nil|apply kept_refl]. Qed.

Lemma grown_offsets i d d1 l n :
  grown i d d1 l n -> blen (wd_offsets d1) = blen (wd_offsets d) + Z.of_nat (length l).
Proof.
  intros (_ & E & _). rewrite E, blen_app. f_equal. unfold blen. rewrite offs_length. reflexivity.
Qed.

Lemma forest_app i d d1 d2 self ks ls :
  forest_grown i d d1 self ks -> forest_grown i d1 d2 self ls ->
  forest_grown i d d2 self (ks ++ ls).
Proof.
  intros [G1 K1] [G2 K2]. split; [|eapply kept_trans; eauto].
  pose proof (grown_offsets _ _ _ _ _ G1) as E.
  destruct (f_emit_len i ks self (blen (wd_offsets d))) as [L1 L2].
  rewrite f_emit_app, f_space_app.
  replace (blen (wd_offsets d) + Z.of_nat (f_count ks)) with (blen (wd_offsets d1))
    by (rewrite E; do 2 f_equal; exact L2).
  eapply grown_trans; [|exact G1|exact G2]. rewrite L1. unfold blen. do 2 f_equal. symmetry. exact L2.
Qed.

(* One buffer, then its kids *)
Lemma tree_grown i d d1 d2 a data pa ks :
  grown i d d1 [buffer_image i a (blen data) pa] (align8 (blen data)) -> kept d d1 ->
  forest_grown i d1 d2 (blen (wd_offsets d)) ks ->
  grown i d d2 (t_emit i (blen (wd_offsets d)) pa (Node a data ks)) (t_space (Node a data ks)) /\
  kept d d2.
Proof.
  intros G1 K1 [G2 K2]. split; [|eapply kept_trans; eauto].
  rewrite t_emit_node, t_space_node.
  pose proof (grown_offsets _ _ _ _ _ G1) as E. cbn [length] in E. change (Z.of_nat 1) with 1 in E. rewrite E in G2.
  change (buffer_image i a (blen data) pa :: f_emit i (blen (wd_offsets d)) (blen (wd_offsets d) + 1) ks)
    with ([buffer_image i a (blen data) pa] ++ f_emit i (blen (wd_offsets d)) (blen (wd_offsets d) + 1) ks).
  eapply grown_trans; [|exact G1|exact G2].
  cbn [concat]. rewrite app_nil_r, blen_buffer. change (blen [_]) with 1. lia.
Qed.

Lemma forest_one i d d1 self c t :
  grown i d d1 (t_emit i (blen (wd_offsets d)) (Some (mkpa self c)) t) (t_space t) -> kept d d1 ->
  forest_grown i d d1 self [(c, t)].
Proof.
  intros G K. split; [|exact K]. cbn [f_emit f_space]. rewrite app_nil_r, Z.add_0_r. exact G.
Qed.

Lemma blen_mread m a n : 0 <= n -> blen (mread m a n) = n.
Proof. intros H. unfold mread, blen. rewrite map_length, seq_length. lia. Qed.

Lemma u32_small v : 0 <= v < 2 ^ 32 -> u32 v = v.
Proof. intros H. unfold u32. apply Z.mod_small; assumption. Qed.

Lemma pow_psz i : 2 ^ 32 <= 2 ^ (8 * psz i).
Proof. apply Z.pow_le_mono_r; pose proof (psz_pos i); lia. Qed.

Lemma unle_mread m a n : byte_memory m -> 0 <= n -> 0 <= unle (mread m a n) < 2 ^ (8 * n).
Proof.
  intros H Hn. rewrite <- (blen_mread m a n) at 3 by assumption. apply unle_bound.
  unfold mread, all_bytes. apply Forall_forall. intros x Hx. apply in_map_iff in Hx.
  destruct Hx as (k & <- & _). apply H.
Qed.

Definition fs_type_ok (i : io) (size : Z) : Z -> list (Z * wfield) -> Prop :=
  fix go (from : Z) (fs : list (Z * wfield)) : Prop :=
    match fs with
    | [] => True
    | (off, f) :: r =>
      from <= off /\ off + field_size i f <= size /\
      match f with
      | FPointer ft => type_ok i ft
      | FVec None => True
      | FVec (Some et) => type_ok i et
      | FString => True
      end /\
      go (off + field_size i f) r
    end.
Lemma type_ok_eq i s fs : type_ok i (WType s fs) <-> 0 <= s < 2 ^ 31 /\ fs_type_ok i s 0 fs.
Proof. reflexivity. Qed.

Definition field_ok (i : io) (m : memory) (obj foff : Z) (f : wfield) : Prop :=
  let p := mread_ptr i m (obj + foff) in
  let n := mread32 m (obj + foff + 8) in
  match f with
  | FPointer ft => is_addr i p \/ wt_size ft = 0
  | FVec None => True
  | FVec (Some et) =>
    n * wt_size et < 2 ^ 31 /\ (n * wt_size et = 0 \/ is_addr i p) /\
    (forall k, 0 <= k < n -> struct_ok i m et (p + k * wt_size et))
  | FString => p = 0 \/ is_addr i p /\ n + 1 < 2 ^ 32
  end.

Lemma struct_ok_eq i m s fs obj :
  struct_ok i m (WType s fs) obj <-> Forall (fun p => field_ok i m obj (fst p) (snd p)) fs.
Proof.
  induction fs as [|[o f] fs IH].
  - split; [constructor|intros _; exact I].
  - split.
    + intros [H1 H2]. constructor; [exact H1|]. apply IH. exact H2.
    + intros H. inversion H as [|x y H1 H2]; subst. split; [exact H1|]. apply IH. exact H2.
Qed.

Lemma elems_added i (f : wdata -> Z -> Z -> res wdata) kids self size buf n : forall d k,
  (forall d j, 0 <= j < Z.of_nat (k + n) ->
     exists d1, f d (buf + j * size) (j * size) = Ok d1 /\
       forest_grown i d d1 self (kids (buf + j * size) (j * size))) ->
  0 <= size -> Z.of_nat (k + n) * size < 2 ^ 32 ->
  exists d1, w_elems f d n size (Z.of_nat k) buf = Ok d1 /\
    forest_grown i d d1 self (elems_kids kids buf size k n).
Proof.
  induction n as [|n IH]; intros d k Hf Hs Hb; cbn [w_elems].
  - exists d. split; [reflexivity|apply forest_nil].
  - replace (u32 (size * Z.of_nat k)) with (Z.of_nat k * size)
      by (rewrite u32_small by nia; lia).
    destruct (Hf d (Z.of_nat k) ltac:(lia)) as (d1 & E1 & G1). cbv zeta. rewrite E1. cbn [bind].
    destruct (IH d1 (S k)) as (d2 & E2 & G2).
    { intros d0 j Hj. apply Hf. lia. }
    { assumption. }
    { replace (S k + n)%nat with (k + S n)%nat by lia. assumption. }
    replace (Z.of_nat k + 1) with (Z.of_nat (S k)) by lia. rewrite E2.
    exists d2. split; [reflexivity|]. unfold elems_kids. cbn [seq flat_map].
    eapply forest_app; [exact G1|exact G2].
Qed.

Lemma fields_added i m t (Hm : byte_memory m) : forall d obj index offset,
  type_ok i t -> struct_ok i m t obj -> 0 <= offset -> offset + wt_size t < 2 ^ 32 ->
  exists d1, w_fields i m t d obj index offset = Ok d1 /\
    forest_grown i d d1 index (t_fields i m t obj offset).
Proof.
  induction t as [size fs IH] using wtype_ind2.
  intros d obj index offset Ht Hs Ho Hsz.
  apply type_ok_eq in Ht; destruct Ht as [Hsize Hfs]; apply struct_ok_eq in Hs.
  cbn [wt_size] in Hsz. rewrite t_fields_eq. cbn [w_fields].
  pose proof (pow_psz i) as Hpow.
  assert (Hfrom : 0 <= 0) by lia.
  revert Hfrom Hfs. generalize 0 at 2 3. intros from Hfrom Hfs.
  revert from Hfrom Hfs d; induction IH as [|[foff f] fs Hf IHF IHfs]; intros from Hfrom Hfs d.
  - exists d. split; [reflexivity|apply forest_nil].
  - inversion Hs as [|x y Hs1 Hs2]; subst x y. specialize (IHfs Hs2).
    cbn [fst snd field_ind] in Hs1, Hf. cbn [fs_type_ok] in Hfs.
    destruct Hfs as (Hf1 & Hf2 & Hf3 & Hf4).
    assert (Hfsz : 0 < field_size i f)
      by (destruct f; cbn [field_size]; pose proof (psz_pos i); lia).
    specialize (IHfs (foff + field_size i f) ltac:(lia) Hf4).
    cbv zeta. rewrite (u32_small (offset + foff)) by lia.
    cbn [fs_kids].
    assert (Hbuf : forall t1,
      (exists d1, grown i d d1 (t_emit i (blen (wd_offsets d)) (Some (mkpa index (offset + foff))) t1)
                    (t_space t1) /\ kept d d1 /\
        match f with
        | FPointer ft =>
          let* (_, d1) := w_buffer_object i d (mread_ptr i m (obj + foff)) (wt_size ft)
             (Some {| pa_index := index; pa_offset := offset + foff |}) in Ok d1
        | FVec (Some et) =>
          let* (index2, d1) := w_buffer_object i d (mread_ptr i m (obj + foff))
             (mread32 m (obj + foff + 8) * wt_size et)
             (Some {| pa_index := index; pa_offset := offset + foff |}) in
          w_elems (fun d2 a off => w_fields i m et d2 a index2 off) d1
            (Z.to_nat (mread32 m (obj + foff + 8))) (wt_size et) 0 (mread_ptr i m (obj + foff))
        | FVec None =>
          let* (_, d1) := w_buffer_object i d (mread_ptr i m (obj + foff)) 0
             (Some {| pa_index := index; pa_offset := offset + foff |}) in Ok d1
        | FString =>
          let* (_, d1) := w_buffer_object i d (mread_ptr i m (obj + foff))
             (if mread_ptr i m (obj + foff) =? 0 then 0 else u32 (mread32 m (obj + foff + 8) + 1))
             (Some {| pa_index := index; pa_offset := offset + foff |}) in Ok d1
        end = Ok d1) ->
      exists d2,
        (let* d1 := match f with
        | FPointer ft =>
          let* (_, d1) := w_buffer_object i d (mread_ptr i m (obj + foff)) (wt_size ft)
             (Some {| pa_index := index; pa_offset := offset + foff |}) in Ok d1
        | FVec (Some et) =>
          let* (index2, d1) := w_buffer_object i d (mread_ptr i m (obj + foff))
             (mread32 m (obj + foff + 8) * wt_size et)
             (Some {| pa_index := index; pa_offset := offset + foff |}) in
          w_elems (fun d2 a off => w_fields i m et d2 a index2 off) d1
            (Z.to_nat (mread32 m (obj + foff + 8))) (wt_size et) 0 (mread_ptr i m (obj + foff))
        | FVec None =>
          let* (_, d1) := w_buffer_object i d (mread_ptr i m (obj + foff)) 0
             (Some {| pa_index := index; pa_offset := offset + foff |}) in Ok d1
        | FString =>
          let* (_, d1) := w_buffer_object i d (mread_ptr i m (obj + foff))
             (if mread_ptr i m (obj + foff) =? 0 then 0 else u32 (mread32 m (obj + foff + 8) + 1))
             (Some {| pa_index := index; pa_offset := offset + foff |}) in Ok d1
        end in w_fields i m (WType size fs) d1 obj index offset) = Ok d2 /\
        forest_grown i d d2 index ((offset + foff, t1) :: fs_kids i m obj offset fs)).
    { intros t1 (d1 & G1 & K1 & E1). rewrite E1. cbn [bind].
      destruct (IHfs d1) as (d2 & E2 & G2). exists d2. split; [exact E2|].
      change ((offset + foff, t1) :: fs_kids i m obj offset fs)
        with ([(offset + foff, t1)] ++ fs_kids i m obj offset fs).
      eapply forest_app; [|exact G2]. apply forest_one; assumption. }
    assert (Hleaf : forall a l data, blen data = l -> 0 <= l < 2 ^ (8 * psz i) ->
      exists d1, grown i d d1 (t_emit i (blen (wd_offsets d)) (Some (mkpa index (offset + foff)))
                    (leaf a data)) (t_space (leaf a data)) /\ kept d d1 /\
        (let* (_, d1) := w_buffer_object i d a l
             (Some {| pa_index := index; pa_offset := offset + foff |}) in Ok d1) = Ok d1).
    { intros a l data Hl Hr.
      destruct (grown_buffer i d a l (Some (mkpa index (offset + foff))) Hr) as (d1 & E1 & G1 & K1).
      exists d1. subst l.
      destruct (tree_grown i d d1 d1 a data (Some (mkpa index (offset + foff))) [] G1 K1
                  (forest_nil _ _ _)) as [G2 K2].
      split; [exact G2|]. split; [exact K2|]. unfold mkpa in E1. rewrite E1. reflexivity. }
    apply Hbuf. clear Hbuf.
    set (p := mread_ptr i m (obj + foff)) in *. set (n := mread32 m (obj + foff + 8)) in *.
    assert (Hn : 0 <= n < 2 ^ 32) by (apply (unle_mread m _ 4); [assumption|lia]).
    destruct f as [ft|[et|]|]; cbn [field_ok] in Hs1.
    + destruct ft as [fsz ffs]. apply type_ok_eq in Hf3. destruct Hf3 as [Hf3 _]. cbn [wt_size].
      apply Hleaf; [apply blen_mread; lia|lia].
    + destruct Hs1 as (Hs3 & Hs4 & Hs5). fold p n in Hs3, Hs4, Hs5.
      assert (Hes : 0 <= wt_size et)
        by (destruct et; apply type_ok_eq in Hf3; destruct Hf3; cbn [wt_size]; lia).
      assert (Hnn : 0 <= n * wt_size et) by (apply Z.mul_nonneg_nonneg; lia).
      assert (Hjj : forall j, 0 <= j < n -> 0 <= j * wt_size et <= n * wt_size et - wt_size et).
      { intros j Hj. split; [apply Z.mul_nonneg_nonneg; lia|].
        assert (j * wt_size et <= (n - 1) * wt_size et) by (apply Z.mul_le_mono_nonneg_r; lia). lia. }
      destruct (grown_buffer i d p (n * wt_size et) (Some (mkpa index (offset + foff)))
                  ltac:(lia)) as (d1 & E1 & G1 & K1).
      unfold mkpa in E1. rewrite E1. cbn [bind].
      destruct (elems_added i (fun d2 a off => w_fields i m et d2 a (blen (wd_offsets d)) off)
        (fun a o => t_fields i m et a o) (blen (wd_offsets d)) (wt_size et) p (Z.to_nat n) d1 0%nat)
        as (d2 & E2 & G2).
      { intros d0 j Hj. pose proof (Hjj j ltac:(lia)).
        apply Hf; [exact Hf3|apply Hs5; lia|lia|lia]. }
      { exact Hes. } { cbn [Nat.add]. rewrite Z2Nat.id by lia. lia. }
      change (Z.of_nat 0) with 0 in E2. rewrite E2. exists d2.
      assert (Hbl : blen (mread m p (n * wt_size et)) = n * wt_size et) by (apply blen_mread; lia).
      rewrite <- Hbl in G1.
      destruct (tree_grown i d d1 d2 p _ _ _ G1 K1 G2) as [G3 K3].
      split; [exact G3|]. split; [exact K3|reflexivity].
    + apply Hleaf; [reflexivity|lia].
    + destruct (Z.eqb_spec p 0) as [Hp|Hp].
      * apply Hleaf; [reflexivity|lia].
      * destruct Hs1 as [Hs1|[Hs1 Hs3]]; [exfalso; apply Hp; exact Hs1|]. fold n in Hs3.
        rewrite u32_small by lia. apply Hleaf; [apply blen_mread; lia|lia].
Qed.

(* ------------------------------------------------------------------ *)
(* The trees are well formed *)

Lemma kids_ok_lo i lo lo1 hi ks : lo1 <= lo -> kids_ok i lo hi ks -> kids_ok i lo1 hi ks.
Proof. destruct ks as [|[c t] ks]; cbn [kids_ok]; [auto|]. intros H (A & B & C). split; [lia|auto]. Qed.

Lemma kids_ok_hi i hi hi1 ks : hi <= hi1 -> forall lo, kids_ok i lo hi ks -> kids_ok i lo hi1 ks.
Proof.
  intros H. induction ks as [|[c t] ks IH]; cbn [kids_ok]; [auto|].
  intros lo (A & B & C). split; [lia|]. split; [lia|]. auto.
Qed.

Lemma kids_ok_app i ks ls lo mid hi :
  kids_ok i lo mid ks -> kids_ok i mid hi ls -> lo <= mid -> mid <= hi -> kids_ok i lo hi (ks ++ ls).
Proof.
  revert lo. induction ks as [|[c t] ks IH]; cbn [kids_ok app]; intros lo H1 H2 H3 H4.
  - eapply kids_ok_lo; eauto.
  - destruct H1 as (A & B & C). split; [lia|]. split; [lia|]. apply IH; auto; lia.
Qed.

Lemma forest_ok_app i m ks ls : forest_ok i m ks -> forest_ok i m ls -> forest_ok i m (ks ++ ls).
Proof.
  induction ks as [|[c t] ks IH]; cbn [forest_ok app]; [auto|]. intros [A B] C. split; auto.
Qed.

Lemma kslots_ok_app i d ks ls : kslots_ok i d ks -> kslots_ok i d ls -> kslots_ok i d (ks ++ ls).
Proof.
  induction ks as [|[c t] ks IH]; cbn [kslots_ok app]; [auto|].
  intros (A & B & C) D. split; [exact A|]. split; [exact B|]. apply IH; assumption.
Qed.

Lemma skipn_seq n : forall k s, skipn k (seq s n) = seq (s + k) (n - k).
Proof.
  induction n as [|n IH]; intros k s; [destruct k; reflexivity|].
  destruct k as [|k]; cbn [skipn seq Nat.sub]; [rewrite Nat.add_0_r; reflexivity|].
  rewrite IH. f_equal; lia.
Qed.
Lemma firstn_seq n : forall k s, firstn k (seq s n) = seq s (Nat.min k n).
Proof.
  induction n as [|n IH]; intros k s; [destruct k; reflexivity|].
  destruct k as [|k]; cbn [firstn seq Nat.min]; [reflexivity|]. rewrite IH. reflexivity.
Qed.

Lemma seq_shift_map {A} (f : nat -> A) s n : map f (seq s n) = map (fun k => f (s + k)%nat) (seq 0 n).
Proof.
  revert s; induction n as [|n IH]; intros s; cbn [seq map]; [reflexivity|].
  rewrite Nat.add_0_r. f_equal. rewrite IH, <- seq_shift, map_map. apply map_ext.
  intros k. f_equal. lia.
Qed.

Lemma slice_mread m a n off k :
  0 <= off -> 0 <= k -> off + k <= n -> slice (mread m a n) off k = mread m (a + off) k.
Proof.
  intros H1 H2 H3. unfold slice, mread, ztake, zdrop.
  rewrite skipn_map, firstn_map, skipn_seq, firstn_seq.
  replace (Nat.min (Z.to_nat k) (Z.to_nat n - Z.to_nat off)) with (Z.to_nat k) by lia.
  rewrite seq_shift_map. apply map_ext. intros j. f_equal. lia.
Qed.

Lemma all_bytes_mread m a n : byte_memory m -> all_bytes (mread m a n).
Proof.
  intros H. unfold mread, all_bytes. apply Forall_forall. intros x Hx. apply in_map_iff in Hx.
  destruct Hx as (k & <- & _). apply H.
Qed.

Lemma mread_self m a n : mread m a (blen (mread m a n)) = mread m a n.
Proof. unfold mread, blen. rewrite map_length, seq_length, Nat2Z.id. reflexivity. Qed.

Lemma slot_mread i m a n off :
  byte_memory m -> 0 <= off -> off + psz i <= n ->
  slice (mread m a n) off (psz i) = le (psize i) (mread_ptr i m (a + off)).
Proof.
  intros Hm H1 H2. pose proof (psz_pos i). rewrite slice_mread by lia. unfold mread_ptr.
  replace (psize i) with (length (mread m (a + off) (psz i))).
  - symmetry. apply le_unle. apply all_bytes_mread; assumption.
  - unfold mread. rewrite map_length, seq_length. destruct i; reflexivity.
Qed.

(* The kids of the structure at [obj], which is [offset] bytes from the start of
   the buffer at [A] *)
Lemma fields_kids i m t (Hm : byte_memory m) : forall A L obj offset,
  type_ok i t -> struct_ok i m t obj -> obj = A + offset -> 0 <= offset ->
  offset + wt_size t <= L ->
  kids_ok i offset (offset + wt_size t) (t_fields i m t obj offset) /\
  forest_ok i m (t_fields i m t obj offset) /\
  kslots_ok i (mread m A L) (t_fields i m t obj offset).
Proof.
  induction t as [size fs IH] using wtype_ind2.
  intros A L obj offset Ht Hs Ho Ho2 HL.
  apply type_ok_eq in Ht; destruct Ht as [Hsize Hfs]; apply struct_ok_eq in Hs.
  cbn [wt_size] in *. rewrite t_fields_eq.
  pose proof (pow_psz i) as Hpow. pose proof (psz_pos i) as Hps.
  assert (Hfrom : 0 <= 0) by lia.
  enough (E : kids_ok i (offset + 0) (offset + size) (fs_kids i m obj offset fs) /\
    forest_ok i m (fs_kids i m obj offset fs) /\
    kslots_ok i (mread m A L) (fs_kids i m obj offset fs)) by (rewrite Z.add_0_r in E; exact E).
  revert Hfrom Hfs. generalize 0 at 2 3 4. intros from Hfrom Hfs.
  revert from Hfrom Hfs; induction IH as [|[foff f] fs Hf IHF IHfs]; intros from Hfrom Hfs.
  - cbn. auto.
  - inversion Hs as [|x y Hs1 Hs2]; subst x y. specialize (IHfs Hs2).
    cbn [fst snd field_ind] in Hs1, Hf. cbn [fs_type_ok] in Hfs.
    destruct Hfs as (Hf1 & Hf2 & Hf3 & Hf4).
    assert (Hfsz : psz i <= field_size i f) by (destruct f; cbn [field_size]; lia).
    destruct (IHfs (foff + field_size i f) ltac:(lia) Hf4) as (I1 & I2 & I3).
    cbn [fs_kids kids_ok forest_ok kslots_ok].
    set (p := mread_ptr i m (obj + foff)) in *. set (n := mread32 m (obj + foff + 8)) in *.
    assert (Hn : 0 <= n < 2 ^ 32) by (apply (unle_mread m _ 4); [assumption|lia]).
    assert (Hp : 0 <= p < 2 ^ (8 * psz i)) by (apply (unle_mread m _ (psz i)); [assumption|lia]).
    assert (Hslot : slice (mread m A L) (offset + foff) (psz i) = le (psize i) p).
    { rewrite slot_mread by (try assumption; lia). unfold p. do 2 f_equal. lia. }
    assert (Hleaf : forall a data, node_ok i m a data -> tree_ok i m (leaf a data)).
    { intros a data H. apply tree_ok_node. split; [exact H|]. split; exact I. }
    match goal with |- (_ /\ _ /\ ?X) /\ (?T /\ _) /\ (_ = _ /\ ?S /\ _) =>
      enough (E : T /\ S /\ t_addr match f with
          | FPointer ft => leaf p (mread m p (wt_size ft))
          | FVec (Some et) =>
              Node p (mread m p (n * wt_size et))
                (elems_kids (fun a o : Z => t_fields i m et a o) p (wt_size et) 0 (Z.to_nat n))
          | FVec None => leaf p []
          | FString => leaf p (if p =? 0 then [] else mread m p (n + 1))
          end = p) end.
    { destruct E as (E1 & E2 & E3). split.
      { split; [lia|]. split; [lia|]. eapply kids_ok_lo; [|exact I1]. lia. }
      split; [split; assumption|]. split; [rewrite E3; exact Hslot|]. split; assumption. }
    destruct f as [ft|[et|]|]; cbn [field_ok] in Hs1.
    + destruct ft as [fsz ffs]. apply type_ok_eq in Hf3. destruct Hf3 as [Hf3 _]. cbn [wt_size].
      split; [|split; [exact I|reflexivity]]. apply Hleaf. unfold node_ok.
      rewrite mread_self, blen_mread by lia. split; [reflexivity|]. split; [|lia].
      destruct Hs1 as [[Hs1 _]|Hs1]; [left; fold p in Hs1; lia|right].
      cbn [wt_size] in Hs1. rewrite Hs1. reflexivity.
    + destruct Hs1 as (Hs3 & Hs4 & Hs5). fold p n in Hs3, Hs4, Hs5.
      assert (Hes : 0 <= wt_size et)
        by (destruct et; apply type_ok_eq in Hf3; destruct Hf3; cbn [wt_size]; lia).
      assert (Hnn : 0 <= n * wt_size et) by (apply Z.mul_nonneg_nonneg; lia).
      set (L2 := n * wt_size et) in *.
      assert (Hel : forall cnt k, Z.of_nat (k + cnt) <= n ->
        kids_ok i (Z.of_nat k * wt_size et) (Z.of_nat (k + cnt) * wt_size et)
          (elems_kids (fun a o => t_fields i m et a o) p (wt_size et) k cnt) /\
        forest_ok i m (elems_kids (fun a o => t_fields i m et a o) p (wt_size et) k cnt) /\
        kslots_ok i (mread m p L2)
          (elems_kids (fun a o => t_fields i m et a o) p (wt_size et) k cnt)).
      { induction cnt as [|cnt IHc]; intros k Hk; [cbn; auto|].
        unfold elems_kids. cbn [seq flat_map].
        destruct (IHc (S k) ltac:(lia)) as (J1 & J2 & J3).
        assert (M1 : (Z.of_nat k + 1) * wt_size et <= L2)
          by (apply Z.mul_le_mono_nonneg_r; lia).
        assert (M2 : 0 <= Z.of_nat k * wt_size et) by (apply Z.mul_nonneg_nonneg; lia).
        destruct (Hf p L2 (p + Z.of_nat k * wt_size et) (Z.of_nat k * wt_size et) Hf3)
          as (Q1 & Q2 & Q3); [apply Hs5; lia|reflexivity|exact M2|lia|].
        split; [|split].
        - replace (k + S cnt)%nat with (S k + cnt)%nat by lia.
          eapply kids_ok_app; [exact Q1| | lia|].
          + replace (Z.of_nat k * wt_size et + wt_size et) with (Z.of_nat (S k) * wt_size et) by lia.
            exact J1.
          + replace (Z.of_nat k * wt_size et + wt_size et) with (Z.of_nat (S k) * wt_size et) by lia.
            apply Z.mul_le_mono_nonneg_r; lia.
        - apply forest_ok_app; assumption.
        - apply kslots_ok_app; assumption. }
      destruct (Hel (Z.to_nat n) 0%nat ltac:(lia)) as (J1 & J2 & J3).
      replace (Z.of_nat (0 + Z.to_nat n) * wt_size et) with L2 in J1 by (unfold L2; f_equal; lia).
      change (Z.of_nat 0 * wt_size et) with 0 in J1.
      split; [|split; [|reflexivity]].
      * apply tree_ok_node. split; [|split; [|exact J2]].
        -- unfold node_ok. rewrite mread_self, blen_mread by lia. split; [reflexivity|].
           split; [|lia]. destruct Hs4 as [Hs4|[Hs4 _]]; [right; rewrite Hs4; reflexivity|left; lia].
        -- rewrite blen_mread by lia. exact J1.
      * apply slots_ok_node. exact J3.
    + split; [|split; [exact I|reflexivity]]. apply Hleaf. unfold node_ok.
      split; [reflexivity|]. split; [right; reflexivity|]. rewrite blen_nil. lia.
    + split; [|split; [exact I|destruct (p =? 0); reflexivity]]. apply Hleaf.
      destruct (Z.eqb_spec p 0) as [Hp0|Hp0].
      * unfold node_ok. split; [reflexivity|]. split; [right; reflexivity|]. rewrite blen_nil. lia.
      * destruct Hs1 as [Hs1|[Hs1 Hs3]]; [exfalso; apply Hp0; exact Hs1|]. fold n in Hs3.
        unfold node_ok. rewrite mread_self, blen_mread by lia. split; [reflexivity|].
        split; [left; assumption|lia].
Qed.
