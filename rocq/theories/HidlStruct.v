(* The receiver's copy of a structure is the same as the original *)
From Verif Require Import Base BaseLemmas UtfModel WriterModel ReaderModel CodecSpec
  CodecProofs CodecSafety ObjModel ObjReader KernelModel ObjSpec ObjProofs ObjInvariant
  TreeProofs PieceProofs HidlSpec HidlWriter HidlOps HidlPlaced.

Lemma f_reloc_app base ks ls : forall pos,
  f_reloc base pos (ks ++ ls) = f_reloc base pos ks ++ f_reloc base (pos + f_space ks) ls.
Proof.
  induction ks as [|[c t] ks IH]; intros pos; cbn [f_reloc f_space app].
  - f_equal; lia.
  - rewrite IH. do 3 f_equal. lia.
Qed.

Lemma placed_kids_app i g a ks ls :
  placed_kids i g a (ks ++ ls) <-> placed_kids i g a ks /\ placed_kids i g a ls.
Proof.
  induction ks as [|[c t] ks IH]; cbn [placed_kids app]; tauto.
Qed.

Lemma f_reloc_in base ks : forall pos c t,
  In (c, t) (f_reloc base pos ks) -> exists t1, In (c, t1) ks.
Proof.
  induction ks as [|[c1 t1] ks IH]; intros pos c t H; cbn [f_reloc] in H; [destruct H|].
  destruct H as [E|H].
  - injection E as -> _. exists t1. left; reflexivity.
  - destruct (IH _ _ _ H) as [t2 H2]. exists t2. right; exact H2.
Qed.

Lemma elems_placed i g A base f p sz cnt : forall k0 q,
  placed_kids i g A (f_reloc base q (elems_kids f p sz k0 cnt)) ->
  forall k, (k0 <= k < k0 + cnt)%nat ->
  exists q1, placed_kids i g A (f_reloc base q1 (f (p + Z.of_nat k * sz) (Z.of_nat k * sz))).
Proof.
  induction cnt as [|cnt IH]; intros k0 q H k Hk; [lia|].
  unfold elems_kids in H. cbn [seq flat_map] in H. rewrite f_reloc_app in H.
  apply placed_kids_app in H. destruct H as [H1 H2].
  destruct (Nat.eq_dec k k0) as [->|Hne]; [eauto|].
  apply (IH (S k0) _ H2). lia.
Qed.

Lemma fs_kids_in i m obj off fs c t :
  In (c, t) (fs_kids i m obj off fs) -> exists foff f, In (foff, f) fs /\ c = off + foff.
Proof.
  induction fs as [|[foff f] fs IH]; cbn [fs_kids]; [intros []|]. cbv zeta. intros [E|H].
  - injection E as <- _. exists foff, f. split; [left; reflexivity|reflexivity].
  - destruct (IH H) as (o & f1 & H1 & H2). exists o, f1. split; [right; exact H1|exact H2].
Qed.

Lemma fs_type_in i size fs : forall from foff f,
  fs_type_ok i size from fs -> In (foff, f) fs ->
  from <= foff /\ foff + field_size i f <= size.
Proof.
  induction fs as [|[o f1] fs IH]; intros from foff f H Hin; [destruct Hin|].
  cbn [fs_type_ok] in H. destruct H as (H1 & H2 & _ & H4).
  assert (0 < field_size i f1) by (destruct f1; cbn [field_size]; pose proof (psz_pos i); lia).
  destruct Hin as [E|Hin]; [injection E as -> ->; lia|].
  pose proof (IH _ _ _ H4 Hin). lia.
Qed.

Definition fs_same (i : io) (m : memory) (g : message) (a b : Z) : list (Z * wfield) -> Prop :=
  fix go (fs : list (Z * wfield)) : Prop :=
    match fs with
    | [] => True
    | (foff, f) :: r =>
      let pa := mread_ptr i m (a + foff) in
      let pb := mread_ptr i (gmem g) (b + foff) in
      let n := mread32 m (a + foff + 8) in
      match f with
      | FPointer ft =>
        in_message g pb (wt_size ft) /\
        mread (gmem g) pb (wt_size ft) = mread m pa (wt_size ft)
      | FVec None => in_message g pb 0
      | FVec (Some et) =>
        forall k, 0 <= k < n ->
          same_struct i m g et (pa + k * wt_size et) (pb + k * wt_size et)
      | FString =>
        if pa =? 0 then in_message g pb 0
        else in_message g pb (n + 1) /\ mread (gmem g) pb (n + 1) = mread m pa (n + 1)
      end /\ go r
    end.
Lemma same_struct_eq i m g size fs a b :
  same_struct i m g (WType size fs) a b <->
  in_message g b size /\
  (forall j, 0 <= j < size -> ~ in_slot i fs j -> gmem g (b + j) = m (a + j)) /\
  fs_same i m g a b fs.
Proof. reflexivity. Qed.

Definition low_message (i : io) (g : message) : Prop :=
  0 <= m_sgbase g /\ m_sgbase g + blen (m_sg g) < 2 ^ (8 * psz i).

Lemma slot_ptr i g a t :
  low_message i g -> mread (gmem g) a (psz i) = le (psize i) (t_addr t) -> placed i g t ->
  mread_ptr i (gmem g) a = t_addr t.
Proof.
  intros [L1 L2] H Hp. unfold mread_ptr. rewrite H, unle_lep. unfold usz. apply Z.mod_small.
  destruct t as [x d ks]. apply placed_node in Hp. destruct Hp as ((H1 & H2 & H3) & _).
  cbn [t_addr]. lia.
Qed.

(* Elements of a vector, whose fields are copied one by one *)
Lemma elems_same i m g et base q addr p n :
  (forall obj b off pos a,
     type_ok i et -> struct_ok i m et obj -> in_message g b (wt_size et) ->
     (forall j, 0 <= j < wt_size et -> ~ in_slot i (wt_fields et) j -> gmem g (b + j) = m (obj + j)) ->
     b = a + off -> placed_kids i g a (f_reloc base pos (t_fields i m et obj off)) ->
     same_struct i m g et obj b) ->
  type_ok i et -> 0 <= n ->
  (forall k, 0 <= k < n -> struct_ok i m et (p + k * wt_size et)) ->
  placed i g (Node addr (mread m p (n * wt_size et))
    (f_reloc base q (elems_kids (fun a o => t_fields i m et a o) p (wt_size et) 0 (Z.to_nat n)))) ->
  forall k, 0 <= k < n -> same_struct i m g et (p + k * wt_size et) (addr + k * wt_size et).
Proof.
  intros Hf Ht Hn Hs Hp k Hk. pose proof (psz_pos i) as Hps.
  assert (Hes : 0 <= wt_size et)
    by (destruct et; apply type_ok_eq in Ht; destruct Ht; cbn [wt_size]; lia).
  assert (Hnn : 0 <= n * wt_size et) by (apply Z.mul_nonneg_nonneg; lia).
  assert (Hkk : 0 <= k * wt_size et) by (apply Z.mul_nonneg_nonneg; lia).
  assert (Hkn : k * wt_size et <= n * wt_size et - wt_size et).
  { assert (k * wt_size et <= (n - 1) * wt_size et) by (apply Z.mul_le_mono_nonneg_r; lia). lia. }
  destruct (proj1 (placed_node _ _ _ _ _) Hp) as (P1 & P2 & P3). rewrite blen_mread in P1, P2 by lia.
  destruct (elems_placed i g addr base _ p (wt_size et) (Z.to_nat n) 0 q P3 (Z.to_nat k) ltac:(lia))
    as [q1 Q1].
  rewrite Z2Nat.id in Q1 by lia.
  eapply Hf with (a := addr) (off := k * wt_size et); [exact Ht|apply Hs; exact Hk| | |reflexivity|exact Q1].
  - eapply in_message_sub; [exact P1|lia..].
  - intros j Hj Hslot. rewrite <- Z.add_assoc, P2.
    + rewrite zn_mread by lia. f_equal. lia.
    + lia.
    + intros c t1 Hin Hr. apply f_reloc_in in Hin. destruct Hin as [t2 Hin].
      unfold elems_kids in Hin. apply in_flat_map in Hin. destruct Hin as (k2 & Hk2 & Hin).
      apply in_seq in Hk2. destruct et as [sz fs]. rewrite t_fields_eq in Hin. cbn [wt_size wt_fields] in *.
      apply fs_kids_in in Hin. destruct Hin as (foff & f & Hin & ->).
      apply type_ok_eq in Ht. destruct Ht as [_ Ht].
      destruct (fs_type_in i sz fs 0 foff f Ht Hin) as [F1 F2].
      assert (psz i <= field_size i f) by (destruct f; cbn [field_size]; lia).
      destruct (Z.lt_trichotomy (Z.of_nat k2) k) as [H1|[H1|H1]].
      * assert ((Z.of_nat k2 + 1) * sz <= k * sz) by (apply Z.mul_le_mono_nonneg_r; lia). lia.
      * apply Hslot. exists foff, f. split; [exact Hin|]. rewrite <- H1 in Hr. lia.
      * assert ((k + 1) * sz <= Z.of_nat k2 * sz) by (apply Z.mul_le_mono_nonneg_r; lia). lia.
Qed.

Lemma fields_same i m g t base (Hm : byte_memory m) (Hlow : low_message i g) : forall obj b off pos a,
  type_ok i t -> struct_ok i m t obj -> in_message g b (wt_size t) ->
  (forall j, 0 <= j < wt_size t -> ~ in_slot i (wt_fields t) j -> gmem g (b + j) = m (obj + j)) ->
  b = a + off -> placed_kids i g a (f_reloc base pos (t_fields i m t obj off)) ->
  same_struct i m g t obj b.
Proof.
  induction t as [size fs IH] using wtype_ind2.
  intros obj b off pos a Ht Hs Hin Ho Hb Hp.
  apply same_struct_eq. cbn [wt_size wt_fields] in *. split; [exact Hin|]. split; [exact Ho|].
  apply type_ok_eq in Ht. destruct Ht as [Hsize Hfs]. apply struct_ok_eq in Hs.
  rewrite t_fields_eq in Hp. clear Ho Hin.
  revert Hfs. generalize 0 at 1. intros from Hfs. revert from pos Hfs Hp.
  induction IH as [|[foff f] fs Hf IHF IHfs]; intros from pos Hfs Hp; [exact I|].
  inversion Hs as [|x y Hs1 Hs2]; subst x y. specialize (IHfs Hs2).
  cbn [fst snd field_ind] in Hs1, Hf. cbn [fs_type_ok] in Hfs. destruct Hfs as (Hf1 & Hf2 & Hf3 & Hf4).
  cbn [fs_kids f_reloc placed_kids] in Hp. destruct Hp as (P1 & P2 & P3).
  cbn [fs_same]. cbv zeta. split; [|eapply IHfs; [exact Hf4|exact P3]].
  replace (a + (off + foff)) with (b + foff) in P1 by lia.
  pose proof (slot_ptr i g _ _ Hlow P1 P2) as Eptr. rewrite Eptr.
  set (p := mread_ptr i m (obj + foff)) in *. set (n := mread32 m (obj + foff + 8)) in *.
  assert (Hn : 0 <= n < 2 ^ 32) by (apply (unle_mread m _ 4); [assumption|lia]).
  destruct f as [ft|[et|]|]; cbn [field_ok] in Hs1.
  - assert (Hes : 0 <= wt_size ft)
      by (destruct ft; apply type_ok_eq in Hf3; destruct Hf3; cbn [wt_size]; lia).
    apply (placed_leaf i g) in P2. rewrite blen_mread in P2 by lia. cbn [leaf t_reloc t_addr] in *.
    exact P2.
  - destruct Hs1 as (Hs3 & Hs4 & Hs5). fold p n in Hs3, Hs4, Hs5.
    rewrite t_reloc_node in P2. cbn [t_reloc t_addr] in *.
    intros k Hk. eapply elems_same; eauto. lia.
  - apply (placed_leaf i g) in P2. exact (proj1 P2).
  - destruct (Z.eqb_spec p 0) as [E|E].
    + apply (placed_leaf i g) in P2. exact (proj1 P2).
    + apply (placed_leaf i g) in P2. rewrite blen_mread in P2 by lia. exact P2.
Qed.

(* The number of buffers *)
Lemma f_count_flat_map {A} (f : A -> list (Z * tree)) l :
  f_count (flat_map f l) = list_sum (map (fun x => f_count (f x)) l).
Proof.
  induction l as [|x l IH]; cbn [flat_map map]; [reflexivity|].
  rewrite f_count_app, IH. reflexivity.
Qed.
Lemma length_flat_map {A B} (f : A -> list B) l :
  length (flat_map f l) = list_sum (map (fun x => length (f x)) l).
Proof.
  induction l as [|x l IH]; cbn [flat_map map]; [reflexivity|]. rewrite app_length, IH. reflexivity.
Qed.

Lemma elems_count i m et p n :
  (forall obj off, type_ok i et -> struct_ok i m et obj ->
     length (fields_wants i m et obj) = f_count (t_fields i m et obj off)) ->
  type_ok i et -> 0 <= n -> n * wt_size et < 2 ^ 32 ->
  (forall k, 0 <= k < n -> struct_ok i m et (p + k * wt_size et)) ->
  length (flat_map (fun k => fields_wants i m et (p + u32 (wt_size et * Z.of_nat k)))
            (seq 0 (Z.to_nat n))) =
  f_count (elems_kids (fun a o => t_fields i m et a o) p (wt_size et) 0 (Z.to_nat n)).
Proof.
  intros Hf Ht Hn Hsz Hs. unfold elems_kids. rewrite f_count_flat_map, length_flat_map.
  f_equal. apply map_ext_in. intros k Hk. apply in_seq in Hk.
  assert (Hes : 0 <= wt_size et)
    by (destruct et; apply type_ok_eq in Ht; destruct Ht; cbn [wt_size]; lia).
  assert (H0 : 0 <= Z.of_nat k * wt_size et) by (apply Z.mul_nonneg_nonneg; lia).
  assert (H1 : Z.of_nat k * wt_size et <= n * wt_size et) by (apply Z.mul_le_mono_nonneg_r; lia).
  rewrite (Z.mul_comm (wt_size et)). rewrite u32_small by lia.
  apply Hf; [exact Ht|]. apply Hs. lia.
Qed.

Lemma wants_count i m t (Hm : byte_memory m) : forall obj off,
  type_ok i t -> struct_ok i m t obj ->
  length (fields_wants i m t obj) = f_count (t_fields i m t obj off).
Proof.
  induction t as [size fs IH] using wtype_ind2. intros obj off Ht Hs.
  rewrite t_fields_eq. cbn [fields_wants].
  apply type_ok_eq in Ht. destruct Ht as [Hsize Hfs]. apply struct_ok_eq in Hs.
  revert Hfs. generalize 0 at 1. intros from Hfs. revert from Hfs.
  induction IH as [|[foff f] fs Hf IHF IHfs]; intros from Hfs; [reflexivity|].
  inversion Hs as [|x y Hs1 Hs2]; subst x y. specialize (IHfs Hs2).
  cbn [fst snd field_ind] in Hs1, Hf. cbn [fs_type_ok] in Hfs. destruct Hfs as (Hf1 & Hf2 & Hf3 & Hf4).
  cbn [fs_kids f_count]. cbv zeta. rewrite app_length. rewrite (IHfs _ Hf4). f_equal.
  set (p := mread_ptr i m (obj + foff)) in *. set (n := mread32 m (obj + foff + 8)) in *.
  assert (Hn : 0 <= n < 2 ^ 32) by (apply (unle_mread m _ 4); [assumption|lia]).
  destruct f as [ft|[et|]|]; cbn [field_ok] in Hs1; try reflexivity.
  destruct Hs1 as (Hs3 & Hs4 & Hs5). fold p n in Hs3, Hs4, Hs5.
  rewrite t_count_node. cbn [length]. f_equal.
  apply elems_count; auto; lia.
Qed.
