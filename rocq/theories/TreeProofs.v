(* Trees of buffers. Every HIDL value is written as a tree of buffer objects, in
   preorder; this file shows what the driver makes of such a tree. *)
From Verif Require Import Base BaseLemmas UtfModel WriterModel ReaderModel CodecSpec
  CodecProofs CodecSafety ObjModel ObjReader KernelModel ObjSpec ObjProofs.

(* A buffer: its address in the sender, its contents, and the buffers it points
   to, each with the offset of the pointer *)
Inductive tree : Type := Node (addr : Z) (data : bytes) (kids : list (Z * tree)).

Definition t_addr (t : tree) : Z := match t with Node a _ _ => a end.
Definition t_data (t : tree) : bytes := match t with Node _ d _ => d end.
Definition t_kids (t : tree) : list (Z * tree) := match t with Node _ _ k => k end.

Section TreeInd.
  Variable P : tree -> Prop.
  Hypothesis H : forall a d ks, Forall (fun p => P (snd p)) ks -> P (Node a d ks).
  Fixpoint tree_ind2 (t : tree) : P t :=
    match t with
    | Node a d ks =>
      H a d ks ((fix go (l : list (Z * tree)) : Forall (fun p => P (snd p)) l :=
                   match l with
                   | [] => Forall_nil _
                   | (o, t1) :: r => Forall_cons (o, t1) (tree_ind2 t1) (go r)
                   end) ks)
    end.
End TreeInd.

(* Number of buffers and the space they need *)
Fixpoint t_count (t : tree) : nat :=
  match t with
  | Node _ _ ks =>
    S ((fix go (l : list (Z * tree)) : nat :=
          match l with [] => O | (_, t1) :: r => (t_count t1 + go r)%nat end) ks)
  end.
Fixpoint f_count (ks : list (Z * tree)) : nat :=
  match ks with [] => O | (_, t) :: r => (t_count t + f_count r)%nat end.

Fixpoint t_space (t : tree) : Z :=
  match t with
  | Node _ d ks =>
    align8 (blen d) +
    (fix go (l : list (Z * tree)) : Z :=
       match l with [] => 0 | (_, t1) :: r => t_space t1 + go r end) ks
  end.
Fixpoint f_space (ks : list (Z * tree)) : Z :=
  match ks with [] => 0 | (_, t) :: r => t_space t + f_space r end.

Lemma t_count_node a d ks : t_count (Node a d ks) = S (f_count ks).
Proof. reflexivity. Qed.
Lemma t_space_node a d ks : t_space (Node a d ks) = align8 (blen d) + f_space ks.
Proof. reflexivity. Qed.

Definition mkpa (idx off : Z) : parent := {| pa_index := idx; pa_offset := off |}.

(* The objects, in the order in which they are written. [reloc] gives the
   address to put into the object: of the sender or of the receiver *)
Section Emit.
  Variable i : io.
  (* objects of the kids of the buffer number [self], the first of them has
     number [next] *)
  Fixpoint t_emit (next : Z) (pa : option parent) (t : tree) : list bytes :=
    match t with
    | Node a d ks =>
      buffer_image i a (blen d) pa ::
      (fix go (n : Z) (l : list (Z * tree)) : list bytes :=
         match l with
         | [] => []
         | (c, t1) :: r =>
           t_emit n (Some (mkpa next c)) t1 ++ go (n + Z.of_nat (t_count t1)) r
         end) (next + 1) ks
    end.
  Definition f_emit (self : Z) : Z -> list (Z * tree) -> list bytes :=
    fix go (n : Z) (ks : list (Z * tree)) : list bytes :=
    match ks with
    | [] => []
    | (c, t1) :: r =>
      t_emit n (Some (mkpa self c)) t1 ++ go (n + Z.of_nat (t_count t1)) r
    end.
  Lemma t_emit_node next pa a d ks :
    t_emit next pa (Node a d ks) =
    buffer_image i a (blen d) pa :: f_emit next (next + 1) ks.
  Proof. reflexivity. Qed.
End Emit.

(* The copy in the receiver: the address of the first free byte is base + pos *)
Fixpoint f_patch (i : io) (base pos : Z) (buf : bytes) (pp : Z) (ks : list (Z * tree))
  : bytes :=
  match ks with
  | [] => buf
  | (c, t) :: r =>
    f_patch i base (pos + t_space t) (poke buf (pp + c) (le (psize i) (base + pos))) pp r
  end.

Fixpoint t_image (i : io) (base pos : Z) (t : tree) : bytes :=
  match t with
  | Node a d ks =>
    f_patch i base (pos + align8 (blen d)) (k_pad8 d) 0 ks ++
    (fix go (p : Z) (l : list (Z * tree)) : bytes :=
       match l with
       | [] => []
       | (_, t1) :: r => t_image i base p t1 ++ go (p + t_space t1) r
       end) (pos + align8 (blen d)) ks
  end.
Definition f_image (i : io) (base : Z) : Z -> list (Z * tree) -> bytes :=
  fix go (pos : Z) (ks : list (Z * tree)) : bytes :=
  match ks with
  | [] => []
  | (_, t1) :: r => t_image i base pos t1 ++ go (pos + t_space t1) r
  end.
Lemma t_image_node i base pos a d ks :
  t_image i base pos (Node a d ks) =
  f_patch i base (pos + align8 (blen d)) (k_pad8 d) 0 ks ++
  f_image i base (pos + align8 (blen d)) ks.
Proof. reflexivity. Qed.

(* The same tree with the addresses of the receiver *)
Fixpoint t_reloc (base pos : Z) (t : tree) : tree :=
  match t with
  | Node a d ks =>
    Node (base + pos) d
      ((fix go (p : Z) (l : list (Z * tree)) : list (Z * tree) :=
          match l with
          | [] => []
          | (c, t1) :: r => (c, t_reloc base p t1) :: go (p + t_space t1) r
          end) (pos + align8 (blen d)) ks)
  end.
Definition f_reloc (base : Z) : Z -> list (Z * tree) -> list (Z * tree) :=
  fix go (pos : Z) (ks : list (Z * tree)) : list (Z * tree) :=
  match ks with
  | [] => []
  | (c, t1) :: r => (c, t_reloc base pos t1) :: go (pos + t_space t1) r
  end.
Lemma t_reloc_node base pos a d ks :
  t_reloc base pos (Node a d ks) =
  Node (base + pos) d (f_reloc base (pos + align8 (blen d)) ks).
Proof. reflexivity. Qed.

(* Kids are sorted by the offset of the pointer, pointers don't overlap and are
   inside of the buffer *)
Fixpoint kids_ok (i : io) (m len : Z) (ks : list (Z * tree)) : Prop :=
  match ks with
  | [] => True
  | (c, _) :: r => m <= c /\ c + psz i <= len /\ kids_ok i (c + psz i) len r
  end.

Fixpoint last_min (i : io) (m : Z) (ks : list (Z * tree)) : Z :=
  match ks with [] => m | (c, _) :: r => last_min i (c + psz i) r end.

(* The contents of the buffer at the address are where they should be *)
Definition node_ok (i : io) (m : memory) (a : Z) (d : bytes) : Prop :=
  mread m a (blen d) = d /\ (a <> 0 \/ d = []) /\
  0 <= a < 2 ^ (8 * psz i) /\ blen d < 2 ^ (8 * psz i).

Fixpoint tree_ok (i : io) (m : memory) (t : tree) : Prop :=
  match t with
  | Node a d ks =>
    node_ok i m a d /\ kids_ok i 0 (blen d) ks /\
    (fix go (l : list (Z * tree)) : Prop :=
       match l with [] => True | (_, t1) :: r => tree_ok i m t1 /\ go r end) ks
  end.
Definition forest_ok (i : io) (m : memory) : list (Z * tree) -> Prop :=
  fix go (ks : list (Z * tree)) : Prop :=
  match ks with [] => True | (_, t1) :: r => tree_ok i m t1 /\ go r end.
Lemma tree_ok_node i m a d ks :
  tree_ok i m (Node a d ks) <->
  node_ok i m a d /\ kids_ok i 0 (blen d) ks /\ forest_ok i m ks.
Proof. reflexivity. Qed.

(* ------------------------------------------------------------------ *)
(* Lengths *)

Lemma blen_pad8 l : blen (k_pad8 l) = align8 (blen l).
Proof.
  unfold k_pad8. rewrite blen_app, blen_zrepeat. pose proof (align8_spec (blen l)). lia.
Qed.

Lemma blen_concat_emit_t i t : forall next pa,
  blen (concat (t_emit i next pa t)) = Z.of_nat (t_count t) * ptr_size i /\
  length (t_emit i next pa t) = t_count t.
Proof.
  induction t as [a d ks IH] using tree_ind2. intros next pa.
  rewrite t_emit_node, t_count_node. cbn [concat length].
  assert (F : forall n, blen (concat (f_emit i next n ks)) = Z.of_nat (f_count ks) * ptr_size i /\
                        length (f_emit i next n ks) = f_count ks).
  { induction IH as [|[c t1] ks Ht Hks IHks]; intros n; cbn [f_emit f_count concat].
    - split; reflexivity.
    - cbn [snd] in Ht. rewrite concat_app, app_length, blen_app.
      destruct (Ht n (Some (mkpa next c))) as [-> ->].
      destruct (IHks (n + Z.of_nat (t_count t1))) as [-> ->]. split; lia. }
  destruct (F (next + 1)) as [E1 E2]. rewrite blen_app, blen_buffer, E1, E2. split; lia.
Qed.

Lemma f_emit_len i ks : forall self n,
  blen (concat (f_emit i self n ks)) = Z.of_nat (f_count ks) * ptr_size i /\
  length (f_emit i self n ks) = f_count ks.
Proof.
  induction ks as [|[c t1] ks IH]; intros self n; cbn [f_emit f_count concat].
  - split; reflexivity.
  - rewrite concat_app, app_length, blen_app.
    destruct (blen_concat_emit_t i t1 n (Some (mkpa self c))) as [-> ->].
    destruct (IH self (n + Z.of_nat (t_count t1))) as [-> ->]. split; lia.
Qed.

Lemma t_space_nonneg t : 0 <= t_space t /\ t_space t mod 8 = 0.
Proof.
  induction t as [a d ks IH] using tree_ind2. rewrite t_space_node.
  pose proof (align8_spec (blen d)). pose proof (blen_nonneg _ d).
  assert (F : 0 <= f_space ks /\ f_space ks mod 8 = 0).
  { induction IH as [|[c t1] ks Ht Hks IHks]; cbn [f_space]; [split; reflexivity|].
    cbn [snd] in Ht. lia. }
  lia.
Qed.

Lemma f_space_nonneg ks : 0 <= f_space ks.
Proof.
  induction ks as [|[c t1] ks IH]; cbn [f_space]; [lia|].
  pose proof (t_space_nonneg t1). lia.
Qed.

Lemma blen_poke_in (buf s : bytes) off :
  0 <= off -> off + blen s <= blen buf -> blen (poke buf off s) = blen buf.
Proof. intros. rewrite blen_poke; lia. Qed.

Lemma f_patch_len i base ks : forall pos buf pp m len,
  kids_ok i m len ks -> 0 <= m -> 0 <= pp -> pp + len <= blen buf ->
  blen (f_patch i base pos buf pp ks) = blen buf.
Proof.
  induction ks as [|[c t1] ks IH]; intros pos buf pp m len Hk Hm Hp Hl; cbn [f_patch kids_ok] in *;
    [reflexivity|].
  destruct Hk as (H1 & H2 & H3).
  pose proof (psz_pos i).
  assert (E : blen (poke buf (pp + c) (le (psize i) (base + pos))) = blen buf).
  { apply blen_poke_in; rewrite ?blen_le, ?psize_psz; lia. }
  erewrite IH; [exact E|exact H3| lia| lia|rewrite E; lia].
Qed.

Lemma t_image_len i base t : forall pos m, tree_ok i m t -> blen (t_image i base pos t) = t_space t.
Proof.
  induction t as [a d ks IH] using tree_ind2. intros pos m Hok.
  apply tree_ok_node in Hok. destruct Hok as (Hn & Hk & Hf).
  rewrite t_image_node, t_space_node, blen_app.
  pose proof (align8_spec (blen d)).
  erewrite f_patch_len by (first [exact Hk|lia|rewrite blen_pad8; lia]).
  rewrite blen_pad8. f_equal.
  generalize (pos + align8 (blen d)). clear Hk.
  induction IH as [|[c t1] ks Ht Hks IHks]; intros q; cbn [f_image f_space forest_ok] in *;
    [reflexivity|]. cbn [snd] in Ht. destruct Hf as [Hf1 Hf2].
  rewrite blen_app. erewrite Ht by exact Hf1. rewrite IHks by assumption. reflexivity.
Qed.

(* ------------------------------------------------------------------ *)
(* Patching part of a longer sequence of bytes *)

Lemma poke_app_r {A} (l b s : list A) off :
  blen l <= off -> poke (l ++ b) off s = l ++ poke b (off - blen l) s.
Proof.
  intros H. pose proof (blen_nonneg _ s). unfold poke.
  rewrite ztake_app_r by lia. rewrite zdrop_app_r by lia.
  rewrite <- app_assoc. do 3 f_equal. f_equal; lia.
Qed.

Lemma poke_app_l {A} (b r s : list A) off :
  off + blen s <= blen b -> poke (b ++ r) off s = poke b off s ++ r.
Proof.
  intros H. pose proof (blen_nonneg _ s). unfold poke.
  rewrite ztake_app_l by lia. rewrite zdrop_app_l by lia. rewrite !app_assoc. reflexivity.
Qed.

Lemma f_patch_app_r i base ks : forall l b pos pp m len,
  kids_ok i m len ks -> 0 <= m -> blen l <= pp ->
  f_patch i base pos (l ++ b) pp ks = l ++ f_patch i base pos b (pp - blen l) ks.
Proof.
  induction ks as [|[c t1] ks IH]; intros l b pos pp m len Hk Hm Hl; cbn [f_patch kids_ok] in *;
    [reflexivity|].
  destruct Hk as (H1 & H2 & H3). pose proof (psz_pos i).
  rewrite poke_app_r by lia. erewrite IH by (first [exact H3|lia]).
  replace (pp + c - blen l) with (pp - blen l + c) by lia. reflexivity.
Qed.

Lemma f_patch_app_l i base ks : forall b r pos pp m len,
  kids_ok i m len ks -> 0 <= m -> 0 <= pp -> pp + len <= blen b ->
  f_patch i base pos (b ++ r) pp ks = f_patch i base pos b pp ks ++ r.
Proof.
  induction ks as [|[c t1] ks IH]; intros b r pos pp m len Hk Hm Hp Hl; cbn [f_patch kids_ok] in *;
    [reflexivity|].
  destruct Hk as (H1 & H2 & H3). pose proof (psz_pos i).
  assert (Es : blen (le (psize i) (base + pos)) = psz i) by (rewrite blen_le, psize_psz; reflexivity).
  rewrite poke_app_l by (rewrite Es; lia).
  eapply IH; [exact H3|lia|lia|]. rewrite blen_poke_in by (rewrite ?Es; lia). lia.
Qed.

(* ------------------------------------------------------------------ *)
(* The driver *)

Section Driver.
  Variable e : kenv.
  Variable offsets : list Z.
  Variable bufsize : Z.
  Let i := k_io e.
  Let base := k_sgbase e.

  (* Offsets increase, so that an offset identifies an object *)
  Hypothesis offsets_inj : forall j k o,
    nth_error offsets j = Some o -> nth_error offsets k = Some o -> j = k.
  Hypothesis base_pos : 0 < base.
  Hypothesis base_top : base + align8 bufsize < 2 ^ (8 * psz i).
  Hypothesis offsets_few : blen offsets < 2 ^ 31.

  (* A buffer object which has been translated already *)
  Definition known (s : kstate) (k : nat) (o : Z) (r : kptr) : Prop :=
    nth_error offsets k = Some o /\ 0 <= o /\ o + ptr_size i <= ks_min s /\
    k_type (ks_data s) o = TYPE_PTR /\ k_ptr i (ks_data s) o = r.

  (* The way up from buffer k (where the smallest allowed offset is m) to its
     ancestor t (where it is mt) *)
  Inductive walk (s : kstate) : nat -> Z -> nat -> Z -> Prop :=
  | walk_here k m : walk s k m k m
  | walk_up k m o r p t mt :
      known s k o r -> kp_has_parent r = true -> kp_parent r = Z.of_nat p ->
      (p < k)%nat -> k <> t -> walk s p (kp_poff r + psz i) t mt -> walk s k m t mt.

  (* Later steps only change what follows *)
  Definition keeps (s s1 : kstate) : Prop :=
    ks_min s <= ks_min s1 /\ blen (ks_data s1) = blen (ks_data s) /\
    ztake (ks_min s) (ks_data s1) = ztake (ks_min s) (ks_data s).

  Lemma kfield_ztake b n off l :
    0 <= off -> off + l <= n -> kfield b off l = kfield (ztake n b) off l.
  Proof.
    intros H0 H1. destruct (Z.leb_spec l 0).
    - unfold kfield, slice. rewrite !(ztake_neg _ _ l) by lia. reflexivity.
    - unfold kfield, slice, ztake, zdrop. f_equal.
      rewrite firstn_skipn_comm. rewrite firstn_skipn_comm. rewrite firstn_firstn.
      do 2 f_equal. lia.
  Qed.

  Lemma keeps_field s s1 off l :
    keeps s s1 -> 0 <= off -> off + l <= ks_min s ->
    kfield (ks_data s1) off l = kfield (ks_data s) off l.
  Proof.
    intros (_ & _ & E) H0 H1.
    rewrite (kfield_ztake (ks_data s1) (ks_min s)), (kfield_ztake (ks_data s) (ks_min s)) by lia.
    rewrite E; reflexivity.
  Qed.

  Lemma keeps_refl s : keeps s s.
  Proof. unfold keeps; repeat split; lia. Qed.

  Lemma keeps_trans s1 s2 s3 : keeps s1 s2 -> keeps s2 s3 -> keeps s1 s3.
  Proof.
    intros (A1 & A2 & A3) (B1 & B2 & B3). unfold keeps. split; [lia|]. split; [lia|].
    rewrite <- A3. replace (ks_min s1) with (Z.min (ks_min s1) (ks_min s2)) by lia.
    unfold ztake in *. destruct (Z.leb_spec 0 (ks_min s1)).
    - replace (Z.to_nat (Z.min (ks_min s1) (ks_min s2)))
        with (Nat.min (Z.to_nat (ks_min s1)) (Z.to_nat (ks_min s2))) by lia.
      rewrite <- !firstn_firstn. rewrite B3. reflexivity.
    - replace (Z.to_nat (Z.min (ks_min s1) (ks_min s2))) with O by lia. reflexivity.
  Qed.

  Lemma keeps_known s s1 k o r : keeps s s1 -> known s k o r -> known s1 k o r.
  Proof.
    intros K (H1 & H2 & H3 & H4 & H5). pose proof K as (K1 & K2 & K3).
    pose proof (psz_pos i) as Hp. unfold ptr_size in *.
    unfold known. split; [exact H1|]. split; [exact H2|]. split; [unfold ptr_size; lia|].
    split.
    - unfold k_type in *. rewrite (keeps_field s s1) by (auto; lia). exact H4.
    - rewrite <- H5. unfold k_ptr. f_equal; apply keeps_field; auto; lia.
  Qed.

  Lemma keeps_walk s s1 k m t mt : keeps s s1 -> walk s k m t mt -> walk s1 k m t mt.
  Proof.
    intros K W; induction W as [|k m o r p t mt Hkn Hp Hpi Hlt Hne W IH]; [constructor|].
    eapply walk_up; eauto using keeps_known.
  Qed.

  Lemma walk_loop s k m t mt o ot fixup : forall fuel,
    walk s k m t mt -> (k <= fuel)%nat ->
    nth_error offsets k = Some o -> nth_error offsets t = Some ot ->
    k_fixup_loop fuel i (ks_data s) offsets o m ot fixup = (mt <=? fixup).
  Proof.
    intros fuel W. revert fuel o.
    induction W as [k m|k m o1 r p t mt Hkn Hp Hpi Hlt Hne W IH]; intros fuel o Hf Ho Hot.
    - assert (o = ot) by congruence. subst. destruct fuel; cbn [k_fixup_loop];
        rewrite Z.eqb_refl; reflexivity.
    - destruct Hkn as (K1 & K2 & K3 & K4 & K5).
      assert (o1 = o) by congruence. subst o1.
      assert (Hp2 : exists op, nth_error offsets p = Some op).
      { destruct (nth_error offsets p) eqn:E; [eauto|].
        apply nth_error_None in E.
        assert (k < length offsets)%nat by (apply nth_error_Some; congruence). lia. }
      destruct Hp2 as [op Hop].
      destruct fuel as [|fuel]; [lia|]. cbn [k_fixup_loop].
      destruct (Z.eqb_spec o ot) as [->|Hd].
      + exfalso. apply Hne. eapply offsets_inj; eauto.
      + rewrite K5, Hp, Hpi, Nat2Z.id, Hop. apply IH; auto; lia.
  Qed.

  Lemma usz_small v : 0 <= v < 2 ^ (8 * psz i) -> usz i v = v.
  Proof. intros H. unfold usz. apply Z.mod_small; assumption. Qed.

  Lemma get_object_ptr pre f a l p o post :
    blen pre mod 4 = 0 ->
    k_get_object i (pre ++ ptr_image i f a l p o ++ post) (blen pre) = ptr_size i.
  Proof.
    intros Hm. unfold k_get_object.
    destruct (ptr_fields i f a l p o pre post) as [Et _].
    rewrite !blen_app, blen_ptr. pose proof (blen_nonneg _ pre). pose proof (blen_nonneg _ post).
    pose proof (psz_pos i).
    assert (Hs : ptr_size i = 8 + 4 * psz i) by reflexivity.
    replace ((0 <=? blen pre) && _ && _) with true by lia.
    rewrite Et. change (k_object_size i TYPE_PTR) with (ptr_size i).
    destruct (Z.leb_spec (blen pre + ptr_size i) (blen pre + (ptr_size i + blen post))); [reflexivity|lia].
  Qed.

  Lemma poke_buffer_field pre f a l p o post a2 :
    poke (pre ++ ptr_image i f a l p o ++ post) (blen pre + 8) (le (psize i) a2) =
    pre ++ ptr_image i f a2 l p o ++ post.
  Proof.
    unfold ptr_image. rewrite <- !app_assoc.
    rewrite (app_assoc (le 4 TYPE_PTR) (le 4 f)), (app_assoc pre).
    rewrite (poke_app _ _ (le (psize i) a)).
    - rewrite <- !app_assoc. reflexivity.
    - rewrite !blen_app, !blen_le. lia.
    - rewrite !blen_le. reflexivity.
  Qed.

  Definition after (pre img post sg : bytes) : kstate :=
    {| ks_data := pre ++ img ++ post; ks_sg := sg; ks_min := blen pre + ptr_size i;
       ks_last := blen pre; ks_last_min := 0 |}.

  Lemma step_root s n pre a d post :
    ks_data s = pre ++ buffer_image i a (blen d) None ++ post ->
    blen pre mod 4 = 0 -> ks_min s <= blen pre -> node_ok i (k_mem e) a d ->
    blen (ks_sg s) + blen d <= align8 bufsize ->
    k_step e offsets bufsize n (blen pre) s =
    Some (after pre (buffer_image i (base + blen (ks_sg s)) (blen d) None) post
            (ks_sg s ++ k_pad8 d)).
  Proof.
    intros Hd Hm Hmin (N1 & N2 & N3 & N4) Hc.
    pose proof (blen_nonneg _ d). pose proof (psz_pos i).
    assert (Hps : ptr_size i = 8 + 4 * psz i) by reflexivity.
    unfold k_step. fold i. rewrite Hd. unfold buffer_image in *.
    rewrite get_object_ptr by assumption.
    destruct (ptr_fields i 0 a (blen d) 0 0 pre post) as [Et Ep].
    rewrite Et.
    destruct (Z.eqb_spec (ptr_size i) 0); [lia|].
    destruct (Z.ltb_spec (blen pre) (ks_min s)); [lia|]. cbn [orb].
    rewrite Z.eqb_refl. unfold k_do_ptr. fold i. cbn [ks_data ks_sg ks_min].
    rewrite Ep. cbn [kp_length kp_buffer kp_flags].
    rewrite (usz_small (blen d)), (usz_small a) by lia.
    destruct (Z.ltb_spec (align8 bufsize - blen (ks_sg s)) (blen d)); [lia|].
    replace ((a =? 0) && negb (blen d =? 0)) with false
      by (destruct N2 as [|E2]; [|rewrite E2, blen_nil]; lia).
    unfold kp_has_parent. cbn [kp_flags].
    change (Z.testbit (u32 0) 0) with false. cbv iota.
    rewrite poke_buffer_field, N1. reflexivity.
  Qed.

  Lemma step_child s n pre a d post p c op rp pp k m mP ok :
    ks_data s = pre ++ buffer_image i a (blen d) (Some (mkpa (Z.of_nat p) c)) ++ post ->
    blen pre mod 4 = 0 -> ks_min s <= blen pre -> node_ok i (k_mem e) a d ->
    blen (ks_sg s) + blen d <= align8 bufsize ->
    known s p op rp -> kp_buffer rp = base + pp -> 0 <= c -> c + psz i <= kp_length rp ->
    kp_length rp < 2 ^ (8 * psz i) ->
    Z.of_nat p < n ->
    walk s k m p mP -> nth_error offsets k = Some ok -> ok <> 0 ->
    ks_last s = ok -> ks_last_min s = m -> mP <= c ->
    k_step e offsets bufsize n (blen pre) s =
    Some (after pre (buffer_image i (base + blen (ks_sg s)) (blen d) (Some (mkpa (Z.of_nat p) c))) post
            (poke (ks_sg s ++ k_pad8 d) (pp + c) (le (psize i) (base + blen (ks_sg s))))).
  Proof.
    intros Hd Hm Hmin (N1 & N2 & N3 & N4) Hc Hkn Hb Hc0 HcL Hlen Hpn W Hok Hnz Hl Hlm HmP.
    pose proof (blen_nonneg _ d). pose proof (psz_pos i).
    assert (Hps : ptr_size i = 8 + 4 * psz i) by reflexivity.
    pose proof Hkn as (K1 & K2 & K3 & K4 & K5).
    assert (Hpl : (p < length offsets)%nat) by (apply nth_error_Some; congruence).
    assert (Hkl : (k < length offsets)%nat) by (apply nth_error_Some; congruence).
    assert (Hp2 : Z.of_nat p < 2 ^ (8 * psz i)).
    { assert (2 ^ 31 < 2 ^ (8 * psz i)) by (apply Z.pow_lt_mono_r; lia).
      unfold blen in offsets_few. lia. }
    unfold k_step. fold i. rewrite Hd. unfold buffer_image in *. cbn [mkpa pa_index pa_offset] in *.
    rewrite get_object_ptr by assumption.
    destruct (ptr_fields i 1 a (blen d) (Z.of_nat p) c pre post) as [Et Ep].
    rewrite Et.
    destruct (Z.eqb_spec (ptr_size i) 0); [lia|].
    destruct (Z.ltb_spec (blen pre) (ks_min s)); [lia|]. cbn [orb].
    rewrite Z.eqb_refl. unfold k_do_ptr. fold i. cbn [ks_data ks_sg ks_min].
    rewrite Ep. cbn [kp_length kp_buffer kp_parent kp_poff].
    rewrite (usz_small (blen d)), (usz_small a), (usz_small c), (usz_small (Z.of_nat p)) by lia.
    destruct (Z.ltb_spec (align8 bufsize - blen (ks_sg s)) (blen d)); [lia|].
    replace ((a =? 0) && negb (blen d =? 0)) with false
      by (destruct N2 as [|E2]; [|rewrite E2, blen_nil]; lia).
    unfold kp_has_parent. cbn [kp_flags].
    change (Z.testbit (u32 1) 0) with true. cbv iota.
    unfold k_validate_ptr. rewrite <- Hd.
    destruct (Z.ltb_spec (Z.of_nat p) n); [|lia].
    rewrite Nat2Z.id, K1, K4, Z.eqb_refl, K5.
    unfold k_validate_fixup. cbn [ks_last ks_data ks_last_min].
    destruct (Z.eqb_spec (ks_last s) 0); [congruence|].
    rewrite Hl, Hlm.
    erewrite walk_loop; [|exact W|lia|exact Hok|exact K1].
    destruct (Z.leb_spec mP c); [|lia]. cbn [negb].
    destruct (Z.ltb_spec (kp_length rp) (c + psz i)); [lia|].
    rewrite Hd, poke_buffer_field, N1, Hb.
    replace (base + pp - k_sgbase e + c) with (pp + c) by (subst base; lia). reflexivity.
  Qed.

  (* The rest of the loop, from object number n *)
  Definition run (n : nat) (s : kstate) : option kstate :=
    k_run e offsets bufsize (Z.of_nat n) (skipn n offsets) s.

  Lemma skipn_nth {A} n (l : list A) o :
    nth_error l n = Some o -> skipn n l = o :: skipn (S n) l.
  Proof.
    revert l; induction n as [|n IH]; intros [|x l] H; cbn in *; try discriminate.
    - injection H as ->; reflexivity.
    - apply IH in H. exact H.
  Qed.

  Lemma run_step n s s1 o :
    nth_error offsets n = Some o ->
    k_step e offsets bufsize (Z.of_nat n) o s = Some s1 -> run n s = run (S n) s1.
  Proof.
    intros H1 H2. unfold run. rewrite (skipn_nth _ _ _ H1). cbn [k_run]. rewrite H2.
    rewrite Nat2Z.inj_succ, <- Z.add_1_r. reflexivity.
  Qed.

  (* [cnt] buffer objects stand one after the other from [p] *)
  Definition offs_at (n : nat) (p : Z) (cnt : nat) : Prop :=
    forall j, (j < cnt)%nat -> nth_error offsets (n + j) = Some (p + Z.of_nat j * ptr_size i).

  Lemma offs_at_S n p cnt :
    offs_at n p (S cnt) -> nth_error offsets n = Some p /\ offs_at (S n) (p + ptr_size i) cnt.
  Proof.
    intros H. split.
    - specialize (H O ltac:(lia)). rewrite Nat.add_0_r in H. rewrite H. f_equal; lia.
    - intros j Hj. specialize (H (S j) ltac:(lia)).
      replace (S n + j)%nat with (n + S j)%nat by lia. rewrite H. f_equal; lia.
  Qed.

  Lemma offs_at_app n p a b :
    offs_at n p (a + b) -> offs_at n p a /\ offs_at (n + a) (p + Z.of_nat a * ptr_size i) b.
  Proof.
    intros H. split.
    - intros j Hj. apply H. lia.
    - intros j Hj. specialize (H (a + j)%nat ltac:(lia)).
      replace (n + a + j)%nat with (n + (a + j))%nat by lia. rewrite H. f_equal; lia.
  Qed.

  (* The last fixed up object is below [self] *)
  Definition cur (s : kstate) (self : nat) (mP : Z) : Prop :=
    exists k m o, walk s k m self mP /\ nth_error offsets k = Some o /\ o <> 0 /\
      ks_last s = o /\ ks_last_min s = m.

  Lemma walk_ge s k m t mt : walk s k m t mt -> (t <= k)%nat.
  Proof. intros W; induction W; lia. Qed.

  Lemma walk_parent s k m t mt o r p :
    walk s k m t mt -> known s t o r -> kp_has_parent r = true ->
    kp_parent r = Z.of_nat p -> (p < t)%nat -> walk s k m p (kp_poff r + psz i).
  Proof.
    intros W K H1 H2 H3.
    induction W as [k m|k m o1 r1 p1 t mt Hkn Hp Hpi Hlt Hne W IH].
    - eapply walk_up; eauto; [lia|constructor].
    - pose proof (walk_ge _ _ _ _ _ W). eapply walk_up; eauto. lia.
  Qed.

  Lemma cur_parent s t mt o r p :
    cur s t mt -> known s t o r -> kp_has_parent r = true ->
    kp_parent r = Z.of_nat p -> (p < t)%nat -> cur s p (kp_poff r + psz i).
  Proof.
    intros (k & m & oo & W & H) K H1 H2 H3. exists k, m, oo. split; [|exact H].
    eapply walk_parent; eauto.
  Qed.

  Lemma t_count_reloc t : forall pos, t_count (t_reloc base pos t) = t_count t.
  Proof.
    induction t as [a d ks IH] using tree_ind2. intros pos.
    rewrite t_reloc_node, !t_count_node. f_equal.
    generalize (pos + align8 (blen d)).
    induction IH as [|[c t1] ks Ht Hks IHks]; intros q; cbn [f_reloc f_count]; [reflexivity|].
    cbn [snd] in Ht. rewrite Ht, IHks. reflexivity.
  Qed.

  Lemma f_count_reloc ks : forall pos, f_count (f_reloc base pos ks) = f_count ks.
  Proof.
    induction ks as [|[c t1] ks IH]; intros q; cbn [f_reloc f_count]; [reflexivity|].
    rewrite t_count_reloc, IH. reflexivity.
  Qed.

  Lemma keeps_after s pre img img1 post sg :
    ks_data s = pre ++ img ++ post -> blen img1 = blen img -> ks_min s <= blen pre ->
    keeps s (after pre img1 post sg).
  Proof.
    intros Hd Hl Hm. unfold keeps, after. cbn [ks_min ks_data]. pose proof (psz_pos i).
    split; [unfold ptr_size; lia|]. rewrite Hd. split; [rewrite !blen_app; lia|].
    rewrite !ztake_app_l by lia. reflexivity.
  Qed.

  Definition rec_of (pa : option parent) (a l : Z) : kptr :=
    {| kp_flags := match pa with Some _ => 1 | None => 0 end;
       kp_buffer := a; kp_length := l;
       kp_parent := match pa with Some p => pa_index p | None => 0 end;
       kp_poff := match pa with Some p => pa_offset p | None => 0 end |}.

  Definition pa_small (pa : option parent) : Prop :=
    match pa with
    | Some p => 0 <= pa_index p < 2 ^ (8 * psz i) /\ 0 <= pa_offset p < 2 ^ (8 * psz i)
    | None => True
    end.

  Lemma known_after n pre a l pa post sg :
    nth_error offsets n = Some (blen pre) ->
    0 <= a < 2 ^ (8 * psz i) -> 0 <= l < 2 ^ (8 * psz i) -> pa_small pa ->
    known (after pre (buffer_image i a l pa) post sg) n (blen pre) (rec_of pa a l).
  Proof.
    intros Hn Ha Hl Hp. pose proof (psz_pos i).
    unfold known, after; cbn [ks_min ks_data].
    pose proof (blen_nonneg _ pre). split; [assumption|]. split; [lia|]. split; [lia|].
    unfold buffer_image, rec_of, pa_small in *.
    destruct pa as [[idx o]|]; cbn [pa_index pa_offset] in *.
    - destruct (ptr_fields i 1 a l idx o pre post) as [E1 E2].
      split; [exact E1|]. rewrite E2. rewrite !usz_small by lia. reflexivity.
    - destruct (ptr_fields i 0 a l 0 0 pre post) as [E1 E2].
      split; [exact E1|]. rewrite E2. rewrite !usz_small by lia. reflexivity.
  Qed.

  Definition forest_lemma (ks : list (Z * tree)) : Prop :=
    forall s n pre post self oself rec pp mP,
    ks_data s = pre ++ concat (f_emit i (Z.of_nat self) (Z.of_nat n) ks) ++ post ->
    blen pre mod 4 = 0 -> 0 < blen pre -> ks_min s <= blen pre ->
    offs_at n (blen pre) (f_count ks) ->
    forest_ok i (k_mem e) ks -> kids_ok i mP (kp_length rec) ks -> 0 <= mP ->
    known s self oself rec -> kp_buffer rec = base + pp -> 0 <= pp ->
    pp + kp_length rec <= blen (ks_sg s) -> kp_length rec < 2 ^ (8 * psz i) ->
    (self < n)%nat -> cur s self mP ->
    blen (ks_sg s) + f_space ks <= align8 bufsize ->
    exists s1, run n s = run (n + f_count ks) s1 /\
      ks_data s1 = pre ++ concat (f_emit i (Z.of_nat self) (Z.of_nat n)
                                    (f_reloc base (blen (ks_sg s)) ks)) ++ post /\
      ks_sg s1 = f_patch i base (blen (ks_sg s)) (ks_sg s) pp ks ++
                 f_image i base (blen (ks_sg s)) ks /\
      keeps s s1 /\ ks_min s1 <= blen pre + Z.of_nat (f_count ks) * ptr_size i /\
      cur s1 self (last_min i mP ks).

  Lemma forest_all t : forest_lemma (t_kids t).
  Proof.
    induction t as [a0 d0 ks0 IH] using tree_ind2. cbn [t_kids].
    induction IH as [|[c t1] r Ht Hks IHr]; unfold forest_lemma;
      intros s n pre post self oself rec pp mP Hd H4 Hpos Hmin Hoffs Hok Hkids HmP Hkn Hbuf Hpp
        Hfit Hlen Hself Hcur Hspace.
    - cbn [f_count f_emit concat f_reloc f_patch f_image last_min] in *.
      exists s. rewrite Nat.add_0_r, app_nil_r.
      split; [reflexivity|]. split; [exact Hd|]. split; [reflexivity|].
      split; [apply keeps_refl|]. split; [lia|exact Hcur].
    - cbn [snd] in Ht. destruct t1 as [a d ks]. cbn [t_kids] in Ht.
      cbn [f_emit f_count f_reloc f_patch f_image last_min forest_ok kids_ok f_space] in *.
      destruct Hok as [Hok1 Hok2]. apply tree_ok_node in Hok1. destruct Hok1 as (Hn & Hk & Hf).
      destruct Hkids as (Hc1 & Hc2 & Hk2).
      rewrite t_emit_node, t_count_node, t_space_node in *.
      set (sg := ks_sg s) in *.
      pose proof (psz_pos i) as Hps. pose proof (blen_nonneg _ d) as Hbd.
      pose proof (blen_nonneg _ sg) as Hbs. pose proof (align8_spec (blen d)) as Hal.
      pose proof (f_space_nonneg ks) as Hfs1. pose proof (f_space_nonneg r) as Hfs2.
      assert (Hptr : ptr_size i = 8 + 4 * psz i) by reflexivity.
      destruct (offs_at_S _ _ _ Hoffs) as [Ho1 Ho2].
      destruct (offs_at_app _ _ _ _ Ho2) as [Ho3 Ho4].
      rewrite concat_app in Hd. cbn [concat] in Hd. rewrite <- !app_assoc in Hd.
      destruct Hcur as (k & m & ok & W & Hok & Hoknz & Hlast & Hlm).
      pose proof Hn as (N1 & N2 & N3 & N4).
      assert (Hself2 : Z.of_nat self < 2 ^ (8 * psz i)).
      { destruct Hkn as (K1 & _).
        assert (self < length offsets)%nat by (apply nth_error_Some; congruence).
        assert (2 ^ 31 < 2 ^ (8 * psz i)) by (apply Z.pow_lt_mono_r; lia).
        unfold blen in offsets_few. lia. }
      pose proof (step_child s (Z.of_nat n) pre a d _ self c oself rec pp k m mP ok
        Hd H4 Hmin Hn ltac:(subst sg; lia) Hkn Hbuf ltac:(lia) Hc2 Hlen ltac:(lia)
        W Hok Hoknz Hlast Hlm Hc1) as Hstep.
      fold sg in Hstep.
      rewrite poke_app_l in Hstep by (rewrite blen_le, psize_psz; lia).
      set (post1 := concat (f_emit i (Z.of_nat n) (Z.of_nat n + 1) ks) ++
            concat (f_emit i (Z.of_nat self) (Z.of_nat n + Z.of_nat (S (f_count ks))) r) ++ post) in *.
      set (img := buffer_image i (base + blen sg) (blen d) (Some (mkpa (Z.of_nat self) c))) in *.
      set (sg1 := poke sg (pp + c) (le (psize i) (base + blen sg))) in *.
      set (s1 := after pre img post1 (sg1 ++ k_pad8 d)) in *.
      assert (Hsg1 : blen sg1 = blen sg)
        by (apply blen_poke_in; rewrite ?blen_le, ?psize_psz; lia).
      assert (Himg : blen img = ptr_size i) by apply blen_buffer.
      assert (Hpre1 : blen (pre ++ img) = blen pre + ptr_size i) by (rewrite blen_app; lia).
      assert (K1 : keeps s s1).
      { eapply keeps_after; [exact Hd| |exact Hmin]. unfold img. rewrite !blen_buffer. reflexivity. }
      assert (Hkn1 : known s1 n (blen pre)
                (rec_of (Some (mkpa (Z.of_nat self) c)) (base + blen sg) (blen d))).
      { apply known_after; [exact Ho1| lia|lia|]. cbn [pa_small mkpa pa_index pa_offset]. lia. }
      assert (Hcur1 : cur s1 n 0).
      { exists n, 0, (blen pre). split; [constructor|]. split; [exact Ho1|]. split; [lia|].
        split; reflexivity. }
      specialize (Ht s1 (S n) (pre ++ img)
        (concat (f_emit i (Z.of_nat self) (Z.of_nat n + Z.of_nat (S (f_count ks))) r) ++ post)
        n (blen pre) (rec_of (Some (mkpa (Z.of_nat self) c)) (base + blen sg) (blen d)) (blen sg) 0).
      destruct Ht as (s2 & R2 & D2 & S2 & K2 & M2 & C2); try exact Hkn1.
      { unfold s1, after, post1. cbn [ks_data]. rewrite <- !app_assoc.
        replace (Z.of_nat (S n)) with (Z.of_nat n + 1) by lia. reflexivity. }
      { lia. } { lia. } { unfold s1, after; cbn [ks_min]. lia. }
      { rewrite Hpre1. exact Ho3. }
      { exact Hf. } { cbn [rec_of kp_length]. exact Hk. } { lia. }
      { reflexivity. } { lia. }
      { cbn [rec_of kp_length]. unfold s1, after; cbn [ks_sg]. rewrite blen_app, blen_pad8. lia. }
      { cbn [rec_of kp_length]. lia. } { lia. } { exact Hcur1. }
      { unfold s1, after; cbn [ks_sg]. rewrite blen_app, blen_pad8. lia. }
      unfold s1, after in S2, D2; cbn [ks_sg] in S2, D2. rewrite blen_app, blen_pad8, Hsg1 in S2, D2.
      erewrite f_patch_app_r in S2; [|exact Hk|lia|lia].
      replace (blen sg - blen sg1) with 0 in S2 by lia.
      rewrite <- app_assoc, <- (t_image_node i base (blen sg) a d ks) in S2.
      assert (Hti : blen (t_image i base (blen sg) (Node a d ks)) = align8 (blen d) + f_space ks).
      { erewrite t_image_len; [apply t_space_node|]. apply tree_ok_node. eauto. }
      assert (Hsg2 : blen (ks_sg s2) = blen sg + (align8 (blen d) + f_space ks)).
      { rewrite S2, blen_app, Hti. lia. }
      pose proof (keeps_known _ _ _ _ _ K2 Hkn1) as Hkn2.
      pose proof (cur_parent s2 n _ _ _ self C2 Hkn2 eq_refl eq_refl Hself) as C3.
      cbn [rec_of kp_poff mkpa pa_offset] in C3.
      set (pre2 := (pre ++ img) ++ concat (f_emit i (Z.of_nat n) (Z.of_nat (S n))
                     (f_reloc base (blen sg + align8 (blen d)) ks))).
      assert (Hpre2 : blen pre2 = blen pre + ptr_size i + Z.of_nat (f_count ks) * ptr_size i).
      { unfold pre2. rewrite blen_app, Hpre1.
        destruct (f_emit_len i (f_reloc base (blen sg + align8 (blen d)) ks) (Z.of_nat n)
          (Z.of_nat (S n))) as [-> _]. rewrite f_count_reloc. lia. }
      assert (K12 : keeps s s2) by (eapply keeps_trans; eauto).
      destruct (IHr s2 (S n + f_count ks)%nat pre2 post self oself rec pp (c + psz i))
        as (s3 & R3 & D3 & S3 & K3 & M3 & C4).
      { rewrite D2. unfold pre2.
        replace (Z.of_nat (S n + f_count ks)) with (Z.of_nat n + Z.of_nat (S (f_count ks))) by lia.
        rewrite <- !app_assoc. reflexivity. }
      { rewrite Hpre2. rewrite Hptr.
        destruct Hps as [E|E]; rewrite E; lia. }
      { assert (0 <= Z.of_nat (f_count ks) * ptr_size i) by nia. lia. }
      { lia. }
      { rewrite Hpre2. exact Ho4. }
      { exact Hok2. } { exact Hk2. } { lia. }
      { eapply keeps_known; eauto. } { exact Hbuf. } { exact Hpp. }
      { lia. } { exact Hlen. } { lia. } { exact C3. } { lia. }
      exists s3.
      split.
      { rewrite (run_step n s s1 _ Ho1 Hstep), R2, R3. f_equal. lia. }
      split.
      { rewrite D3. unfold pre2. rewrite t_reloc_node, t_emit_node, t_count_node, f_count_reloc.
        rewrite concat_app. cbn [concat]. rewrite <- !app_assoc. fold img. do 2 f_equal.
        replace (Z.of_nat (S n)) with (Z.of_nat n + 1) by lia.
        replace (Z.of_nat (S n + f_count ks)) with (Z.of_nat n + Z.of_nat (S (f_count ks))) by lia.
        rewrite Hsg2. reflexivity. }
      split.
      { rewrite S3, Hsg2. rewrite S2.
        erewrite f_patch_app_l; [|exact Hk2|lia|lia|lia].
        rewrite <- app_assoc. reflexivity. }
      split; [eapply keeps_trans; eauto|].
      split; [lia|]. exact C4.
  Qed.

  (* A complete tree *)
  Lemma tree_run s n pre t post :
    ks_data s = pre ++ concat (t_emit i (Z.of_nat n) None t) ++ post ->
    blen pre mod 4 = 0 -> 0 < blen pre -> ks_min s <= blen pre ->
    offs_at n (blen pre) (t_count t) -> tree_ok i (k_mem e) t ->
    blen (ks_sg s) + t_space t <= align8 bufsize ->
    exists s1, run n s = run (n + t_count t) s1 /\
      ks_data s1 = pre ++ concat (t_emit i (Z.of_nat n) None
                                    (t_reloc base (blen (ks_sg s)) t)) ++ post /\
      ks_sg s1 = ks_sg s ++ t_image i base (blen (ks_sg s)) t /\
      ks_min s1 <= blen pre + Z.of_nat (t_count t) * ptr_size i.
  Proof.
    intros Hd H4 Hpos Hmin Hoffs Hok Hspace. destruct t as [a d ks].
    apply tree_ok_node in Hok. destruct Hok as (Hn & Hk & Hf).
    rewrite t_emit_node, t_count_node, t_space_node in *. set (sg := ks_sg s) in *.
    pose proof (psz_pos i) as Hps. pose proof (blen_nonneg _ d) as Hbd.
    pose proof (blen_nonneg _ sg) as Hbs. pose proof (align8_spec (blen d)) as Hal.
    pose proof (f_space_nonneg ks) as Hfs1.
    assert (Hptr : ptr_size i = 8 + 4 * psz i) by reflexivity.
    destruct (offs_at_S _ _ _ Hoffs) as [Ho1 Ho2].
    cbn [concat] in Hd. rewrite <- !app_assoc in Hd.
    pose proof Hn as (N1 & N2 & N3 & N4).
    pose proof (step_root s (Z.of_nat n) pre a d _ Hd H4 Hmin Hn ltac:(subst sg; lia)) as Hstep.
    fold sg in Hstep.
    set (img := buffer_image i (base + blen sg) (blen d) None) in *.
    set (post1 := concat (f_emit i (Z.of_nat n) (Z.of_nat n + 1) ks) ++ post) in *.
    set (s1 := after pre img post1 (sg ++ k_pad8 d)) in *.
    assert (Himg : blen img = ptr_size i) by apply blen_buffer.
    assert (Hpre1 : blen (pre ++ img) = blen pre + ptr_size i) by (rewrite blen_app; lia).
    assert (Hkn1 : known s1 n (blen pre) (rec_of None (base + blen sg) (blen d)))
      by (apply known_after; [exact Ho1| lia|lia|exact I]).
    assert (Hcur1 : cur s1 n 0).
    { exists n, 0, (blen pre). split; [constructor|]. split; [exact Ho1|]. split; [lia|].
      split; reflexivity. }
    pose proof (forest_all (Node a d ks)) as Ht. cbn [t_kids] in Ht.
    specialize (Ht s1 (S n) (pre ++ img) post n (blen pre) (rec_of None (base + blen sg) (blen d)) (blen sg) 0).
    destruct Ht as (s2 & R2 & D2 & S2 & K2 & M2 & C2); try exact Hkn1.
    { unfold s1, after, post1. cbn [ks_data]. rewrite <- !app_assoc.
      replace (Z.of_nat (S n)) with (Z.of_nat n + 1) by lia. reflexivity. }
    { lia. } { lia. } { unfold s1, after; cbn [ks_min]. lia. }
    { rewrite Hpre1. exact Ho2. }
    { exact Hf. } { cbn [rec_of kp_length]. exact Hk. } { lia. }
    { reflexivity. } { lia. }
    { cbn [rec_of kp_length]. unfold s1, after; cbn [ks_sg]. rewrite blen_app, blen_pad8. lia. }
    { cbn [rec_of kp_length]. lia. } { lia. } { exact Hcur1. }
    { unfold s1, after; cbn [ks_sg]. rewrite blen_app, blen_pad8. lia. }
    unfold s1, after in S2, D2; cbn [ks_sg] in S2, D2. rewrite blen_app, blen_pad8 in S2, D2.
    erewrite f_patch_app_r in S2; [|exact Hk|lia|lia].
    replace (blen sg - blen sg) with 0 in S2 by lia.
    rewrite <- app_assoc, <- (t_image_node i base (blen sg) a d ks) in S2.
    exists s2. split; [|split; [|split]].
    - rewrite (run_step n s s1 _ Ho1 Hstep), R2. f_equal. lia.
    - rewrite D2, t_reloc_node, t_emit_node. cbn [concat]. fold img.
      rewrite <- !app_assoc. replace (Z.of_nat (S n)) with (Z.of_nat n + 1) by lia. reflexivity.
    - exact S2.
    - lia.
  Qed.
End Driver.
