(* Trees of buffers which have arrived and are sent on *)
From Verif Require Import Base BaseLemmas UtfModel WriterModel ReaderModel CodecSpec
  CodecProofs CodecSafety ObjModel ObjReader KernelModel ObjSpec ObjProofs ObjInvariant
  TreeProofs PieceProofs HidlSpec HidlWriter HidlOps HidlPlaced.

(* The tree as it is in the memory of the receiver *)
Fixpoint t_fwd (i : io) (base pos : Z) (t : tree) : tree :=
  match t with
  | Node a d ks =>
    Node (base + pos) (f_patch i base (pos + align8 (blen d)) d 0 ks)
      ((fix go (p : Z) (l : list (Z * tree)) : list (Z * tree) :=
          match l with
          | [] => []
          | (c, t1) :: r => (c, t_fwd i base p t1) :: go (p + t_space t1) r
          end) (pos + align8 (blen d)) ks)
  end.
Definition f_fwd (i : io) (base : Z) : Z -> list (Z * tree) -> list (Z * tree) :=
  fix go (pos : Z) (ks : list (Z * tree)) : list (Z * tree) :=
  match ks with
  | [] => []
  | (c, t1) :: r => (c, t_fwd i base pos t1) :: go (pos + t_space t1) r
  end.
Lemma t_fwd_node i base pos a d ks :
  t_fwd i base pos (Node a d ks) =
  Node (base + pos) (f_patch i base (pos + align8 (blen d)) d 0 ks) (f_fwd i base (pos + align8 (blen d)) ks).
Proof. reflexivity. Qed.

(* Writing to different places *)
Lemma poke_same (b s1 s2 : bytes) o : 0 <= o -> o + blen s1 <= blen b -> blen s1 = blen s2 ->
  poke (poke b o s1) o s2 = poke b o s2.
Proof.
  intros H1 H2 H3. apply list_zn.
  - rewrite !blen_poke_in by (rewrite ?blen_poke_in; lia). reflexivity.
  - rewrite !blen_poke_in by (rewrite ?blen_poke_in; lia). intros j Hj.
    destruct (Z.le_gt_cases o j) as [A|A]; [destruct (Z.lt_ge_cases j (o + blen s2)) as [B|B]|].
    + replace j with (o + (j - o)) by lia. rewrite !zn_poke_in; rewrite ?blen_poke_in; lia || reflexivity.
    + rewrite !zn_poke_out; rewrite ?blen_poke_in; lia || reflexivity.
    + rewrite !zn_poke_out; rewrite ?blen_poke_in; lia || reflexivity.
Qed.
Lemma poke_swap (b s1 s2 : bytes) o1 o2 : 0 <= o1 -> o1 + blen s1 <= o2 -> o2 + blen s2 <= blen b ->
  poke (poke b o1 s1) o2 s2 = poke (poke b o2 s2) o1 s1.
Proof.
  intros H1 H2 H3. pose proof (blen_nonneg _ s1). pose proof (blen_nonneg _ s2). apply list_zn.
  - rewrite !blen_poke_in by (rewrite ?blen_poke_in; lia). reflexivity.
  - rewrite !blen_poke_in by (rewrite ?blen_poke_in; lia). intros j Hj.
    destruct (Z.lt_ge_cases j o1) as [A|A]; [|destruct (Z.lt_ge_cases j (o1 + blen s1)) as [B|B]; [|
      destruct (Z.lt_ge_cases j o2) as [C|C]; [|destruct (Z.lt_ge_cases j (o2 + blen s2)) as [D|D]]]].
    + rewrite !zn_poke_out; rewrite ?blen_poke_in; lia || reflexivity.
    + rewrite zn_poke_out by (rewrite ?blen_poke_in; lia).
      replace j with (o1 + (j - o1)) by lia. rewrite !zn_poke_in; rewrite ?blen_poke_in; lia || reflexivity.
    + rewrite !zn_poke_out; rewrite ?blen_poke_in; lia || reflexivity.
    + rewrite (zn_poke_out (poke b o2 s2)) by (rewrite ?blen_poke_in; lia).
      replace j with (o2 + (j - o2)) by lia. rewrite !zn_poke_in; rewrite ?blen_poke_in; lia || reflexivity.
    + rewrite !zn_poke_out; rewrite ?blen_poke_in; lia || reflexivity.
Qed.

Lemma f_patch_poke i base ks : forall pos (b s : bytes) o m len,
  kids_ok i m len ks -> 0 <= o -> o + blen s <= m -> len <= blen b ->
  poke (f_patch i base pos b 0 ks) o s = f_patch i base pos (poke b o s) 0 ks.
Proof.
  induction ks as [|[c t1] ks IH]; intros pos b s o m len Hk Ho Hm Hl; cbn [f_patch kids_ok] in *; [reflexivity|].
  destruct Hk as (H1 & H2 & H3). pose proof (psz_pos i). pose proof (blen_nonneg _ s).
  assert (Es : blen (le (psize i) (base + pos)) = psz i) by (rewrite blen_le, psize_psz; reflexivity).
  rewrite (IH _ _ _ _ (c + psz i) len) by (first [exact H3|lia|rewrite blen_poke_in; lia]).
  f_equal. symmetry. apply poke_swap; lia.
Qed.

(* The new pointers take the places of the old ones *)
Lemma f_patch_twice i b1 b2 ks ks2 : map fst ks2 = map fst ks -> map (fun p => t_space (snd p)) ks2 = map (fun p => t_space (snd p)) ks ->
  forall p1 p2 (b : bytes) m len, kids_ok i m len ks -> 0 <= m -> len <= blen b ->
  f_patch i b2 p2 (f_patch i b1 p1 b 0 ks) 0 ks2 = f_patch i b2 p2 b 0 ks.
Proof.
  revert ks2. induction ks as [|[c t1] ks IH]; intros [|[c2 t2] ks2] E1 E2 p1 p2 b m len Hk Hm Hl; try discriminate;
    cbn [f_patch kids_ok map fst snd] in *; [reflexivity|].
  injection E1 as -> E1. injection E2 as E3 E2. rewrite E3.
  destruct Hk as (H1 & H2 & H3). pose proof (psz_pos i).
  assert (Es : forall v, blen (le (psize i) v) = psz i) by (intros v; rewrite blen_le, psize_psz; reflexivity).
  rewrite (f_patch_poke i b1 ks _ _ _ _ (c + psz i) len) by (first [exact H3|rewrite ?Es; lia|rewrite blen_poke_in; rewrite ?Es; lia]).
  rewrite poke_same by (rewrite ?Es; lia).
  apply (IH ks2 E1 E2 _ _ _ (c + psz i) len); [exact H3|lia|]. rewrite blen_poke_in; rewrite ?Es; lia.
Qed.

Lemma kids_ok_fwd i m len base ks : forall pos, kids_ok i m len ks -> kids_ok i m len (f_fwd i base pos ks).
Proof.
  revert m. induction ks as [|[c t1] ks IH]; intros m pos H; cbn [f_fwd kids_ok] in *; [exact Logic.I|].
  destruct H as (H1 & H2 & H3). auto.
Qed.

(* The forest has the same shape *)
Definition fwd_shape (i : io) (base pos : Z) (t : tree) : Prop :=
  t_count (t_fwd i base pos t) = t_count t /\ t_space (t_fwd i base pos t) = t_space t /\
  forall n pa, t_emit i n pa (t_fwd i base pos t) = t_emit i n pa (t_reloc base pos t).

Lemma count_reloc base t : forall pos, t_count (t_reloc base pos t) = t_count t.
Proof.
  induction t as [a d ks IH] using tree_ind2. intros pos.
  rewrite t_reloc_node, !t_count_node. f_equal. generalize (pos + align8 (blen d)).
  induction IH as [|[c t1] ks Ht Hks IHks]; intros q; cbn [f_reloc f_count]; [reflexivity|].
  cbn [snd] in Ht. rewrite Ht, IHks. reflexivity.
Qed.

Lemma fwd_same i base t : forall m pos, tree_ok i m t -> fwd_shape i base pos t.
Proof.
  induction t as [a d ks IH] using tree_ind2. intros m pos Hok. apply tree_ok_node in Hok. destruct Hok as (Hn & Hk & Hf).
  assert (F : forall q, f_count (f_fwd i base q ks) = f_count ks /\ f_space (f_fwd i base q ks) = f_space ks /\
    forall self n, f_emit i self n (f_fwd i base q ks) = f_emit i self n (f_reloc base q ks)).
  { clear Hk Hn. induction IH as [|[c t1] ks Ht Hks IHks]; intros q; cbn [f_fwd f_count f_space f_emit f_reloc forest_ok] in *;
      [repeat split; reflexivity|]. cbn [snd] in Ht. destruct Hf as [Hf1 Hf2].
    destruct (Ht m q Hf1) as (A1 & A2 & A3). destruct (IHks Hf2 (q + t_space t1)) as (B1 & B2 & B3).
    rewrite A1, A2, B1, B2. split; [reflexivity|]. split; [reflexivity|]. intros self n. fold (f_emit i self).
    rewrite A3, count_reloc, B3. reflexivity. }
  destruct (F (pos + align8 (blen d))) as (F1 & F2 & F3).
  assert (Hl : blen (f_patch i base (pos + align8 (blen d)) d 0 ks) = blen d)
    by (apply (f_patch_len i base ks _ _ _ 0 (blen d)); [exact Hk|lia..]).
  unfold fwd_shape. rewrite t_fwd_node, t_reloc_node, !t_count_node, !t_space_node, F1, F2, Hl.
  split; [reflexivity|]. split; [reflexivity|]. intros n pa. rewrite !t_emit_node, Hl, F3. reflexivity.
Qed.

Lemma k_pad8_patch i base pos (d : bytes) ks : kids_ok i 0 (blen d) ks ->
  k_pad8 (f_patch i base pos d 0 ks) = f_patch i base pos (k_pad8 d) 0 ks.
Proof.
  intros Hk. unfold k_pad8. rewrite (f_patch_len i base ks _ _ _ 0 (blen d)) by (first [exact Hk|lia]).
  rewrite (f_patch_app_l i base ks _ _ _ _ 0 (blen d)) by (first [exact Hk|lia]). reflexivity.
Qed.

Lemma f_fwd_fst i base ks : forall q, map fst (f_fwd i base q ks) = map fst ks.
Proof. induction ks as [|[c t1] ks IH]; intros q; cbn [f_fwd map fst]; [reflexivity|]. rewrite IH. reflexivity. Qed.
Lemma f_fwd_spaces i base m ks : forall q, forest_ok i m ks ->
  map (fun p => t_space (snd p)) (f_fwd i base q ks) = map (fun p => t_space (snd p)) ks.
Proof.
  induction ks as [|[c t1] ks IH]; intros q H; cbn [f_fwd map snd forest_ok] in *; [reflexivity|].
  destruct H as [H1 H2]. destruct (fwd_same i base t1 m q H1) as (_ & E & _). rewrite E, IH by exact H2. reflexivity.
Qed.

(* What the next receiver gets is what it would get from the first sender *)
Lemma fwd_image i b1 b2 t : forall m p1 p2, tree_ok i m t -> t_image i b2 p2 (t_fwd i b1 p1 t) = t_image i b2 p2 t.
Proof.
  induction t as [a d ks IH] using tree_ind2. intros m p1 p2 Hok. apply tree_ok_node in Hok. destruct Hok as (Hn & Hk & Hf).
  rewrite t_fwd_node, !t_image_node.
  rewrite (f_patch_len i b1 ks _ _ _ 0 (blen d)) by (first [exact Hk|lia]).
  pose proof (align8_spec (blen d)). f_equal.
  - rewrite k_pad8_patch by exact Hk.
    apply (f_patch_twice i b1 b2 ks _ (f_fwd_fst i b1 ks _) (f_fwd_spaces i b1 m ks _ Hf) _ _ _ 0 (blen d) Hk); [lia|].
    rewrite blen_pad8. lia.
  - generalize (p1 + align8 (blen d)) (p2 + align8 (blen d)). clear Hk Hn.
    induction IH as [|[c t1] ks Ht Hks IHks]; intros q1 q2; cbn [f_fwd f_image forest_ok] in *; [reflexivity|].
    cbn [snd] in Ht. destruct Hf as [Hf1 Hf2]. rewrite (Ht m q1 q2 Hf1).
    destruct (fwd_same i b1 t1 m q1 Hf1) as (_ & E & _). rewrite E. fold (f_image i b2).
    rewrite (IHks Hf2). reflexivity.
Qed.

Lemma holds_app m a (l r : bytes) : holds m a (l ++ r) -> holds m a l /\ holds m (a + blen l) r.
Proof.
  unfold holds. intros H. pose proof (blen_nonneg _ l). pose proof (blen_nonneg _ r). split.
  - replace (mread m a (blen l)) with (mread m (a + 0) (blen l)) by (f_equal; lia).
    rewrite (mread_sub m a (blen (l ++ r)) _ 0 (blen l) H) by (rewrite ?blen_app; lia).
    apply slice_app_exact with (l := []); reflexivity.
  - rewrite (mread_sub m a (blen (l ++ r)) _ (blen l) (blen r) H) by (rewrite ?blen_app; lia).
    rewrite <- (app_nil_r r) at 1. apply slice_app_exact; reflexivity.
Qed.

(* The tree can be sent from where it is *)
Lemma fwd_ok i base t : forall m m2 pos, tree_ok i m t -> holds m2 (base + pos) (t_image i base pos t) ->
  0 < base + pos -> base + pos + t_space t < 2 ^ (8 * psz i) -> tree_ok i m2 (t_fwd i base pos t).
Proof.
  induction t as [a d ks IH] using tree_ind2. intros m m2 pos Hok Hh H0 H1. apply tree_ok_node in Hok. destruct Hok as (Hn & Hk & Hf).
  rewrite t_fwd_node. apply tree_ok_node. rewrite t_image_node in Hh. rewrite t_space_node in H1.
  pose proof (align8_spec (blen d)). pose proof (blen_nonneg _ d). pose proof (f_space_nonneg ks).
  assert (Hl : blen (f_patch i base (pos + align8 (blen d)) d 0 ks) = blen d)
    by (apply (f_patch_len i base ks _ _ _ 0 (blen d)); [exact Hk|lia..]).
  apply holds_app in Hh. destruct Hh as [Hd Hks].
  rewrite (f_patch_len i base ks _ _ _ 0 (blen d)), blen_pad8 in Hks by (first [exact Hk|lia|rewrite blen_pad8; lia]).
  split; [|split].
  - rewrite <- k_pad8_patch in Hd by exact Hk. unfold k_pad8 in Hd. apply holds_app in Hd. destruct Hd as [Hd _].
    unfold node_ok. split; [exact Hd|]. split; [left; lia|]. split; [lia|]. rewrite Hl. apply Hn.
  - rewrite Hl. apply kids_ok_fwd. exact Hk.
  - rewrite <- Z.add_assoc in Hks. assert (Hq : base + (pos + align8 (blen d)) + f_space ks < 2 ^ (8 * psz i)) by lia.
    assert (Hq0 : 0 < base + (pos + align8 (blen d))) by lia. revert Hks Hq Hq0. generalize (pos + align8 (blen d)).
    clear Hk Hn Hl Hd H1. induction IH as [|[c t1] ks Ht Hks IHks]; intros q Hh Hq Hq0; cbn [f_fwd f_image f_space forest_ok] in *;
      [exact Logic.I|]. cbn [snd] in Ht. destruct Hf as [Hf1 Hf2]. fold (f_image i base) in Hh.
    apply holds_app in Hh. destruct Hh as [Hh1 Hh2]. rewrite (t_image_len i base t1 q m Hf1) in Hh2.
    pose proof (t_space_nonneg t1). pose proof (f_space_nonneg ks).
    split; [apply (Ht m m2 q Hf1 Hh1); lia|].
    apply IHks; [exact Hf2|lia| |lia|lia]. rewrite Z.add_assoc. exact Hh2.
Qed.

(* ... and so are the objects *)
Lemma reloc_fwd i b1 b2 t : forall m p1 p2 n pa, tree_ok i m t ->
  t_emit i n pa (t_reloc b2 p2 (t_fwd i b1 p1 t)) = t_emit i n pa (t_reloc b2 p2 t).
Proof.
  induction t as [a d ks IH] using tree_ind2. intros m p1 p2 n pa Hok. apply tree_ok_node in Hok. destruct Hok as (Hn & Hk & Hf).
  rewrite t_fwd_node, !t_reloc_node, !t_emit_node.
  rewrite (f_patch_len i b1 ks _ _ _ 0 (blen d)) by (first [exact Hk|lia]). f_equal.
  generalize (p1 + align8 (blen d)) (p2 + align8 (blen d)) (n + 1). clear Hk Hn.
  induction IH as [|[c t1] ks Ht Hks IHks]; intros q1 q2 k; cbn [f_fwd f_reloc f_emit forest_ok] in *; [reflexivity|].
  cbn [snd] in Ht. destruct Hf as [Hf1 Hf2]. fold (f_emit i n). rewrite (Ht m q1 q2 k _ Hf1).
  destruct (fwd_same i b1 t1 m q1 Hf1) as (E1 & E2 & _). rewrite E2, !count_reloc, E1.
  rewrite (IHks Hf2). reflexivity.
Qed.
