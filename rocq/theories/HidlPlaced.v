(* Trees of buffers in the memory of the receiver *)
From Verif Require Import Base BaseLemmas UtfModel WriterModel ReaderModel CodecSpec
  CodecProofs CodecSafety ObjModel ObjReader KernelModel ObjSpec ObjProofs ObjInvariant
  TreeProofs PieceProofs HidlSpec HidlWriter HidlOps.

(* Byte number j *)
Definition zn (l : bytes) (j : Z) : Z := nth (Z.to_nat j) l uninit.

Lemma zn_app_l l r j : 0 <= j < blen l -> zn (l ++ r) j = zn l j.
Proof. intros H. unfold zn, blen in *. apply app_nth1. lia. Qed.
Lemma zn_app_r l r j : blen l <= j -> zn (l ++ r) j = zn r (j - blen l).
Proof.
  intros H. unfold zn, blen in *. rewrite app_nth2 by lia. f_equal. lia.
Qed.
Lemma zn_nth_error l j x : nth_error l (Z.to_nat j) = Some x -> zn l j = x.
Proof. intros H. unfold zn. apply nth_error_nth. exact H. Qed.
Lemma nth_firstn {A} (d : A) : forall n (l : list A) j, (j < n)%nat -> nth j (firstn n l) d = nth j l d.
Proof.
  induction n as [|n IH]; intros [|x l] j Hj; try lia; cbn [firstn].
  - destruct j; reflexivity.
  - destruct j; cbn [nth]; [reflexivity|]. apply IH. lia.
Qed.
Lemma nth_skipn {A} (d : A) : forall n (l : list A) j, nth j (skipn n l) d = nth (n + j) l d.
Proof.
  induction n as [|n IH]; intros [|x l] j; cbn [skipn Nat.add]; try reflexivity.
  - destruct j; reflexivity.
  - rewrite IH. reflexivity.
Qed.
Lemma zn_ztake l n j : 0 <= j < n -> zn (ztake n l) j = zn l j.
Proof. intros H. unfold zn, ztake. apply nth_firstn. lia. Qed.
Lemma zn_zdrop l n j : 0 <= n -> 0 <= j -> zn (zdrop n l) j = zn l (n + j).
Proof. intros H1 H2. unfold zn, zdrop. rewrite nth_skipn. f_equal. lia. Qed.
Lemma zn_slice l off n j : 0 <= off -> 0 <= j < n -> zn (slice l off n) j = zn l (off + j).
Proof. intros H1 H2. unfold slice. rewrite zn_ztake, zn_zdrop by lia. reflexivity. Qed.

Lemma zn_poke_in l off s j :
  0 <= off -> off <= blen l -> 0 <= j < blen s -> zn (poke l off s) (off + j) = zn s j.
Proof.
  intros H1 H2 H3. unfold poke. assert (E : blen (ztake off l) = off) by (rewrite blen_ztake; lia).
  rewrite zn_app_r by lia. rewrite E. rewrite zn_app_l by lia. f_equal. lia.
Qed.
Lemma zn_poke_out l off s j :
  0 <= off -> off + blen s <= blen l -> 0 <= j -> (j < off \/ off + blen s <= j) ->
  zn (poke l off s) j = zn l j.
Proof.
  intros H1 H2 H3 H4. unfold zn.
  destruct (nth_error (poke l off s) (Z.to_nat j)) eqn:E.
  - rewrite poke_outside in E by lia. erewrite !nth_error_nth; eauto.
    rewrite poke_outside by lia. exact E.
  - pose proof E as E1. rewrite poke_outside in E1 by lia.
    apply nth_error_None in E, E1. rewrite !nth_overflow by lia. reflexivity.
Qed.

Lemma list_zn (l r : bytes) :
  blen l = blen r -> (forall j, 0 <= j < blen l -> zn l j = zn r j) -> l = r.
Proof.
  intros H1 H2. apply (nth_ext _ _ uninit uninit); [unfold blen in H1; lia|].
  intros n Hn. specialize (H2 (Z.of_nat n)). unfold zn, blen in H2. rewrite Nat2Z.id in H2.
  apply H2. lia.
Qed.

Lemma zn_mread m a n j : 0 <= j < n -> zn (mread m a n) j = m (a + j).
Proof.
  intros H. unfold zn, mread.
  rewrite (nth_indep _ _ (m (a + Z.of_nat 0))) by (rewrite map_length, seq_length; lia).
  rewrite (map_nth (fun k => m (a + Z.of_nat k))). rewrite seq_nth by lia. f_equal. lia.
Qed.

(* ------------------------------------------------------------------ *)

Fixpoint placed (i : io) (g : message) (t : tree) : Prop :=
  match t with
  | Node a d ks =>
    in_message g a (blen d) /\
    (forall j, 0 <= j < blen d ->
       (forall c t1, In (c, t1) ks -> ~ (c <= j < c + psz i)) -> gmem g (a + j) = zn d j) /\
    (fix go (l : list (Z * tree)) : Prop :=
       match l with
       | [] => True
       | (c, t1) :: r =>
         mread (gmem g) (a + c) (psz i) = le (psize i) (t_addr t1) /\ placed i g t1 /\ go r
       end) ks
  end.
Definition placed_kids (i : io) (g : message) (a : Z) : list (Z * tree) -> Prop :=
  fix go (l : list (Z * tree)) : Prop :=
    match l with
    | [] => True
    | (c, t1) :: r =>
      mread (gmem g) (a + c) (psz i) = le (psize i) (t_addr t1) /\ placed i g t1 /\ go r
    end.
Lemma placed_node i g a d ks :
  placed i g (Node a d ks) <->
  in_message g a (blen d) /\
  (forall j, 0 <= j < blen d ->
     (forall c t1, In (c, t1) ks -> ~ (c <= j < c + psz i)) -> gmem g (a + j) = zn d j) /\
  placed_kids i g a ks.
Proof. reflexivity. Qed.

Lemma f_patch_other i base ks : forall pos buf m len j,
  kids_ok i m len ks -> 0 <= m -> len <= blen buf -> 0 <= j ->
  (forall c t1, In (c, t1) (f_reloc base pos ks) -> ~ (c <= j < c + psz i)) ->
  zn (f_patch i base pos buf 0 ks) j = zn buf j.
Proof.
  pose proof (psz_pos i) as Hps.
  induction ks as [|[c t1] ks IH]; intros pos buf m len j Hk Hm Hl Hj Ho; cbn [f_patch kids_ok f_reloc] in *;
    [reflexivity|].
  destruct Hk as (H1 & H2 & H3).
  assert (Es : blen (le (psize i) (base + pos)) = psz i) by (rewrite blen_le, psize_psz; reflexivity).
  pose proof (Ho c _ (or_introl eq_refl)) as Hc. cbn [Z.add] in *.
  rewrite (IH _ _ (c + psz i) len) by
    (first [assumption|lia|rewrite blen_poke_in; rewrite ?Es; lia
           |intros c2 t2 Hin; apply (Ho c2 t2); right; exact Hin]).
  apply zn_poke_out; rewrite ?Es; lia.
Qed.

Lemma kids_reloc_lo i base ks : forall pos m len c t,
  kids_ok i m len ks -> In (c, t) (f_reloc base pos ks) -> m <= c /\ c + psz i <= len.
Proof.
  induction ks as [|[c1 t1] ks IH]; intros pos m len c t Hk Hin; cbn [f_reloc kids_ok] in *; [destruct Hin|].
  destruct Hk as (H1 & H2 & H3). pose proof (psz_pos i).
  destruct Hin as [E|Hin]; [injection E as -> _; lia|].
  pose proof (IH _ _ _ _ _ H3 Hin). lia.
Qed.

Lemma f_patch_get i base ks : forall pos buf m len,
  kids_ok i m len ks -> 0 <= m -> len <= blen buf ->
  Forall (fun k => forall j, 0 <= j < psz i ->
            zn (f_patch i base pos buf 0 ks) (fst k + j) = zn (le (psize i) (t_addr (snd k))) j)
    (f_reloc base pos ks).
Proof.
  pose proof (psz_pos i) as Hps.
  induction ks as [|[c t1] ks IH]; intros pos buf m len Hk Hm Hl; cbn [f_patch kids_ok f_reloc] in *;
    [constructor|].
  destruct Hk as (H1 & H2 & H3).
  assert (Es : blen (le (psize i) (base + pos)) = psz i) by (rewrite blen_le, psize_psz; reflexivity).
  change (0 + c) with c.
  assert (Eb : blen (poke buf c (le (psize i) (base + pos))) = blen buf)
    by (apply blen_poke_in; rewrite ?Es; lia).
  constructor.
  - cbn [fst snd]. intros j Hj.
    rewrite (f_patch_other i base ks _ _ (c + psz i) len); [|exact H3|lia|lia|lia|].
    + rewrite zn_poke_in by (rewrite ?Es; lia). destruct t1 as [a d ks1]. reflexivity.
    + intros c2 t2 Hin. pose proof (kids_reloc_lo _ _ _ _ _ _ _ _ H3 Hin). lia.
  - eapply IH; [exact H3|lia|lia].
Qed.

Lemma gmem_at g sg0 b sg1 j :
  m_sg g = sg0 ++ b ++ sg1 -> 0 <= j < blen b -> gmem g (m_sgbase g + blen sg0 + j) = zn b j.
Proof.
  intros E Hj. unfold gmem. replace (m_sgbase g + blen sg0 + j - m_sgbase g) with (blen sg0 + j) by lia.
  rewrite E. change (zn (sg0 ++ b ++ sg1) (blen sg0 + j) = zn b j).
  rewrite zn_app_r by lia. rewrite zn_app_l by lia. f_equal. lia.
Qed.

Lemma placed_image i g t : forall sg0 sg1 m,
  m_sg g = sg0 ++ t_image i (m_sgbase g) (blen sg0) t ++ sg1 -> tree_ok i m t ->
  placed i g (t_reloc (m_sgbase g) (blen sg0) t).
Proof.
  pose proof (psz_pos i) as Hps.
  induction t as [a d ks IH] using tree_ind2. intros sg0 sg1 m Hsg Hok.
  apply tree_ok_node in Hok. destruct Hok as (Hn & Hk & Hf).
  rewrite t_reloc_node. apply placed_node. rewrite t_image_node in Hsg.
  set (q := blen sg0 + align8 (blen d)) in *.
  set (B := f_patch i (m_sgbase g) q (k_pad8 d) 0 ks) in *.
  pose proof (align8_spec (blen d)) as Ha.
  assert (HB : blen B = align8 (blen d)).
  { unfold B. erewrite f_patch_len by (first [exact Hk|lia|rewrite blen_pad8; lia]). apply blen_pad8. }
  pose proof (blen_nonneg _ sg0). pose proof (blen_nonneg _ d).
  rewrite <- app_assoc in Hsg.
  assert (HgB : forall j, 0 <= j < align8 (blen d) -> gmem g (m_sgbase g + blen sg0 + j) = zn B j).
  { intros j Hj. eapply gmem_at; [exact Hsg|lia]. }
  split; [|split].
  - unfold in_message. rewrite Hsg, !blen_app, HB.
    pose proof (blen_nonneg _ (f_image i (m_sgbase g) q ks)). pose proof (blen_nonneg _ sg1). lia.
  - intros j Hj Ho. rewrite HgB by lia. unfold B.
    rewrite (f_patch_other i (m_sgbase g) ks q (k_pad8 d) 0 (blen d)); [|exact Hk|lia|rewrite blen_pad8; lia|lia|exact Ho].
    unfold k_pad8. apply zn_app_l. lia.
  - assert (Hget := f_patch_get i (m_sgbase g) ks q (k_pad8 d) 0 (blen d) Hk ltac:(lia)
                      ltac:(rewrite blen_pad8; lia)). fold B in Hget.
    assert (Hlo : forall c t, In (c, t) (f_reloc (m_sgbase g) q ks) -> 0 <= c /\ c + psz i <= blen d).
    { intros c t Hin. eapply kids_reloc_lo; [exact Hk|exact Hin]. }
    assert (Hpl : forall sga, m_sg g = sga ++ f_image i (m_sgbase g) (blen sga) ks ++ sg1 ->
      Forall (fun k => placed i g (snd k)) (f_reloc (m_sgbase g) (blen sga) ks)).
    { clear - IH Hf. revert Hf.
      induction IH as [|[c t1] ks Ht Hks IHks]; intros Hf sga Hsg; cbn [f_reloc f_image forest_ok] in *;
        [constructor|]. cbn [snd] in Ht. destruct Hf as [Hf1 Hf2].
      rewrite <- app_assoc in Hsg.
      constructor.
      - cbn [snd]. eapply Ht; [exact Hsg|exact Hf1].
      - assert (E : blen (sga ++ t_image i (m_sgbase g) (blen sga) t1) = blen sga + t_space t1)
          by (rewrite blen_app; erewrite t_image_len by exact Hf1; reflexivity).
        rewrite <- E. apply IHks; [exact Hf2|]. rewrite E, <- app_assoc. exact Hsg. }
    specialize (Hpl (sg0 ++ B)).
    assert (Eq : blen (sg0 ++ B) = q) by (rewrite blen_app, HB; reflexivity).
    rewrite Eq in Hpl. specialize (Hpl ltac:(rewrite <- app_assoc; exact Hsg)).
    clear - Hget Hlo Hpl HgB Hps Ha. revert Hget Hlo Hpl.
    generalize (f_reloc (m_sgbase g) q ks) as l.
    induction l as [|[c t1] l IHl]; intros Hget Hlo Hpl; cbn [placed_kids]; [exact I|].
    inversion Hget as [|x y G1 G2]; subst x y. inversion Hpl as [|x y P1 P2]; subst x y.
    cbn [fst snd] in *.
    split; [|split; [exact P1|]].
    + destruct (Hlo c t1 (or_introl eq_refl)).
      assert (Es : blen (le (psize i) (t_addr t1)) = psz i) by (rewrite blen_le, psize_psz; reflexivity).
      apply list_zn; [rewrite blen_mread, Es; lia|]. rewrite blen_mread by lia.
      intros j Hj. rewrite zn_mread by lia.
      replace (m_sgbase g + blen sg0 + c + j) with (m_sgbase g + blen sg0 + (c + j)) by lia.
      rewrite HgB by lia. apply G1. lia.
    + apply IHl; [exact G2| |exact P2]. intros c2 t2 Hin. apply (Hlo c2 t2). right; exact Hin.
Qed.

(* ------------------------------------------------------------------ *)
(* Reading through pointers *)

Lemma tload_in g a n : in_message g a n -> tload g a n = Ok (mread (gmem g) a n).
Proof.
  intros (H1 & H2 & H3). unfold tload. rewrite load_inside by lia. f_equal.
  apply list_zn.
  - rewrite blen_slice, blen_mread by lia. reflexivity.
  - rewrite blen_slice by lia. intros j Hj. rewrite zn_slice, zn_mread by lia.
    unfold gmem, zn. do 2 f_equal. lia.
Qed.

Lemma mread_sub m a n d c k :
  mread m a n = d -> 0 <= c -> 0 <= k -> c + k <= n -> mread m (a + c) k = slice d c k.
Proof. intros <- H1 H2 H3. symmetry. apply slice_mread; assumption. Qed.

Lemma in_message_sub g a n c k :
  in_message g a n -> 0 <= c -> 0 <= k -> c + k <= n -> in_message g (a + c) k.
Proof. unfold in_message. lia. Qed.

(* A buffer without pointers *)
Lemma placed_leaf i g a d :
  placed i g (leaf a d) -> in_message g a (blen d) /\ mread (gmem g) a (blen d) = d.
Proof.
  intros H. apply placed_node in H. destruct H as (H1 & H2 & _). split; [exact H1|].
  pose proof (blen_nonneg _ d). apply list_zn; rewrite blen_mread by lia; [reflexivity|].
  intros j Hj. rewrite zn_mread by lia. apply H2; [lia|]. intros c t [].
Qed.

(* A piece of a buffer which doesn't overlap with pointers *)
Lemma placed_part i g a d ks c n :
  placed i g (Node a d ks) -> 0 <= c -> 0 <= n -> c + n <= blen d ->
  (forall c1 t1, In (c1, t1) ks -> c1 + psz i <= c \/ c + n <= c1) ->
  in_message g (a + c) n /\ mread (gmem g) (a + c) n = slice d c n.
Proof.
  intros H Hc Hn Hl Ho. apply placed_node in H. destruct H as (H1 & H2 & _).
  split; [eapply in_message_sub; eauto|].
  apply list_zn; rewrite blen_mread by lia; [rewrite blen_slice by lia; reflexivity|].
  intros j Hj. rewrite zn_mread, zn_slice by lia.
  rewrite <- Z.add_assoc. apply H2; [lia|]. intros c1 t1 Hin Hr. specialize (Ho c1 t1 Hin). lia.
Qed.
