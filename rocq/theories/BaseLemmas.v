(* Lemmas about Base.v *)
From Verif Require Import Base.

Lemma blen_nil A : @blen A [] = 0. Proof. reflexivity. Qed.
Lemma blen_cons A (x : A) l : blen (x :: l) = 1 + blen l.
Proof. unfold blen; cbn [length]; lia. Qed.
Lemma blen_app A (l m : list A) : blen (l ++ m) = blen l + blen m.
Proof. unfold blen; rewrite app_length; lia. Qed.
Lemma blen_nonneg A (l : list A) : 0 <= blen l.
Proof. unfold blen; lia. Qed.
Lemma blen_zrepeat A (x : A) n : blen (zrepeat x n) = Z.max 0 n.
Proof. unfold blen, zrepeat; rewrite repeat_length; lia. Qed.
Lemma blen_le n v : blen (le n v) = Z.of_nat n.
Proof.
  revert v; induction n as [|n IH]; intros v; cbn [le]; [reflexivity|].
  rewrite blen_cons, IH; lia.
Qed.
Lemma blen_ztake A n (l : list A) : blen (ztake n l) = Z.max 0 (Z.min n (blen l)).
Proof. unfold blen, ztake; rewrite firstn_length; lia. Qed.
Lemma blen_zdrop A n (l : list A) : blen (zdrop n l) = Z.max 0 (blen l - Z.max 0 n).
Proof. unfold blen, zdrop; rewrite skipn_length; lia. Qed.
Lemma blen_map A B (f : A -> B) l : blen (map f l) = blen l.
Proof. unfold blen; rewrite map_length; lia. Qed.

Lemma blen_slice A (l : list A) off n :
  0 <= off -> 0 <= n -> off + n <= blen l -> blen (slice l off n) = n.
Proof. intros; unfold slice; rewrite blen_ztake, blen_zdrop; lia. Qed.

Lemma blen_poke A (l : list A) off s :
  0 <= off -> off + blen s <= blen l -> blen (poke l off s) = blen l.
Proof.
  intros H1 H2; unfold poke.
  pose proof (blen_nonneg _ s).
  rewrite !blen_app, blen_ztake, blen_zdrop; lia.
Qed.

Lemma blen_zero A (l : list A) : blen l = 0 -> l = [].
Proof. destruct l; [reflexivity|]; rewrite blen_cons; pose proof (blen_nonneg _ l); lia. Qed.

Lemma ztake_app_exact A (l m : list A) n : n = blen l -> ztake n (l ++ m) = l.
Proof.
  intros ->; unfold ztake, blen; rewrite Nat2Z.id.
  rewrite firstn_app, firstn_all, Nat.sub_diag; cbn; apply app_nil_r.
Qed.
Lemma zdrop_app_exact A (l m : list A) n : n = blen l -> zdrop n (l ++ m) = m.
Proof.
  intros ->; unfold zdrop, blen; rewrite Nat2Z.id.
  rewrite skipn_app, skipn_all, Nat.sub_diag; reflexivity.
Qed.
Lemma ztake_all A (l : list A) n : blen l <= n -> ztake n l = l.
Proof. intros H; unfold ztake; apply firstn_all2; unfold blen in H; lia. Qed.
Lemma zdrop_all A (l : list A) n : blen l <= n -> zdrop n l = [].
Proof. intros H; unfold zdrop; apply skipn_all2; unfold blen in H; lia. Qed.
Lemma ztake_neg A (l : list A) n : n <= 0 -> ztake n l = [].
Proof. intros H; unfold ztake; replace (Z.to_nat n) with O by lia; reflexivity. Qed.
Lemma zdrop_neg A (l : list A) n : n <= 0 -> zdrop n l = l.
Proof. intros H; unfold zdrop; replace (Z.to_nat n) with O by lia; reflexivity. Qed.
Lemma ztake_app_l A (l m : list A) n : n <= blen l -> ztake n (l ++ m) = ztake n l.
Proof.
  intros H; unfold ztake; rewrite firstn_app.
  replace (Z.to_nat n - length l)%nat with O by (unfold blen in H; lia).
  cbn; apply app_nil_r.
Qed.
Lemma ztake_app_r A (l m : list A) n :
  blen l <= n -> ztake n (l ++ m) = l ++ ztake (n - blen l) m.
Proof.
  intros H; unfold ztake; rewrite firstn_app.
  rewrite firstn_all2 by (unfold blen in H; lia).
  f_equal; f_equal; unfold blen; lia.
Qed.
Lemma zdrop_app_l A (l m : list A) n : n <= blen l -> zdrop n (l ++ m) = zdrop n l ++ m.
Proof.
  intros H; unfold zdrop; rewrite skipn_app.
  replace (Z.to_nat n - length l)%nat with O by (unfold blen in H; lia).
  reflexivity.
Qed.
Lemma zdrop_app_r A (l m : list A) n :
  blen l <= n -> zdrop n (l ++ m) = zdrop (n - blen l) m.
Proof.
  intros H; unfold zdrop; rewrite skipn_app.
  rewrite skipn_all2 by (unfold blen in H; lia).
  cbn; f_equal; unfold blen; lia.
Qed.
Lemma ztake_zdrop A (l : list A) n : ztake n l ++ zdrop n l = l.
Proof. apply firstn_skipn. Qed.

Lemma zdrop_zdrop A (l : list A) a b :
  0 <= a -> 0 <= b -> zdrop a (zdrop b l) = zdrop (a + b) l.
Proof.
  intros Ha Hb. rewrite <- (ztake_zdrop _ l b) at 2.
  destruct (Z.le_gt_cases b (blen l)) as [Hle|Hgt].
  - rewrite zdrop_app_r; [f_equal; rewrite blen_ztake; lia | rewrite blen_ztake; lia].
  - rewrite (zdrop_all _ l b) by lia.
    rewrite app_nil_r, !zdrop_all; try reflexivity; rewrite ?blen_nil, ?blen_ztake; lia.
Qed.

Lemma slice_app_exact A (l m r : list A) off n :
  off = blen l -> n = blen m -> slice (l ++ m ++ r) off n = m.
Proof.
  intros H1 H2; unfold slice.
  rewrite zdrop_app_exact by assumption; apply ztake_app_exact; assumption.
Qed.
Lemma slice_app_l A (l r : list A) off n :
  0 <= off -> off + n <= blen l -> slice (l ++ r) off n = slice l off n.
Proof.
  intros H1 H2; unfold slice.
  destruct (Z.le_gt_cases n 0); [rewrite !ztake_neg by lia; reflexivity|].
  rewrite zdrop_app_l by lia. apply ztake_app_l. rewrite blen_zdrop; lia.
Qed.
Lemma slice_app_r A (l r : list A) off n :
  blen l <= off -> slice (l ++ r) off n = slice r (off - blen l) n.
Proof. intros H; unfold slice; rewrite zdrop_app_r by lia; reflexivity. Qed.

Lemma slice_slice A (l : list A) o1 n1 o2 n2 :
  0 <= o1 -> 0 <= o2 -> 0 <= n2 -> o2 + n2 <= n1 ->
  slice (slice l o1 n1) o2 n2 = slice l (o1 + o2) n2.
Proof.
  intros. unfold slice, ztake, zdrop.
  rewrite skipn_firstn_comm, firstn_firstn.
  replace (Nat.min (Z.to_nat n2) (Z.to_nat n1 - Z.to_nat o2))
    with (Z.to_nat n2) by lia.
  f_equal.
  replace (Z.to_nat (o1 + o2)) with (Z.to_nat o2 + Z.to_nat o1)%nat by lia.
  assert (E : forall (a b : nat) (m : list A), skipn a (skipn b m) = skipn (a + b) m).
  { intros a b; revert a; induction b as [|b IH]; intros a m.
    - rewrite Nat.add_0_r; reflexivity.
    - destruct m as [|x m]; [rewrite !skipn_nil; reflexivity|].
      replace (a + S b)%nat with (S (a + b)) by lia. cbn. apply IH. }
  apply E.
Qed.

Lemma slice_all A (l : list A) n : n = blen l -> slice l 0 n = l.
Proof. intros ->; unfold slice; rewrite zdrop_neg, ztake_all by lia; reflexivity. Qed.

Lemma slice_split A (l : list A) off n m :
  0 <= off -> 0 <= n -> 0 <= m ->
  slice l off (n + m) = slice l off n ++ slice l (off + n) m.
Proof.
  intros. unfold slice.
  rewrite (Z.add_comm off n), <- zdrop_zdrop by lia.
  generalize (zdrop off l); intros k.
  destruct (Z.le_gt_cases n (blen k)).
  - rewrite <- (ztake_zdrop _ k n) at 1.
    rewrite ztake_app_r by (rewrite blen_ztake; lia).
    f_equal; f_equal; rewrite blen_ztake; lia.
  - rewrite (zdrop_all _ k n), !(ztake_all _ k) by lia.
    unfold ztake; rewrite firstn_nil, app_nil_r; reflexivity.
Qed.

Lemma poke_app A (l m r s : list A) off :
  off = blen l -> blen s = blen m -> poke (l ++ m ++ r) off s = l ++ s ++ r.
Proof.
  intros H1 H2; unfold poke.
  rewrite ztake_app_exact by assumption.
  f_equal; f_equal.
  pose proof (blen_nonneg _ s). rewrite zdrop_app_r by lia. apply zdrop_app_exact. lia.
Qed.
Lemma poke_app_nil A (l m s : list A) off :
  off = blen l -> blen s = blen m -> poke (l ++ m) off s = l ++ s.
Proof.
  intros H1 H2. rewrite <- (app_nil_r m), (poke_app _ l m [] s) by assumption.
  rewrite app_nil_r; reflexivity.
Qed.

(* Indexing with poke *)
Lemma nth_error_app_Z A (l m : list A) (i : nat) :
  nth_error (l ++ m) i =
  if (i <? length l)%nat then nth_error l i else nth_error m (i - length l).
Proof.
  destruct (Nat.ltb_spec i (length l)).
  - apply nth_error_app1; assumption.
  - apply nth_error_app2; assumption.
Qed.

Lemma poke_outside A (l s : list A) off (i : nat) :
  0 <= off -> off + blen s <= blen l ->
  (Z.of_nat i < off \/ off + blen s <= Z.of_nat i) ->
  nth_error (poke l off s) i = nth_error l i.
Proof.
  intros H1 H2 Hi. pose proof (blen_nonneg _ s).
  assert (E : l = ztake off l ++ slice l off (blen s) ++ zdrop (off + blen s) l).
  { rewrite <- (ztake_zdrop _ l off) at 1. f_equal.
    unfold slice. rewrite <- (ztake_zdrop _ (zdrop off l) (blen s)) at 1.
    f_equal. rewrite zdrop_zdrop by lia. f_equal; lia. }
  rewrite E at 2; unfold poke.
  assert (B1 : blen (ztake off l) = off) by (rewrite blen_ztake; lia).
  assert (B2 : blen (slice l off (blen s)) = blen s) by (rewrite blen_slice; lia).
  rewrite !nth_error_app_Z.
  unfold blen in *.
  destruct (Nat.ltb_spec i (length (ztake off l))); [reflexivity|].
  replace (length (slice l off (Z.of_nat (length s)))) with (length s) by lia.
  destruct (Nat.ltb_spec (i - length (ztake off l)) (length s)); [lia|reflexivity].
Qed.

Lemma poke_inside A (l s : list A) off :
  0 <= off -> off + blen s <= blen l -> slice (poke l off s) off (blen s) = s.
Proof.
  intros H1 H2; unfold poke. apply slice_app_exact; [rewrite blen_ztake|];
  pose proof (blen_nonneg _ s); lia.
Qed.

Lemma set_size_shrink A (l : list A) n : n = blen l -> ztake n l = l.
Proof. intros ->; apply ztake_all; lia. Qed.

(* all_bytes *)
Lemma all_bytes_app l m : all_bytes (l ++ m) <-> all_bytes l /\ all_bytes m.
Proof. apply Forall_app. Qed.
Lemma all_bytes_le n v : all_bytes (le n v).
Proof.
  revert v; induction n as [|n IH]; intros v; cbn [le]; constructor.
  - unfold is_byte; lia.
  - apply IH.
Qed.
Lemma all_bytes_zrepeat x n : is_byte x -> all_bytes (zrepeat x n).
Proof.
  intros H; unfold zrepeat, all_bytes; apply Forall_forall.
  intros y Hy; apply repeat_spec in Hy; subst; assumption.
Qed.
Lemma Forall_ztake A (P : A -> Prop) n l : Forall P l -> Forall P (ztake n l).
Proof.
  intros H; unfold ztake; rewrite Forall_forall in *; intros x Hx.
  apply H. rewrite <- (firstn_skipn (Z.to_nat n) l); apply in_or_app; left; exact Hx.
Qed.
Lemma Forall_zdrop A (P : A -> Prop) n l : Forall P l -> Forall P (zdrop n l).
Proof.
  intros H; unfold zdrop; rewrite Forall_forall in *; intros x Hx.
  apply H. rewrite <- (firstn_skipn (Z.to_nat n) l); apply in_or_app; right; exact Hx.
Qed.
Lemma Forall_slice A (P : A -> Prop) off n l : Forall P l -> Forall P (slice l off n).
Proof. intros H; unfold slice; apply Forall_ztake, Forall_zdrop, H. Qed.

(* Little endian *)
Lemma unle_le n v : unle (le n v) = v mod 2 ^ (8 * Z.of_nat n).
Proof.
  revert v; induction n as [|n IH]; intros v; cbn [le unle].
  - change (2 ^ (8 * Z.of_nat 0)) with 1. rewrite Z.mod_1_r; reflexivity.
  - rewrite IH.
    replace (8 * Z.of_nat (S n)) with (8 + 8 * Z.of_nat n) by lia.
    rewrite Z.pow_add_r by lia. change (2 ^ 8) with 256.
    rewrite Z.rem_mul_r; [lia| lia | apply Z.pow_pos_nonneg; lia].
Qed.

Lemma le_unle l : all_bytes l -> le (length l) (unle l) = l.
Proof.
  induction l as [|b l IH]; intros H; cbn [le unle length]; [reflexivity|].
  inversion H as [|? ? Hb Hl]; subst. unfold is_byte in Hb.
  replace ((b + 256 * unle l) mod 256) with b by lia.
  replace ((b + 256 * unle l) / 256) with (unle l) by lia.
  f_equal; apply IH, Hl.
Qed.

Lemma unle_bound l : all_bytes l -> 0 <= unle l < 2 ^ (8 * blen l).
Proof.
  induction l as [|b l IH]; intros H; cbn [unle].
  - change (2 ^ (8 * blen (@nil Z))) with 1; lia.
  - inversion H as [|? ? Hb Hl]; subst. unfold is_byte in Hb. specialize (IH Hl).
    rewrite blen_cons. pose proof (blen_nonneg _ l).
    replace (8 * (1 + blen l)) with (8 + 8 * blen l) by lia.
    rewrite Z.pow_add_r by lia. change (2 ^ 8) with 256.
    generalize dependent (2 ^ (8 * blen l)); intros; nia.
Qed.

Lemma unle_app l m : unle (l ++ m) = unle l + 2 ^ (8 * blen l) * unle m.
Proof.
  induction l as [|b l IH]; cbn [unle app].
  - change (2 ^ (8 * blen (@nil Z))) with 1; lia.
  - rewrite IH, blen_cons. pose proof (blen_nonneg _ l).
    replace (8 * (1 + blen l)) with (8 + 8 * blen l) by lia.
    rewrite Z.pow_add_r by lia. change (2 ^ 8) with 256.
    generalize dependent (2 ^ (8 * blen l)); intros; nia.
Qed.

Lemma unle_zeros n : unle (zrepeat 0 n) = 0.
Proof.
  unfold zrepeat; induction (Z.to_nat n) as [|k IH]; cbn [repeat unle]; lia.
Qed.

(* align *)
Lemma align4_spec v : v <= align4 v < v + 4 /\ align4 v mod 4 = 0.
Proof. unfold align4; lia. Qed.
Lemma align8_spec v : v <= align8 v < v + 8 /\ align8 v mod 8 = 0.
Proof. unfold align8; lia. Qed.
Lemma align4_id v : v mod 4 = 0 -> align4 v = v.
Proof. unfold align4; lia. Qed.

Lemma sgn_u32 v : - 2 ^ 31 <= v < 2 ^ 31 -> sgn 32 (v mod 2 ^ 32) = v.
Proof.
  intros H. unfold sgn. change (2 ^ (32 - 1)) with (2 ^ 31).
  rewrite Z.mod_mod by lia.
  destruct (Z.ltb_spec (v mod 2 ^ 32) (2 ^ 31)); lia.
Qed.

Lemma load_ok mem off n b :
  load mem off n = Ok b <->
  0 <= off /\ off + n <= blen mem /\ b = slice mem off n.
Proof.
  unfold load. destruct ((0 <=? off) && (off + n <=? blen mem)) eqn:E; split; intros H.
  - inversion H; subst. repeat split; lia.
  - destruct H as (_ & _ & ->); reflexivity.
  - discriminate.
  - lia.
Qed.

Lemma load_app l m r off n :
  off = blen l -> n = blen m -> load (l ++ m ++ r) off n = Ok m.
Proof.
  intros -> ->. apply load_ok.
  pose proof (blen_nonneg _ l); pose proof (blen_nonneg _ m); pose proof (blen_nonneg _ r).
  rewrite !blen_app. repeat split; try lia.
  symmetry; apply slice_app_exact; reflexivity.
Qed.

Arguments le : simpl never.
Arguments unle : simpl never.
Arguments blen : simpl never.
Arguments ztake : simpl never.
Arguments zdrop : simpl never.
Arguments slice : simpl never.
Arguments poke : simpl never.
Arguments zrepeat : simpl never.
Arguments align4 : simpl never.
Arguments align8 : simpl never.
