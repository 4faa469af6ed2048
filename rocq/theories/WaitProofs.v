(* Proofs about gbinder_servicemanager_wait *)
From Coq Require Import ZArith List Lia Bool.
From Verif Require Import Base WaitModel WaitSpec.

Lemma sleep_ns_total : forall parts rest, 0 <= rest ->
  (forall p, In p parts -> 0 <= p) -> 
  (forall n p, nth_error parts n = Some p -> fold_right Z.add 0 (firstn n parts) + p <= rest) ->
  sleep_ns rest parts = rest.
Proof.
  induction parts as [|p r IH]; intros rest H0 Hp Hs; cbn [sleep_ns]; auto.
  pose proof (Hp p (or_introl eq_refl)). pose proof (Hs 0%nat p eq_refl) as H1. cbn in H1.
  assert (D : (rest - p) / 1000000000 * 1000000000 + (rest - p) mod 1000000000 = rest - p)
    by (rewrite Z.mul_comm; symmetry; apply Z.div_mod; lia).
  assert (M : 0 <= (rest - p) mod 1000000000 < 1000000000) by (apply Z.mod_pos_bound; lia).
  assert (Q : 0 <= (rest - p) / 1000000000) by (apply Z.div_pos; lia).
  destruct (Z.ltb_spec 0 ((rest - p) / 1000000000)); cbn [orb];
    [|destruct (Z.ltb_spec 0 ((rest - p) mod 1000000000))].
  1,2: rewrite D, IH; [lia|lia|intros; apply Hp; right; auto|];
       intros n q N; specialize (Hs (S n) q N); cbn [firstn fold_right] in Hs; lia.
  lia.
Qed.

Lemma sleep_ms_total : forall ms parts, 0 <= ms ->
  (forall p, In p parts -> 0 <= p) -> 
  (forall n p, nth_error parts n = Some p ->
     fold_right Z.add 0 (firstn n parts) + p <= ms * 1000000) ->
  sleep_ms ms parts = ms * 1000000.
Proof.
  intros ms parts H Hp Hs. unfold sleep_ms.
  assert (ms = 1000 * (ms / 1000) + ms mod 1000) by (apply Z.div_mod; lia).
  assert (0 <= ms mod 1000 < 1000) by (apply Z.mod_pos_bound; lia).
  assert (0 <= ms / 1000) by (apply Z.div_pos; lia).
  replace (ms / 1000 * 1000000000 + ms mod 1000 * 1000000) with (ms * 1000000) by lia.
  apply sleep_ns_total; auto. lia.
Qed.

Lemma pause_range n : 100 <= pause n <= 1000.
Proof. unfold pause. lia. Qed.

Lemma pause_next n :
  (if pause n <? PRESENSE_WAIT_MS_MAX then
     if PRESENSE_WAIT_MS_MAX <? pause n + PRESENSE_WAIT_MS_STEP then PRESENSE_WAIT_MS_MAX
     else pause n + PRESENSE_WAIT_MS_STEP
   else pause n) = pause (S n).
Proof.
  unfold PRESENSE_WAIT_MS_MAX, PRESENSE_WAIT_MS_STEP.
  assert (P : pause n = Z.min 1000 (100 * (Z.of_nat n + 1))) by reflexivity.
  assert (Q : pause (S n) = Z.min 1000 (100 * (Z.of_nat n + 2))) by (unfold pause; lia).
  rewrite Q, P.
  repeat match goal with |- context [?a <? ?b] => destruct (Z.ltb_spec a b) end; lia.
Qed.

Lemma pauses_mono n k : pauses n <= pauses (n + k).
Proof.
  induction k; [rewrite Nat.add_0_r; lia|]. rewrite Nat.add_succ_r. cbn [pauses].
  pose proof (pause_range (n + k)). lia.
Qed.

Definition good (alive : nat -> bool) (n : nat) (r : bool) (l : list act) : Prop :=
  (forall k b, nth_error (checks l) k = Some b -> b = alive (n + k)%nat) /\
  (r = true -> exists p, checks l = p ++ [true] /\ Forall (eq false) p) /\
  (r = false -> Forall (eq false) (checks l)).

Lemma good_step alive n r l d : alive n = false -> good alive (S n) r l ->
  good alive n r (Sleep d :: Check false :: l).
Proof.
  intros A (H1 & H2 & H3). repeat split.
  - intros k b. cbn [checks]. destruct k; cbn [nth_error].
    + intros [= <-]. rewrite Nat.add_0_r. auto.
    + intros K. rewrite (H1 _ _ K). f_equal. lia.
  - intros E. destruct (H2 E) as (p & Ep & F). exists (false :: p). cbn [checks]. rewrite Ep. split; auto.
  - intros E. cbn [checks]. auto.
Qed.

Lemma loop_limited : forall f alive n max r l, 0 <= max ->
  wait_loop alive f (S n) max (pause n) = Some (r, l) ->
  slept l <= max /\ (r = false -> slept l = max) /\ good alive (S n) r l /\
  (forall k, (k < length (checks l))%nat ->
     check_time l k = Some (Z.min max (pauses (S n + k) - pauses n))).
Proof.
  induction f as [|f IH]; intros alive n max r l H0; cbn [wait_loop];
    destruct (Z.eqb_spec max 0) as [->|Hm].
  1,3: intros [= <- <-]; split; [cbn; lia|]; split; [auto|]; split;
       [split; [intros [|k] b; discriminate|]; split; [discriminate|intros _; constructor]|
        intros k Hk; cbn in Hk; lia].
  { discriminate. }
  destruct (Z.ltb_spec 0 max); [|lia].
  pose proof (pause_range n) as P. pose proof (pauses_mono n) as PM.
  assert (PS : pauses (S n) = pauses n + pause n) by reflexivity.
  destruct (Z.ltb_spec max (pause n)) as [Hl|Hl]; cbv beta iota zeta.
  - (* the last, shorter sleep *)
    destruct (alive (S n)) eqn:A.
    + intros [= <- <-]. cbn [slept checks length]. repeat split; try lia; try discriminate.
      * intros [|[|k]] b; cbn; try discriminate. rewrite Nat.add_0_r. congruence.
      * exists []. split; auto.
      * intros [|k] Hk; [|lia]. cbn [check_time].
        rewrite Nat.add_0_r. f_equal. lia.
    + set (d2 := if _ <? _ then _ else _).
      assert (W : forall f' m d, wait_loop alive f' m 0 d = Some (false, []))
        by (intros [|f'] m d; reflexivity).
      rewrite W. intros [= <- <-]. cbn [slept checks length]. repeat split; try lia; try discriminate.
      * intros [|[|k]] b; cbn; try discriminate. rewrite Nat.add_0_r. congruence.
      * intros _. cbn [checks]. auto.
      * intros [|k] Hk; [|lia]. cbn [check_time].
        rewrite Nat.add_0_r. f_equal. lia.
  - destruct (alive (S n)) eqn:A.
    + intros [= <- <-]. cbn [slept checks length]. repeat split; try lia; try discriminate.
      * intros [|[|k]] b; cbn; try discriminate. rewrite Nat.add_0_r. congruence.
      * exists []. split; auto.
      * intros [|k] Hk; [|lia]. cbn [check_time].
        rewrite Nat.add_0_r. f_equal. lia.
    + rewrite pause_next.
      destruct (wait_loop alive f (S (S n)) (max - pause n) (pause (S n))) as [[r1 l1]|] eqn:E;
        [|discriminate].
      intros [= <- <-]. assert (0 <= max - pause n) as Hr by lia; destruct (IH _ (S n) _ _ _ Hr E) as (S1 & S2 & G & T).
      cbn [slept checks length]. split; [lia|]. split; [intros ->; specialize (S2 eq_refl); lia|].
      split; [apply good_step; auto|].
      intros [|k] Hk; cbn [check_time].
      * rewrite Nat.add_0_r. f_equal. lia.
      * rewrite (T k ltac:(lia)). f_equal.
        replace (S n + S k)%nat with (S (S n) + k)%nat by lia. lia.
Qed.

Lemma loop_unlimited : forall f alive n max r l, max < 0 ->
  wait_loop alive f (S n) max (pause n) = Some (r, l) ->
  r = true /\ good alive (S n) r l /\
  (forall k, (k < length (checks l))%nat -> check_time l k = Some (pauses (S n + k) - pauses n)).
Proof.
  induction f as [|f IH]; intros alive n max r l H0; cbn [wait_loop];
    destruct (Z.eqb_spec max 0) as [->|Hm]; try lia; try discriminate.
  destruct (Z.ltb_spec 0 max); [lia|].
  assert (PS : pauses (S n) = pauses n + pause n) by reflexivity. cbv beta iota zeta.
  destruct (alive (S n)) eqn:A.
  - intros [= <- <-]. cbn [slept checks length]. repeat split; try lia; try discriminate.
    + intros [|[|k]] b; cbn; try discriminate. rewrite Nat.add_0_r. congruence.
    + exists []. split; auto.
    + intros [|k] Hk; [|lia]. cbn [check_time]. rewrite Nat.add_0_r. f_equal. lia.
  - rewrite pause_next.
    destruct (wait_loop alive f (S (S n)) max (pause (S n))) as [[r1 l1]|] eqn:E; [|discriminate].
    intros [= <- <-]. destruct (IH _ (S n) _ _ _ H0 E) as (-> & G & T).
    cbn [slept checks length]. split; auto.
    split; [apply good_step; auto|].
    intros [|k] Hk; cbn [check_time].
    + rewrite Nat.add_0_r. f_equal. lia.
    + rewrite (T k ltac:(lia)). f_equal.
      replace (S n + S k)%nat with (S (S n) + k)%nat by lia. lia.
Qed.

(* Enough rounds: each one takes at least a millisecond *)
Lemma loop_terminates : forall f alive n max d, 0 <= max -> (Z.to_nat max <= f)%nat -> 0 < d ->
  wait_loop alive f n max d <> None.
Proof.
  induction f as [|f IH]; intros alive n max d H0 Hf Hd; cbn [wait_loop];
    destruct (Z.eqb_spec max 0) as [->|Hm]; try discriminate; try lia.
  destruct (Z.ltb_spec 0 max); [|lia].
  destruct (Z.ltb_spec max d); cbv beta iota zeta; destruct (alive n); try discriminate.
  - assert (W : forall f' m d, wait_loop alive f' m 0 d = Some (false, []))
      by (intros [|f'] m d'; reflexivity). rewrite W. discriminate.
  - set (d2 := if _ <? _ then _ else _).
    assert (0 < d2) by (subst d2; unfold PRESENSE_WAIT_MS_MAX, PRESENSE_WAIT_MS_STEP;
      repeat match goal with |- context [?a <? ?b] => destruct (Z.ltb_spec a b) end; lia).
    pose proof (IH alive (S n) (max - d) d2 ltac:(lia) ltac:(lia) H2).
    destruct (wait_loop alive f (S n) (max - d) d2) as [[? ?]|]; [discriminate|contradiction].
Qed.

Lemma loop_appears : forall k f alive n max d, max < 0 ->
  alive (n + k)%nat = true -> (k < f)%nat -> wait_loop alive f n max d <> None.
Proof.
  induction k as [|k IH]; intros f alive n max d H0 A Hf; destruct f as [|f]; try lia;
    cbn [wait_loop]; destruct (Z.eqb_spec max 0); try lia;
    destruct (Z.ltb_spec 0 max); try lia; cbv beta iota zeta.
  - rewrite Nat.add_0_r in A. rewrite A. discriminate.
  - destruct (alive n); [discriminate|]. rewrite Nat.add_succ_r in A.
    set (d2 := if _ <? _ then _ else _).
    pose proof (IH f alive (S n) max d2 H0 A ltac:(lia)).
    destruct (wait_loop alive f (S n) max d2) as [[? ?]|]; [discriminate|contradiction].
Qed.

(* The whole function *)
Lemma wait_limited f alive max r l : 0 <= max -> wait alive true f max = Some (r, l) ->
  slept l <= max /\ (r = false -> slept l = max) /\ good alive 0 r l /\
  (forall k, (k < length (checks l))%nat -> check_time l k = Some (Z.min max (pauses k))).
Proof.
  intros H0. unfold wait. cbn [negb].
  destruct (alive 0%nat) eqn:A.
  { intros [= <- <-]. cbn [slept checks length]. repeat split; try lia; try discriminate.
    - intros [|[|k]] b; cbn; try discriminate. congruence.
    - exists []. auto.
    - intros [|k] Hk; [|lia]. cbn [check_time pauses]. f_equal. lia. }
  destruct (Z.eqb_spec max 0) as [->|Hm].
  { intros [= <- <-]. cbn [slept checks length]. repeat split; try lia; try discriminate.
    - intros [|[|k]] b; cbn; try discriminate. congruence.
    - intros _. cbn [checks]. auto.
    - intros [|k] Hk; [|lia]. reflexivity. }
  destruct (wait_loop alive f 1 max PRESENSE_WAIT_MS_MIN) as [[r1 l1]|] eqn:E; [|discriminate].
  intros [= <- <-]. destruct (loop_limited f alive 0 max r1 l1 H0 E) as (S1 & S2 & (G1 & G2 & G3) & T).
  cbn [slept]. split; auto. split; auto. split.
  - repeat split; cbn [checks].
    + intros [|k] b; cbn [nth_error]; [intros [= <-]; auto|]. intros K. rewrite (G1 _ _ K). auto.
    + intros ->. destruct (G2 eq_refl) as (p & Ep & F). exists (false :: p). rewrite Ep. auto.
    + intros ->. auto.
  - intros [|k] Hk; cbn [check_time]; [f_equal; cbn; lia|].
    cbn [checks length] in Hk. rewrite (T k ltac:(lia)). f_equal.
    replace (1 + k)%nat with (S k) by lia. cbn [pauses]. lia.
Qed.

Lemma wait_unlimited f alive max r l : max < 0 -> wait alive true f max = Some (r, l) ->
  r = true /\ good alive 0 r l /\
  (forall k, (k < length (checks l))%nat -> check_time l k = Some (pauses k)).
Proof.
  intros H0. unfold wait. cbn [negb].
  destruct (alive 0%nat) eqn:A.
  { intros [= <- <-]. cbn [slept checks length]. repeat split; try lia; try discriminate.
    - intros [|[|k]] b; cbn; try discriminate. congruence.
    - exists []. auto.
    - intros [|k] Hk; [|lia]. reflexivity. }
  destruct (Z.eqb_spec max 0) as [->|Hm]; [lia|].
  destruct (wait_loop alive f 1 max PRESENSE_WAIT_MS_MIN) as [[r1 l1]|] eqn:E; [|discriminate].
  intros [= <- <-]. destruct (loop_unlimited f alive 0 max r1 l1 H0 E) as (-> & (G1 & G2 & G3) & T).
  split; auto. split.
  - repeat split; cbn [checks].
    + intros [|k] b; cbn [nth_error]; [intros [= <-]; auto|]. intros K. rewrite (G1 _ _ K). auto.
    + intros _. destruct (G2 eq_refl) as (p & Ep & F). exists (false :: p). rewrite Ep. auto.
    + intros; discriminate.
  - intros [|k] Hk; cbn [check_time]; [f_equal; cbn; lia|].
    cbn [checks length] in Hk. rewrite (T k ltac:(lia)). f_equal.
    replace (1 + k)%nat with (S k) by lia. cbn [pauses]. lia.
Qed.

Lemma wait_terminates alive max : 0 <= max ->
  exists f r l, wait alive true f max = Some (r, l).
Proof.
  intros H0. exists (Z.to_nat max). unfold wait. cbn [negb].
  destruct (alive 0%nat); [eauto|]. destruct (Z.eqb_spec max 0); [eauto|].
  pose proof (loop_terminates (Z.to_nat max) alive 1 max PRESENSE_WAIT_MS_MIN H0 ltac:(lia) ltac:(reflexivity)).
  destruct (wait_loop alive (Z.to_nat max) 1 max PRESENSE_WAIT_MS_MIN) as [[r l]|]; [eauto|contradiction].
Qed.

Lemma wait_appears alive max k : max < 0 -> alive k = true ->
  exists f r l, wait alive true f max = Some (r, l).
Proof.
  intros H0 A. exists k. unfold wait. cbn [negb].
  destruct (alive 0%nat) eqn:A0; [eauto|]. destruct (Z.eqb_spec max 0); [lia|].
  destruct k as [|k]; [congruence|].
  pose proof (loop_appears k (S k) alive 1 max PRESENSE_WAIT_MS_MIN H0 A ltac:(lia)).
  destruct (wait_loop alive (S k) 1 max PRESENSE_WAIT_MS_MIN) as [[r l]|]; [eauto|contradiction].
Qed.

(* The last thing done in a successful wait is a successful check *)
Lemma loop_ends : forall f alive n max d l,
  wait_loop alive f n max d = Some (true, l) -> exists a, l = a ++ [Check true].
Proof.
  induction f as [|f IH]; intros alive n max d l; cbn [wait_loop];
    destruct (max =? 0); try discriminate.
  destruct (if 0 <? max then _ else _) as [m1 d1]. destruct (alive n).
  - intros [= <-]. exists [Sleep d1]. reflexivity.
  - set (d2 := if _ <? _ then _ else _).
    destruct (wait_loop alive f (S n) m1 d2) as [[r1 l1]|] eqn:E; [|discriminate].
    intros [= -> <-]. destruct (IH _ _ _ _ _ E) as [a ->].
    exists (Sleep d1 :: Check false :: a). reflexivity.
Qed.

Lemma wait_ends f alive max l : wait alive true f max = Some (true, l) ->
  exists a, l = a ++ [Check true].
Proof.
  unfold wait. cbn [negb]. destruct (alive 0%nat).
  { intros [= <-]. exists []. reflexivity. }
  destruct (max =? 0); [discriminate|].
  destruct (wait_loop alive f 1 max PRESENSE_WAIT_MS_MIN) as [[r1 l1]|] eqn:E; [|discriminate].
  intros [= -> <-]. destruct (loop_ends _ _ _ _ _ _ E) as [a ->].
  exists (Check false :: a). reflexivity.
Qed.

Lemma loop_finds : forall k alive n max, 
  alive (S n + k)%nat = true -> (forall m, (m < k)%nat -> alive (S n + m)%nat = false) ->
  max < 0 \/ pauses (S n + k) - pauses n <= max ->
  exists l, wait_loop alive (S k) (S n) max (pause n) = Some (true, l) /\
    slept l = pauses (S n + k) - pauses n /\ checks l = repeat false k ++ [true].
Proof.
  induction k as [|k IH]; intros alive n max A B H; pose proof (pause_range n) as P;
    assert (PS : pauses (S n) = pauses n + pause n) by reflexivity.
  - rewrite Nat.add_0_r in *. cbn [wait_loop].
    destruct (Z.eqb_spec max 0); [lia|].
    destruct (Z.ltb_spec 0 max); [destruct (Z.ltb_spec max (pause n)); [lia|]|];
      cbv beta iota zeta; rewrite A; eexists; (split; [reflexivity|]); cbn [slept checks repeat app];
      (split; [lia|reflexivity]).
  - pose proof (pauses_mono (S n) (S k)) as PM.
    assert (A0 : alive (S n) = false) by (specialize (B 0%nat ltac:(lia)); rewrite Nat.add_0_r in B; auto).
    remember (S k) as f eqn:Ef. cbn [wait_loop]. subst f.
    destruct (Z.eqb_spec max 0); [lia|].
    assert (Hi : exists m1, (if 0 <? max then if max <? pause n then (0, max) else (max - pause n, pause n)
                 else (max, pause n)) = (m1, pause n) /\
                 (m1 < 0 \/ pauses (S (S n) + k) - pauses (S n) <= m1)).
    { replace (S n + S k)%nat with (S (S n) + k)%nat in * by lia.
      destruct (Z.ltb_spec 0 max); [destruct (Z.ltb_spec max (pause n)); [lia|]|];
        eexists; (split; [reflexivity|]); lia. }
    destruct Hi as (m1 & -> & Hm). rewrite A0, pause_next.
    destruct (IH alive (S n) m1) as (l & -> & Sl & Cl); auto.
    + replace (S (S n) + k)%nat with (S n + S k)%nat by lia. auto.
    + intros m Hk. replace (S (S n) + m)%nat with (S n + S m)%nat by lia. apply B. lia.
    + eexists. split; [reflexivity|]. cbn [slept checks repeat]. rewrite Sl, Cl. split; auto.
      replace (S n + S k)%nat with (S (S n) + k)%nat in * by lia. lia.
Qed.

Lemma wait_finds alive max n :
  alive n = true -> (forall m, (m < n)%nat -> alive m = false) ->
  max < 0 \/ pauses n <= max ->
  exists fuel l, wait alive true fuel max = Some (true, l) /\
    slept l = pauses n /\ checks l = repeat false n ++ [true].
Proof.
  intros A B H. exists n. unfold wait. cbn [negb]. destruct n as [|k].
  - rewrite A. eexists. split; [reflexivity|]. split; reflexivity.
  - rewrite (B 0%nat) by lia. pose proof (pauses_mono 1 k) as PM. cbn [Nat.add] in PM.
    assert (P1 : pauses 1 = 100) by reflexivity.
    destruct (Z.eqb_spec max 0); [lia|].
    destruct (loop_finds k alive 0 max) as (l & E & Sl & Cl).
    + exact A.
    + intros m Hm. apply B. lia.
    + change (0 + k)%nat with k. cbn [pauses Nat.add]. destruct H; [left; auto|right].
      cbn [pauses] in H. lia.
    + change (pause 0) with PRESENSE_WAIT_MS_MIN in E. rewrite E. eexists. split; [reflexivity|].
      cbn [slept checks repeat]. rewrite Sl, Cl. split; [cbn [pauses Nat.add]; lia|reflexivity].
Qed.
