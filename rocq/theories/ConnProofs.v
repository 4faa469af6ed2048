(* Proofs about shared connections (C58) *)
From Verif Require Import Base ConnModel ConnSpec.
Local Arguments Nat.ltb : simpl never.

Definition busy (p : pc) : option nat :=
  match p with Idle => None | Disposing i | Stopping i | Dropping i => Some i end.
Lemma upd_same : forall A (f : nat -> A) i x, upd f i x i = x.
Proof. intros. unfold upd. now rewrite Nat.eqb_refl. Qed.
Lemma upd_other : forall A (f : nat -> A) i j x, j <> i -> upd f i x j = f j.
Proof. intros. unfold upd. apply Nat.eqb_neq in H. now rewrite H. Qed.
Lemma eqb_other : forall i j, j <> i -> Nat.eqb j i = false.
Proof. intros. now apply Nat.eqb_neq. Qed.

(* The state of one connection *)
Definition live (s : state) (i : nat) : Prop :=
  ((forall t, busy (threads s t) <> Some i) /\ c_refs (conns s i) = owned (trace s) i /\ 0 < owned (trace s) i) \/
  (exists t, busy (threads s t) = Some i /\ (forall u, busy (threads s u) = Some i -> u = t) /\
     c_refs (conns s i) = owned (trace s) i + 1 /\ 0 <= owned (trace s) i).
Definition dead (s : state) (i : nat) : Prop :=
  (forall t, busy (threads s t) <> Some i) /\ owned (trace s) i = 0.
Definition good (s : state) (i : nat) : Prop :=
  if (i <? count s)%nat then
    opens (trace s) i = 1%nat /\ opened_for (trace s) i = Some (c_key (conns s i)) /\
    closes (trace s) i = (if c_freed (conns s i) then 1 else 0)%nat /\
    (if c_freed (conns s i) then dead s i else live s i)
  else dead s i /\ opens (trace s) i = 0%nat /\ closes (trace s) i = 0%nat /\ opened_for (trace s) i = None.
Definition listed (s : state) : Prop := forall k i, table s k = Some i ->
  (i < count s)%nat /\ c_key (conns s i) = k /\ c_freed (conns s i) = false /\
  forall t, threads s t <> Stopping i /\ threads s t <> Dropping i.
Definition Inv (s : state) : Prop := (forall i, good s i) /\ listed s.

Lemma inv_init : Inv init.
Proof.
  split.
  - intros i. unfold good. cbn. repeat split; intros; cbn; congruence.
  - intros k i H. discriminate.
Qed.

(* A connection on which nothing happens *)
Lemma good_frame : forall s s1 i,
  count s1 = count s -> conns s1 i = conns s i ->
  (forall t, busy (threads s1 t) = Some i <-> busy (threads s t) = Some i) ->
  owned (trace s1) i = owned (trace s) i -> opens (trace s1) i = opens (trace s) i ->
  closes (trace s1) i = closes (trace s) i -> opened_for (trace s1) i = opened_for (trace s) i ->
  good s i -> good s1 i.
Proof.
  intros s s1 i H1 H2 H3 H4 H5 H6 H7 G. unfold good in *. rewrite H1, H2, H5, H6, H7.
  assert (D : dead s i -> dead s1 i).
  { intros [D1 D2]. split; [|congruence]. intros t E. apply H3 in E. exact (D1 t E). }
  assert (A : live s i -> live s1 i).
  { intros [(A1 & A2 & A3)|(t & A1 & A2 & A3 & A4)]; [left|right; exists t]; rewrite H2, H4.
    - repeat split; auto. intros t E. apply H3 in E. exact (A1 t E).
    - repeat split; auto; [now apply H3|]. intros u E. apply A2. now apply H3. }
  destruct (i <? count s)%nat.
  - destruct G as (G1 & G2 & G3 & G4). repeat split; auto. destruct (c_freed (conns s i)); auto.
  - destruct G as (G1 & G2 & G3 & G4). repeat split; auto; apply D in G1; apply G1.
Qed.

Lemma owned_pos : forall s i, Inv s -> 0 < owned (trace s) i ->
  (i < count s)%nat /\ c_freed (conns s i) = false /\ live s i /\ opens (trace s) i = 1%nat /\
  opened_for (trace s) i = Some (c_key (conns s i)) /\ closes (trace s) i = 0%nat.
Proof.
  intros s i [G _] P. specialize (G i). unfold good in G.
  destruct (i <? count s)%nat eqn:E.
  - apply Nat.ltb_lt in E. destruct G as (G1 & G2 & G3 & G4). destruct (c_freed (conns s i)).
    + destruct G4. lia.
    + auto 10.
  - destruct G as [[_ G] _]. lia.
Qed.
Lemma busy_live : forall s t i, Inv s -> busy (threads s t) = Some i ->
  (i < count s)%nat /\ c_freed (conns s i) = false /\ opens (trace s) i = 1%nat /\
  opened_for (trace s) i = Some (c_key (conns s i)) /\ closes (trace s) i = 0%nat /\
  (forall u, busy (threads s u) = Some i -> u = t) /\
  c_refs (conns s i) = owned (trace s) i + 1 /\ 0 <= owned (trace s) i.
Proof.
  intros s t i [G _] P. specialize (G i). unfold good in G.
  destruct (i <? count s)%nat eqn:E.
  - apply Nat.ltb_lt in E. destruct G as (G1 & G2 & G3 & G4). destruct (c_freed (conns s i)).
    + destruct G4 as [D _]. now apply D in P.
    + destruct G4 as [(A & _)|(u & A1 & A2 & A3 & A4)]; [now apply A in P|].
      pose proof (A2 t P). subst u. repeat split; auto.
  - destruct G as [[D _] _]. now apply D in P.
Qed.

Ltac nums := repeat match goal with
  | |- context [Nat.eqb ?a ?a] => rewrite Nat.eqb_refl
  | H : ?j <> ?i |- context [Nat.eqb ?j ?i] => rewrite (eqb_other i j H)
  | H : ?i <> ?j |- context [Nat.eqb ?j ?i] => rewrite (eqb_other i j (not_eq_sym H))
  end.

Lemma new_found : forall s t k i, Inv s -> table s k = Some i ->
  Inv (say (set_refs s i (c_refs (conns s i) + 1)) (EvNew t k (Some i))).
Proof.
  intros s t k i H E. destruct (proj2 H k i E) as (L & K & F & W). split.
  - intros j. destruct (Nat.eq_dec j i) as [Q|Q].
    + subst j. destruct H as [G _]. specialize (G i). unfold good in *. cbn -[upd].
      apply Nat.ltb_lt in L. rewrite L in *. rewrite upd_same. cbn. rewrite F in *. cbv iota in G |- *.
      destruct G as (G1 & G2 & G3 & G4). repeat split; auto.
      destruct G4 as [(A1 & A2 & A3)|(u & A1 & A2 & A3 & A4)]; [left|right; exists u]; cbn -[upd];
        rewrite upd_same; cbn; rewrite Nat.eqb_refl; repeat split; auto; lia.
    + apply (good_frame s); try reflexivity; cbn -[upd]; [now rewrite upd_other| |exact (proj1 H j)].
      rewrite eqb_other by congruence. lia.
  - intros k' i' E'. cbn in E'. destruct (proj2 H k' i' E') as (L' & K' & F' & W'). cbn -[upd].
    unfold upd. destruct (Nat.eqb i' i) eqn:Q; auto. apply Nat.eqb_eq in Q. subst. cbn. auto.
Qed.
Lemma new_opened : forall s t k, Inv s -> table s k = None ->
  Inv (say (set_table (State (upd (conns s) (count s) (Conn k 1 false false)) (S (count s)) (table s) (threads s)
         (EvOpen k (count s) :: trace s)) k (Some (count s))) (EvNew t k (Some (count s)))).
Proof.
  intros s t k H E. pose proof (proj1 H (count s)) as G. unfold good in G. rewrite Nat.ltb_irrefl in G.
  destruct G as ([G1 G2] & G3 & G4 & G5). split.
  - intros j. destruct (Nat.eq_dec j (count s)) as [Q|Q].
    + subst j. unfold good. cbn -[upd]. rewrite upd_same. cbn.
      replace (count s <? S (count s))%nat with true by (symmetry; apply Nat.ltb_lt; lia). nums.
      rewrite G3, G4. repeat split; auto. left. cbn -[upd]. rewrite upd_same. cbn. nums.
      rewrite G2. repeat split; auto.
    + pose proof (proj1 H j) as Gj. unfold good in *. cbn -[upd].
      replace (j <? S (count s))%nat with (j <? count s)%nat
        by (destruct (j <? count s)%nat eqn:A; symmetry;
            [apply Nat.ltb_lt in A; apply Nat.ltb_lt|apply Nat.ltb_ge in A; apply Nat.ltb_ge]; lia).
      rewrite upd_other by auto. nums. cbn.
      unfold live, dead in *. cbn -[upd]. rewrite upd_other by auto. nums. rewrite Z.add_0_r. exact Gj.
  - intros k' i' E'. cbn -[upd] in *. unfold upd in E'. destruct (Nat.eqb k' k) eqn:Q.
    + apply Nat.eqb_eq in Q. subst. injection E' as <-. rewrite upd_same. cbn. repeat split; auto.
      * intros A. apply (G1 t0). now rewrite A.
      * intros A. apply (G1 t0). now rewrite A.
    + destruct (proj2 H k' i' E') as (L' & K' & F' & W'). rewrite upd_other by lia. auto.
Qed.
Lemma new_failed : forall s t k, Inv s -> Inv (say s (EvNew t k None)).
Proof.
  intros s t k H. split.
  - intros j. apply (good_frame s); try reflexivity; [cbn; lia|exact (proj1 H j)].
  - intros k' i' E. exact (proj2 H k' i' E).
Qed.
Lemma inv_ref : forall s i, Inv s -> 0 < owned (trace s) i ->
  Inv (say (set_refs s i (c_refs (conns s i) + 1)) (EvRef i)).
Proof.
  intros s i H P. destruct (owned_pos s i H P) as (L & F & A & O1 & O2 & O3). split.
  - intros j. destruct (Nat.eq_dec j i) as [Q|Q].
    + subst j. unfold good. cbn -[upd]. apply Nat.ltb_lt in L. rewrite L, upd_same. cbn. rewrite ?F. repeat split; auto.
      destruct A as [(A1 & A2 & A3)|(u & A1 & A2 & A3 & A4)]; [left|right; exists u]; cbn -[upd];
        rewrite upd_same; cbn; rewrite Nat.eqb_refl; repeat split; auto; lia.
    + apply (good_frame s); try reflexivity; cbn -[upd]; [now rewrite upd_other| |exact (proj1 H j)].
      nums. lia.
  - intros k' i' E'. cbn in E'. destruct (proj2 H k' i' E') as (L' & K' & F' & W'). cbn -[upd].
    unfold upd. destruct (Nat.eqb i' i) eqn:Q; auto. apply Nat.eqb_eq in Q. subst. cbn. auto.
Qed.
Lemma inv_unref : forall s t i s1, Inv s -> threads s t = Idle -> 0 < owned (trace s) i ->
  ipc_unref s t i = Ok s1 -> Inv s1.
Proof.
  intros s t i s1 H T P U. destruct (owned_pos s i H P) as (L & F & A & O1 & O2 & O3). unfold ipc_unref in U.
  rewrite F in U. destruct (1 <? c_refs (conns s i)) eqn:R; injection U as <-.
  - apply Z.ltb_lt in R. split.
    + intros j. destruct (Nat.eq_dec j i) as [Q|Q].
      * subst j. unfold good. cbn -[upd]. apply Nat.ltb_lt in L. rewrite L, upd_same. cbn. rewrite ?F. repeat split; auto.
        destruct A as [(A1 & A2 & A3)|(u & A1 & A2 & A3 & A4)]; [left|right; exists u]; cbn -[upd];
          rewrite upd_same; cbn; rewrite Nat.eqb_refl; repeat split; auto; lia.
      * apply (good_frame s); try reflexivity; cbn -[upd]; [now rewrite upd_other| |exact (proj1 H j)].
        nums. lia.
    + intros k' i' E'. cbn in E'. destruct (proj2 H k' i' E') as (L' & K' & F' & W'). cbn -[upd].
      unfold upd. destruct (Nat.eqb i' i) eqn:Q; auto. apply Nat.eqb_eq in Q. subst. cbn. auto.
  - apply Z.ltb_ge in R. split.
    + intros j. destruct (Nat.eq_dec j i) as [Q|Q].
      * subst j. unfold good. cbn -[upd]. apply Nat.ltb_lt in L. rewrite L. rewrite ?F. repeat split; auto.
        destruct A as [(A1 & A2 & A3)|(u & A1 & A2 & A3 & A4)]; [|lia]. right. exists t. cbn -[upd].
        rewrite upd_same. nums. repeat split; auto; try lia. intros u. unfold upd.
        destruct (Nat.eqb u t) eqn:B; [apply Nat.eqb_eq in B; auto|]. intros C. now apply A1 in C.
      * apply (good_frame s); try reflexivity; cbn -[upd]; [|nums; lia|exact (proj1 H j)].
        intros u. unfold upd. destruct (Nat.eqb u t) eqn:B; [|tauto]. apply Nat.eqb_eq in B. subst u.
        rewrite T. cbn. split; congruence.
    + intros k' i' E'. cbn in E'. destruct (proj2 H k' i' E') as (L' & K' & F' & W'). cbn -[upd].
      repeat split; auto; unfold upd; destruct (Nat.eqb t0 t); try congruence; apply W'.
Qed.
Lemma inv_go : forall s t s1, Inv s -> step s (MGo t) = Ok s1 -> Inv s1.
Proof.
  intros s t s1 H U. cbn in U. destruct (threads s t) as [|i|i|i] eqn:T; [discriminate| | |];
    destruct (busy_live s t i H ltac:(now rewrite T)) as (L & F & O1 & O2 & O3 & Q & R & P);
    [unfold ipc_dispose in U|unfold ipc_stop in U|unfold ipc_drop in U]; cbv zeta in U; rewrite F in U.
  - injection U as <-. split.
    + intros j. apply (good_frame s); try reflexivity; cbn -[upd]; [|exact (proj1 H j)].
      intros u. unfold upd. destruct (Nat.eqb u t) eqn:B; [|tauto]. apply Nat.eqb_eq in B. subst. rewrite T. tauto.
    + intros k' i' E'. cbn -[upd] in *. unfold upd in E'. destruct (Nat.eqb k' (c_key (conns s i))) eqn:B; [discriminate|].
      destruct (proj2 H k' i' E') as (L' & K' & F' & W'). repeat split; auto; unfold upd;
        destruct (Nat.eqb t0 t); try apply W'; [|congruence].
      intros X. injection X as X. subst i'. rewrite K', Nat.eqb_refl in B. discriminate.
  - injection U as <-. split.
    + intros j. destruct (Nat.eq_dec j i) as [X|X].
      * subst j. unfold good. cbn -[upd]. apply Nat.ltb_lt in L. rewrite L, upd_same. cbn. rewrite ?F. repeat split; auto.
        right. exists t. cbn -[upd]. rewrite !upd_same. cbn. repeat split; auto. intros u. unfold upd.
        destruct (Nat.eqb u t) eqn:B; [apply Nat.eqb_eq in B; auto|]. apply Q.
      * apply (good_frame s); try reflexivity; cbn -[upd]; [now rewrite upd_other| |exact (proj1 H j)].
        intros u. unfold upd. destruct (Nat.eqb u t) eqn:B; [|tauto]. apply Nat.eqb_eq in B. subst. rewrite T. tauto.
    + intros k' i' E'. cbn -[upd] in *. destruct (proj2 H k' i' E') as (L' & K' & F' & W').
      assert (X : i' <> i) by (intros X; subst; now apply (proj1 (W' t))).
      rewrite upd_other by auto. repeat split; auto; unfold upd; destruct (Nat.eqb t0 t); try apply W'; congruence.
  - destruct (1 <? c_refs (conns s i)) eqn:B; injection U as <-.
    + apply Z.ltb_lt in B. split.
      * intros j. destruct (Nat.eq_dec j i) as [X|X].
        { subst j. unfold good. cbn -[upd]. apply Nat.ltb_lt in L. rewrite L, upd_same. cbn. rewrite ?F. repeat split; auto.
          left. cbn -[upd]. rewrite !upd_same. cbn. repeat split; try lia. intros u. unfold upd.
          destruct (Nat.eqb u t) eqn:C; [discriminate|]. intros D. apply Q in D. apply Nat.eqb_neq in C. auto. }
        { apply (good_frame s); try reflexivity; cbn -[upd]; [now rewrite upd_other| |exact (proj1 H j)].
          intros u. unfold upd. destruct (Nat.eqb u t) eqn:C; [|tauto]. apply Nat.eqb_eq in C. subst. rewrite T. cbn.
          split; congruence. }
      * intros k' i' E'. cbn -[upd] in *. destruct (proj2 H k' i' E') as (L' & K' & F' & W').
        assert (X : i' <> i) by (intros X; subst; now apply (proj2 (W' t))).
        rewrite upd_other by auto. repeat split; auto; unfold upd; destruct (Nat.eqb t0 t); try apply W'; congruence.
    + apply Z.ltb_ge in B. assert (O : owned (trace s) i = 0) by lia. split.
      * intros j. destruct (Nat.eq_dec j i) as [X|X].
        { subst j. unfold good. cbn -[upd]. apply Nat.ltb_lt in L. rewrite L, upd_same. cbn. nums. rewrite O3. repeat split; auto.
          cbn. intros u. unfold upd.
          destruct (Nat.eqb u t) eqn:C; [discriminate|]. intros D. apply Q in D. apply Nat.eqb_neq in C. auto. }
        { apply (good_frame s); try reflexivity; cbn -[upd]; [now rewrite upd_other| |nums; lia|exact (proj1 H j)].
          intros u. unfold upd. destruct (Nat.eqb u t) eqn:C; [|tauto]. apply Nat.eqb_eq in C. subst. rewrite T. cbn.
          split; congruence. }
      * intros k' i' E'. cbn -[upd] in *. destruct (proj2 H k' i' E') as (L' & K' & F' & W').
        assert (X : i' <> i) by (intros X; subst; now apply (proj2 (W' t))).
        rewrite upd_other by auto. repeat split; auto; unfold upd; destruct (Nat.eqb t0 t); try apply W'; congruence.
Qed.

Lemma idle_is : forall p, is_idle p = true -> p = Idle.
Proof. now intros [| | |]. Qed.
Lemma inv_step : forall s m s1, Inv s -> step s m = Ok s1 -> Inv s1.
Proof.
  intros s [t k o|t i|t i|t] s1 H U; [| | |exact (inv_go s t s1 H U)]; cbn in U.
  - destruct (is_idle (threads s t)); [|discriminate]. unfold ipc_new in U.
    destruct (table s k) as [i|] eqn:E.
    + destruct (c_freed (conns s i)); [discriminate|]. injection U as <-. now apply new_found.
    + destruct o; injection U as <-; [now apply new_opened|now apply new_failed].
  - destruct (is_idle (threads s t) && (0 <? owned (trace s) i)) eqn:E; [|discriminate].
    apply andb_prop in E. destruct E as [_ E]. apply Z.ltb_lt in E. unfold ipc_ref in U.
    destruct (c_freed (conns s i)); [discriminate|]. injection U as <-. now apply inv_ref.
  - destruct (is_idle (threads s t) && (0 <? owned (trace s) i)) eqn:E; [|discriminate].
    apply andb_prop in E. destruct E as [E1 E]. apply Z.ltb_lt in E. apply idle_is in E1.
    exact (inv_unref s t i s1 H E1 E U).
Qed.
Lemma safe_step : forall s m, Inv s -> step s m <> Crash.
Proof.
  intros s [t k o|t i|t i|t] H; cbn.
  - destruct (is_idle (threads s t)); [|discriminate]. unfold ipc_new.
    destruct (table s k) as [i|] eqn:E; [|now destruct o].
    destruct (proj2 H k i E) as (_ & _ & F & _). rewrite F. discriminate.
  - destruct (is_idle (threads s t) && (0 <? owned (trace s) i)) eqn:E; [|discriminate].
    apply andb_prop in E. destruct E as [_ E]. apply Z.ltb_lt in E. unfold ipc_ref.
    destruct (owned_pos s i H E) as (_ & F & _). rewrite F. discriminate.
  - destruct (is_idle (threads s t) && (0 <? owned (trace s) i)) eqn:E; [|discriminate].
    apply andb_prop in E. destruct E as [_ E]. apply Z.ltb_lt in E. unfold ipc_unref.
    destruct (owned_pos s i H E) as (_ & F & _). rewrite F. now destruct (1 <? c_refs (conns s i)).
  - destruct (threads s t) as [|i|i|i] eqn:T; [discriminate| | |];
      destruct (busy_live s t i H ltac:(now rewrite T)) as (_ & F & _);
      [unfold ipc_dispose|unfold ipc_stop|unfold ipc_drop]; cbv zeta; rewrite F; try discriminate.
    now destruct (1 <? c_refs (conns s i)).
Qed.
Lemma inv_run : forall l s s1, Inv s -> run s l = Ok s1 -> Inv s1.
Proof.
  induction l as [|m r IH]; intros s s1 H U; cbn in U; [now injection U as <-|].
  destruct (step s m) as [| |s2] eqn:E; try discriminate. exact (IH _ _ (inv_step _ _ _ H E) U).
Qed.
Lemma safe_run : forall l s, Inv s -> run s l <> Crash.
Proof.
  induction l as [|m r IH]; intros s H; cbn; [discriminate|].
  pose proof (safe_step s m H). destruct (step s m) as [| |s2] eqn:E; try congruence.
  exact (IH _ (inv_step _ _ _ H E)).
Qed.
Lemma reach : forall l s, run init l = Ok s -> Inv s.
Proof. intros l s. apply inv_run. exact inv_init. Qed.
Lemma run_app : forall l s r, run s (l ++ r) = match run s l with Ok s1 => run s1 r | x => x end.
Proof. induction l as [|m l IH]; intros; cbn; auto. destruct (step s m); auto. Qed.

(* The other half: when nobody asks for a connection while it's being released *)
Definition Calm (s : state) : Prop :=
  (forall i, 0 < owned (trace s) i -> table s (c_key (conns s i)) = Some i) /\
  (forall k i, table s k = Some i -> c_stopped (conns s i) = false) /\
  (forall t i, busy (threads s t) = Some i -> owned (trace s) i = 0) /\
  (forall t i, threads s t = Disposing i -> table s (c_key (conns s i)) = Some i).
Lemma calm_init : Calm init.
Proof. repeat split; cbn; intros; try lia; discriminate. Qed.

Lemma calm_new : forall s t k o s1, Inv s -> Calm s -> ~ releasing s k ->
  step s (MNew t k o) = Ok s1 -> Calm s1.
Proof.
  intros s t k o s1 H (C1 & C2 & C3 & C4) N U. cbn in U. destruct (is_idle (threads s t)); [|discriminate].
  unfold ipc_new in U. destruct (table s k) as [i|] eqn:E.
  - destruct (proj2 H k i E) as (L & K & F & W). rewrite F in U. injection U as <-.
    assert (NB : forall u, busy (threads s u) <> Some i).
    { intros u. destruct (threads s u) as [|j|j|j] eqn:T; cbn; try congruence; intros X; injection X as X; subst j.
      - apply N. exists u, i. auto.
      - now apply (proj1 (W u)).
      - now apply (proj2 (W u)). }
    repeat split; cbn -[upd].
    + intros j P. destruct (Nat.eq_dec j i) as [Q|Q].
      * subst j. rewrite upd_same. cbn. now rewrite K.
      * rewrite upd_other by auto. apply C1. rewrite eqb_other in P by auto. lia.
    + intros k' j T. unfold upd. destruct (Nat.eqb j i) eqn:Q; [|exact (C2 k' j T)]. apply (C2 k i E).
    + intros u j B. assert (j <> i) by (intros X; subst; now apply (NB u)). rewrite (C3 u j B). nums. lia.
    + intros u j B. assert (j <> i) by (intros X; subst; apply (NB u); now rewrite B). rewrite upd_other by auto.
      exact (C4 u j B).
  - pose proof (proj1 H (count s)) as G. unfold good in G. rewrite Nat.ltb_irrefl in G.
    destruct G as ([G1 G2] & G3 & G4 & G5).
    destruct o; injection U as <-.
    + repeat split; cbn -[upd].
      * intros j P. destruct (Nat.eq_dec j (count s)) as [Q|Q].
        { subst j. rewrite upd_same. cbn. now rewrite upd_same. }
        { rewrite (upd_other _ (conns s)) by auto. assert (P1 : 0 < owned (trace s) j) by (rewrite eqb_other in P by auto; lia).
          apply C1 in P1. rewrite upd_other; auto. intros X. rewrite X in P1. congruence. }
      * intros k' j T. unfold upd in T. destruct (Nat.eqb k' k) eqn:Q.
        { injection T as <-. now rewrite upd_same. }
        { destruct (proj2 H k' j T) as (L' & _). rewrite upd_other by lia. exact (C2 k' j T). }
      * intros u j B. assert (j <> count s) by (intros X; subst; now apply (G1 u)). rewrite (C3 u j B). nums. lia.
      * intros u j B. assert (j <> count s) by (intros X; subst; apply (G1 u); now rewrite B).
        rewrite (upd_other _ (conns s)) by auto. pose proof (C4 u j B) as V. rewrite upd_other; auto. intros X. rewrite X in V. congruence.
    + repeat split; cbn; auto.
      * intros j P. apply C1. lia.
      * intros u j B. rewrite (C3 u j B). lia.
Qed.
Lemma calm_other : forall s m s1, Inv s -> Calm s -> match m with MNew _ _ _ => False | _ => True end ->
  step s m = Ok s1 -> Calm s1.
Proof.
  intros s [t k o|t i|t i|t] s1 H (C1 & C2 & C3 & C4) N U; [contradiction| | |]; cbn in U.
  - destruct (is_idle (threads s t) && (0 <? owned (trace s) i)) eqn:E; [|discriminate].
    apply andb_prop in E. destruct E as [_ E]. apply Z.ltb_lt in E. unfold ipc_ref in U.
    destruct (c_freed (conns s i)); [discriminate|]. injection U as <-.
    repeat split; cbn -[upd].
    + intros j P. unfold upd. destruct (Nat.eqb j i) eqn:Q.
      * apply Nat.eqb_eq in Q. subst. cbn. auto.
      * apply C1. rewrite Nat.eqb_sym, Q in P. lia.
    + intros k' j T. unfold upd. destruct (Nat.eqb j i) eqn:Q; [apply Nat.eqb_eq in Q; subst|]; cbn; exact (C2 _ _ T).
    + intros u j B. pose proof (C3 u j B). assert (j <> i) by (intros X; subst; lia). nums. lia.
    + intros u j B. pose proof (C4 u j B). unfold upd. destruct (Nat.eqb j i) eqn:Q; [apply Nat.eqb_eq in Q; subst|]; cbn; auto.
  - destruct (is_idle (threads s t) && (0 <? owned (trace s) i)) eqn:E; [|discriminate].
    apply andb_prop in E. destruct E as [E1 E]. apply Z.ltb_lt in E. apply idle_is in E1.
    destruct (owned_pos s i H E) as (L & F & A & O1 & O2 & O3). unfold ipc_unref in U.
    rewrite F in U. destruct (1 <? c_refs (conns s i)) eqn:R; injection U as <-.
    + repeat split; cbn -[upd].
      * intros j P. unfold upd. destruct (Nat.eqb j i) eqn:Q.
        { apply Nat.eqb_eq in Q. subst. cbn. auto. }
        { apply C1. rewrite Nat.eqb_sym, Q in P. lia. }
      * intros k' j T. unfold upd. destruct (Nat.eqb j i) eqn:Q; [apply Nat.eqb_eq in Q; subst|]; cbn; exact (C2 _ _ T).
      * intros u j B. pose proof (C3 u j B). assert (j <> i) by (intros X; subst; lia). nums. lia.
      * intros u j B. pose proof (C4 u j B). unfold upd. destruct (Nat.eqb j i) eqn:Q; [apply Nat.eqb_eq in Q; subst|]; cbn; auto.
    + apply Z.ltb_ge in R.
      assert (O : owned (trace s) i = 1) by (destruct A as [(A1 & A2 & A3)|(u & A1 & A2 & A3 & A4)]; lia).
      repeat split; cbn -[upd]; auto.
      * intros j P. apply C1. destruct (Nat.eqb i j); lia.
      * intros u j B. unfold upd in B. destruct (Nat.eqb u t) eqn:Q.
        { injection B as <-. nums. lia. }
        { pose proof (C3 u j B). assert (j <> i) by (intros X; subst; lia). nums. lia. }
      * intros u j B. unfold upd in B. destruct (Nat.eqb u t) eqn:Q; [|exact (C4 u j B)].
        injection B as <-. auto.
  - destruct (threads s t) as [|i|i|i] eqn:T; [discriminate| | |];
      assert (BT : busy (threads s t) = Some i) by (now rewrite T);
      destruct (busy_live s t i H BT) as (L & F & O1 & O2 & O3 & Q & R & P);
      pose proof (C3 t i BT) as Z0;
      [unfold ipc_dispose in U|unfold ipc_stop in U|unfold ipc_drop in U]; cbv zeta in U; rewrite F in U.
    + injection U as <-. pose proof (C4 t i T) as TI. repeat split; cbn -[upd].
      * intros j PJ. pose proof (C1 j PJ) as TJ. rewrite upd_other; auto. intros X. rewrite X, TI in TJ.
        injection TJ as <-. lia.
      * intros k' j E. unfold upd in E. destruct (Nat.eqb k' (c_key (conns s i))); [discriminate|]. exact (C2 _ _ E).
      * intros u j B. unfold upd in B. destruct (Nat.eqb u t) eqn:X; [now injection B as <-|exact (C3 u j B)].
      * intros u j B. unfold upd in B. destruct (Nat.eqb u t) eqn:X; [discriminate|].
        pose proof (C4 u j B) as TJ. rewrite upd_other; auto. intros Y. rewrite Y, TI in TJ. injection TJ as <-.
        apply Nat.eqb_neq in X. apply X. apply Q. now rewrite B.
    + injection U as <-. repeat split; cbn -[upd].
      * intros j PJ. assert (j <> i) by (intros X; subst; lia). rewrite upd_other by auto. auto.
      * intros k' j E. assert (j <> i). { intros X. subst. now apply (proj1 (proj2 (proj2 (proj2 (proj2 H k' i E))) t)). }
        rewrite upd_other by auto. exact (C2 _ _ E).
      * intros u j B. unfold upd in B. destruct (Nat.eqb u t) eqn:X; [now injection B as <-|exact (C3 u j B)].
      * intros u j B. unfold upd in B. destruct (Nat.eqb u t) eqn:X; [discriminate|].
        assert (j <> i). { intros Y. subst. apply Nat.eqb_neq in X. apply X. apply Q. now rewrite B. }
        rewrite upd_other by auto. exact (C4 u j B).
    + assert (X : (1 <? c_refs (conns s i)) = false) by (apply Z.ltb_ge; lia). rewrite X in U. injection U as <-.
      repeat split; cbn -[upd].
      * intros j PJ. assert (j <> i) by (intros Y; subst; lia). rewrite upd_other by auto. auto.
      * intros k' j E. assert (j <> i). { intros Y. subst. now apply (proj2 (proj2 (proj2 (proj2 (proj2 H k' i E))) t)). }
        rewrite upd_other by auto. exact (C2 _ _ E).
      * intros u j B. unfold upd in B. destruct (Nat.eqb u t) eqn:Y; [discriminate|exact (C3 u j B)].
      * intros u j B. unfold upd in B. destruct (Nat.eqb u t) eqn:Y; [discriminate|].
        assert (j <> i). { intros V. subst. apply Nat.eqb_neq in Y. apply Y. apply Q. now rewrite B. }
        rewrite upd_other by auto. exact (C4 u j B).
Qed.
Lemma calm_run : forall l s s1, Inv s -> Calm s -> calm s l -> run s l = Ok s1 -> Calm s1.
Proof.
  induction l as [|m r IH]; intros s s1 H C G U; cbn in U; [now injection U as <-|].
  cbn in G. destruct G as [G1 G2]. destruct (step s m) as [| |s2] eqn:E; try discriminate.
  assert (C2 : Calm s2).
  { destruct m as [t k o|t i|t i|t]; [now apply (calm_new s t k o)| | |];
      eapply (calm_other s); try exact E; auto. }
  exact (IH _ _ (inv_step _ _ _ H E) C2 G2 U).
Qed.
