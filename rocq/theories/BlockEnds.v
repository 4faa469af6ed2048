(* Proofs about incoming transactions: answers, progress, and what is left behind *)
From Verif Require Import Base BlockModel BlockSpec BlockProofs BlockWait BlockRun.

(* The verdict, and what can be seen *)
Definition meaning (t : list bev) (k : nat) (v : verdict) : Prop :=
  match v with
  | Undecided => forall e, In e t -> ~ completes k e /\ e <> BlockCalled k /\ forall a, e <> HandlerReturned k a
  | ByHandler =>
    (forall a, ~ In (HandlerReturned k a) t) /\ (exists e, In e t /\ completes k e) /\
    (forall u1 u2, t = u1 ++ BlockCalled k :: u2 -> exists e, In e u1 /\ completes k e)
  | ByCompletion => blocked t k
  | Decided a => completed_with t k a \/ returned t k a
  end.

Lemma completes_dec k e : completes k e \/ ~ completes k e.
Proof.
  destruct e as [j|j|j|j b|j b|j|j b| |j|j|p]; try (right; intros [X|(c & X)]; discriminate).
  - destruct (Nat.eq_dec j k) as [->|N]; [left; right; eauto|right; intros [X|(c & X)]; congruence].
  - destruct (Nat.eq_dec j k) as [->|N]; [left; left; auto|right; intros [X|(c & X)]; congruence].
Qed.

Lemma snoc_inv {A} (t u1 u2 : list A) x y :
  t ++ [x] = u1 ++ y :: u2 -> (u2 = [] /\ x = y /\ t = u1) \/ exists u3, u2 = u3 ++ [x] /\ t = u1 ++ y :: u3.
Proof.
  intros E. destruct (exists_last (l := y :: u2)) as (u3 & z & E2); [discriminate|].
  rewrite E2, app_assoc in E. apply app_inj_tail in E as [-> ->].
  destruct u3 as [|w u3]; cbn in E2; injection E2 as -> E2.
  - left. rewrite app_nil_r. auto.
  - right. exists u3. auto.
Qed.

Lemma meaning_step t k e v :
  meaning t k v -> e <> Dropped k -> meaning (t ++ [e]) k (judge k v e).
Proof.
  intros M ND.
  assert (KEEP : about k e = false \/ (~ completes k e /\ e <> BlockCalled k /\ (forall a, e <> HandlerReturned k a)) ->
                 judge k v e = v -> meaning (t ++ [e]) k (judge k v e)).
  { intros Q ->.
    assert (Q' : ~ completes k e /\ e <> BlockCalled k /\ (forall a, e <> HandlerReturned k a)).
    { destruct Q as [Q|Q]; auto. repeat split; intros X; [destruct X as [X|(a & X)]| |intros Y]; subst;
        cbn in Q; try rewrite Nat.eqb_refl in Q; discriminate. }
    clear Q. destruct Q' as (Q1 & Q2 & Q3). destruct v; cbn in *.
    - intros x Hx. apply in_app_or in Hx as [Hx|[<-|[]]]; auto.
    - destruct M as (M1 & (x & M2 & M2') & M3). repeat split.
      + intros a Hx. apply in_app_or in Hx as [Hx|[Hx|[]]]; [now apply (M1 a)|now apply (Q3 a)].
      + exists x. split; auto. apply in_or_app. now left.
      + intros u1 u2 E. apply snoc_inv in E as [(-> & E & _)|(u3 & -> & E)]; [congruence|]. eapply M3; eauto.
    - destruct M as (t1 & t2 & -> & M1 & M2 & M3). exists t1, (t2 ++ [e]). split; [now rewrite <- app_assoc|].
      repeat split; auto. intros x Hx. apply in_app_or in Hx as [Hx|[<-|[]]]; auto.
    - destruct M as [(t1 & t2 & t3 & -> & M)|(t1 & t2 & -> & M)]; [left|right].
      + exists t1, t2, (t3 ++ [e]). split; [|exact M]. rewrite <- !app_assoc. cbn. now rewrite <- app_assoc.
      + exists t1, (t2 ++ [e]). split; [|exact M]. now rewrite <- app_assoc. }
  assert (LATE : forall a, v = Decided a -> meaning (t ++ [e]) k v).
  { intros a ->. cbn in *. destruct M as [(t1 & t2 & t3 & -> & M)|(t1 & t2 & -> & M)]; [left|right].
    - exists t1, t2, (t3 ++ [e]). split; [|exact M]. rewrite <- !app_assoc. cbn. now rewrite <- app_assoc.
    - exists t1, (t2 ++ [e]). split; [|exact M]. now rewrite <- app_assoc. }
  unfold judge in *. destruct (about k e) eqn:A; [|apply KEEP; auto].
  destruct v as [| | |a]; [| | |destruct e; now apply (LATE a)];
    destruct e as [j|j|j|j b|j b|j|j b| |j|j|p]; cbn in A; try discriminate; apply Nat.eqb_eq in A; subst j; try congruence;
    try (apply KEEP; [right; repeat split; [intros [X|(c & X)]| |intros c X]; discriminate|reflexivity]); cbn in M |- *.
  - (* blocked *)
    exists t, []. repeat split; auto; [intros x Hx; apply M; auto|intros b Hb; apply (proj2 (proj2 (M _ Hb)) b); reflexivity].
  - repeat split.
    + intros a Ha. apply in_app_or in Ha as [Ha|[Ha|[]]]; [|discriminate]. now apply (proj2 (proj2 (M _ Ha)) a).
    + exists (CompleteCalled k b). split; [apply in_or_app; right; now left|right; eauto].
    + intros u1 u2 E. apply snoc_inv in E as [(_ & E & _)|(u3 & _ & ->)]; [discriminate|]. exfalso.
      apply (proj1 (proj2 (M (BlockCalled k) (in_elt _ _ _)))). reflexivity.
  - right. exists t, []. repeat split; auto.
    + intros c Hc. now apply (proj2 (proj2 (M _ Hc)) c).
    + intros u1 u2 ->. exfalso. apply (proj1 (proj2 (M (BlockCalled k) (in_elt _ _ _)))). reflexivity.
  - (* blocked after being completed *)
    destruct M as (M1 & (x & M2 & M2') & M3). repeat split.
    + intros a Ha. apply in_app_or in Ha as [Ha|[Ha|[]]]; [|discriminate]. now apply (M1 a).
    + exists x. split; auto. apply in_or_app. now left.
    + intros u1 u2 E. apply snoc_inv in E as [(-> & _ & <-)|(u3 & -> & E)]; [eauto|]. eapply M3; eauto.
  - destruct M as (M1 & (x & M2 & M2') & M3). repeat split.
    + intros a Ha. apply in_app_or in Ha as [Ha|[Ha|[]]]; [|discriminate]. now apply (M1 a).
    + exists x. split; auto. apply in_or_app. now left.
    + intros u1 u2 E. apply snoc_inv in E as [(-> & E & _)|(u3 & -> & E)]; [discriminate|]. eapply M3; eauto.
  - right. destruct M as (M1 & _ & M3). exists t, []. repeat split; auto.
  - destruct M as (t1 & t2 & -> & M1 & M2 & M3). exists t1, (t2 ++ [BlockCalled k]). split; [now rewrite <- app_assoc|].
    repeat split; auto. intros x Hx. apply in_app_or in Hx as [Hx|[<-|[]]]; auto. intros [X|(c & X)]; discriminate.
  - left. destruct M as (t1 & t2 & -> & M1 & M2 & M3). exists t1, t2, []. split; [now rewrite <- app_assoc|]. repeat split; auto.
  - destruct M as (t1 & t2 & -> & M1 & M2 & M3). exists t1, (t2 ++ [HandlerReturned k b]). split; [now rewrite <- app_assoc|].
    repeat split; auto. intros x Hx. apply in_app_or in Hx as [Hx|[<-|[]]]; auto. intros [X|(c & X)]; discriminate.
Qed.

Lemma outcome_means t k : ~ In (Dropped k) t -> meaning t k (outcome k t).
Proof.
  induction t as [|e t IH] using rev_ind; intros N.
  - cbn. contradiction.
  - rewrite outcome_app. cbn [fold_left]. apply meaning_step.
    + apply IH. intros D. apply N. apply in_or_app. now left.
    + intros ->. apply N. apply in_or_app. right. now left.
Qed.

(* The other way round *)
Lemma fold_blocked k t :
  (forall e, In e t -> ~ completes k e) -> fold_left (judge k) t ByCompletion = ByCompletion.
Proof.
  induction t as [|e t IH]; intros H; cbn [fold_left]; [reflexivity|].
  assert (E : judge k ByCompletion e = ByCompletion).
  { unfold judge. destruct (about k e) eqn:A; auto. destruct e; auto; cbn in A; apply Nat.eqb_eq in A; subst.
    - exfalso. eapply H; [now left|right; eauto].
    - exfalso. eapply H; [now left|left; eauto]. }
  rewrite E. apply IH. intros x Hx. apply H. now right.
Qed.

Lemma fold_before k t :
  (forall e, In e t -> ~ completes k e) -> (forall b, ~ In (HandlerReturned k b) t) ->
  outcome k t = Undecided \/ outcome k t = ByCompletion.
Proof.
  intros H1 H2. unfold outcome.
  assert (G : forall v, v = Undecided \/ v = ByCompletion ->
              fold_left (judge k) t v = Undecided \/ fold_left (judge k) t v = ByCompletion).
  { induction t as [|e t IH]; intros v Hv; cbn [fold_left]; [exact Hv|].
    apply IH; [intros x Hx; apply H1; now right|intros b Hb; apply (H2 b); now right|].
    unfold judge. destruct (about k e) eqn:A; auto.
    destruct e; cbn in A; try discriminate; apply Nat.eqb_eq in A; subst; destruct Hv as [->| ->]; auto;
      exfalso; try (eapply H1; [now left|unfold completes; eauto; fail]); (eapply H2; now left). }
  apply G. now left.
Qed.

Lemma blocked_outcome t k : blocked t k -> outcome k t = ByCompletion.
Proof.
  intros (t1 & t2 & -> & H1 & H2 & H3). rewrite outcome_app. cbn [fold_left].
  destruct (fold_before k t1 H1 H2) as [->| ->]; unfold judge at 2; cbn [about]; rewrite Nat.eqb_refl;
    now apply fold_blocked.
Qed.

Lemma completed_outcome t k a : completed_with t k a -> outcome k t = Decided a.
Proof.
  intros (t1 & t2 & t3 & -> & H1 & H2 & H3).
  assert (B : outcome k (t1 ++ BlockCalled k :: t2) = ByCompletion) by (apply blocked_outcome; exists t1, t2; auto).
  replace (t1 ++ BlockCalled k :: t2 ++ CompleteCalled k a :: t3)
    with ((t1 ++ BlockCalled k :: t2) ++ CompleteCalled k a :: t3) by (now rewrite <- app_assoc).
  rewrite outcome_app, B. cbn [fold_left]. unfold judge at 2. cbn [about]. rewrite Nat.eqb_refl.
  clear. induction t3 as [|e t IH]; cbn [fold_left]; [reflexivity|].
  assert (E : judge k (Decided a) e = Decided a) by (unfold judge; destruct (about k e), e; reflexivity).
  now rewrite E.
Qed.

(* The thread which has everything it needs gets to the answer *)
Definition rank (t : phase) : nat :=
  match t with TIdle => 0 | TSent _ => 0 | TCancel _ _ => 1 | TUnref _ _ => 2 | TTake _ _ => 3 | TWait2 _ => 4 | TWait1 _ => 5 end%nat.
Definition ready (s : bstate) (k : nat) : Prop :=
  stopped s = true \/ ((exists a, outcome k (btrace s) = Decided a) /\ existsb (is_return k) (btrace s) = true).

Lemma decided_stays k a t : fold_left (judge k) t (Decided a) = Decided a.
Proof.
  induction t as [|e t IH]; cbn [fold_left]; [reflexivity|].
  replace (judge k (Decided a) e) with (Decided a); [exact IH|]. unfold judge; destruct (about k e), e; reflexivity.
Qed.

Lemma ready_later s s' k l : ready s k -> stopped s' = stopped s -> btrace s' = btrace s ++ l -> ready s' k.
Proof.
  intros [R|((a & R1) & R2)] E1 E2; [left; congruence|right]. rewrite E2. split.
  - exists a. now rewrite outcome_app, R1, decided_stays.
  - now rewrite existsb_app, R2.
Qed.

Lemma ready_complete s k : inv s -> (k < count s)%nat -> ready s k -> stopped s = true \/ x_state (txs s k) = COMPLETE.
Proof.
  intros I K [R|((a & R1) & R2)]; [now left|right].
  rewrite (i_final _ I k K) in R2. pose proof (ok_verdict _ _ _ _ _ (i_cells _ I k K)) as V.
  rewrite R1 in V. unfold final, verdict_ok in *. destruct (x_state (txs s k)); try discriminate. reflexivity.
Qed.

Lemma end_shape s k a s' : transact_end s k a = Ok s' ->
  stopped s' = stopped s /\ th s' = TSent k /\ exists l, btrace s' = btrace s ++ l.
Proof.
  unfold transact_end. destruct (looper s), (txfd s) as [p|]; [| |destruct (pipes s p); [|discriminate]|];
    intros E; injection E as <-; cbn; repeat split; eauto. rewrite <- app_assoc. eauto.
Qed.

Lemma thread_goes s k :
  inv s -> mode_of (th s) k <> MAway -> mode_of (th s) k <> MSent -> ready s k ->
  exists s', thread_step s = Ok s' /\ inv s' /\ mode_of (th s') k <> MAway /\ (rank (th s') < rank (th s))%nat /\ ready s' k.
Proof.
  intros I A1 A2 R.
  pose proof (i_th _ I k A1) as K. pose proof (ready_complete s k I K R) as C.
  pose proof (i_cells _ I k K) as CK.
  assert (W : forall l, c_pipe (get_cell s k) = Some l -> True) by auto.
  destruct (inv_thread_step s I) as [D|(s' & E & I')].
  - exfalso. revert D. unfold thread_step.
    destruct (th s) as [|j|j|j d|j a|j a|j] eqn:T; cbn [mode_of] in *; try congruence;
      destruct (Nat.eqb_spec j k) as [->|]; try congruence.
    + destruct (moved_wait1 k _ _ (get_cell s k) CK) as [(_ & S0 & P0)|(c & n & -> & _)]; [|discriminate].
      destruct C as [C|C]; [congruence|]. pose proof (ok_wait _ _ _ _ _ CK) as X. cbn in X, P0. rewrite C, P0 in X.
      destruct (x_has_req (txs s k)); discriminate.
    + destruct (moved_wait2 k _ _ (get_cell s k) CK) as [(_ & S0 & P0)|(c & n & -> & _)]; [|discriminate].
      destruct C as [C|C]; [congruence|]. pose proof (ok_wait _ _ _ _ _ CK) as X. cbn in X, P0. rewrite C, P0 in X.
      destruct X; discriminate.
    + destruct (x_refs (txs s k) <=? 0); discriminate.
    + destruct (moved_drop k a _ _ (get_cell s k) CK) as (c & d & l & -> & _). discriminate.
    + destruct (x_cb (txs s k)) eqn:CB; cbn [bind].
      2-4: (destruct (inv_end s k a I T) as (s' & -> & _); [congruence|discriminate]).
      destruct (moved_cancelled k a _ _ (get_cell s k) CK CB) as (c & l & E & M).
      unfold on_cell. rewrite E. cbn [bind]. unfold transact_end.
      destruct (looper (put_cell s k c)), (txfd (put_cell s k c)) as [p|]; try discriminate.
      destruct (pipes (put_cell s k c) p); discriminate.
  - exists s'. split; [exact E|]. split; [exact I'|].
    revert E. unfold thread_step.
    destruct (th s) as [|j|j|j d|j a|j a|j] eqn:T; cbn [mode_of] in *; try congruence;
      destruct (Nat.eqb_spec j k) as [->|]; try congruence.
    + destruct (ipc_wait (stopped s) (get_cell s k)) as [| |(c & n)]; cbn [bind]; try discriminate.
      intros E; injection E as <-. cbn [go put_cell th].
      split; [destruct n as [[|]|]; cbn; rewrite Nat.eqb_refl; discriminate|].
      split; [destruct n as [[|]|]; cbn; lia|]. eapply ready_later; eauto; reflexivity.
    + destruct (ipc_wait (stopped s) (get_cell s k)) as [| |(c & n)]; cbn [bind]; try discriminate.
      intros E; injection E as <-. cbn [go put_cell th].
      split; [cbn; rewrite Nat.eqb_refl; discriminate|].
      split; [cbn; lia|]. eapply ready_later; eauto; reflexivity.
    + destruct (x_refs (txs s k) <=? 0); try discriminate. intros E; injection E as <-. cbn [go th].
      split; [cbn; rewrite Nat.eqb_refl; discriminate|].
      split; [cbn; lia|]. eapply (ready_later _ _ _ []); eauto; cbn; now rewrite app_nil_r.
    + destruct (tx_unref k true (get_cell s k)) as [| |(c & d)]; cbn [bind]; try discriminate.
      intros E; injection E as <-. cbn [go put_cell th].
      split; [cbn; rewrite Nat.eqb_refl; discriminate|].
      split; [cbn; lia|]. eapply ready_later; eauto; reflexivity.
    + destruct (match x_cb (txs s k) with CbPending => on_cell s k (callback_gone k) | _ => Ok s end) as [| |s1] eqn:E1;
        cbn [bind]; try discriminate. intros E. apply end_shape in E as (E2 & -> & l & E3).
      split; [cbn; rewrite Nat.eqb_refl; discriminate|]. split; [cbn; lia|].
      assert (E4 : stopped s1 = stopped s /\ exists l, btrace s1 = btrace s ++ l).
      { destruct (x_cb (txs s k)); [|injection E1 as <-; split; auto; exists []; now rewrite app_nil_r..].
        unfold on_cell in E1. destruct (callback_gone k (get_cell s k)) as [| |c]; cbn in E1; try discriminate.
        injection E1 as <-. cbn. eauto. }
      destruct E4 as (E4 & l1 & E5). apply (ready_later s s' k (l1 ++ l)); auto; try congruence.
      rewrite E3, E5. now rewrite app_assoc.
Qed.

Lemma times_in f t : times f t <> 0%nat -> exists e, In e t /\ f e = true.
Proof.
  unfold times. destruct (filter f t) as [|x l] eqn:E; [cbn; congruence|]. intros _. exists x.
  apply filter_In. rewrite E. now left.
Qed.
Lemma in_times f t e : In e t -> f e = true -> times f t <> 0%nat.
Proof.
  intros H1 H2. unfold times. assert (X : In e (filter f t)) by (apply filter_In; auto).
  destruct (filter f t); [contradiction|discriminate].
Qed.

Lemma answer_in k t : times (is_answer k) t <> 0%nat <-> exists a, In (Answered k a) t.
Proof.
  split.
  - intros H. apply times_in in H as (e & H1 & H2). destruct e; try discriminate. cbn in H2. apply Nat.eqb_eq in H2. subst. eauto.
  - intros (a & H). eapply in_times; eauto. cbn. apply Nat.eqb_refl.
Qed.

Lemma unanswered_mode s k : inv s -> (k < count s)%nat -> (forall a, ~ In (Answered k a) (btrace s)) ->
  mode_of (th s) k <> MAway /\ mode_of (th s) k <> MSent.
Proof.
  intros I K N. pose proof (i_once _ I k K) as O.
  assert (finished (mode_of (th s) k) = 0%nat).
  { rewrite <- O. destruct (Nat.eq_dec (times (is_answer k) (btrace s)) 0) as [|X]; auto.
    apply answer_in in X as (a & X). exfalso. eapply N; eauto. }
  split; intros E; rewrite E in *; discriminate.
Qed.

Lemma gets_answered n s k :
  inv s -> (k < count s)%nat -> mode_of (th s) k <> MAway -> ready s k -> (rank (th s) <= n)%nat ->
  exists m s' a, (m <= n)%nat /\ thread_run s m = Ok s' /\ In (Answered k a) (btrace s').
Proof.
  revert s. induction n as [|n IH]; intros s I K M R Rk.
  - exists 0%nat, s. assert (E : mode_of (th s) k = MSent).
    { destruct (th s); cbn in *; try lia; try congruence. destruct (Nat.eqb k0 k); congruence. }
    pose proof (i_once _ I k K) as O. rewrite E in O.
    destruct (proj1 (answer_in k (btrace s))) as (a & Ha); [rewrite O; discriminate|].
    exists a. repeat split; auto.
  - destruct (mode_of (th s) k) as [| | |d0|a0|a0|] eqn:E; try congruence.
    6:{ pose proof (i_once _ I k K) as O. rewrite E in O.
        destruct (proj1 (answer_in k (btrace s))) as (a & Ha); [rewrite O; discriminate|].
        exists 0%nat, s, a. repeat split; auto. lia. }
    all: destruct (thread_goes s k I) as (s1 & E1 & I1 & M1 & R1 & Q1); auto; try congruence;
      (destruct (IH s1 I1) as (m & s' & a & L & E2 & H); auto; try lia;
        [apply (i_th _ I1); auto|]);
      exists (S m), s', a; (split; [lia|split; [|exact H]]); unfold thread_run in *; cbn [repeat run step]; rewrite E1; exact E2.
Qed.

(* What is still open is in use *)
Definition used (s : bstate) : Prop :=
  forall p, pipes s p <> None ->
    txfd s = Some p \/ exists k, (k < count s)%nat /\ 0 < x_refs (txs s k) /\ x_pipe (txs s k) = p.
Definition shut (c c' : cell) : Prop := x_refs (c_tx c') <= 0 -> x_refs (c_tx c) <= 0 \/ c_pipe c' = None.

Lemma ok_same {A} (x y : A) : Ok x = Ok y -> x = y.
Proof. now intros [=]. Qed.
Ltac brute :=
  unfold handle_end, req_unref, request_complete, request_block, request_ref, handle_begin, callback_gone,
    clear_tx, tx_unref, pipe_write, pipe_close, req_unref_by_tx; simp;
  repeat match goal with
  | |- context [match ?x with _ => _ end] => is_var x; destruct x; simp
  | |- context [?a <=? ?b] => destruct (Z.leb_spec a b); simp
  | |- context [?a =? ?b] => destruct (Z.eqb_spec a b); simp
  end;
  let E := fresh in intros E; try discriminate; apply ok_same in E; subst; simp; try lia; auto.

Lemma shut_complete k a c c' : request_complete k a c = Ok c' -> shut c c'.
Proof. destruct c as [[st an xr xp hr qr ht qa cb] p ev]. unfold shut. simp. brute. Qed.
Lemma shut_unref k c c' : req_unref k c = Ok c' -> shut c c'.
Proof. destruct c as [[st an xr xp hr qr ht qa cb] p ev]. unfold shut. simp. brute. Qed.
Lemma shut_begin k c c' : handle_begin k c = Ok c' -> shut c c'.
Proof. destruct c as [[st an xr xp [|] qr ht qa cb] p ev]; unfold shut; simp; brute. Qed.
Lemma shut_end k a c c' : handle_end k a c = Ok c' -> shut c c'.
Proof. destruct c as [[st an xr xp hr qr ht qa cb] p ev]. unfold shut. simp. brute. Qed.
Lemma shut_gone k c c' : callback_gone k c = Ok c' -> shut c c'.
Proof. destruct c as [[st an xr xp hr qr ht qa cb] p ev]. unfold shut. simp. brute. Qed.
Lemma shut_block c c' : request_block c = Ok c' -> shut c c'.
Proof. destruct c as [[st an xr xp hr qr ht qa cb] p ev]. unfold shut. simp. brute. Qed.
Lemma shut_ref c c' : request_ref c = Ok c' -> shut c c'.
Proof. destruct c as [[st an xr xp hr qr ht qa cb] p ev]. unfold shut. simp. brute. Qed.

Lemma used_cell s k c th' fd' :
  used s -> x_pipe (c_tx c) = x_pipe (txs s k) -> (k < count s)%nat ->
  (x_refs (txs s k) <= 0 -> c_pipe c = pipes s (x_pipe (txs s k))) ->
  (x_refs (c_tx c) <= 0 -> x_refs (txs s k) <= 0 \/ c_pipe c = None \/ fd' = Some (x_pipe (txs s k))) ->
  (fd' = txfd s \/ (txfd s = Some (x_pipe (txs s k)) /\ 0 < x_refs (c_tx c))) ->
  used (go (put_cell s k c) th' fd').
Proof.
  intros U XP K FZ SH F p. cbn [go put_cell pipes txfd count txs].
  assert (OLD : p <> x_pipe (txs s k) \/ x_refs (txs s k) <= 0 -> pipes s p <> None ->
    fd' = Some p \/ exists k0, (k0 < count s)%nat /\ 0 < x_refs (upd (txs s) k (c_tx c) k0) /\ x_pipe (upd (txs s) k (c_tx c) k0) = p).
  { intros N H. destruct (U p H) as [X|(j & J & R & X)].
    - destruct F as [F|(F & R)]; [left; congruence|]. right. exists k. rewrite upd_same. repeat split; auto. congruence.
    - right. exists j. destruct (Nat.eq_dec j k) as [->|NJ].
      + destruct N as [N|N]; [congruence|lia].
      + now rewrite upd_other by auto. }
  destruct (upd_case (pipes s) (x_pipe (txs s k)) (c_pipe c) p) as [(-> & ->)|(N & ->)]; [|auto].
  intros H. destruct (Z.leb_spec (x_refs (c_tx c)) 0) as [L|L].
  - destruct (SH L) as [X|[X|X]]; [|contradiction|now left].
    apply OLD; auto. now rewrite <- FZ.
  - right. exists k. rewrite upd_same. repeat split; auto.
Qed.

Lemma used_main s k c l m' v :
  used s -> (k < count s)%nat -> moved k m' (stopped s) v (get_cell s k) c l -> 0 <= x_refs (txs s k) ->
  shut (get_cell s k) c -> used (put_cell s k c).
Proof.
  intros U K M R SH.
  replace (put_cell s k c) with (go (put_cell s k c) (th s) (txfd s)) by (unfold go, put_cell; destruct s; reflexivity).
  apply used_cell; auto.
  - apply (mv_pipe _ _ _ _ _ _ _ M).
  - intros L. apply (mv_frozen _ _ _ _ _ _ _ M). cbn. lia.
  - intros L. destruct (SH L) as [X|X]; auto.
Qed.

Lemma refs_ge m stop v t p : cell_ok m stop v t p -> 0 <= x_refs t.
Proof. intros [H1 _ _ _ _ _ _]. rewrite H1. unfold b2z. destruct (holds m), (cb_alive (x_cb t)), (q_has_tx t); lia. Qed.

Lemma used_on_cell s k f s' :
  inv s -> used s ->
  (forall v, cell_ok (mode_of (th s) k) (stopped s) v (txs s k) (pipes s (x_pipe (txs s k))) ->
     f (get_cell s k) = Disabled \/
     exists c l, f (get_cell s k) = Ok c /\ moved k (mode_of (th s) k) (stopped s) v (get_cell s k) c l) ->
  (forall c, f (get_cell s k) = Ok c -> shut (get_cell s k) c) ->
  (if Nat.ltb k (count s) then on_cell s k f else Disabled) = Ok s' -> used s'.
Proof.
  intros I U H SH. destruct (Nat.ltb_spec k (count s)) as [K|K]; [|discriminate].
  unfold on_cell. pose proof (i_cells _ I k K) as CK. destruct (H _ CK) as [->|(c & l & E & M)]; [discriminate|].
  rewrite E. cbn [bind]. intros X. apply ok_same in X. subst s'. eapply used_main; eauto. eapply refs_ge; eauto.
Qed.

Lemma used_end s k a s' : used s -> transact_end s k a = Ok s' -> used s'.
Proof.
  intros U. unfold transact_end. destruct (looper s) eqn:L, (txfd s) as [q|] eqn:F.
  - intros X; apply ok_same in X; subst s'. intros p H. cbn in *. try rewrite L in *. rewrite <- F. apply (U p H).
  - intros X; apply ok_same in X; subst s'. intros p H. cbn in *. try rewrite L in *. rewrite <- F. apply (U p H).
  - destruct (pipes s q); [|discriminate]. intros X; apply ok_same in X; subst s'. intros p. cbn. try rewrite L.
    destruct (upd_case (pipes s) q None p) as [(-> & ->)|(N & ->)]; [congruence|]. intros H.
    destruct (U p H) as [X|X]; [congruence|right; exact X].
  - intros X; apply ok_same in X; subst s'. intros p H. cbn in *. try rewrite L in *. destruct (U p H) as [X|X]; [congruence|right; exact X].
Qed.

Lemma used_begin s : used s -> used (transact_begin s).
Proof.
  intros U p. unfold transact_begin. cbn [pipes txfd count txs].
  destruct (txfd s) as [q|] eqn:F.
  - intros H. destruct (U p H) as [X|(j & J & R & X)]; [left; congruence|right]. exists j.
    rewrite upd_other by lia. repeat split; auto.
  - destruct (upd_case (pipes s) (npipes s) (Some []) p) as [(-> & ->)|(N & ->)]; [now left|]. intros H.
    destruct (U p H) as [X|(j & J & R & X)]; [congruence|right]. exists j.
    rewrite upd_other by lia. repeat split; auto.
Qed.

Lemma used_thread s s' : inv s -> used s -> thread_step s = Ok s' -> used s'.
Proof.
  intros I U. unfold thread_step.
  destruct (th s) as [|k|k|k d|k a|k a|k] eqn:T; [discriminate|..].
  all: assert (K : (k < count s)%nat) by (apply (i_th _ I); rewrite T; cbn; self; discriminate).
  all: pose proof (i_cells _ I k K) as CK; rewrite T in CK; cbn [mode_of] in CK; rewrite Nat.eqb_refl in CK.
  - pose proof (refs_ge _ _ _ _ _ CK) as RG.
    destruct (moved_wait1 k _ _ (get_cell s k) CK) as [(-> & _)|(c & n & E & M)]; [discriminate|]. rewrite E.
    cbn [bind]. intros X; apply ok_same in X; subst s'.
    apply used_cell; auto.
    + apply (mv_pipe _ _ _ _ _ _ _ M).
    + intros L. apply (mv_frozen _ _ _ _ _ _ _ M). cbn. lia.
    + intros L. left. revert E. unfold ipc_wait. destruct (x_refs (c_tx (get_cell s k)) <=? 0) eqn:Q; [discriminate|].
      destruct (c_pipe (get_cell s k)) as [[|]|]; [destruct (stopped s)| |]; try discriminate;
        intros E; apply ok_same in E; injection E as <- <-; exact L.
  - pose proof (refs_ge _ _ _ _ _ CK) as RG.
    destruct (moved_wait2 k _ _ (get_cell s k) CK) as [(-> & _)|(c & n & E & M)]; [discriminate|]. rewrite E.
    cbn [bind]. intros X; apply ok_same in X; subst s'.
    apply used_cell; auto.
    + apply (mv_pipe _ _ _ _ _ _ _ M).
    + intros L. apply (mv_frozen _ _ _ _ _ _ _ M). cbn. lia.
    + intros L. left. revert E. unfold ipc_wait. destruct (x_refs (c_tx (get_cell s k)) <=? 0) eqn:Q; [discriminate|].
      destruct (c_pipe (get_cell s k)) as [[|]|]; [destruct (stopped s)| |]; try discriminate;
        intros E; apply ok_same in E; injection E as <- <-; exact L.
  - destruct (x_refs (txs s k) <=? 0); [discriminate|]. intros X; apply ok_same in X; subst s'. exact U.
  - destruct (moved_drop k a _ _ (get_cell s k) CK) as (c & d & l & -> & M & EP & Ed & R & CL). cbn [bind].
    intros X; apply ok_same in X; subst s'.
    assert (F : txfd s = Some (x_pipe (txs s k))).
    { apply (i_current _ I). rewrite T. cbn. now rewrite Nat.eqb_refl. }
    pose proof (mv_ok _ _ _ _ _ _ _ M) as OK. pose proof (refs_ge _ _ _ _ _ OK) as RG.
    apply used_cell; auto.
    + apply (mv_pipe _ _ _ _ _ _ _ M).
    + intros L. right. right. subst d. destruct (Z.eqb_spec (x_refs (c_tx c)) 0); [exact F|lia].
    + subst d. destruct (Z.eqb_spec (x_refs (c_tx c)) 0); [now left|right; split; [exact F|lia]].
  - destruct (x_cb (txs s k)) eqn:CB; cbn [bind]; try (now apply used_end).
    destruct (moved_cancelled k a _ _ (get_cell s k) CK CB) as (c & l & E & M).
    unfold on_cell. rewrite E. cbn [bind]. apply used_end. eapply used_main; eauto.
    + eapply refs_ge; eauto.
    + eapply shut_gone; eauto.
  - destruct (moved_sent k _ _ (get_cell s k) CK) as (c & l & E & M).
    unfold on_cell. rewrite E. cbn [bind]. intros X; apply ok_same in X; subst s'.
    change (used (put_cell s k c)). eapply used_main; eauto.
    + eapply refs_ge; eauto.
    + eapply shut_unref; eauto.
Qed.

Theorem used_step s m s' : inv s -> used s -> step s m = Ok s' -> used s'.
Proof.
  intros I U. unfold step. destruct m as [| |k|k a|k|k|k|k|k a|].
  - destruct (th s); try discriminate. destruct (last s); [discriminate|].
    intros X; apply ok_same in X; subst s'. now apply used_begin.
  - now apply used_thread.
  - apply used_on_cell; auto; change (c_tx (get_cell s k)) with (txs s k).
    + intros v C. destruct (x_cb (txs s k)) eqn:CB; auto. right. now apply moved_begin.
    + intros c. destruct (x_cb (txs s k)); try discriminate. apply shut_begin.
  - apply used_on_cell; auto; change (c_tx (get_cell s k)) with (txs s k).
    + intros v C. destruct (x_cb (txs s k)) eqn:CB; auto. right. now apply moved_end.
    + intros c. destruct (x_cb (txs s k)); try discriminate. apply shut_end.
  - apply used_on_cell; auto; change (c_tx (get_cell s k)) with (txs s k).
    + intros v C. destruct (x_cb (txs s k)) eqn:CB; auto. right. now apply moved_gone.
    + intros c. destruct (x_cb (txs s k)); try discriminate. apply shut_gone.
  - apply used_on_cell; auto; change (c_tx (get_cell s k)) with (txs s k).
    + intros v C. destruct (usable (txs s k)) eqn:CB; auto. right. now apply moved_ref.
    + intros c. destruct (usable (txs s k)); try discriminate. apply shut_ref.
  - apply used_on_cell; auto; change (c_tx (get_cell s k)) with (txs s k).
    + intros v C. destruct (Z.ltb_spec 0 (q_app (txs s k))); auto. right. now apply moved_unref.
    + intros c. destruct (0 <? q_app (txs s k)); try discriminate. intros E. apply shut_unref in E. exact E.
  - apply used_on_cell; auto; change (c_tx (get_cell s k)) with (txs s k).
    + intros v C. destruct (usable (txs s k)) eqn:CB; auto. right. now apply moved_block.
    + intros c. destruct (usable (txs s k)); try discriminate. intros E. apply shut_block in E. exact E.
  - apply used_on_cell; auto; change (c_tx (get_cell s k)) with (txs s k).
    + intros v C. destruct (usable (txs s k)) eqn:CB; auto. right. now apply moved_complete.
    + intros c. destruct (usable (txs s k)); try discriminate. intros E. apply shut_complete in E. exact E.
  - destruct (looper s && negb (stopped s)); [|discriminate]. intros X; apply ok_same in X; subst s'. exact U.
Qed.

Theorem reach_inv b l s : run (initial b) l = Ok s -> inv s /\ used s.
Proof.
  assert (G : forall l s0, inv s0 /\ used s0 -> run s0 l = Ok s -> inv s /\ used s).
  { clear l. intros l. induction l as [|m l IH]; intros s0 (I & U); cbn [run].
    - intros X; apply ok_same in X; subst s. auto.
    - destruct (inv_step s0 m I) as [->|(s1 & E & I1)]; [discriminate|]. rewrite E. cbn [bind]. apply IH. split; auto.
      exact (used_step s0 m s1 I U E). }
  apply G. split; [apply inv_initial|]. intros p H. cbn in H. congruence.
Qed.

(* A blocked request which the application has forgotten *)
Definition stuck (k : nat) (s : bstate) : Prop :=
  inv s /\ stopped s = false /\ (k < count s)%nat /\ x_state (txs s k) = BLOCKED /\ q_app (txs s k) = 0 /\
  (mode_of (th s) k = MWait1 \/ mode_of (th s) k = MWait2).

Lemma stuck_step k s m s' : stuck k s -> m <> Stop -> step s m = Ok s' -> stuck k s'.
Proof.
  intros (I & S0 & K & St & Q & W) N E.
  destruct (inv_step s m I) as [X|(s1 & X & I1)]; [congruence|]. rewrite E in X. apply ok_same in X. subst s1.
  pose proof (i_cells _ I k K) as CK.
  assert (CB : x_cb (txs s k) = CbReturned \/ x_cb (txs s k) = CbGone).
  { destruct CK as [_ _ _ H3 _ _ _]. unfold state_ok in H3. rewrite St in H3. destruct (x_cb (txs s k)); auto; contradiction. }
  assert (US : usable (txs s k) = false).
  { unfold usable. rewrite Q. destruct CB as [-> | ->]; reflexivity. }
  split; [exact I1|].
  assert (OTHER : forall j f, (if Nat.ltb j (count s) then on_cell s j f else Disabled) = Ok s' ->
    (j = k -> forall c, f (get_cell s k) = Ok c -> x_state (c_tx c) = BLOCKED /\ q_app (c_tx c) = 0) ->
    stopped s' = false /\ (k < count s')%nat /\ x_state (txs s' k) = BLOCKED /\ q_app (txs s' k) = 0 /\
    (mode_of (th s') k = MWait1 \/ mode_of (th s') k = MWait2)).
  { intros j f E2 H. destruct (Nat.ltb j (count s)); [|discriminate]. unfold on_cell in E2.
    destruct (f (get_cell s j)) as [| |c] eqn:F; try discriminate. cbn in E2. apply ok_same in E2. subst s'.
    cbn [put_cell stopped count th txs]. repeat split; auto;
      (destruct (Nat.eq_dec k j) as [->|NJ]; [rewrite upd_same; now apply (H eq_refl c)|now rewrite upd_other]). }
  revert E. unfold step. destruct m as [| |j|j a|j|j|j|j|j a|].
  - destruct (th s); cbn in W; destruct W; discriminate.
  - (* the thread: the pipe is either what it's been told already or empty *)
    unfold thread_step. destruct (th s) as [|j|j|j d|j a|j a|j] eqn:T; cbn in W; try (destruct W; discriminate);
      destruct (Nat.eqb_spec j k) as [->|]; try (destruct W; discriminate); pose proof (ok_wait _ _ _ _ _ CK) as WO;
      cbn [mode_of] in WO; rewrite Nat.eqb_refl in WO; cbn [wait_ok] in WO; rewrite St in WO.
    + unfold ipc_wait. cbn [get_cell c_pipe c_tx c_ev]. destruct (x_refs (txs s k) <=? 0); [discriminate|].
      rewrite WO. cbn [bind]. intros X; apply ok_same in X; subst s'. cbn [go put_cell stopped count th txs c_tx].
      rewrite upd_same. repeat split; auto. cbn. rewrite Nat.eqb_refl. now right.
    + unfold ipc_wait. cbn [get_cell c_pipe c_tx c_ev]. destruct (x_refs (txs s k) <=? 0); [discriminate|].
      rewrite WO, S0. discriminate.
  - intros E. eapply OTHER; eauto. intros -> c. cbn [get_cell c_tx]. destruct CB as [-> | ->]; discriminate.
  - intros E. eapply OTHER; eauto. intros -> c. cbn [get_cell c_tx]. destruct CB as [-> | ->]; discriminate.
  - intros E. eapply OTHER; eauto. intros -> c. cbn [get_cell c_tx].
    destruct (x_cb (txs s k)); try discriminate. unfold callback_gone, tx_unref. cbn.
    destruct (x_refs (txs s k) <=? 0); [discriminate|]. destruct (x_refs (txs s k) - 1 =? 0); cbn.
    + unfold pipe_close. cbn. destruct (pipes s (x_pipe (txs s k))); cbn; [|discriminate].
      destruct (x_has_req (txs s k)); cbn.
      * unfold req_unref_by_tx. cbn. destruct (q_refs (txs s k) <=? 0); [discriminate|].
        destruct (q_refs (txs s k) - 1 =? 0); [destruct (q_has_tx (txs s k)); [discriminate|]|]; cbn;
          intros X; apply ok_same in X; subst c; cbn; auto.
      * intros X; apply ok_same in X; subst c; cbn; auto.
    + intros X; apply ok_same in X; subst c; cbn; auto.
  - intros E. eapply OTHER; eauto. intros -> c. cbn [get_cell c_tx]. rewrite US. discriminate.
  - intros E. eapply OTHER; eauto. intros -> c. cbn [get_cell c_tx]. rewrite Q. discriminate.
  - intros E. eapply OTHER; eauto. intros -> c. cbn [get_cell c_tx]. rewrite US. discriminate.
  - intros E. eapply OTHER; eauto. intros -> c. cbn [get_cell c_tx]. rewrite US. discriminate.
  - congruence.
Qed.

Lemma stuck_run k l : forall s s', stuck k s -> ~ In Stop l -> run s l = Ok s' -> stuck k s'.
Proof.
  induction l as [|m l IH]; intros s s' S N; cbn [run].
  - intros X; apply ok_same in X; now subst s'.
  - destruct (step s m) as [| |s1] eqn:E; try discriminate. cbn [bind]. apply IH.
    + eapply stuck_step; eauto. intros ->. apply N. now left.
    + intros H. apply N. now right.
Qed.

Lemma stuck_unanswered k s a : stuck k s -> ~ In (Answered k a) (btrace s).
Proof.
  intros (I & _ & K & _ & _ & W) H. pose proof (i_once _ I k K) as O.
  assert (times (is_answer k) (btrace s) <> 0%nat) by (apply answer_in; eauto).
  destruct W as [W|W]; rewrite W in O; cbn in O; congruence.
Qed.

(* Every transaction has arrived *)
Lemma arrived_count is_looper schedule s :
  run (initial is_looper) schedule = Ok s -> forall j, (j < count s)%nat -> In (Arrived j) (btrace s).
Proof.
    assert (G : forall l s0 s, (forall j, (j < count s0)%nat -> In (Arrived j) (btrace s0)) -> run s0 l = Ok s ->
                forall j, (j < count s)%nat -> In (Arrived j) (btrace s)).
    { clear s. induction l as [|m l IH]; intros s0 s H; cbn [run].
      - intros E; apply ok_same in E; now subst s.
      - destruct (step s0 m) as [| |s1] eqn:E; try discriminate. cbn [bind]. apply IH. intros j J.
        assert (OC : forall i f s2, on_cell s0 i f = Ok s2 -> count s2 = count s0 /\ exists l, btrace s2 = btrace s0 ++ l).
        { intros i f s2. unfold on_cell. destruct (f (get_cell s0 i)); try discriminate. cbn.
          intros E2; apply ok_same in E2; subst s2. cbn. eauto. }
        assert (TE : forall s2 i a s3, transact_end s2 i a = Ok s3 -> count s3 = count s2 /\ exists l, btrace s3 = btrace s2 ++ l).
        { intros s2 i a s3. unfold transact_end. destruct (looper s2), (txfd s2) as [q|]; [| |destruct (pipes s2 q); [|discriminate]|];
            intros E2; apply ok_same in E2; subst s3; cbn; split; eauto. rewrite <- app_assoc. eauto. }
        assert (P : (m = Arrive /\ s1 = transact_begin s0) \/ count s1 = count s0 /\ exists l, btrace s1 = btrace s0 ++ l).
        { unfold step in E. destruct m as [| |i|i a|i|i|i|i|i a|].
          3-9: right; destruct (Nat.ltb i (count s0)); [|discriminate]; now apply OC in E.
          - destruct (th s0); try discriminate. destruct (last s0); [discriminate|]. apply ok_same in E. now left.
          - right. unfold thread_step in E. destruct (th s0) as [|i|i|i d|i a|i a|i]; try discriminate.
            + destruct (ipc_wait (stopped s0) (get_cell s0 i)) as [| |(c & n)]; try discriminate. cbn in E. apply ok_same in E. subst s1. cbn. eauto.
            + destruct (ipc_wait (stopped s0) (get_cell s0 i)) as [| |(c & n)]; try discriminate. cbn in E. apply ok_same in E. subst s1. cbn. eauto.
            + destruct (x_refs (txs s0 i) <=? 0); try discriminate. apply ok_same in E. subst s1. cbn. split; auto. exists []. now rewrite app_nil_r.
            + destruct (tx_unref i true (get_cell s0 i)) as [| |(c & n)]; try discriminate. cbn in E. apply ok_same in E. subst s1. cbn. eauto.
            + destruct (match x_cb (txs s0 i) with CbPending => on_cell s0 i (callback_gone i) | _ => Ok s0 end) as [| |s2] eqn:E1; try discriminate.
              cbn [bind] in E. apply TE in E as (E2 & l1 & E3).
              assert (X : count s2 = count s0 /\ exists l, btrace s2 = btrace s0 ++ l).
              { destruct (x_cb (txs s0 i)); [now apply OC in E1|..]; apply ok_same in E1; subst s2; split; auto; exists []; now rewrite app_nil_r. }
              destruct X as (X & l2 & Y). split; [congruence|]. exists (l2 ++ l1). now rewrite E3, Y, app_assoc.
            + destruct (on_cell s0 i (req_unref i)) as [| |s2] eqn:E1; try discriminate. cbn in E. apply ok_same in E. subst s1.
              cbn. now apply OC in E1.
          - right. destruct (looper s0 && negb (stopped s0)); [|discriminate]. apply ok_same in E. subst s1. cbn. eauto. }
        destruct P as [(-> & ->)|(P & l1 & ->)].
        + unfold transact_begin in *. cbn in J |- *. apply in_or_app.
          destruct (Nat.eq_dec j (count s0)) as [->|N]; [right; now left|left; apply H; lia].
        + apply in_or_app. left. apply H. lia. }
    intros R. eapply (G schedule (initial is_looper)); eauto. cbn. lia.
Qed.
