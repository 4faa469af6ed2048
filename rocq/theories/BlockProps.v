(* Theorems about incoming transactions and blocked requests: C31, C32 *)
From Verif Require Import Base BlockModel BlockSpec BlockProofs BlockWait BlockRun BlockEnds.

(* C31: whatever the two threads and the application do, the answer is the one which was
   given when the blocked request was completed for the first time, or returned by the
   handler which hasn't blocked it. If the thread has been told to stop in the meantime, it
   may also be an error *)
Theorem C31_answer_is_the_first_completion is_looper schedule s k a :
  run (initial is_looper) schedule = Ok s -> In (Answered k a) (btrace s) ->
  exists before after,
    btrace s = before ++ Answered k a :: after /\
    (completed_with before k a \/ returned before k a \/ (In StopCalled before /\ a = (None, - EFAULT))).
Proof.
  intros R H. destruct (reach_inv _ _ _ R) as [I _].
  apply in_split in H as (t1 & t2 & E). exists t1, t2. split; [exact E|].
  destruct (i_answers _ I _ _ _ _ E) as [[D|D] ND]; [|auto].
  pose proof (outcome_means t1 k ND) as M. rewrite D in M. destruct M; auto.
Qed.
Print Assumptions C31_answer_is_the_first_completion.

(* Only one completion is the first one *)
Theorem C31_first_completion_unique t k a b : completed_with t k a -> completed_with t k b -> a = b.
Proof. intros A B. apply completed_outcome in A, B. congruence. Qed.
Print Assumptions C31_first_completion_unique.

(* C31: there's only one answer *)
Theorem C31_answered_once is_looper schedule s k :
  run (initial is_looper) schedule = Ok s -> (times (is_answer k) (btrace s) <= 1)%nat.
Proof.
  intros R. destruct (reach_inv _ _ _ R) as [I _].
  destruct (Nat.lt_ge_cases k (count s)) as [K|K].
  - rewrite (i_once _ I k K). destruct (mode_of (th s) k); cbn; lia.
  - rewrite times_zero; [lia|]. intros e He. destruct (is_answer k e) eqn:X; auto.
    apply answer_about in X. rewrite (i_new _ I k e K He) in X. discriminate.
Qed.
Print Assumptions C31_answered_once.

(* C31: and it does come. When the handler has returned, and the request is not blocked
   (anymore), the thread needs at most five steps, nobody's help, and can't be prevented *)
Theorem C31_answer_comes is_looper schedule s k b :
  run (initial is_looper) schedule = Ok s ->
  In (HandlerReturned k b) (btrace s) -> ~ blocked (btrace s) k ->
  exists n s' a, (n <= 5)%nat /\ thread_run s n = Ok s' /\ In (Answered k a) (btrace s').
Proof.
  intros R H NB. destruct (reach_inv _ _ _ R) as [I _].
  assert (K : (k < count s)%nat).
  { destruct (Nat.lt_ge_cases k (count s)) as [K|K]; auto.
    apply (i_new _ I k _ K) in H. cbn in H. rewrite Nat.eqb_refl in H. discriminate. }
  destruct (Nat.eq_dec (times (is_answer k) (btrace s)) 0) as [Z|Z].
  - assert (NA : forall a, ~ In (Answered k a) (btrace s)).
    { intros a X. apply (proj2 (answer_in k (btrace s))); eauto. }
    destruct (unanswered_mode s k I K NA) as [M1 M2].
    apply (gets_answered 5 s k I K M1); [|destruct (th s); cbn; lia].
    assert (F : existsb (is_return k) (btrace s) = true).
    { apply existsb_exists. exists (HandlerReturned k b). split; auto. cbn. apply Nat.eqb_refl. }
    assert (ND : ~ In (Dropped k) (btrace s)) by (intros D; apply (i_dropped _ I) in D; contradiction).
    right. split; [|exact F].
    pose proof (outcome_means _ _ ND) as M. pose proof (ok_verdict _ _ _ _ _ (i_cells _ I k K)) as V.
    rewrite (i_final _ I k K) in F. unfold final, verdict_ok in *.
    destruct (x_state (txs s k)); try discriminate; [|eauto].
    rewrite V in M. contradiction.
  - apply answer_in in Z as (a & Z). exists 0%nat, s, a. repeat split; auto. lia.
Qed.
Print Assumptions C31_answer_comes.

(* C31: when the thread has to stop, it answers too *)
Theorem C31_answer_comes_when_stopped is_looper schedule s k :
  run (initial is_looper) schedule = Ok s ->
  In (Arrived k) (btrace s) -> In StopCalled (btrace s) ->
  exists n s' a, (n <= 5)%nat /\ thread_run s n = Ok s' /\ In (Answered k a) (btrace s').
Proof.
  intros R H ST. destruct (reach_inv _ _ _ R) as [I _].
  assert (K : (k < count s)%nat).
  { destruct (Nat.lt_ge_cases k (count s)) as [K|K]; auto.
    apply (i_new _ I k _ K) in H. cbn in H. rewrite Nat.eqb_refl in H. discriminate. }
  destruct (Nat.eq_dec (times (is_answer k) (btrace s)) 0) as [Z|Z].
  - assert (NA : forall a, ~ In (Answered k a) (btrace s)).
    { intros a X. apply (proj2 (answer_in k (btrace s))); eauto. }
    destruct (unanswered_mode s k I K NA) as [M1 M2].
    apply (gets_answered 5 s k I K M1); [|destruct (th s); cbn; lia].
    left. now apply (i_stop _ I).
  - apply answer_in in Z as (a & Z). exists 0%nat, s, a. repeat split; auto. lia.
Qed.
Print Assumptions C31_answer_comes_when_stopped.

(* C31: no schedule makes a thread use freed memory or a closed descriptor, and nothing is
   freed or closed twice *)
Theorem C31_nothing_crashes is_looper schedule :
  run (initial is_looper) schedule <> Crash /\
  forall s, run (initial is_looper) schedule = Ok s ->
    forall k, (times (is_tx_freed k) (btrace s) <= 1)%nat /\
              (times (is_req_freed k) (btrace s) <= 1)%nat /\
              (times (is_close k) (btrace s) <= 1)%nat.
Proof.
  split.
  - destruct (inv_run schedule _ (inv_initial is_looper)) as [->|(s & -> & _)]; discriminate.
  - intros s R k. destruct (reach_inv _ _ _ R) as [I _].
    assert (Z : (k < count s)%nat \/ (times (is_tx_freed k) (btrace s) = 0%nat /\ times (is_req_freed k) (btrace s) = 0%nat)).
    { destruct (Nat.lt_ge_cases k (count s)) as [K|K]; [now left|right].
      split; apply times_zero; intros e He; pose proof (i_new _ I k e K He) as X.
      - destruct (is_tx_freed k e) eqn:Y; auto. apply tx_freed_about in Y. congruence.
      - destruct (is_req_freed k e) eqn:Y; auto. apply req_freed_about in Y. congruence. }
    assert (C : (times (is_close k) (btrace s) <= 1)%nat).
    { destruct (Nat.lt_ge_cases k (npipes s)) as [K|K].
      - rewrite (i_closed _ I k K). destruct (pipes s k); lia.
      - rewrite times_zero; [lia|]. intros e He. destruct e; cbn; auto. apply Nat.eqb_neq. intros ->.
        now apply (i_beyond _ I k K) in He. }
    destruct Z as [K|[-> ->]]; [|repeat split; auto; lia].
    destruct (i_freed _ I k K) as [-> ->]. repeat split; auto.
    + destruct (x_refs (txs s k) =? 0); lia.
    + destruct (q_refs (txs s k) =? 0); lia.
Qed.
Print Assumptions C31_nothing_crashes.

(* C31: when everybody is done with a transaction, it's freed together with its request. A
   request which has never been completed is freed too, and that's when it's reported *)
Theorem C31_all_freed is_looper schedule s k :
  run (initial is_looper) schedule = Ok s ->
  In (Arrived k) (btrace s) -> th s = TIdle -> x_cb (txs s k) = CbGone -> q_app (txs s k) = 0 ->
  times (is_tx_freed k) (btrace s) = 1%nat /\ times (is_req_freed k) (btrace s) = 1%nat.
Proof.
  intros R H T CB Q. destruct (reach_inv _ _ _ R) as [I _].
  assert (K : (k < count s)%nat).
  { destruct (Nat.lt_ge_cases k (count s)) as [K|K]; auto.
    apply (i_new _ I k _ K) in H. cbn in H. rewrite Nat.eqb_refl in H. discriminate. }
  destruct (i_freed _ I k K) as [-> ->].
  destruct (i_cells _ I k K) as [H1 H2 _ H3 _ _ _]. rewrite T in *. cbn [mode_of holds drives b2z] in *.
  rewrite CB in *. cbn [cb_alive] in *. unfold b2z, state_ok in *. rewrite CB in H3.
  assert (QT : q_has_tx (txs s k) = false).
  { destruct (x_state (txs s k)); try contradiction; try tauto.
    destruct H3 as (H3 & H4 & H5). rewrite H3, Q in H2. cbn in H2. lia. }
  rewrite QT in H1. cbn in H1. rewrite H1. cbn.
  rewrite H1 in H2. cbn in H2. rewrite andb_false_r in H2. rewrite H2, Q. split; reflexivity.
Qed.
Print Assumptions C31_all_freed.

(* C31: the only pipes which are left open are that of the thread itself, and those of
   transactions which still exist *)
Theorem C31_pipes_closed is_looper schedule s p :
  run (initial is_looper) schedule = Ok s -> pipes s p <> None ->
  txfd s = Some p \/ exists k, x_pipe (txs s k) = p /\ In (Arrived k) (btrace s) /\ ~ In (TxFreed k) (btrace s).
Proof.
  intros R H. destruct (reach_inv _ _ _ R) as [I U]. destruct (U p H) as [X|(k & K & R0 & X)]; [now left|right].
  exists k. split; [exact X|]. split.
  - exact (arrived_count _ _ _ R k K).
  - intros F. destruct (i_freed _ I k K) as [E _].
    destruct (Z.eqb_spec (x_refs (txs s k)) 0); [lia|].
    apply (in_times (is_tx_freed k) _ _ F); [cbn; apply Nat.eqb_refl|exact E].
Qed.
Print Assumptions C31_pipes_closed.

(* C32 is not true: if the handler has blocked a request, and the application has dropped
   all its references to it, then the caller gets no answer at all, whatever happens next,
   until the thread is told to stop. The driver has its own reference until the answer is
   sent, and so the request isn't freed (which would have completed it) *)
Theorem C32_dropped_is_answered_refuted is_looper schedule s k b :
  run (initial is_looper) schedule = Ok s ->
  blocked (btrace s) k -> In (HandlerReturned k b) (btrace s) -> ~ In StopCalled (btrace s) ->
  q_app (txs s k) = 0 ->
  forall more s', run s more = Ok s' -> ~ In Stop more ->
  forall a, ~ In (Answered k a) (btrace s').
Proof.
  intros R B H NS Q more s' R2 N2 a. destruct (reach_inv _ _ _ R) as [I _].
  eapply stuck_unanswered. eapply stuck_run; eauto.
  assert (K : (k < count s)%nat).
  { destruct (Nat.lt_ge_cases k (count s)) as [K|K]; auto.
    apply (i_new _ I k _ K) in H. cbn in H. rewrite Nat.eqb_refl in H. discriminate. }
  assert (S0 : stopped s = false).
  { apply not_true_iff_false. intros X. now apply (i_stop _ I) in X. }
  assert (St : x_state (txs s k) = BLOCKED).
  { pose proof (ok_verdict _ _ _ _ _ (i_cells _ I k K)) as V. rewrite (blocked_outcome _ _ B) in V.
    assert (F : existsb (is_return k) (btrace s) = true).
    { apply existsb_exists. exists (HandlerReturned k b). split; auto. cbn. apply Nat.eqb_refl. }
    rewrite (i_final _ I k K) in F. unfold final, verdict_ok in *. destruct (x_state (txs s k)); try discriminate. reflexivity. }
  split; [exact I|]. split; [exact S0|]. split; [exact K|]. split; [exact St|]. split; [exact Q|].
  assert (NA : forall c, ~ In (Answered k c) (btrace s)).
  { intros c X. apply in_split in X as (t1 & t2 & E).
    destruct (i_answers _ I _ _ _ _ E) as [[D|(D & _)] _].
    - pose proof (blocked_outcome _ _ B) as Y. rewrite E, outcome_app, D, decided_stays in Y. discriminate.
    - apply NS. rewrite E. apply in_or_app. now left. }
  destruct (unanswered_mode s k I K NA) as [M1 M2].
  pose proof (ok_wait _ _ _ _ _ (i_cells _ I k K)) as W.
  destruct (mode_of (th s) k) as [| | |[]|a0|a0|]; auto; cbn in W; rewrite ?St, ?S0 in W; exfalso; intuition congruence.
Qed.
Print Assumptions C32_dropped_is_answered_refuted.

(* What is true of C32: a request is never freed without being completed before the caller
   has got an answer *)
Theorem C32_dropped_after_answer_partial is_looper schedule s k :
  run (initial is_looper) schedule = Ok s -> In (Dropped k) (btrace s) ->
  (exists a, In (Answered k a) (btrace s)) /\
  forall before a after, btrace s = before ++ Answered k a :: after -> ~ In (Dropped k) before.
Proof.
  intros R D. destruct (reach_inv _ _ _ R) as [I _].
  assert (K : (k < count s)%nat).
  { destruct (Nat.lt_ge_cases k (count s)) as [K|K]; auto.
    apply (i_new _ I k _ K) in D. cbn in D. rewrite Nat.eqb_refl in D. discriminate. }
  split.
  - apply answer_in. rewrite (i_once _ I k K), (i_dropped _ I k D). discriminate.
  - intros t1 a t2 E. now apply (i_answers _ I) in E as [_ E].
Qed.
Print Assumptions C32_dropped_after_answer_partial.

(* Schedules to which these theorems apply *)
Definition r1 : answer := (Some 7, 0).
Definition r2 : answer := (None, -5).
(* Blocked, completed by a callback later, while the thread is waiting *)
Definition later : list move :=
  [Arrive; Dispatch 0; Ref 0; Block 0; Return 0 r2; Forget 0; Thread; Complete 0 r1; Complete 0 r2;
   Thread; Thread; Thread; Thread; Thread; Unref 0].
(* Completed before the handler returns *)
Definition sooner : list move :=
  [Arrive; Dispatch 0; Ref 0; Block 0; Complete 0 r1; Unref 0; Return 0 r2; Forget 0;
   Thread; Thread; Thread; Thread; Thread].
(* The handler answers *)
Definition directly : list move :=
  [Arrive; Dispatch 0; Return 0 r1; Thread; Thread; Thread; Thread; Thread; Forget 0].
(* Forgotten *)
Definition forgotten : list move :=
  [Arrive; Dispatch 0; Ref 0; Block 0; Return 0 r2; Forget 0; Thread; Unref 0].
(* Stopped while the request is blocked *)
Definition interrupted : list move :=
  [Arrive; Dispatch 0; Ref 0; Block 0; Return 0 r2; Thread; Stop; Thread; Thread; Thread; Thread; Thread; Forget 0; Unref 0].

Definition trace_of (b : bool) (l : list move) : list bev :=
  match run (initial b) l with Ok s => btrace s | _ => [] end.

Example C31_later : life_of 0 (trace_of true later) =
  [Arrived 0; Handle 0; BlockCalled 0; HandlerReturned 0 r2; CompleteCalled 0 r1; CompleteCalled 0 r2; TxFreed 0;
   Answered 0 r1; ReqFreed 0].
Proof. vm_compute. reflexivity. Qed.
Example C31_sooner : life_of 0 (trace_of false sooner) =
  [Arrived 0; Handle 0; BlockCalled 0; CompleteCalled 0 r1; HandlerReturned 0 r2; TxFreed 0; Answered 0 r1; ReqFreed 0].
Proof. vm_compute. reflexivity. Qed.
Example C31_directly : life_of 0 (trace_of true directly) =
  [Arrived 0; Handle 0; HandlerReturned 0 r1; Answered 0 r1; ReqFreed 0; TxFreed 0].
Proof. vm_compute. reflexivity. Qed.
Example C32_forgotten : life_of 0 (trace_of true forgotten) =
  [Arrived 0; Handle 0; BlockCalled 0; HandlerReturned 0 r2].
Proof. vm_compute. reflexivity. Qed.
Example C32_interrupted : life_of 0 (trace_of true interrupted) =
  [Arrived 0; Handle 0; BlockCalled 0; HandlerReturned 0 r2; Answered 0 (None, - EFAULT); Dropped 0; TxFreed 0; ReqFreed 0].
Proof. vm_compute. reflexivity. Qed.
