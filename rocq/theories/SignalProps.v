(* Theorems about signals which interrupt waiting threads: C79 *)
From Verif Require Import Base BlockModel BlockSpec BlockProofs BlockWait BlockRun BlockEnds SignalModel SignalProofs SignalSafe.

(* C79 is not true: when a thread which waits for a handler is interrupted by a signal,
   however far the handler is, the caller gets an error right away, although nobody has told the
   thread to stop. What the handler answers then is lost, and if it wasn't called yet then
   it's never called *)
Theorem C79_interrupted_refuted is_looper schedule s s1 k :
  run (initial is_looper) schedule = Ok s ->
  In (Arrived k) (btrace s) -> (forall a, ~ In (Answered k a) (btrace s)) ->
  sstep s Signal = Ok s1 ->
  exists s2,
    srun s1 (repeat (Usual Thread) 3) = Ok s2 /\
    In (Answered k (None, - EFAULT)) (btrace s2) /\ ~ In StopCalled (btrace s2) /\
    forall more s3, srun s2 more = Ok s3 ->
      (forall a, In (Answered k a) (btrace s3) -> a = (None, - EFAULT)) /\
      (~ In (Handle k) (btrace s) -> ~ In (Handle k) (btrace s3)).
Proof.
  intros R A NA E. destruct (reach_inv _ _ _ R) as [I _]. cbn [sstep] in E.
  assert (K : (k < count s)%nat).
  { destruct (Nat.lt_ge_cases k (count s)) as [K|K]; auto.
    apply (i_new _ I k _ K) in A. cbn in A. rewrite Nat.eqb_refl in A. discriminate. }
  destruct (unanswered_mode s k I K NA) as [M1 M2].
  destruct (interrupted s s1 I E) as (j & T & St & P & ->).
  assert (j = k) as ->.
  { destruct (Nat.eq_dec j k) as [|N]; auto. exfalso. apply M1. apply Nat.eqb_neq in N.
    destruct T as [-> | ->]; cbn; now rewrite N. }
  destruct (interrupted_answer s k I T St P) as (s2 & l & E2 & Tr & L & Cn & T2 & G).
  assert (NS : ~ In StopCalled (btrace s)).
  { intros X. apply (i_stop _ I) in X. congruence. }
  exists s2. split; [exact E2|]. split; [rewrite Tr; apply in_or_app; right; apply in_or_app; right; now left|]. split.
  { rewrite Tr. intros X. apply in_app_or in X as [X|X]; [auto|]. apply in_app_or in X as [X|[X|[]]]; [|discriminate].
    now apply L in X as [_ X]. }
  intros more s3 E3. split.
  - assert (SE : settled k (None, - EFAULT) s2).
    { split; [now rewrite Cn|]. split; [right; rewrite T2; cbn; now rewrite Nat.eqb_refl|].
      intros a X. rewrite Tr in X. apply in_app_or in X as [X|X]; [now apply NA in X|].
      apply in_app_or in X as [X|[X|[]]]; [apply L in X as [X _]; discriminate|congruence]. }
    apply (settled_run _ _ _ _ _ SE E3).
  - intros NH. assert (GO : gone k s2).
    { split; [now rewrite Cn|]. split.
      - apply G. destruct (called_run _ _ _ (called_initial is_looper) R k K) as [S0|X]; [|contradiction].
        pose proof (ok_state _ _ _ _ _ (i_cells _ I k K)) as X. unfold state_ok in X. rewrite S0 in X.
        destruct (x_cb (txs s k)); try contradiction; auto. exfalso. destruct X as (_ & _ & _ & X).
        destruct T as [T|T]; rewrite T in X; cbn in X; rewrite Nat.eqb_refl in X; exact X.
      - rewrite Tr. intros X. apply in_app_or in X as [X|X]; [auto|].
        apply in_app_or in X as [X|[X|[]]]; [apply L in X as [X _]; discriminate|discriminate]. }
    apply (gone_run _ _ _ _ GO E3).
Qed.
Print Assumptions C79_interrupted_refuted.

(* That can happen before and while the handler is running, and while the request is blocked *)
Example C79_interrupted_ex :
  exists s1 s2 s3 t1 t2 t3,
    run (initial true) [Arrive] = Ok s1 /\ sstep s1 Signal = Ok t1 /\
    run (initial true) [Arrive; Dispatch 0] = Ok s2 /\ sstep s2 Signal = Ok t2 /\
    run (initial true) [Arrive; Dispatch 0; Ref 0; Block 0; Return 0 (None, 0); Thread] = Ok s3 /\ sstep s3 Signal = Ok t3 /\
    In (Arrived 0) (btrace s1) /\ In (Arrived 0) (btrace s2) /\ In (Arrived 0) (btrace s3).
Proof. do 6 eexists. repeat (split; [vm_compute; reflexivity|]). vm_compute. auto 10. Qed.

(* C79: even the next call can get a wrong answer. If the handler has returned between the
   moments when the thread was interrupted, and when it has dropped the transaction, then
   there's still something in the pipe, which is used again. The next call then succeeds
   right away without any reply data, and its handler is never called *)
Definition stale (k : nat) (a : answer) : list smove :=
  [Usual Arrive; Usual (Dispatch k); Signal; Usual (Return k a); Usual (Forget k);
   Usual Thread; Usual Thread; Usual Thread; Usual Thread;
   Usual Arrive; Usual Thread; Usual Thread; Usual Thread; Usual Thread].
Theorem C79_stale_refuted schedule s a :
  run (initial true) schedule = Ok s -> th s = TIdle -> ~ In StopCalled (btrace s) ->
  let k := count s in
  exists s2, srun s (stale k a) = Ok s2 /\
    In (Arrived (S k)) (btrace s2) /\ In (Answered (S k) (None, 0)) (btrace s2) /\ ~ In StopCalled (btrace s2) /\
    forall more s3, srun s2 more = Ok s3 ->
      ~ In (Handle (S k)) (btrace s3) /\ forall b, In (Answered (S k) b) (btrace s3) -> b = (None, 0).
Proof.
  intros R T NS k. destruct (reach_inv _ _ _ R) as [I _].
  assert (St : stopped s = false) by (apply not_true_iff_false; intros X; now apply (i_stop _ I) in X).
  assert (L : last s = false) by (destruct (last s) eqn:L; auto; apply (i_last _ I) in L; congruence).
  pose proof (looper_run _ _ _ R) as LP. cbn [initial looper] in LP.
  set (p := match txfd s with Some p => p | None => npipes s end).
  assert (P : match txfd s with Some q => q = p /\ pipes s p = Some [] | None => p = npipes s /\ @nil note = [] end).
  { unfold p. destruct (txfd s) as [q|] eqn:F; split; auto. apply (i_clean _ I); auto. rewrite T. exact L. }
  assert (KK : (k < S k)%nat) by lia. assert (KN : (S k < S (S k))%nat) by lia.
  destruct (look_begin s p [] T St L LP P) as (E0 & L0). fold k in L0. cbv -[app btrace count k p transact_begin] in L0. set (s0 := transact_begin s) in *.
  destruct (look_dispatch _ _ _ _ _ _ _ _ _ L0 KK eq_refl eq_refl eq_refl) as (s1 & E1 & L1). cbv -[app btrace count k p] in L1.
  destruct (look_signal _ _ _ _ _ _ L1 eq_refl) as (s2 & E2 & L2). cbv -[app btrace count k p] in L2.
  destruct (look_return _ _ a _ _ _ _ _ _ _ L2 KK eq_refl eq_refl eq_refl) as (s3 & E3 & L3). cbv -[app btrace count k p] in L3.
  destruct (look_forget _ _ _ _ _ _ _ _ _ L3 KK eq_refl eq_refl eq_refl) as (s4 & E4 & L4). cbv -[app btrace count k p] in L4.
  destruct (look_take _ _ _ _ _ _ _ _ L4 eq_refl) as (s5 & E5 & L5). cbv -[app btrace count k p] in L5.
  destruct (look_unref _ _ _ _ _ _ _ _ _ _ L5 eq_refl eq_refl) as (s6 & E6 & L6). cbv -[app btrace count k p] in L6.
  destruct (look_cancel _ _ _ _ _ _ _ _ L6 ltac:(discriminate)) as (s7 & E7 & L7). cbv -[app btrace count k p] in L7.
  destruct (look_sent _ _ _ _ _ _ _ _ L7 eq_refl eq_refl) as (s8 & E8 & L8). cbv -[app btrace count k p] in L8.
  cbn in L8.
  assert (P8 : match txfd s8 with Some q => q = p /\ pipes s8 p = Some [TX_DONE] | None => p = npipes s8 /\ [TX_DONE] = [] end).
  { rewrite (l_fd _ _ _ _ _ _ _ _ L8). split; auto. exact (l_pipe _ _ _ _ _ _ _ _ L8). }
  destruct (look_begin s8 p [TX_DONE] (l_th _ _ _ _ _ _ _ _ L8) (l_stop _ _ _ _ _ _ _ _ L8) (l_last _ _ _ _ _ _ _ _ L8) (l_loop _ _ _ _ _ _ _ _ L8) P8) as (E9 & L9).
  rewrite (l_count _ _ _ _ _ _ _ _ L8), (l_tr _ _ _ _ _ _ _ _ L8) in L9. cbv -[app btrace count k p transact_begin] in L9. set (s9 := transact_begin s8) in *.
  destruct (look_read _ _ _ _ _ _ _ L9 eq_refl) as (s10 & E10 & L10). cbv -[app btrace count k p] in L10.
  destruct (look_take _ _ _ _ _ _ _ _ L10 eq_refl) as (s11 & E11 & L11). cbv -[app btrace count k p] in L11.
  destruct (look_unref _ _ _ _ _ _ _ _ _ _ L11 eq_refl eq_refl) as (s12 & E12 & L12). cbv -[app btrace count k p] in L12.
  destruct (look_cancel_pending _ _ _ _ _ _ _ _ _ L12 eq_refl eq_refl eq_refl) as (s13 & E13 & L13).
  cbn in L13. exists s13. split.
  { unfold stale. cbn [srun sstep]. rewrite E0. cbn [bind]. cbn [sstep] in *.
    repeat match goal with E : _ = Ok ?x |- context [bind _ _] => progress (rewrite E; cbn [bind]) end. reflexivity. }
  pose proof (l_tr _ _ _ _ _ _ _ _ L13) as TR.
  assert (OLD : forall e, In e (btrace s) -> about (S k) e = false).
  { intros e. apply (i_new _ I). unfold k. lia. }
  assert (NOT : forall e, about (S k) e = true -> ~ In e (btrace s)).
  { intros e A X. apply OLD in X. congruence. }
  assert (AB : Nat.eqb k (S k) = false) by (apply Nat.eqb_neq; lia).
  repeat rewrite <- app_assoc in TR. cbn [app] in TR.
  split; [rewrite TR; apply in_or_app; right; cbn; auto 20|].
  split; [rewrite TR; apply in_or_app; right; cbn; auto 20|].
  split.
  { rewrite TR. intros X. apply in_app_or in X as [X|X]; [auto|]. cbn in X. intuition discriminate. }
  intros more s14 E14. split.
  - assert (G : gone (S k) s13).
    { split; [rewrite (l_count _ _ _ _ _ _ _ _ L13); lia|]. split; [rewrite (l_tx _ _ _ _ _ _ _ _ L13); reflexivity|].
      rewrite TR. intros X. apply in_app_or in X as [X|X]; [revert X; apply NOT; cbn; apply Nat.eqb_refl|].
      cbn in X. repeat (destruct X as [X|X]; [try discriminate; injection X; lia|]). destruct X. }
    apply (gone_run _ _ _ _ G E14).
  - assert (G : settled (S k) (None, 0) s13).
    { split; [rewrite (l_count _ _ _ _ _ _ _ _ L13); lia|].
      split; [right; rewrite (l_th _ _ _ _ _ _ _ _ L13); cbn; now rewrite Nat.eqb_refl|].
      intros b X. rewrite TR in X. apply in_app_or in X as [X|X]; [exfalso; revert X; apply NOT; cbn; apply Nat.eqb_refl|].
      cbn in X. repeat (destruct X as [X|X]; [try discriminate; injection X; intros; subst; auto; lia|]). destruct X. }
    apply (settled_run _ _ _ _ _ G E14).
Qed.
Print Assumptions C79_stale_refuted.

(* All that can happen right from the beginning *)
Example C79_stale_ex :
  exists s2, srun (initial true) (stale 0 (Some 7, 0)) = Ok s2 /\ In (Answered 1 (None, 0)) (btrace s2).
Proof. eexists. split; [vm_compute; reflexivity|]. vm_compute. auto 20. Qed.

(* What is true of C79: whatever is interrupted, no call is answered twice, and no handler is
   called twice for the same call *)
Theorem C79_answered_once_partial is_looper schedule s k :
  srun (initial is_looper) schedule = Ok s ->
  (times (is_answer k) (btrace s) <= 1)%nat /\ (times (is_handle k) (btrace s) <= 1)%nat.
Proof.
  intros R. split.
  - apply (once_run _ _ _ (once_initial is_looper) R).
  - apply (single_run _ _ _ (single_initial is_looper) R).
Qed.
Print Assumptions C79_answered_once_partial.

(* One which is interrupted while its request is blocked, and completed later *)
Example C79_answered_once_ex :
  exists s, srun (initial true)
    [Usual Arrive; Usual (Dispatch 0); Usual (Ref 0); Usual (Block 0); Usual (Return 0 (None, 0)); Usual Thread; Signal;
     Usual Thread; Usual (Complete 0 (Some 7, 0)); Usual Thread; Usual Thread; Usual Thread] = Ok s /\
    times (is_answer 0) (btrace s) = 1%nat /\ times (is_handle 0) (btrace s) = 1%nat /\ In (Answered 0 (None, - EFAULT)) (btrace s).
Proof. eexists. split; [vm_compute; reflexivity|]. vm_compute. auto 20. Qed.

(* And although it's interrupted, no thread uses freed memory or a closed descriptor,
   and nothing is freed or closed twice *)
Theorem C79_nothing_crashes_partial is_looper schedule :
  srun (initial is_looper) schedule <> Crash /\
  forall s, srun (initial is_looper) schedule = Ok s ->
    forall k, (times (is_tx_freed k) (btrace s) <= 1)%nat /\
              (times (is_req_freed k) (btrace s) <= 1)%nat /\
              (times (is_close k) (btrace s) <= 1)%nat.
Proof.
  destruct (sim_initial is_looper) as (u0 & H0).
  destruct (sim_run schedule _ _ H0) as [->|(s1 & u & -> & H)]; [split; [discriminate|intros s X; discriminate]|].
  split; [discriminate|]. intros s X k. injection X as <-. pose proof (sm_inv _ _ H) as I. pose proof (sm_mem _ _ H) as M.
  rewrite <- (mem_times (is_tx_freed k) _ _ ltac:(intros []; (discriminate || reflexivity)) M).
  rewrite <- (mem_times (is_req_freed k) _ _ ltac:(intros []; (discriminate || reflexivity)) M).
  rewrite <- (mem_times (is_close k) _ _ ltac:(intros []; (discriminate || reflexivity)) M).
  split; [|split].
  - destruct (Nat.lt_ge_cases k (count u)) as [K|K].
    + destruct (i_freed _ I k K) as (E & _). rewrite E. destruct (_ =? 0); lia.
    + rewrite times_zero; [lia|]. intros e He. apply (i_new _ I k e K) in He. destruct e; auto.
  - destruct (Nat.lt_ge_cases k (count u)) as [K|K].
    + destruct (i_freed _ I k K) as (_ & E). rewrite E. destruct (_ =? 0); lia.
    + rewrite times_zero; [lia|]. intros e He. apply (i_new _ I k e K) in He. destruct e; auto.
  - destruct (Nat.lt_ge_cases k (npipes u)) as [K|K].
    + rewrite (i_closed _ I k K). destruct (pipes u k); lia.
    + rewrite times_zero; [lia|]. intros e He. destruct e; auto. cbn. apply Nat.eqb_neq. intros ->.
      now apply (i_beyond _ I k K).
Qed.
Print Assumptions C79_nothing_crashes_partial.

(* A worker thread is interrupted while its call is blocked: the pipe is closed and everything is freed, once,
   when the call is completed *)
Example C79_nothing_crashes_ex :
  exists s, srun (initial false)
    [Usual Arrive; Usual (Dispatch 0); Usual (Ref 0); Usual (Block 0); Usual (Return 0 (None, 0)); Usual Thread; Signal;
     Usual Thread; Usual Thread; Usual Thread; Usual Thread; Usual (Forget 0); Usual (Complete 0 (Some 7, 0)); Usual (Unref 0)] = Ok s /\
    In (Answered 0 (None, - EFAULT)) (btrace s) /\
    times (is_tx_freed 0) (btrace s) = 1%nat /\ times (is_req_freed 0) (btrace s) = 1%nat /\ times (is_close 0) (btrace s) = 1%nat.
Proof. eexists. split; [vm_compute; reflexivity|]. vm_compute. auto 20. Qed.
