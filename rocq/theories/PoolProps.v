(* The pool of threads which receive transactions: C47. *)
From Verif Require Import Base.
From Verif Require Import PoolModel PoolSpec PoolProofs.

(* Two requests are blocked one after another, then the first is completed; another looper waits for
   commands *)
Definition busy_history : list move :=
  [MCheck true; MEnter 0 true; MStarted 0; MRead 0; MTransact 0; MBlock 0 true;
   MEnter 1 true; MStarted 1; MRead 1; MTransact 1; MBlock 1 true; MEnter 2 true; MStarted 2; MUnblock 0].
Definition after_run (l : list move) : state := match run init l with Ok s => s | _ => init end.
Definition busy : state := after_run busy_history.
Lemma busy_entered : reach_entered busy.
Proof. apply (runc_entered busy_history); lazy; reflexivity. Qed.
Lemma busy_reach : reach busy.
Proof. apply entered_reach, busy_entered. Qed.

(* A looper is always in exactly one list: of those which receive, of those which are blocked, or of
   those which are being stopped; only the one which has stopped them all, its own thread included,
   is in none, and it is about to leave. Being blocked means being in the list of the blocked ones,
   and the other ones there are asked to exit. *)
Theorem C47_one_list_partial s : reach s ->
  exists P B S, primaries s P /\ blockeds s B /\ stopping s S /\ NoDup (P ++ B ++ S) /\
    (forall i, In i (P ++ B ++ S) -> alive s i) /\
    (forall i, working s i -> In i (P ++ B ++ S) \/ (has_ipc (lp s i) = false /\ exit_ (lp s i) = true)) /\
    (forall i, In i S -> exit_ (lp s i) = true) /\
    (forall i, is_blocked s i -> In i B) /\
    (forall i, In i B -> is_blocked s i \/ exit_ (lp s i) = true).
Proof. exact (lists_ok s). Qed.
Print Assumptions C47_one_list_partial.
Example busy_lists : primaries busy [0; 2]%nat /\ blockeds busy [1%nat] /\ stopping busy [] /\ is_blocked busy 1.
Proof.
  split; [|split; [|split]].
  - lazy. auto.
  - lazy. auto.
  - lazy. auto.
  - split; [cbn; lia|lazy; reflexivity].
Qed.

(* When a looper gets blocked there is another one to receive, or it couldn't be created *)
Theorem C47_still_primary s i ok s' : reach s -> step s (MBlock i ok) = Ok s' -> is_blocked s' i ->
  (exists j P, j <> i /\ primaries s' P /\ In j P) \/ (ok = false /\ primaries s [i]).
Proof. exact (still_primary s i ok s'). Qed.
Print Assumptions C47_still_primary.
(* ... and its thread is in the loop, if the driver accepts every looper *)
Theorem C47_still_receiving_partial s i s' : reach_entered s -> step s (MBlock i true) = Ok s' -> is_blocked s' i ->
  exists j P, j <> i /\ primaries s' P /\ In j P /\ working s' j.
Proof. exact (still_primary_entered s i s'). Qed.
Print Assumptions C47_still_receiving_partial.
Definition before_block : state := after_run [MCheck true; MEnter 0 true; MStarted 0; MRead 0; MTransact 0].
Example blocks : reach_entered before_block /\ exists s', step before_block (MBlock 0 true) = Ok s' /\ is_blocked s' 0 /\ primaries s' [1%nat].
Proof.
  split; [apply (runc_entered [MCheck true; MEnter 0 true; MStarted 0; MRead 0; MTransact 0]); lazy; reflexivity|].
  eexists. split; [lazy; reflexivity|]. split; [split; [cbn; lia|reflexivity]|]. lazy. auto.
Qed.
(* Otherwise, the looper which failed stays in the list, nothing is received and no other looper is
   ever created *)
Definition refused_history : list move :=
  [MCheck true; MEnter 0 true; MStarted 0; MRead 0; MTransact 0; MBlock 0 true; MEnter 1 false; MStarted 1; MThreadEnd 1].
Theorem C47_refused_looper_refuted :
  exists s, reach s /\ is_blocked s 0 /\ primaries s [1%nat] /\ ~ working s 1 /\ forall ok, step s (MCheck ok) = Ok s.
Proof.
  exists (after_run refused_history). split; [apply (runc_leads refused_history); lazy; reflexivity|].
  split; [split; [cbn; lia|lazy; reflexivity]|]. split; [lazy; auto|]. split; [|intros []; lazy; reflexivity].
  intros [_ W]. lazy in W. exact W.
Qed.
Print Assumptions C47_refused_looper_refuted.

(* Returning loopers never make more than five of them *)
Theorem C47_at_most_five_partial s P : reach s -> primaries s P -> (length P <= 5)%nat.
Proof. exact (five_ok s P). Qed.
Print Assumptions C47_at_most_five_partial.
(* Six requests are blocked one after another, all are completed: the last one is told to exit *)
Definition crowd_history : list move :=
  MCheck true :: flat_map (fun i => [MEnter i true; MStarted i; MRead i; MTransact i; MBlock i true]) (seq 0 6)
  ++ [MEnter 6 true; MStarted 6] ++ map MUnblock (seq 0 6).
Example crowd : reach (after_run crowd_history) /\ primaries (after_run crowd_history) [3; 2; 1; 0; 6]%nat /\
  blockeds (after_run crowd_history) [5; 4]%nat /\ exit_ (lp (after_run crowd_history) 5) = true.
Proof.
  split; [apply (runc_leads crowd_history); lazy; reflexivity|].
  split; [lazy; auto 10|]. split; lazy; auto.
Qed.

(* No looper is used after it was freed, and it is freed exactly when its thread is gone, nobody waits
   for it and it is in no list *)
Theorem C47_no_crash_partial s mv : reach s -> careful s mv -> step s mv <> Crash.
Proof. exact (no_crash s mv). Qed.
Print Assumptions C47_no_crash_partial.
Theorem C47_freed_partial s i : reach s -> (i < cnt s)%nat ->
  freed (lp s i) = true <-> (ph (lp s i) = Gone /\ waits (lp s i) = 0 /\
    forall P B S, primaries s P -> blockeds s B -> stopping s S -> ~ In i (P ++ B ++ S)).
Proof. exact (freed_when s i). Qed.
Print Assumptions C47_freed_partial.

(* When stopping ends there are no loopers: every thread has left the loop, other than the one which
   stopped the others, and that one is asked to exit *)
Theorem C47_stopped_partial s mv s' : reach s -> careful s mv -> (mv = MStopAgain \/ exists who, mv = MStop who) ->
  step s mv = Ok s' -> stop s' = NoStop ->
  primary s' = None /\ blocked s' = None /\ forall i, working s' i -> has_ipc (lp s' i) = false /\ exit_ (lp s' i) = true.
Proof. exact (stop_ends s mv s'). Qed.
Print Assumptions C47_stopped_partial.
(* A looper which is asked to exit never reads again *)
Theorem C47_no_more_reads_partial s s' i s2 :
  leads s s' -> (i < cnt s)%nat -> exit_ (lp s i) = true -> step s' (MRead i) <> Ok s2.
Proof. exact (exit_no_read s s' i s2). Qed.
Print Assumptions C47_no_more_reads_partial.
(* Whatever has happened, stopping can be completed: nothing waits for what can't happen *)
Theorem C47_stop_completes_partial s : reach s -> exists s', leads s s' /\ stop s' = NoStop.
Proof. exact (stop_completes s). Qed.
Print Assumptions C47_stop_completes_partial.
(* Two loopers are stopped by one of them *)
Definition stop_history : list move :=
  [MCheck true; MEnter 0 true; MStarted 0; MRead 0; MTransact 0; MBlock 0 true; MEnter 1 true; MStarted 1;
   MUnblock 0; MReadEnd 0; MRead 1; MReadEnd 1; MStop (Some 1%nat); MStopNext; MStopJoin; MLoopEnd 0; MLeave 0; MThreadEnd 0;
   MStopNext; MStopJoin].
Example stops : reach (after_run stop_history) /\
  exists s', step (after_run stop_history) MStopAgain = Ok s' /\ stop s' = NoStop /\ working s' 1 /\ freed (lp s' 0) = true.
Proof.
  split; [apply (runc_leads stop_history); lazy; reflexivity|].
  eexists. split; [lazy; reflexivity|]. split; [reflexivity|]. split; [split; [cbn; lia|exact I]|]. lazy. reflexivity.
Qed.

(* At exit the loopers are stopped even if one of them is blocked. It puts itself back to the list of
   the receiving ones, removes itself from there and drops the reference of that list, which is the
   one the other thread has. *)
Definition exit_history : list move :=
  [MCheck true; MEnter 0 true; MStarted 0; MRead 0; MTransact 0; MBlock 0 true; MEnter 1 true; MStarted 1;
   MStop None; MStopNext; MUnblock 0; MReadEnd 0; MLoopEnd 0; MLeave 0; MThreadEnd 0].
Theorem C47_stop_blocked_refuted :
  exists s, run init exit_history = Ok s /\ freed (lp s 0) = true /\ stop s = Stopping None (Some 1%nat) (Some 0%nat) /\ step s MStopJoin = Crash.
Proof. eexists. split; [lazy; reflexivity|]. split; [reflexivity|]. split; [reflexivity|]. lazy. reflexivity. Qed.
Print Assumptions C47_stop_blocked_refuted.
