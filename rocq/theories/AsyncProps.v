(* C29, C30: asynchronous transactions *)
From Verif Require Import Base AsyncModel AsyncSpec AsyncProofs AsyncLife AsyncEnds AsyncTurn AsyncExit.

(* [run (initial n) l = Some s]: anything the application, its callbacks, the event loop and
   the worker threads may have done to a GBinderIpc in any order *)

(* C29: what happens to a transaction, in this order: it's performed or (if it was cancelled)
   not; the reply callback is called at most once and gets the result; the destroy callback is
   called once. At any moment that's what has happened so far. *)
Theorem C29_one_life : forall n l s k, run (initial n) l = Some s -> in_life k (life_of k (atrace s)).
Proof. intros n l s k H. apply good_in_life. exact (good_run _ _ _ (good_initial n) H). Qed.
Print Assumptions C29_one_life.

(* Once gbinder_ipc_cancel has been called with the id of a transaction in progress, the
   transaction isn't performed anymore and its reply callback isn't called anymore *)
Theorem C29_silent_after_cancel : forall n l s k t1 id t2, run (initial n) l = Some s ->
  atrace s = t1 ++ CancelCalled id :: t2 -> refers t1 id k -> ~ In (Exec k) t2 /\ forall r, ~ In (Reply k r) t2.
Proof. intros n l s k t1 id t2 H. exact (en_silent _ (gd_ends _ (good_run _ _ _ (good_initial n) H)) k t1 id t2). Qed.
Print Assumptions C29_silent_after_cancel.

(* A transaction which is over and wasn't cancelled was performed, and its reply callback was
   called unless gbinder_ipc_exit came first *)
Theorem C29_performed_and_reported : forall n l s k id f, run (initial n) l = Some s ->
  In (Started k id f) (atrace s) -> In (Gone k) (atrace s) -> ~ was_cancelled (atrace s) k ->
  In (Exec k) (atrace s) /\ (has_reply f = true -> (exists r, In (Reply k r) (atrace s)) \/ exited_first (atrace s) k).
Proof. intros n l s k id f H. exact (started_end _ _ _ _ (good_run _ _ _ (good_initial n) H)). Qed.
Print Assumptions C29_performed_and_reported.

(* Callbacks aren't called by worker threads *)
Theorem C29_callbacks_on_event_loop : forall n l s m s', run (initial n) l = Some s -> (m = Work \/ exists k r, m = Finish k r) ->
  step s m = Some s' -> exists es, atrace s' = atrace s ++ es /\ forall e, In e es -> exists k, e = Exec k \/ exists r, e = ExecEnd k r.
Proof. intros n l s m s' H. exact (worker_events _ _ _ (good_run _ _ _ (good_initial n) H)). Qed.
Print Assumptions C29_callbacks_on_event_loop.

(* When there is nothing left to do, every transaction has had its whole life (the destroy
   callback was called exactly once), except those made after gbinder_ipc_exit *)
Theorem C29_all_destroyed_partial : forall n l s k id f, run (initial n) l = Some s -> quiet s ->
  In (Started k id f) (atrace s) -> whole_life k (life_of k (atrace s)) \/ too_late (atrace s) k.
Proof. intros n l s k id f H. exact (quiet_end _ _ _ _ (good_run _ _ _ (good_initial n) H)). Qed.
Print Assumptions C29_all_destroyed_partial.

(* That moment always comes: if the event loop and the worker threads are left alone, they
   can't be busy forever, and where they stop nothing is left to do *)
Theorem C29_comes_to_rest : forall n l s, run (initial n) l = Some s ->
  (forall l1 s1, Forall internal l1 -> run s l1 = Some s1 -> (length l1 <= 5 * count s)%nat) /\
  (exists l1 s1, Forall internal l1 /\ run s l1 = Some s1 /\ quiet s1).
Proof.
  intros n l s H. pose proof (good_run _ _ _ (good_initial n) H) as G. split.
  - intros l1 s1 F R. pose proof (internal_bounded _ _ _ G F R). pose proof (load_bound s (count s)). lia.
  - exact (comes_to_rest _ s G (Nat.le_refl _)).
Qed.
Print Assumptions C29_comes_to_rest.

(* gbinder_ipc_exit waits for the worker threads: what they were performing is complete by then,
   what was waiting for them (and wasn't cancelled) has been performed, and they don't do anything
   afterwards *)
Theorem C29_exit_waits : forall n l s t1 t2, run (initial n) l = Some s -> atrace s = t1 ++ Exiting :: t2 -> forall k,
  (In (Exec k) t1 -> exists r, In (ExecEnd k r) t1) /\
  (forall id f, In (Started k id f) t1 -> ~ was_cancelled t1 k -> In (Exec k) t1) /\
  ~ In (Exec k) t2 /\ forall r, ~ In (ExecEnd k r) t2.
Proof.
  intros n l s t1 t2 H E k. destruct (proj2 (exit_run _ _ _ H) _ _ E) as [S1 S2]. destruct (S1 k). destruct (S2 k). auto.
Qed.
Print Assumptions C29_exit_waits.

(* GBinderIpc is freed after all of that, and not while the application has references to it *)
Theorem C29_ipc_outlives_transactions : forall n l s, run (initial n) l = Some s -> In IpcFreed (atrace s) ->
  (forall t1 t2, atrace s = t1 ++ IpcFreed :: t2 -> t2 = []) /\ app_refs s = 0%nat /\
  forall k id f, In (Started k id f) (atrace s) -> whole_life k (life_of k (atrace s)).
Proof. intros n l s H. exact (ipc_freed_end _ (good_run _ _ _ (good_initial n) H)). Qed.
Print Assumptions C29_ipc_outlives_transactions.

(* Not true: every transaction's destroy callback is called in the end. Those made (by destroy
   callbacks) after gbinder_ipc_exit are forgotten: *)
Theorem C29_too_late_forgotten : forall n l s k, run (initial n) l = Some s -> too_late (atrace s) k ->
  exists id f, life_of k (atrace s) = [Started k id f].
Proof. intros n l s k H. exact (too_late_life _ _ (good_run _ _ _ (good_initial n) H)). Qed.
Print Assumptions C29_too_late_forgotten.

Definition both := {| has_reply := true; has_destroy := true |}.
Definition exit_story := [Transact both; Work; Finish 0 7; Exit; ExitCancel 0; Transact both; Return; Unref; Unref].
Theorem C29_all_destroyed_refuted : exists n l s k id f, run (initial n) l = Some s /\ quiet s /\
  In (Started k id f) (atrace s) /\ has_destroy f = true /\ app_refs s = 0%nat /\ ~ In (Destroy k) (atrace s).
Proof.
  destruct (run (initial 1) exit_story) as [s|] eqn:E; [|vm_compute in E; discriminate]. exists 1, exit_story, s, 1%nat, 2, both.
  pose proof (good_run _ _ _ (good_initial 1) E) as G. split; [exact E|]. split.
  - apply (next_move_none _ G). revert E. vm_compute. intros [= <-]. reflexivity.
  - revert E. vm_compute. intros [= <-]. cbn. intuition discriminate.
Qed.
Print Assumptions C29_all_destroyed_refuted.

(* C30: the id which gbinder_ipc_transact returns is 1 to 2^32-1 and isn't the id of any
   transaction in progress, however many ids were taken before *)
Theorem C30_id_unused : forall n l s f s', run (initial n) l = Some s -> step s (Transact f) = Some s' ->
  exists id, atrace s' = atrace s ++ [Started (count s) id f] /\ 0 < id < 2 ^ 32 /\ forall k, ~ refers (atrace s) id k.
Proof. intros n l s f s' H. exact (new_id _ _ _ (good_run _ _ _ (good_initial n) H)). Qed.
Print Assumptions C30_id_unused.

Theorem C30_one_transaction_per_id : forall n l s id j k, run (initial n) l = Some s ->
  refers (atrace s) id j -> refers (atrace s) id k -> j = k.
Proof. intros n l s id j k H. exact (one_per_id _ _ _ _ (good_run _ _ _ (good_initial n) H)). Qed.
Print Assumptions C30_one_transaction_per_id.

(* It always finds one if there is one *)
Theorem C30_always_finds_id : forall n l s f free, run (initial n) l = Some s -> 0 < ipc_refs s ->
  0 < free < 2 ^ 32 -> (forall k, ~ refers (atrace s) free k) -> step s (Transact f) <> None.
Proof. intros n l s f free H. exact (transact_returns _ _ _ (good_run _ _ _ (good_initial n) H)). Qed.
Print Assumptions C30_always_finds_id.

(* Cancelling an id which doesn't refer to anything has no effect, and otherwise it only
   affects the transaction which it refers to *)
Theorem C30_cancel_affects_only_its_own : forall n l s id s', run (initial n) l = Some s -> step s (Cancel id) = Some s' ->
  ((forall k, ~ refers (atrace s) id k) -> s' = add_event s (CancelCalled id)) /\
  (forall k, refers (atrace s) id k ->
   s' = set_tx (add_event s (CancelCalled id)) k
          {| t_id := id; t_spec := t_spec (txs s k); t_cancelled := true; t_phase := t_phase (txs s k) |}).
Proof.
  intros n l s id s' H Hs. pose proof (good_run _ _ _ (good_initial n) H) as G. split.
  - exact (cancel_none _ _ _ G Hs).
  - intros k. exact (cancel_one _ _ _ _ G Hs).
Qed.
Print Assumptions C30_cancel_affects_only_its_own.

(* ------------------------------------------------------------------ *)
(* Concrete cases *)

(* Ids wrap around (0 is skipped); the first transaction is in progress when the second one is
   made by another thread, cancelled while the first one's reply callback is running, and
   dispatched from within that callback *)
Definition wrap_story := [Transact both; Transact both; Work; Work; Finish 1 5; Finish 0 4; Dispatch 0; Cancel 1; Dispatch 1; Return; Return; Return; Unref].
Example wrap_story_runs : exists s, run (initial (2 ^ 32 - 1)) wrap_story = Some s /\
  atrace s = [Started 0 4294967295 both; Started 1 1 both; Exec 0; Exec 1; ExecEnd 1 5; ExecEnd 0 4; Reply 0 4; CancelCalled 1;
              Gone 1; Destroy 1; DestroyEnd 1; ReplyEnd 0; Gone 0; Destroy 0; DestroyEnd 0; IpcFreed].
Proof. eexists. split; vm_compute; reflexivity. Qed.

(* The hypotheses of C29_silent_after_cancel and C29_performed_and_reported are met by it *)
Example wrap_story_cancelled : forall s, run (initial (2 ^ 32 - 1)) wrap_story = Some s ->
  was_cancelled (atrace s) 1 /\ ~ was_cancelled (atrace s) 0 /\ In (Gone 0%nat) (atrace s).
Proof.
  intros s H. pose proof wrap_story_runs as (s' & H' & E). rewrite H in H'. injection H' as <-. rewrite E. split; [|split].
  - exists [Started 0 4294967295 both; Started 1 1 both; Exec 0; Exec 1; ExecEnd 1 5; ExecEnd 0 4; Reply 0 4], 1,
      [Gone 1; Destroy 1; DestroyEnd 1; ReplyEnd 0; Gone 0; Destroy 0; DestroyEnd 0; IpcFreed].
    split; [reflexivity|]. split; [exists both; cbn; auto|]. cbn. intuition discriminate.
  - intros (t1 & id & t2 & X & [[f R1] R2]).
    do 7 (destruct t1 as [|? t1]; [discriminate X|]; injection X as <- X).
    destruct t1 as [|? t1].
    + injection X as <- _. cbn in R1. intuition congruence.
    + injection X as <- X. do 8 (destruct t1 as [|? t1]; [discriminate X|]; injection X as <- X). destruct t1; discriminate X.
  - cbn. tauto.
Qed.

(* gbinder_ipc_exit has nothing to wait for only when everything is performed *)
Example exit_waits_ex : run (initial 1) [Transact both; Work; Exit] = None /\
  exists s, run (initial 1) exit_story = Some s /\
  atrace s = [Started 0 1 both; Exec 0; ExecEnd 0 7] ++ Exiting :: [Gone 0; Destroy 0; Started 1 2 both; DestroyEnd 0].
Proof. split; [vm_compute; reflexivity|]. eexists. split; vm_compute; reflexivity. Qed.

(* Cancelled before it was performed *)
Example cancelled_early : exists s, run (initial 1) [Transact both; Cancel 1; Work; Finish 0 9; Dispatch 0; Return] = Some s /\
  atrace s = [Started 0 1 both; CancelCalled 1; Gone 0; Destroy 0; DestroyEnd 0] /\ quiet s.
Proof.
  destruct (run (initial 1) [Transact both; Cancel 1; Work; Finish 0 9; Dispatch 0; Return]) as [s|] eqn:E; [|vm_compute in E; discriminate].
  exists s. split; [reflexivity|]. pose proof (good_run _ _ _ (good_initial 1) E) as G. split.
  - revert E. vm_compute. intros [= <-]. reflexivity.
  - apply (next_move_none _ G). revert E. vm_compute. intros [= <-]. reflexivity.
Qed.

(* The counter meets ids in use (after other objects have taken 2^32 - 2 ids) and skips them *)
Example skips_used_ids :
  tx_get_id 4 [(4294967295, 0%nat); (1, 1%nat)] 4294967295 = Some (2, 3) /\ tx_get_id 3 [(5, 0%nat)] 0 = Some (1, 2).
Proof. split; vm_compute; reflexivity. Qed.
