(* C73: one-way calls of an object are handled in the order in which they were made, one after another *)
From Verif Require Import Base OnewayModel OnewaySpec OnewayLocal OnewayProofs OnewayWorld.

(* Examples of calls *)
Definition ex_call (i : nat) : call := {| c_id := i; c_data := true; c_app := true; c_sync := true |}.
Definition ex_ping : call := {| c_id := 9; c_data := true; c_app := false; c_sync := true |}.
Definition ex_empty (i : nat) : call := {| c_id := i; c_data := false; c_app := true; c_sync := true |}.
Definition ex_async (i : nat) : call := {| c_id := i; c_data := true; c_app := true; c_sync := false |}.

(* Everything that a plain handler does for the call k of the object j, and a proxy *)
Definition ex_handle (j k : nat) : list move :=
  map (At j) [Take; Run k; Return k; Wake k; CbDone k; Drop k; Cancel k; Finish k; Cleanup k].
Definition ex_proxy (j k : nat) : list move :=
  map (At j) [Take; Run k; Forward k; Return k; Wake k; CbDone k; Write k; Replied k; Wake k; Drop k; Cancel k; Finish k; Destroyed k; Cleanup k].

(* Whatever the client does, however many loopers and worker threads there are and however they are scheduled, whatever
   handlers do with requests (keep, block, copy, forward them), and if loopers are stopped: the object number j hears the
   calls in the order in which they were made. It may be behind any number of proxies. No call is empty. *)
Theorem C73_in_order_partial : forall h w j, with_data h -> happens start h = Some w ->
  inside (filter c_sync (heard (nodes w j))) (calls h) /\
  inside (told (nodes w j)) (heard (nodes w j)) /\
  inside (heard (nodes w j)) (given w j).
Proof.
  intros h w j Hd H. pose proof (reachable_winv h w Hd H) as W. pose proof (w_nodes _ W j) as I.
  pose proof (happens_wire h start w start_winv (all_data h Hd) H) as E. cbn in E.
  split; [|split; [exact (told_inside _ _ I)|exact (heard_inside _ _ I)]].
  rewrite <- E. apply inside_filter. eapply inside_trans; [exact (given_inside w W j)|exact (heard_inside _ _ I)].
Qed.
Print Assumptions C73_in_order_partial.

(* Three calls through a proxy; the second call is for the library; the object behind the proxy has two loopers *)
Definition ex_history : list move :=
  [Call (ex_call 1); Call ex_ping; Call (ex_call 2)] ++ ex_proxy 0 0 ++
  [At 0 Take; At 1 Take; At 0 (Finish 1); At 0 (Cleanup 1)] ++ ex_proxy 0 2 ++
  map (At 1) [Run 0; Return 0; Wake 0; CbDone 0; Drop 0; Cancel 0; Finish 0; Cleanup 0] ++ [At 1 Take; At 1 (Run 1)].

Example C73_in_order_example :
  with_data ex_history /\
  match happens start ex_history with
  | Some w => heard (nodes w 0%nat) = [ex_call 1; ex_call 2] /\ heard (nodes w 1%nat) = [ex_call 1; ex_call 2] /\ calls ex_history = [ex_call 1; ex_ping; ex_call 2]
  | None => False
  end.
Proof.
  split; [|vm_compute; auto].
  intros c [H|H]; cbn in H; repeat (destruct H as [H|H]; [try discriminate H; injection H as <-; reflexivity|]); contradiction.
Qed.

(* If no looper of its process is stopped while it waits for a call of this object, then it hears the first calls of those
   which were sent to it for its handler, and none of them is skipped *)
Theorem C73_nothing_skipped : forall h w j, with_data h -> happens start h = Some w -> (forall k, ~ In (At j (Stop k)) h) ->
  begins (heard (nodes w j)) (filter c_app (given w j)).
Proof.
  intros h w j Hd H Hs. apply heard_begins; [exact (w_nodes _ (reachable_winv h w Hd H) j)|].
  apply (happens_ns h j start w start_winv (all_data h Hd)); [constructor|exact Hs|exact H].
Qed.
Print Assumptions C73_nothing_skipped.

Example C73_nothing_skipped_example :
  (forall k, ~ In (At 0 (Stop k)) ex_history) /\
  match happens start ex_history with
  | Some w => filter c_app (given w 0) = [ex_call 1; ex_call 2] /\ given w 0 = [ex_call 1; ex_ping; ex_call 2] /\ given w 1 = [ex_call 1; ex_call 2]
  | None => False
  end.
Proof.
  split; [|vm_compute; auto].
  intros k H. cbn in H. repeat (destruct H as [H|H]; [discriminate H|]). exact H.
Qed.

(* What a proxy forwards is sent, once and in order, unless it is cancelled: what was sent are the first ones of the calls
   which were passed to the thread pool, all of them if none is waiting there *)
Theorem C73_forwarded_sent : forall h w j, with_data h -> happens start h = Some w -> (forall k, ~ In (At j (Skip k)) h) ->
  exists l, map (call_number w j) (forwarded j h) = map Some (told (nodes w j) ++ l) /\ (length l <= 1)%nat /\
    ((forall t, In t (txs (nodes w j)) -> t_fwd t <> FQueued) -> l = []).
Proof.
  intros h w j Hd H Hs. destruct (told_soq _ _ (w_nodes _ (reachable_winv h w Hd H) j)) as (l & A & B).
  exists l. split; [|exact B]. rewrite <- A.
  assert (N : sinv (nodes start j) []) by (constructor; [reflexivity|constructor]).
  exact (s_calls _ _ (happens_sinv h j start w [] start_winv (all_data h Hd) N Hs H)).
Qed.
Print Assumptions C73_forwarded_sent.

Example C73_forwarded_sent_example :
  (forall k, ~ In (At 0 (Skip k)) ex_history) /\ forwarded 0 ex_history = [0; 2]%nat /\
  match happens start ex_history with
  | Some w => told (nodes w 0%nat) = [ex_call 1; ex_call 2] /\ forall t, In t (txs (nodes w 0%nat)) -> t_fwd t <> FQueued
  | None => False
  end.
Proof.
  split; [intros k H; cbn in H; repeat (destruct H as [H|H]; [discriminate H|]); exact H|]. split; [reflexivity|].
  vm_compute. split; [reflexivity|]. intros t [<-|[<-|[<-|[]]]]; discriminate.
Qed.

(* Unless the application still deals with a call, or has left one blocked, either it was called for all of them, or there
   is something that the library can do by itself... *)
Theorem C73_goes_on : forall h w j, with_data h -> happens start h = Some w -> (forall k, ~ In (At j (Stop k)) h) ->
  content (nodes w j) ->
  heard (nodes w j) = filter c_app (given w j) \/ exists o w1, own o = true /\ moves w (At j o) = Some w1.
Proof.
  intros h w j Hd H Hs Hc.
  assert (N : Forall ns (txs (nodes w j))) by (apply (happens_ns h j start w start_winv (all_data h Hd)); [constructor|exact Hs|exact H]).
  destruct (node_progress _ _ (w_nodes _ (reachable_winv h w Hd H) j) N Hc) as [X|(o & n1 & O1 & O2)]; [left; exact X|right].
  exists o. cbn [moves]. rewrite O2. eexists. split; [exact O1|reflexivity].
Qed.
Print Assumptions C73_goes_on.

Example C73_goes_on_example :
  let h := [Call (ex_call 1); Call (ex_call 2)] ++ ex_handle 0 0 in
  match happens start h with
  | Some w => content (nodes w 0%nat) /\ heard (nodes w 0%nat) = [ex_call 1] /\ filter c_app (given w 0) = [ex_call 1; ex_call 2] /\
      match moves w (At 0 Take) with Some _ => True | None => False end
  | None => False
  end.
Proof.
  vm_compute. split; [|auto]. intros t [<-|[]]. cbn. repeat split; try discriminate. intros [X _]. discriminate X.
Qed.

(* ... and it can do that only so many times before something else happens *)
Theorem C73_not_forever : exists measure : node -> nat,
  forall n o n1, own o = true -> nstep n o = Some n1 -> (measure n1 < measure n)%nat.
Proof. exists weight. exact nstep_weight. Qed.
Print Assumptions C73_not_forever.

Example C73_not_forever_example : own Take = true /\ nstep (enqueue new_node (ex_call 1)) Take <> None.
Proof. split; [reflexivity|discriminate]. Qed.

(* At any time, the application deals with at most one of the one-way calls to an object; while it does, its handler isn't
   called for another one *)
Theorem C73_one_at_a_time_partial : forall h w j k t, with_data h -> happens start h = Some w ->
  nth_error (txs (nodes w j)) k = Some t -> deals t ->
  (forall i u, nth_error (txs (nodes w j)) i = Some u -> deals u -> i = k) /\
  (forall i, moves w (At j (Run i)) = None).
Proof.
  intros h w j k t Hd H Hk D. pose proof (w_nodes _ (reachable_winv h w Hd H) j) as I. split.
  - intros i u Hi Du. exact (one_deal _ _ _ _ _ _ I Hi Hk Du D).
  - intros i. cbn [moves]. rewrite (others_wait _ _ _ _ I Hk D i). reflexivity.
Qed.
Print Assumptions C73_one_at_a_time_partial.

(* The request is kept by the application after its handler has returned: the next one waits *)
Definition ex_kept : list move :=
  [Call (ex_call 1); Call (ex_call 2)] ++
  map (At 0) [Take; Run 0; Ref 0; Return 0; Wake 0; CbDone 0; Drop 0; Cancel 0; Finish 0; Cleanup 0].

Example C73_one_at_a_time_example :
  match happens start ex_kept with
  | Some w => match txs (nodes w 0%nat) with [t] => deals t | _ => False end /\ async (nodes w 0%nat) = [ex_call 2] /\
      match happens w [At 0 (Unref 0); At 0 Take; At 0 (Run 1)] with Some w1 => heard (nodes w1 0%nat) = [ex_call 1; ex_call 2] | None => False end
  | None => False
  end.
Proof. vm_compute. split; [right; left; auto|auto]. Qed.

(* Empty calls are given back to the driver before they are handled: they may be handled in another order, and more than one at a
   time may be taken *)
Theorem C73_empty_calls_in_order_refuted : exists h w, happens start h = Some w /\ calls h = [ex_empty 1; ex_empty 2] /\
  (forall k, ~ In (At 0 (Stop k)) h) /\ heard (nodes w 0%nat) = [ex_empty 2; ex_empty 1].
Proof.
  set (h := [Call (ex_empty 1); Call (ex_empty 2); At 0 Take; At 0 Take; At 0 (Run 1); At 0 (Return 1); At 0 (Run 0)]).
  destruct (happens start h) as [w|] eqn:E; [|vm_compute in E; discriminate E].
  exists h, w. split; [exact E|]. split; [reflexivity|]. split.
  - intros k H. cbn in H. repeat (destruct H as [H|H]; [discriminate H|]). exact H.
  - vm_compute in E. injection E as <-. reflexivity.
Qed.
Print Assumptions C73_empty_calls_in_order_refuted.

(* Calls made by gbinder_client_transact may be sent in another order: each has a worker thread *)
Theorem C73_async_calls_in_order_refuted : exists h w, with_data h /\ happens start h = Some w /\
  h = [Async (ex_async 1); Async (ex_async 2); Pick; Pick; Perform 1; Perform 0] /\ wire w = [ex_async 2; ex_async 1].
Proof.
  set (h := [Async (ex_async 1); Async (ex_async 2); Pick; Pick; Perform 1; Perform 0]).
  destruct (happens start h) as [w|] eqn:E; [|vm_compute in E; discriminate E].
  exists h, w. split; [|split; [exact E|split; [reflexivity|vm_compute in E; injection E as <-; reflexivity]]].
  intros c [H|H]; cbn in H; repeat (destruct H as [H|H]; [try discriminate H; injection H as <-; reflexivity|]); contradiction.
Qed.
Print Assumptions C73_async_calls_in_order_refuted.
