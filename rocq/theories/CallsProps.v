(* C74: calls between processes come back with what their handlers have answered *)
From Verif Require Import Base CallsModel CallsSpec CallsProofs.

(* Whatever calls are made at the same time, nested in handlers, blocked or asynchronous: what a caller gets from its call is
   what the handler has answered to that call, for which it was called exactly once *)
Theorem C74_own_answer : forall h w c v, happens start h = Some w -> got w c (Some v) ->
  (In (Return c v) h \/ In (Complete c v) h) /\ handled h c = 1%nat.
Proof.
  intros h w c v H (k & K1 & K2). split.
  - pose proof (all_answered h w H c k K1) as A. unfold answered in A. rewrite K2 in A. exact A.
  - pose proof (proj1 (once h w H) c k K1) as A. rewrite K2 in A. exact A.
Qed.
Print Assumptions C74_own_answer.

(* It's told that the other process is dead only if it is *)
Theorem C74_dead_only : forall h w c, happens start h = Some w -> got w c None ->
  exists k, nth_error (made w) c = Some k /\ In (Die (k_to k)) h.
Proof.
  intros h w c H (k & K1 & K2). exists k. split; [exact K1|]. pose proof (all_answered h w H c k K1) as A. unfold answered in A. rewrite K2 in A. exact A.
Qed.
Print Assumptions C74_dead_only.

Theorem C74_handled_once : forall h w c, happens start h = Some w -> (handled h c <= 1)%nat.
Proof.
  intros h w c H. destruct (once h w H) as [A B]. destruct (nth_error (made w) c) as [k|] eqn:E; [pose proof (A c k E) as D|rewrite (B c E); lia].
  destruct (k_st k) as [| | | | |v b|[v|]|[v|]|[v|]]; cbn in D; lia.
Qed.
Print Assumptions C74_handled_once.

(* 0 calls 1 synchronously, whose handler calls 2 synchronously and then 3 asynchronously, blocks, and completes the first
   call in the callback; meanwhile 4 calls 1, and then 2, which dies *)
Definition ex_history : list op :=
  [Begin 0; Begin 4; Sync 0 1; Sync 4 1; Take 0; Dispatch 0; Sync 1 2; Take 2; Dispatch 2; Return 2 20; Reply 2; Receive 1;
   Async 1 3; Block 0; Take 1; Dispatch 1; Work 3; Take 3; Return 1 10; Dispatch 3; Reply 1; Receive 4; Return 3 30; Reply 3; WorkerDone 3; Callback 3;
   Complete 0 50; End 1; Reply 0; Receive 0; Sync 4 2; Take 4; Dispatch 4; Die 2; Dead 4; Receive 4].

Example C74_example :
  match happens start ex_history with
  | Some w => map k_st (made w) = [Over (Some 50); Over (Some 10); Over (Some 20); Over (Some 30); Over None]%nat
  | None => False
  end.
Proof. vm_compute. reflexivity. Qed.

(* If no process calls another one synchronously which calls it synchronously, directly or indirectly, and no application
   is doing something or has left a call blocked, then all calls are over or there is something that the library can do... *)
Theorem C74_comes_back_partial : forall h w, no_circles h -> happens start h = Some w -> ~ busy w ->
  all_over w \/ exists o w1, own o = true /\ step w o = Some w1.
Proof.
  intros h w (rank & Hr) H B. destruct (idle w) eqn:E; [left|right; exact (not_idle w E)].
  exact (stuck_over w rank (reachable h w H) (all_ranked rank h w Hr H) (idle_stuck w (reachable h w H) E) B).
Qed.
Print Assumptions C74_comes_back_partial.

Example C74_comes_back_example : no_circles ex_history /\
  match happens start (firstn 4 ex_history) with
  | Some w => ~ busy w /\ ~ all_over w
  | None => False
  end.
Proof.
  split.
  - exists (fun p => match p with 0 => 2 | 1 => 1 | 4 => 2 | _ => 0 end)%nat. intros p q H. cbn in H.
    repeat (destruct H as [H|H]; [try discriminate H; injection H as <- <-; lia|]). contradiction.
  - destruct (happens start (firstn 4 ex_history)) as [w|] eqn:E; [|vm_compute in E; discriminate E]. pose proof (reachable _ _ E) as I.
    vm_compute in E. injection E as <-. split.
    + intros [(p & _ & A & B)|(c & k & A & B & _)].
      * destruct p as [|[|[|[|[|p]]]]]; cbn in *; congruence.
      * cbn in A. destruct c as [|[|[|c]]]; cbn in A; try discriminate A; injection A as <-; discriminate B.
    + intros H. destruct (H 0%nat _ eq_refl eq_refl) as (v & k & A & B). cbn in A. injection A as <-. discriminate B.
Qed.

(* ... which it can't do forever *)
Theorem C74_not_forever : forall h w, happens start h = Some w ->
  exists n, forall r w1, Forall (fun o => own o = true) r -> happens w r = Some w1 -> (length r <= n)%nat.
Proof. intros h w H. exists (weight w). exact (runs_end w (reachable h w H)). Qed.
Print Assumptions C74_not_forever.

(* Asynchronous calls alone can make circles *)
Theorem C74_asynchronous_comes_back : forall h w, (forall p q, ~ In (Sync p q) h) -> happens start h = Some w -> ~ busy w ->
  all_over w \/ exists o w1, own o = true /\ step w o = Some w1.
Proof. intros h w Hs. apply C74_comes_back_partial. exists (fun _ => 0%nat). intros p q H. destruct (Hs p q H). Qed.
Print Assumptions C74_asynchronous_comes_back.

(* 0 calls 1, whose handler blocks the call and calls 0; the answer of that is the answer to the first call *)
Definition ex_circle : list op :=
  [Begin 0; Async 0 1; End 0; Work 0; Take 0; Dispatch 0; Async 1 0; Block 0; Work 1; Take 1; Dispatch 1; Return 1 5; Reply 1; WorkerDone 1; Callback 1; Complete 0 6; End 1; Reply 0; WorkerDone 0; Callback 0].

Example C74_asynchronous_example : (forall p q, ~ In (Sync p q) ex_circle) /\
  match happens start ex_circle with Some w => map k_st (made w) = [Over (Some 6); Over (Some 5)]%nat | None => False end.
Proof.
  split; [|vm_compute; reflexivity]. intros p q H. cbn in H. repeat (destruct H as [H|H]; [discriminate H|]). exact H.
Qed.

(* Any two processes which call each other synchronously at the same time wait until one of them dies, whatever else happens
   later *)
Theorem C74_same_time_refuted : forall p q, p <> q ->
  let h0 := [Begin p; Begin q; Sync p q; Sync q p] in
  happens start h0 <> None /\
  forall h w, ~ In (Die p) h -> ~ In (Die q) h -> happens start (h0 ++ h) = Some w -> forall c v, (c = 0 \/ c = 1)%nat -> ~ got w c v.
Proof.
  intros p q Hpq h0. pose proof (proj2 (Nat.eqb_neq p q) Hpq) as E1. assert (E2 : Nat.eqb q p = false) by (apply Nat.eqb_neq; congruence).
  assert (X : exists w0, happens start h0 = Some w0 /\ locked p q w0).
  { eexists. unfold h0. cbn [happens step start procs p_frame p_wait]. unfold set_proc. cbn. rewrite ?E1, ?E2, ?Nat.eqb_refl. cbn. rewrite ?E1, ?E2, ?Nat.eqb_refl. cbn.
    rewrite ?E1, ?E2, ?Nat.eqb_refl. cbn. rewrite ?E1, ?E2, ?Nat.eqb_refl. cbn.
    split; [reflexivity|]. split; [do 2 eexists; cbn; repeat split|exists FApp, FApp; cbn; rewrite ?E1, ?E2, ?Nat.eqb_refl; cbn; auto 8]. }
  destruct X as (w0 & X1 & X2). split; [congruence|]. intros h w Np Nq H. rewrite happens_app, X1 in H.
  exact (locked_never p q w (happens_locked p q h w0 w (reachable h0 w0 X1) X2 Np Nq H)).
Qed.
Print Assumptions C74_same_time_refuted.

(* And so do they if a handler of one calls the other one synchronously, which has called it synchronously *)
Theorem C74_nested_refuted : forall p q, p <> q ->
  let h0 := [Begin p; Sync p q; Take 0; Dispatch 0; Sync q p] in
  happens start h0 <> None /\
  forall h w, ~ In (Die p) h -> ~ In (Die q) h -> happens start (h0 ++ h) = Some w -> forall c v, (c = 0 \/ c = 1)%nat -> ~ got w c v.
Proof.
  intros p q Hpq h0. pose proof (proj2 (Nat.eqb_neq p q) Hpq) as E1. assert (E2 : Nat.eqb q p = false) by (apply Nat.eqb_neq; congruence).
  assert (X : exists w0, happens start h0 = Some w0 /\ locked p q w0).
  { eexists. unfold h0. cbn [happens step start procs p_frame p_wait]. unfold set_proc, count, in_use.
    do 8 (cbn; rewrite ?E1, ?E2, ?Nat.eqb_refl). cbn.
    split; [reflexivity|]. split; [do 2 eexists; cbn; repeat split|eexists; eexists; cbn; rewrite ?E1, ?E2, ?Nat.eqb_refl; cbn; auto 8]. }
  destruct X as (w0 & X1 & X2). split; [congruence|]. intros h w Np Nq H. rewrite happens_app, X1 in H.
  exact (locked_never p q w (happens_locked p q h w0 w (reachable h0 w0 X1) X2 Np Nq H)).
Qed.
Print Assumptions C74_nested_refuted.

(* But if the process which was called dies, then a synchronous call comes back, even then *)
Theorem C74_dead_comes_back : forall h w c k, happens start h = Some w -> nth_error (made w) c = Some k -> k_sync k = true ->
  p_dead (procs w (k_to k)) = true -> p_dead (procs w (k_from k)) = false ->
  exists v r w1, got w1 c v /\ happens w r = Some w1 /\ Forall (fun o => own o = true) r.
Proof. intros h w c k H. exact (dead_returns w (reachable h w H) c k). Qed.
Print Assumptions C74_dead_comes_back.

Example C74_dead_example :
  match happens start [Begin 0; Begin 1; Sync 0 1; Sync 1 0; Take 0; Die 1] with
  | Some w => match nth_error (made w) 0 with
              | Some k => k_sync k = true /\ p_dead (procs w (k_to k)) = true /\ p_dead (procs w (k_from k)) = false /\ k_st k = Taken
              | None => False
              end
  | None => False
  end.
Proof. vm_compute. auto. Qed.

(* Asynchronous calls which wait for each other, call 1 for call 2 and so on: when there are fifteen of each process, the
   next one is never sent *)
Definition deep (n : nat) : list op :=
  [Begin 0; Async 0 1; End 0] ++ flat_map (fun j => [Work j; Take j; Dispatch j; Async (S j mod 2) (j mod 2); Block j]) (seq 0 n).

Theorem C74_depth_refuted : exists w, happens start (deep 30) = Some w /\ stuck w /\
  map k_st (made w) = repeat Blocked 30 ++ [Pool] /\ forall p, p_frame (procs w p) = None.
Proof.
  destruct (happens start (deep 30)) as [w|] eqn:E; [|vm_compute in E; discriminate E].
  assert (I : winv w) by exact (reachable _ _ E).
  assert (X : option_map (fun w => (idle w, map k_st (made w))) (happens start (deep 30)) = Some (true, repeat Blocked 30 ++ [Pool])) by (vm_compute; reflexivity).
  rewrite E in X. cbn [option_map] in X. injection X as X1 X2. exists w. split; [reflexivity|]. split; [exact (idle_stuck w I X1)|]. split; [exact X2|].
  intros p. vm_compute in E. injection E as <-. cbn. destruct p as [|[|p]]; reflexivity.
Qed.
Print Assumptions C74_depth_refuted.

(* With less they come back *)
Example C74_depth_example :
  match happens start (deep 29) with
  | Some w => match step w (Work 29) with Some _ => True | None => False end
  | None => False
  end.
Proof. vm_compute. exact Logic.I. Qed.
