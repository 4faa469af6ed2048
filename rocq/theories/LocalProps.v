(* The theorems about references to local objects. *)
From Verif Require Import Base.
From Verif Require Import LocalModel LocalSpec LocalProofs.

(* C35: while the kernel has a strong reference, the object isn't destroyed (and can be found by
   its address), whatever the threads, the main loop and the application do.
   Missing for the full claim: the histories which [careful] excludes, see the refutations. *)
Theorem C35_alive_partial : forall n s,
  reach n s -> k_strong s = true -> exists o, alive s o /\ in_table o = true /\ refs o > 0.
Proof.
  intros n s R K. destruct (strong_alive s (reach_inv n s R) K) as (o & A & B & C).
  exists o. split; [exact A|]. split; [exact B|lia].
Qed.
Print Assumptions C35_alive_partial.

(* C35: the counts of references never become negative. *)
Theorem C35_counts_partial : forall n s o,
  reach n s -> obj s = Some o -> strong o >= 0 /\ weak o >= 0.
Proof.
  intros n s o R OB. pose proof (i_obj _ (reach_inv n s R)) as O. rewrite OB in O.
  pose proof (strong_nonneg s o O). pose proof (ok_weak_now _ _ (o_weak _ _ O)). lia.
Qed.
Print Assumptions C35_counts_partial.

(* C35: when everything is handled, the counts are what the kernel has, nothing else has a
   reference than the application and the kernel, and every BR_ACQUIRE is acknowledged. *)
Theorem C35_at_rest_partial : forall n s o,
  reach n s -> quiet s -> obj s = Some o ->
  strong o = b2z (k_strong s) /\ weak o = b2z (k_weak s) /\ refs o = by_app o + strong o /\ k_acks s = k_acquires s.
Proof. intros n s o R. apply quiet_counts. exact (reach_inv n s R). Qed.
Print Assumptions C35_at_rest_partial.

(* C35: every BR_ACQUIRE is acknowledged once: there's at most one to be acknowledged, and then the
   kernel expects it; it's acknowledged when the command and the callbacks are handled; and the
   kernel never gets an acknowledgement which it doesn't expect. *)
Theorem C35_acknowledged_once_partial : forall n s,
  reach n s ->
  k_errors s = 0 /\ k_acquires s = k_acks s + b2z (k_pstrong s) /\
  (idle s = true -> tasks s = [] -> k_acks s = k_acquires s).
Proof.
  intros n s R. pose proof (reach_inv n s R) as V. split; [exact (i_err _ V)|]. split; [exact (i_acks _ V)|].
  intros I T. apply (quiet_acked s V I T).
Qed.
Print Assumptions C35_acknowledged_once_partial.

(* C35: the acknowledgement is sent in the same step in which the object gets its strong
   reference. *)
Theorem C35_acknowledged_after_effect_partial : forall n s mv s1,
  reach n s -> lawful s mv = true -> careful s mv = true -> step s mv = Ok s1 -> k_acks s1 <> k_acks s ->
  k_acks s1 = k_acks s + 1 /\ k_pstrong s = true /\ k_pstrong s1 = false /\
  exists o o1, obj s = Some o /\ obj s1 = Some o1 /\ strong o1 = strong o + 1.
Proof. intros n s mv s1 R. apply ack_effect. exact (reach_inv n s R). Qed.
Print Assumptions C35_acknowledged_after_effect_partial.

(* C35: no pointer to a destroyed object is used. *)
Theorem C35_no_crash_partial : forall n s mv, reach n s -> step s mv <> Crash.
Proof. intros n s mv R. apply no_crash. exact (reach_inv n s R). Qed.
Print Assumptions C35_no_crash_partial.

(* C35: dropping the object stops its handler and nothing else: whatever happens later is the same
   for references and acknowledgements as if it weren't dropped. *)
Theorem C35_drop : forall s s1 l,
  step s MDrop = Ok s1 ->
  (exists o, obj s1 = Some o /\ handler o = false) /\ without_handler s1 = without_handler s /\ same (run s1 l) (run s l).
Proof.
  intros s s1 l E. destruct (dropped s s1 E) as [A B]. split; [exact B|]. split; [exact A|].
  apply without_run. exact A.
Qed.
Print Assumptions C35_drop.

(* C35 is false for an object which the application gives up after sending it, before the library
   has learnt that the kernel has it: messages don't keep their objects. The kernel has a strong
   reference (and gets its acknowledgement), the object is gone. *)
Definition sent_and_dropped : list move :=
  [MNew; MWork 0 true true; MUnref true; MDispose; MUnrefEnd; MFinalize; MHandle 0; MHandle 0].
Theorem C35_sent_and_dropped_refuted : forall n,
  exists s, run (init (S n)) sent_and_dropped = Ok s /\ k_strong s = true /\ k_pstrong s = false /\ obj s = None.
Proof. intros n. eexists. split; [lazy; reflexivity|]. split; [reflexivity|]. split; reflexivity. Qed.
Print Assumptions C35_sent_and_dropped_refuted.

(* C35 is false for weak references if the address of a destroyed object is used for another one
   while the kernel still has a weak reference to it (a remote process may have one, it doesn't keep
   the object): the kernel counts both as one, and the weak count of the second becomes negative. *)
Definition address_used_again : list move :=
  [MNew; MWork 0 true true; MHandle 0; MHandle 0; MMain; MUnref false; MMain; MUnref false; MUnref true;
   MWork 0 true false; MHandle 0; MDrain 0; MUnref false; MMain; MUnref false; MDispose; MUnrefEnd; MFinalize;
   MNew; MWork 0 true true; MHandle 0; MMain; MUnref false;
   MWork 0 false false; MHandle 0; MHandle 0; MDrain 0; MDrain 0; MMain; MMain].
Theorem C35_weak_negative_refuted : forall n,
  exists s o, run (init (S n)) address_used_again = Ok s /\ obj s = Some o /\ weak o = -1.
Proof. intros n. eexists. eexists. split; [lazy; reflexivity|]. split; reflexivity. Qed.
Print Assumptions C35_weak_negative_refuted.

(* C35: three threads. The application gives up its last reference; a transaction of another thread
   finds the object, keeps it from being removed from the table and ends before the references are
   counted again; a third one finds the object in the table while it's being finalized. *)
Definition three_threads : list move :=
  [MNew; MUnref true; MTransaction; MDispose; MUnref false; MUnrefEnd; MTransaction].
Theorem C35_three_threads_refuted : forall n, run (init n) three_threads = Crash.
Proof. intros n. reflexivity. Qed.
Print Assumptions C35_three_threads_refuted.

(* An ordinary history: an object is sent, acquired, used, sent again while it's released in another
   thread, given up by the application, and released. *)
Definition example_moves : list move :=
  [MNew; MWork 0 true true; MHandle 0; MHandle 0; MMain; MUnref false; MMain; MUnref false;
   MTransaction; MUnref false; MWork 1 false false; MHandle 1; MHandle 1; MWork 0 true true; MHandle 0; MHandle 0;
   MDrain 1; MUnref false; MMain; MUnref false; MMain; MUnref false; MDrop; MUnref true; MMain; MUnref false;
   MDrain 1; MUnref false; MMain; MUnref false].
Fixpoint good (s : state) (l : list move) : bool :=
  match l with
  | [] => true
  | mv :: r => lawful s mv && careful s mv && match step s mv with Ok s1 => good s1 r | _ => false end
  end.
Lemma good_reach n l : forall s s1, reach n s -> good s l = true -> run s l = Ok s1 -> reach n s1.
Proof.
  induction l as [|mv l IH]; cbn; intros s s1 R G E; [congruence|].
  apply andb_prop in G. destruct G as [G G3]. apply andb_prop in G. destruct G as [G1 G2].
  destruct (step s mv) as [| |s2] eqn:S2; try discriminate. apply (IH s2); auto. econstructor; eauto.
Qed.
Example example_history : exists s o, run (init 2) example_moves = Ok s /\ reach 2 s /\ quiet s /\ obj s = Some o /\
  k_strong s = true /\ strong o = 1 /\ weak o = 1 /\ by_app o = 0 /\ k_acks s = 2 /\ k_acquires s = 2.
Proof.
  eexists. eexists. split; [vm_compute; reflexivity|].
  split; [apply (good_reach 2 example_moves (init 2)); [constructor|vm_compute; reflexivity|vm_compute; reflexivity]|].
  split.
  - split; [|split; [reflexivity|]].
    + cbn. intros t [<-|[<-|[]]]; split; reflexivity.
    + cbn. intros o [= <-]. split; reflexivity.
  - cbn. repeat (split; [reflexivity|]). reflexivity.
Qed.
(* ... and then the kernel releases it, and it's destroyed *)
Example example_end : exists s, run (init 2) (example_moves ++
    [MWork 1 false false; MHandle 1; MHandle 1; MDrain 1; MUnref false; MMain; MUnref false; MDrain 1; MUnref false; MMain;
     MUnref false; MDispose; MUnrefEnd; MFinalize]) = Ok s /\ reach 2 s /\ obj s = None.
Proof.
  eexists. split; [vm_compute; reflexivity|]. split; [|reflexivity].
  apply (good_reach 2 (example_moves ++
    [MWork 1 false false; MHandle 1; MHandle 1; MDrain 1; MUnref false; MMain; MUnref false; MDrain 1; MUnref false; MMain;
     MUnref false; MDispose; MUnrefEnd; MFinalize]) (init 2)); [constructor|vm_compute; reflexivity|vm_compute; reflexivity].
Qed.
