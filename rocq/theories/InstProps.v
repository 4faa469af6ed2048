(* The theorems about service manager instances. *)
From Verif Require Import Base.
From Verif Require Import InstModel InstSpec InstProofs.

(* C44: a careful application gets a manager of the requested kind for the requested device,
   using the requested protocol (the one configured for the device if none or an unknown one is
   requested), and has a reference to it. If the device can't be opened, it gets nothing.
   Missing for the full claim: the four things which [careful] excludes, see the refutations. *)
Theorem C44_right_manager_partial : forall cfg s k dev rpc opens,
  reach cfg s -> careful cfg s (MNew k dev rpc opens) = true ->
  exists s1, step cfg s (MNew k dev rpc opens) = Ok s1 /\
    if opens then exists i x, returned s1 = Some i /\ has s1 i x /\ is_for x k dev (asked_protocol cfg dev rpc)
    else returned s1 = None.
Proof.
  intros cfg s k dev rpc opens R K.
  destruct (new_inv cfg s k dev rpc opens (reach_inv _ _ R) K) as (s1 & E & _ & H).
  exists s1. split; [exact E|]. destruct opens; [|exact H].
  destruct H as (i & x & A & B & C & D). exists i, x. split; [exact A|]. split; [split; assumption|exact C].
Qed.
Print Assumptions C44_right_manager_partial.

(* C44: equal requests share one instance while it's referenced, in any careful history of all
   threads. *)
Theorem C44_shared : forall cfg s i j x y,
  reach cfg s -> has s i x -> has s j y -> i_kind x = i_kind y -> i_dev x = i_dev y -> i = j.
Proof. exact shared. Qed.
Print Assumptions C44_shared.

(* C44: managers which are referenced are not freed, nothing which is freed is used, and the last
   release frees the manager. *)
Theorem C44_alive_partial : forall cfg s i x,
  reach cfg s -> has s i x -> i_freed x = false.
Proof. intros cfg s i x R [X H]. apply (held_kept x (v_ok _ (reach_inv _ _ R) i x X) H). Qed.
Print Assumptions C44_alive_partial.
Theorem C44_no_crash_partial : forall cfg s mv,
  reach cfg s -> careful cfg s mv = true -> step cfg s mv <> Crash.
Proof. intros cfg s mv R. apply careful_no_crash. exact (reach_inv _ _ R). Qed.
Print Assumptions C44_no_crash_partial.
Theorem C44_last_release : forall cfg s i x,
  reach cfg s -> has s i x -> i_refs x = 1 ->
  exists s1, run cfg s (release i) = Ok s1 /\ reach cfg s1 /\
    exists y, nth_error (insts s1) i = Some y /\ i_freed y = true.
Proof. exact last_release. Qed.
Print Assumptions C44_last_release.

(* C44 is false for protocols: while there's a manager of the kind for the device, it's returned
   whatever protocol is requested, with the protocol it was made with. *)
Theorem C44_protocol_refuted : forall cfg s i x rpc,
  reach cfg s -> has s i x ->
  exists s1 y, step cfg s (MNew (i_kind x) (i_dev x) rpc true) = Ok s1 /\ returned s1 = Some i /\
    nth_error (insts s1) i = Some y /\ i_proto y = i_proto x.
Proof. exact protocol_ignored. Qed.
Print Assumptions C44_protocol_refuted.

(* C44 is false for kinds: the first request of an "aidl2", "aidl3" or "aidl4" manager for a device
   which has an "aidl" manager returns the latter. *)
Theorem C44_kind_refuted : forall cfg k dev rpc rpc2,
  dev <> [] -> derived k = true ->
  exists s y, run cfg init [MNew Aidl dev rpc true; MNew k dev rpc2 true] = Ok s /\ returned s = Some 0%nat /\
    nth_error (insts s) 0 = Some y /\ i_kind y = Aidl.
Proof. exact other_kind. Qed.
Print Assumptions C44_kind_refuted.

(* C44: with the managers being for different devices, their classes share a table, which is freed
   when both are released, and used again by the next request. *)
Theorem C44_freed_table_refuted : forall cfg k a b c,
  a <> [] -> b <> [] -> a <> b -> derived k = true ->
  run cfg init ([MNew Aidl a None true; MNew k b None true] ++ release 0 ++ release 1 ++ [MNew Aidl c None true]) = Crash.
Proof. exact freed_table. Qed.
Print Assumptions C44_freed_table_refuted.

(* C44: an empty device name stands for the default device, but managers made with it are
   remembered under the empty name: they aren't shared, and are returned after being freed. *)
Theorem C44_empty_device_refuted : forall cfg,
  run cfg init ([MNew Aidl [] None true] ++ release 0 ++ [MNew Aidl [] None true]) = Crash /\
  exists s x y, run cfg init [MNew Aidl [] None true; MNew Aidl DEFAULT_BINDER None true] = Ok s /\
    has s 0 x /\ has s 1 y /\ i_kind x = i_kind y /\ i_dev x = i_dev y.
Proof. intros cfg. split; [apply empty_device|apply empty_device_two]. Qed.
Print Assumptions C44_empty_device_refuted.

(* C44: a manager found by another thread while it was being released and then released by that
   thread before the first release is over is freed without being forgotten: the comment in
   gbinder_servicemanager_dispose considers only the first half of this history. *)
Theorem C44_two_threads_refuted : forall cfg k dev,
  dev <> [] ->
  run cfg init [MNew k dev None true; MUnref 0; MNew k dev None true; MDispose 0; MUnref 0; MUnrefEnd 0;
                MNew k dev None true] = Crash.
Proof. exact two_threads_crash. Qed.
Print Assumptions C44_two_threads_refuted.

(* A careful history: two kinds, two devices, a manager found while being released, and a release
   of everything *)
Definition example_cfg : config := Config (fun _ => 1) (fun n => match n with [97] => Some 2 | _ => None end).
Definition example_moves : list move :=
  [MNew Hidl [104] None true; MNew Aidl3 [98] (Some [97]) true; MNew Aidl [98] None true; MNew Hidl [104] None true;
   MNew Hidl [99] None false; MUnref 0; MUnref 0; MNew Hidl [104] None true; MDispose 0; MUnrefEnd 0] ++ release 2 ++
  [MNew Aidl4 [98] None true].
Fixpoint careful_all (cfg : config) (s : state) (l : list move) : bool :=
  match l with
  | [] => true
  | mv :: r => careful cfg s mv && match step cfg s mv with Ok s1 => careful_all cfg s1 r | _ => false end
  end.
Example example_careful : careful_all example_cfg init example_moves = true.
Proof. vm_compute. reflexivity. Qed.
Lemma careful_reach cfg l : forall s s1, reach cfg s -> careful_all cfg s l = true -> run cfg s l = Ok s1 -> reach cfg s1.
Proof.
  induction l as [|mv l IH]; cbn; intros s s1 R K E; [congruence|].
  apply andb_prop in K. destruct K as [K1 K2]. destruct (step cfg s mv) as [| |s2] eqn:S2; try discriminate.
  apply (IH s2); auto. econstructor; eauto.
Qed.
Example example_state : exists s, run example_cfg init example_moves = Ok s /\ reach example_cfg s /\
  map (fun x => (i_kind x, i_proto x, i_held x, i_freed x)) (insts s) =
  [(Hidl, 1, 1, false); (Aidl3, 2, 1, false); (Aidl, 1, 0, true); (Aidl4, 1, 1, false)].
Proof.
  eexists. split; [vm_compute; reflexivity|]. split; [|reflexivity].
  apply (careful_reach example_cfg example_moves init); [constructor|apply example_careful|vm_compute; reflexivity].
Qed.
