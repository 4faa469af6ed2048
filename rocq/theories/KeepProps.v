(* C71: an object exists as long as somebody uses it, in whatever process, and not longer *)
From Verif Require Import Base.
From Verif Require LocalModel LocalSpec LocalProofs RemoteModel RemoteProofs KeepClient KeepRelease.
From Verif Require Import KeepModel KeepSpec KeepProofs.
From Coq Require Import Lia.

(* As long as the application of some process has a remote object, which isn't dead and for
   which the handle was acquired, the object which it stands for exists, and calls find it; and so it
   is as long as there's a message with the object which is not freed, or a call. Whatever the other
   processes do, and in whatever order; the application of the object may give it up at any
   time but in the moments which are described by [careful]. *)
Theorem C71_held_partial : forall n k s p o,
  reach n k s -> (p < n)%nat -> holds s p o -> reachable s.
Proof.
  intros n k s p o R L H. pose proof (reach_sinv n k s R) as V. apply (kept n k s V).
  apply (has_strong n k s p V L). apply (holds_has n k s p o V H).
Qed.
Print Assumptions C71_held_partial.

Theorem C71_message_partial : forall n k h s,
  good n (init k) h = true -> run n (init k) h = Ok s ->
  (exists p, (p < n)%nat /\ 0 < messages p h) \/ 0 < calls h -> reachable s.
Proof.
  intros n k h s G E H. apply (message_kept n k s); [apply (good_reach n k h _ _ (reach_init n k) G E)|].
  destruct (counted n h (init k) s E) as [B O]. cbn [init bufs own_bufs] in B, O.
  destruct H as [(p & L & H)|H]; [left; exists p; split; [exact L|]; rewrite B; lia|right; lia].
Qed.
Print Assumptions C71_message_partial.

(* The messages and calls of a state, which the other theorems speak of, are those which there are after what has
   happened *)
Theorem C71_messages_counted : forall n k h s,
  run n (init k) h = Ok s -> (forall p, bufs s p = messages p h) /\ own_bufs s = calls h.
Proof.
  intros n k h s E. destruct (counted n h (init k) s E) as [B O]. split; [intros p; rewrite B; reflexivity|exact O].
Qed.
Print Assumptions C71_messages_counted.

(* A process which has the object can call it at any time, and the call finds it: whatever happens
   after the call is made (until it's freed, having been handled). *)
Theorem C71_call_partial : forall n k s p o,
  reach n k s -> (p < n)%nat -> holds s p o ->
  exists s1, step n s (Call p) = Ok s1 /\
    forall l s2, good n s1 l = true -> run n s1 l = Ok s2 -> 0 < own_bufs s2 -> reachable s2.
Proof.
  intros n k s p o R L H. pose proof (reach_sinv n k s R) as V.
  assert (SI : strong_in s p = true).
  { destruct (holds_has n k s p o V H) as (o1 & LO & A & G & EB). destruct V as [O P B F W SW T]. destruct (P p) as [PA PK].
    destruct (KeepClient.grip_is _ o1 PA A G PK) as [K1 K2]. unfold strong_in, handle_of. rewrite EB, K2, Nat.eqb_refl.
    apply orb_true_iff. right. apply Z.ltb_lt. exact K1. }
  assert (E : step n s (Call p) = Ok (set_own_bufs s (own_bufs s + 1))).
  { cbn [step]. destruct (Nat.ltb_spec p n); [|lia]. rewrite SI. reflexivity. }
  eexists. split; [exact E|]. intros l s2 G2 E2 B. pose proof (reach_step n k s (Call p) _ R eq_refl E) as R1.
  apply (message_kept n k s2); [apply (good_reach n k l _ _ R1 G2 E2)|right; exact B].
Qed.
Print Assumptions C71_call_partial.

(* When the process of the object has nothing to do, it has the object if and only if its application
   has a reference or somebody uses it. *)
Theorem C71_settled_partial : forall n k s,
  reach n k s -> settled n s -> (LocalModel.obj (owner s) <> None <-> 0 < by_app s \/ used n s).
Proof.
  intros n k s R (Q & K). pose proof (reach_sinv n k s R) as V. pose proof (LocalProofs.reach_inv _ _ (v_owner _ _ _ V)) as W. split.
  - intros H. destruct (LocalModel.obj (owner s)) as [o|] eqn:OB; [|contradiction]. unfold by_app. rewrite OB.
    destruct (Z_lt_dec 0 (LocalModel.by_app o)) as [A|A]; [left; exact A|right].
    apply (strong_used n k s V). rewrite <- K. apply (KeepRelease.quiet_app _ o W Q OB).
    pose proof (LocalProofs.i_obj _ W) as O. rewrite OB in O. pose proof (LocalProofs.o_app _ _ O). lia.
  - intros [A|U].
    + unfold by_app in A. destruct (LocalModel.obj (owner s)); [discriminate|lia].
    + destruct (kept n k s V (used_strong n k s V U)) as (o & (A & _) & _). rewrite A. discriminate.
Qed.
Print Assumptions C71_settled_partial.

(* When nobody uses the object and the application has given it up, the process of the object can go
   on by itself, by reading and handling what the driver has to say, until the object is destroyed. *)
Theorem C71_released_partial : forall n k s,
  reach n k s -> (0 < k)%nat -> ~ used n s -> by_app s = 0 ->
  exists l s1, forallb by_itself l = true /\ good n s l = true /\ run n s l = Ok s1 /\ LocalModel.obj (owner s1) = None.
Proof. exact released. Qed.
Print Assumptions C71_released_partial.

(* ------------------------------------------------------------------ *)
(* An object is sent to one process, which passes it on to another one, and is given up by its
   application and by the first process *)
Definition sent : list move :=
  [Own LocalModel.MNew; Send 0 1; Work 0; Own (LocalModel.MHandle 0); Own (LocalModel.MHandle 0);
   Own LocalModel.MMain; Own (LocalModel.MUnref false); Own LocalModel.MMain; Own (LocalModel.MUnref false);
   Other 0 (RemoteModel.Get 1 RemoteModel.CREATE_ACQUIRED); Free 0].
Definition passed : list move :=
  [Pass 0 1 5; Own (LocalModel.MUnref true); Other 1 (RemoteModel.Get 5 RemoteModel.CREATE_ACQUIRED);
   Other 0 (RemoteModel.Unref 0); Other 0 (RemoteModel.Dispose 0); Other 0 (RemoteModel.Dispose 0);
   Other 0 (RemoteModel.Dispose 0); Other 0 (RemoteModel.Dispose 0); Free 1].
Definition given_up : list move :=
  [Other 1 (RemoteModel.Unref 0); Other 1 (RemoteModel.Dispose 0); Other 1 (RemoteModel.Dispose 0);
   Other 1 (RemoteModel.Dispose 0); Other 1 (RemoteModel.Dispose 0)].
Example C71_passed :
  exists s, run 2 (init 1) (sent ++ passed) = Ok s /\ reach 2 1 s /\ holds s 1 0 /\ ~ has s 0 /\ by_app s = 0 /\ settled 2 s.
Proof.
  eexists. split; [vm_compute; reflexivity|].
  split; [apply (good_reach 2 1 (sent ++ passed) (init 1)); [constructor|vm_compute; reflexivity|vm_compute; reflexivity]|].
  split; [unfold holds; cbn; repeat split; lia|].
  split; [intros (o & L & A & G & _); cbn in *; destruct o as [|o]; [apply G; reflexivity|lia]|].
  split; [reflexivity|]. split; [|reflexivity].
  split; [|split; [reflexivity|]]; cbn.
  - intros t [<-|[]]; split; reflexivity.
  - intros o [= <-]. split; reflexivity.
Qed.
(* In between, the second process has the message, and nothing else keeps the object *)
Example C71_message_ex :
  let h := sent ++ [Pass 0 1 5; Own (LocalModel.MUnref true); Other 0 (RemoteModel.Unref 0); Other 0 (RemoteModel.Dispose 0);
                    Other 0 (RemoteModel.Dispose 0); Other 0 (RemoteModel.Dispose 0); Other 0 (RemoteModel.Dispose 0)] in
  messages 1 h = 1 /\ messages 0 h = 0 /\ calls h = 0 /\ good 2 (init 1) h = true /\
  exists s, run 2 (init 1) h = Ok s /\ by_app s = 0.
Proof. vm_compute. repeat split. eexists. split; reflexivity. Qed.
(* ... and then by the second one; and then it can be destroyed *)
Example C71_given_up :
  exists s, run 2 (init 1) (sent ++ passed ++ given_up) = Ok s /\ reach 2 1 s /\ ~ used 2 s /\ by_app s = 0 /\
            LocalModel.obj (owner s) <> None.
Proof.
  eexists. split; [vm_compute; reflexivity|].
  split; [apply (good_reach 2 1 (sent ++ passed ++ given_up) (init 1)); [constructor|vm_compute; reflexivity|vm_compute; reflexivity]|].
  split; [|split; [reflexivity|discriminate]].
  intros [(p & L & [(o & LO & A & G & _)|H])|H]; [| |cbn in H; lia].
  - destruct p as [|[|p]]; [| |lia]; cbn in *; (destruct o as [|o]; [apply G; reflexivity|lia]).
  - destruct p as [|[|p]]; [| |lia]; cbn in *; lia.
Qed.

(* Without the care: the application gives the object up after sending it, when the driver has not yet
   told its process. The receiver has an object for the handle which is alive, and there's
   nothing behind it. *)
Theorem C71_sent_and_dropped_refuted : forall n k,
  exists s, run (S n) (init k)
    [Own LocalModel.MNew; Send 0 1; Other 0 (RemoteModel.Get 1 RemoteModel.CREATE_ACQUIRED); Own (LocalModel.MUnref true);
     Own LocalModel.MDispose; Own LocalModel.MUnrefEnd; Own LocalModel.MFinalize] = Ok s /\
    holds s 0 0 /\ 0 < bufs s 0 /\ LocalModel.obj (owner s) = None.
Proof.
  intros n k. eexists. split; [cbn; reflexivity|]. split; [unfold holds; cbn; repeat split; lia|]. split; [cbn; lia|reflexivity].
Qed.
Print Assumptions C71_sent_and_dropped_refuted.

(* And for remote objects which have not acquired their handles (there was one for the handle when it
   was received, made for a proxy): with all the care, the object is destroyed as soon as the message
   is freed. *)
Definition not_acquired : list move :=
  [Own LocalModel.MNew; Send 0 1; Other 0 (RemoteModel.Get 1 RemoteModel.CREATE_ALIVE);
   Other 0 (RemoteModel.Get 1 RemoteModel.CREATE_ACQUIRED);
   Work 0; Own (LocalModel.MHandle 0); Own (LocalModel.MHandle 0);
   Own LocalModel.MMain; Own (LocalModel.MUnref false); Own LocalModel.MMain; Own (LocalModel.MUnref false);
   Own (LocalModel.MUnref true); Free 0; Work 0; Own (LocalModel.MHandle 0); Own (LocalModel.MDrain 0);
   Own (LocalModel.MUnref false); Own LocalModel.MMain; Own (LocalModel.MUnref false); Own LocalModel.MDispose;
   Own LocalModel.MUnrefEnd; Own LocalModel.MFinalize].
Theorem C71_not_acquired_refuted :
  exists s, run 1 (init 1) not_acquired = Ok s /\ reach 1 1 s /\
    RemoteModel.held (proc s 0) 0 = 2 /\ RemoteModel.ro_dead (RemoteModel.objs (proc s 0) 0) = false /\
    bound s 0 = Some (RemoteModel.ro_handle (RemoteModel.objs (proc s 0) 0), RemoteModel.ro_node (RemoteModel.objs (proc s 0) 0)) /\
    handle_of s 0 <> None /\ LocalModel.obj (owner s) = None.
Proof.
  eexists. split; [vm_compute; reflexivity|].
  split; [apply (good_reach 1 1 not_acquired (init 1)); [constructor|vm_compute; reflexivity|vm_compute; reflexivity]|].
  cbn. repeat (split; [reflexivity|]). split; [discriminate|reflexivity].
Qed.
Print Assumptions C71_not_acquired_refuted.
