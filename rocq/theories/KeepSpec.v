(* What the users of an object in other processes rely on *)
From Verif Require Import Base.
From Verif Require LocalModel LocalSpec RemoteModel.
From Verif Require Export KeepModel.

(* The application of process p has a remote object o which isn't dead, which stands for the
   object of the other process, and for which the handle was acquired *)
Definition holds (s : sys) (p : nat) (o : nat) : Prop :=
  let x := RemoteModel.objs (proc s p) o in
  0 < RemoteModel.held (proc s p) o /\ RemoteModel.ro_dead x = false /\ RemoteModel.ro_acquired x = true /\
  bound s p = Some (RemoteModel.ro_handle x, RemoteModel.ro_node x).

(* The object is there, it's not being destroyed, and calls find it *)
Definition reachable (s : sys) : Prop :=
  exists o, LocalSpec.alive (owner s) o /\ LocalModel.get_local (owner s) = LocalModel.Known o.

(* The process of the object doesn't know yet of a reference which other processes have *)
Definition untold (n : nat) (s : sys) : bool :=
  (node_strong n s && negb (LocalModel.k_strong (owner s))) || (node_weak n s && negb (LocalModel.k_weak (owner s))).

(* What has to be avoided by the application of the object: what LocalSpec says, which includes the
   time when its threads have read about new references and have not handled that; here the
   time before they read that belongs to it too. Other processes may do whatever they like. *)
Definition careful (n : nat) (s : sys) (mv : move) : bool :=
  match mv with
  | Own m =>
    LocalSpec.careful (owner s) m &&
    match m with LocalModel.MUnref true => negb ((by_app s =? 1) && untold n s) | _ => true end
  | _ => true
  end.

(* n other processes, k threads *)
Inductive reach (n k : nat) : sys -> Prop :=
| reach_init : reach n k (init k)
| reach_step s mv s1 : reach n k s -> careful n s mv = true -> step n s mv = Ok s1 -> reach n k s1.

(* Somebody uses the object: some process has an object for its handle, dead or alive, which has acquired
   the handle and has not released it; or there's a message with it, or a call *)
Definition has (s : sys) (p : nat) : Prop :=
  exists o, let x := RemoteModel.objs (proc s p) o in
    (o < RemoteModel.count (proc s p))%nat /\ RemoteModel.ro_acquired x = true /\ RemoteModel.ro_phase x <> RemoteModel.PGone /\
    bound s p = Some (RemoteModel.ro_handle x, RemoteModel.ro_node x).
Definition used (n : nat) (s : sys) : Prop :=
  (exists p, (p < n)%nat /\ (has s p \/ 0 < bufs s p)) \/ 0 < own_bufs s.

(* Nothing is going on in the process of the object, and it has read what the driver had to say *)
Definition settled (n : nat) (s : sys) : Prop :=
  LocalSpec.quiet (owner s) /\ LocalModel.k_strong (owner s) = node_strong n s.

(* How many messages with the object a process has: those it has got, but for those which it has freed. And
   how many calls the process of the object has to handle or to free. *)
Fixpoint messages (p : nat) (h : list move) : Z :=
  match h with
  | [] => 0
  | mv :: r =>
    match mv with
    | Send q _ | Pass _ q _ => if Nat.eqb q p then 1 else 0
    | Free q => if Nat.eqb q p then -1 else 0
    | _ => 0
    end + messages p r
  end.
Fixpoint calls (h : list move) : Z :=
  match h with [] => 0 | mv :: r => match mv with Call _ => 1 | FreeOwn => -1 | _ => 0 end + calls r end.

(* Moves which keep to that *)
Fixpoint good (n : nat) (s : sys) (l : list move) : bool :=
  match l with
  | [] => true
  | mv :: r => careful n s mv && match step n s mv with Ok s1 => good n s1 r | _ => false end
  end.
(* What goes on in the process of the object without its application *)
Definition by_itself (mv : move) : bool :=
  match mv with
  | Own (LocalModel.MUnref false) | Own LocalModel.MDispose | Own LocalModel.MUnrefEnd | Own LocalModel.MFinalize
  | Own (LocalModel.MHandle _) | Own (LocalModel.MDrain _) | Own LocalModel.MMain | Work _ => true
  | _ => false
  end.
