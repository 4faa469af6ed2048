(* Specification of deferred calls and timeouts (C59), in terms of what is seen outside: the trace of
   events, the last one is the first. *)
From Verif Require Import Base LoopModel.

Fixpoint invokes (tr : list event) (i : nat) : nat :=
  match tr with
  | [] => 0
  | EvInvoke j :: l => (if Nat.eqb j i then 1 else 0) + invokes l i
  | _ :: l => invokes l i
  end.
Fixpoint returns (tr : list event) (i : nat) : nat :=
  match tr with
  | [] => 0
  | EvReturn j :: l => (if Nat.eqb j i then 1 else 0) + returns l i
  | _ :: l => returns l i
  end.
Fixpoint frees (tr : list event) (i : nat) : nat :=
  match tr with
  | [] => 0
  | EvFree j :: l => (if Nat.eqb j i then 1 else 0) + frees l i
  | _ :: l => frees l i
  end.
Fixpoint cancelled (tr : list event) (i : nat) : bool :=
  match tr with
  | [] => false
  | EvCancel j :: l => Nat.eqb j i || cancelled l i
  | _ :: l => cancelled l i
  end.
(* Which integration has created it, and what it is *)
Fixpoint created (tr : list event) (i : nat) : option (nat * kind) :=
  match tr with
  | [] => None
  | EvNew n j k :: l => if Nat.eqb j i then Some (n, k) else created l i
  | _ :: l => created l i
  end.
(* The integration is called: the object is created or used *)
Definition calls (e : event) (n : nat) : bool :=
  match e with EvNew m _ _ | EvCall m _ => Nat.eqb m n | _ => false end.

(* All timeouts are added by the thread which runs the loop *)
Definition on_loop (l : list move) : Prop := forall m, In m l -> m <> MStart.
