(* Specification of shared connections (C58): in terms of what is seen outside, the trace of events
   (the last one is the first; owned in ConnModel counts the references which callers own). *)
From Verif Require Import Base ConnModel.

Fixpoint opens (tr : list event) (i : nat) : nat :=
  match tr with
  | [] => 0
  | EvOpen _ j :: l => (if Nat.eqb j i then 1 else 0) + opens l i
  | _ :: l => opens l i
  end.
Fixpoint closes (tr : list event) (i : nat) : nat :=
  match tr with
  | [] => 0
  | EvClose j :: l => (if Nat.eqb j i then 1 else 0) + closes l i
  | _ :: l => closes l i
  end.
(* Which device and protocol it was opened for *)
Fixpoint opened_for (tr : list event) (i : nat) : option nat :=
  match tr with
  | [] => None
  | EvOpen k j :: l => if Nat.eqb j i then Some k else opened_for l i
  | _ :: l => opened_for l i
  end.

(* The thread which released the last reference hasn't yet got to taking the connection out of the table *)
Definition releasing (s : state) (k : nat) : Prop :=
  exists t i, threads s t = Disposing i /\ c_key (conns s i) = k.
(* Nobody asks for a connection exactly then *)
Fixpoint calm (s : state) (l : list move) : Prop :=
  match l with
  | [] => True
  | m :: r =>
    match m with MNew _ k _ => ~ releasing s k | _ => True end /\
    match step s m with Ok s1 => calm s1 r | _ => True end
  end.
Definition idle_all (s : state) : Prop := forall t, threads s t = Idle.
