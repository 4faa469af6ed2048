(* Specification of C61: in terms of system calls (the trace of events, the last one is the first). *)
From Verif Require Import Base ObjModel DevModel.

Definition how_many (p : event -> bool) (tr : list event) : nat := length (filter p tr).
Definition opens (tr : list event) (f : nat) : nat := how_many (fun e => match e with EvOpen g => Nat.eqb g f | _ => false end) tr.
Definition closes (tr : list event) (f : nat) : nat := how_many (fun e => match e with EvClose g => Nat.eqb g f | _ => false end) tr.
Definition maps (tr : list event) (f : nat) : nat := how_many (fun e => match e with EvMap g => Nat.eqb g f | _ => false end) tr.
Definition unmaps (tr : list event) (f : nat) : nat := how_many (fun e => match e with EvUnmap g => Nat.eqb g f | _ => false end) tr.

(* Somebody has a reference to the device: it's in use *)
Definition in_use (s : state) (f : nat) : Prop :=
  exists u, u_live (users s u) = true /\ d_file (drivers s (u_driver (users s u))) = f.
(* Loopers finish in time *)
Definition in_time (l : list move) : Prop := Forall (fun m => match m with MStuck _ => False | _ => True end) l.
