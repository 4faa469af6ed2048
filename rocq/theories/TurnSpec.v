(* Vocabulary of the property about loopers which wait *)
From Verif Require Import Base TurnModel.

(* What the thread itself does *)
Definition own (i : nat) (m : move) : bool :=
  match m with
  | MPoll j _ | MSignal j | MTest j | MRead j _ | MAfter j => Nat.eqb j i
  | _ => false
  end.
(* ... and when the device fails *)
Definition device_fails (i : nat) (m : move) : Prop := m = MPoll i true \/ m = MRead i false.
Definition own_steps (i : nat) (l : list move) : nat := length (filter (own i) l).

(* It was told to exit *)
Definition told (i : nat) (l : list move) : Prop := In (MFlag i) l /\ In (MPipe i) l.
(* It has left the loop *)
Definition has_left (i : nat) (s : state) : Prop := ph (lps s i) = Out.
(* It waits: nothing which it can do by itself is possible now (no signal, no failure) *)
Definition waits (i : nat) (s : state) : Prop :=
  forall m, own i m = true -> m <> MSignal i -> ~ device_fails i m -> step s m = None.
(* Commands are taken by this looper only, and its poll isn't interrupted *)
Definition alone (i : nat) (l : list move) : Prop :=
  ~ In (MSignal i) l /\ forall j ok, In (MRead j ok) l -> j = i.
