(* What waiting for a service manager means, in terms of what the thread does *)
From Verif Require Import Base WaitModel.

Fixpoint slept (l : list act) : Z :=
  match l with [] => 0 | Sleep ms :: r => ms + slept r | Check _ :: r => slept r end.
Fixpoint checks (l : list act) : list bool :=
  match l with [] => [] | Check b :: r => b :: checks r | Sleep _ :: r => checks r end.

(* How long the thread has slept before the check number n, counting from zero *)
Fixpoint check_time (l : list act) (n : nat) : option Z :=
  match l with
  | [] => None
  | Sleep ms :: r => match check_time r n with Some t => Some (ms + t) | None => None end
  | Check _ :: r => match n with O => Some 0 | S m => check_time r m end
  end.

(* The pauses between checks: 100, 200 and so on up to 1000 *)
Definition pause (n : nat) : Z := Z.min 1000 (100 * (Z.of_nat n + 1)).
Fixpoint pauses (n : nat) : Z := match n with O => 0 | S m => pauses m + pause m end.

(* The first successful check, if it's among the first n *)
Fixpoint first_alive (alive : nat -> bool) (n : nat) : option nat :=
  match n with
  | O => None
  | S m => match first_alive alive m with Some k => Some k | None => if alive m then Some m else None end
  end.
