(* Specification of what calls own *)
From Verif Require Import Base AsyncModel CallModel.

Definition one (o : option nat) (t : nat) : Z := match o with Some u => if Nat.eqb u t then 1 else 0 | None => 0 end.
(* How many references to [t] one call has *)
Definition call_has (d : option data) (t : nat) : Z :=
  match d with
  | Some d => one (Some (d_holder d)) t + one (d_name d) t + one (d_obj d) t + one (d_result d) t
  | None => 0
  end.
Fixpoint sum (f : nat -> Z) (n : nat) : Z := match n with O => 0 | S m => sum f m + f m end.
Definition occurs (l : list nat) (t : nat) : Z := Z.of_nat (count_occ Nat.eq_dec l t).
Definition calls_have (s : cstate) (t : nat) : Z := sum (fun k => call_has (datas s k) t) (count (ca s)).
(* How many are to be released when there's nothing else to do *)
Definition to_release (s : cstate) (t : nat) : Z := sum (fun h => occurs (auto s h) t) (next_thing s).

Definition reached (next : Z) (l : list cmove) (s : cstate) : Prop := crun (cinit next) l = Ok s.
Definition over (s : cstate) (k : nat) : Prop := t_phase (txs (ca s) k) = Freed.

(* Something is there, and may be used *)
Definition there (s : cstate) (t : nat) : Prop := 0 < refs s t.
Definition there_opt (s : cstate) (o : option nat) : Prop := match o with Some t => there s t | None => True end.

(* Idle callbacks which nothing refers to, but which haven't been freed *)
Definition lost (s : cstate) (c : nat) : bool :=
  match cb_for (cbs s c) with Some _ => false | None => negb (cb_refs (cbs s c) =? 0) end.
Definition lost_callbacks (s : cstate) : nat := length (filter (lost s) (seq 0 (next_cb s))).
Definition is_idle (m : cmove) : bool := match m with Idle _ => true | _ => false end.
