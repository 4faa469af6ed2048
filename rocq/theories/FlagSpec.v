(* What the event flag of a message queue is supposed to do *)
From Verif Require Import Base FlagModel.

Definition call_mask (c : ecall) : Z := match c with Wait m _ | Wake m => m end.
Definition call_ok (c : ecall) : Prop := 0 <= call_mask c < 2 ^ 32.

(* What a call may return *)
Definition result_ok (r : nat * ecall * Z * option Z) : Prop :=
  match r with
  | (_, Wait m _, ret, state) =>
    (ret = 0 /\ exists s, state = Some s /\ s <> 0 /\ Z.land s m = s) \/
    (ret < 0 /\ (state = None \/ state = Some 0))
  | (_, Wake _, ret, state) => 0 <= ret
  end.

(* How often the bit number [b] has been returned by waits, and passed to wake *)
Definition gets (b : Z) (r : nat * ecall * Z * option Z) : bool :=
  match r with (_, Wait _ _, _, Some s) => Z.testbit s b | _ => false end.
Definition sets (b : Z) (c : nat * ecall) : bool :=
  match c with (_, Wake m) => Z.testbit m b | _ => false end.
Definition count {A} (f : A -> bool) (l : list A) : Z := blen (filter f l).

(* Somebody is about to wake up those who wait for the bit [b] *)
Definition wake_pending (y : esystem) (b : Z) : Prop :=
  exists j c n m k, eth y j = Running c (FutexWake n m k) /\ Z.testbit m b = true.

(* Wakes which concern the thread [w] concern nobody else *)
Definition alone (calls : nat -> list ecall) (w : nat) : Prop :=
  forall j m' i m t mw tw,
    In (Wake m') (calls j) -> In (Wait mw tw) (calls w) -> Z.land mw m' <> 0 ->
    In (Wait m t) (calls i) -> Z.land m m' <> 0 -> i = w.
