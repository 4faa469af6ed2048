(* What is expected of calls: that they come back with what their handlers have answered *)
From Verif Require Import Base CallsModel.

(* What the library and the driver do by themselves *)
Definition own (o : op) : bool :=
  match o with
  | Work _ | Take _ | Dispatch _ | Reply _ | Dead _ | Receive _ | WorkerDone _ | Callback _ => true
  | _ => false
  end.

(* The caller has got this from the call number c, None if it was told that the other process is dead *)
Definition got (w : world) (c : nat) (v : option nat) : Prop := exists k, nth_error (made w) c = Some k /\ k_st k = Over v.

(* What was called by processes which are alive, at least *)
Definition all_over (w : world) : Prop := forall c k, nth_error (made w) c = Some k -> p_dead (procs w (k_from k)) = false -> exists v, got w c v.

(* The application has something to do: its code is being executed, or it has left a call blocked *)
Definition busy (w : world) : Prop :=
  (exists p, p_dead (procs w p) = false /\ p_frame (procs w p) <> None /\ p_wait (procs w p) = None) \/
  (exists c k, nth_error (made w) c = Some k /\ k_st k = Blocked /\ p_dead (procs w (k_to k)) = false).

(* Synchronous calls go down *)
Definition no_circles (h : list op) : Prop :=
  exists rank : nat -> nat, forall p q, In (Sync p q) h -> (rank q < rank p)%nat.

Definition handled (h : list op) (c : nat) : nat :=
  count (fun o => match o with Dispatch i => Nat.eqb i c | _ => false end) h.
