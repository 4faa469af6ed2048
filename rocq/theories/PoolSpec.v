(* What is expected of the pool of loopers. *)
From Verif Require Import Base PoolModel.

(* The pointers from the head on lead through these loopers, then the list ends *)
Fixpoint links (f : nat -> looper) (h : option nat) (l : list nat) : Prop :=
  match l with
  | [] => h = None
  | i :: r => h = Some i /\ links f (next (f i)) r
  end.
Definition primaries (s : state) (l : list nat) : Prop := links (lp s) (primary s) l.
Definition blockeds (s : state) (l : list nat) : Prop := links (lp s) (blocked s) l.
(* Those which are being stopped: the one which is waited for and the rest of the list *)
Definition stopping (s : state) (l : list nat) : Prop :=
  match stop s with
  | NoStop => l = []
  | Stopping _ tmp None => links (lp s) tmp l
  | Stopping _ tmp (Some i) => exists r, l = i :: r /\ links (lp s) tmp r
  end.

(* The thread has not left the loop *)
Definition working (s : state) (i : nat) : Prop :=
  (i < cnt s)%nat /\ match ph (lp s i) with Last | Gone => False | _ => True end.
(* It's waiting for a blocked request, and has been moved *)
Definition is_blocked (s : state) (i : nat) : Prop := (i < cnt s)%nat /\ ph (lp s i) = Waiting true.
(* The looper is there: nobody has freed it *)
Definition alive (s : state) (i : nat) : Prop := (i < cnt s)%nat /\ freed (lp s i) = false.

(* The loopers aren't stopped while one of them is blocked *)
Definition careful (s : state) (mv : move) : Prop :=
  match mv with
  | MStop _ | MStopAgain => forall i, ~ is_blocked s i
  | _ => True
  end.
(* What can happen from a state on *)
Inductive leads (s : state) : state -> Prop :=
| leads_here : leads s s
| leads_step s1 mv s2 : leads s s1 -> careful s1 mv -> step s1 mv = Ok s2 -> leads s s2.
Definition reach (s : state) : Prop := leads init s.

(* The same if the driver never refuses BC_ENTER_LOOPER *)
Inductive leads_entered (s : state) : state -> Prop :=
| le_here : leads_entered s s
| le_step s1 mv s2 :
    leads_entered s s1 -> careful s1 mv -> (forall i, mv <> MEnter i false) ->
    step s1 mv = Ok s2 -> leads_entered s s2.
Definition reach_entered (s : state) : Prop := leads_entered init s.
