(* What it means to keep a service name registered, in terms of the calls which are made and
   their results, of scheduled timers and of the presence of the manager. The trace starts
   with the latest event. *)
From Coq Require Import ZArith List Bool.
From Verif Require Import Base NameModel.
Import ListNotations.

(* The registration calls whose results are awaited (those which aren't cancelled), and all
   timers of the event loop *)
Definition awaited (s : state) : list Z :=
  map c_id (filter (fun c => negb (c_cancelled c)) (calls s)).

(* Is there a name which isn't released? *)
Definition in_use (s : state) : Prop := created s = true /\ 0 < refs s.

(* What's happened since the manager has appeared or disappeared, or since the name exists if
   that was later *)
Fixpoint since (tr : list event) : list event :=
  match tr with
  | [] => []
  | (EvFlip _ | EvNew _) :: _ => []
  | e :: r => e :: since r
  end.
(* The name knows about it: it was created, or its presence handler was called, after that *)
Fixpoint told (tr : list event) : bool :=
  match tr with
  | [] => false
  | EvFlip _ :: _ => false
  | (EvNew _ | EvSignal _) :: _ => true
  | _ :: r => told r
  end.

(* The last call and its result, if it's known *)
Inductive attempt := NoCall | Pending (id : Z) | Result (id status : Z).
Fixpoint last_attempt (tr : list event) : attempt :=
  match tr with
  | [] => NoCall
  | EvCall id :: _ => Pending id
  | EvResult id st :: _ => Result id st
  | _ :: r => last_attempt r
  end.

(* Orderly histories, which C42 gives for one manager unless handlers run the event loop: each
   change of the presence is signalled once before the next one *)
Definition waits (s : state) : bool := negb (freed s) && negb (told (trace s)).
Fixpoint orderly (s : state) (l : list move) : bool :=
  match l with
  | [] => true
  | mv :: r =>
    match mv with
    | NFlip => negb (waits s)
    | NSignal => waits s
    | _ => true
    end &&
    match step s mv with Ok s1 => orderly s1 r | _ => true end
  end.

(* Something's done for the name *)
Definition activity (e : event) : bool :=
  match e with EvCall _ | EvExec _ | EvResult _ _ | EvTimer _ _ | EvSignal _ => true | _ => false end.
