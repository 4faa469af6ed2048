(* What a user of registration handlers relies on: the words in which the theorems of AwProps are
   stated. Histories are read from the last event backwards. *)
From Verif Require Import Base.
From Verif Require Export AwModel.

(* Is the name being watched? *)
Fixpoint watched (tr : list event) (n : bytes) : Prop :=
  match tr with
  | [] => False
  | EvWatch m :: r => m = n \/ watched r n
  | EvUnwatch m :: r => m <> n /\ watched r n
  | _ :: r => watched r n
  end.
(* Has it been reported since it's being watched? *)
Fixpoint reported (tr : list event) (n : bytes) : Prop :=
  match tr with
  | [] => False
  | EvReport m :: r => m = n \/ reported r n
  | EvWatch m :: r => m <> n /\ reported r n
  | EvUnwatch m :: r => m <> n /\ reported r n
  | _ :: r => reported r n
  end.
(* Is it in the last answer of the manager, since polling started? *)
Fixpoint listed (tr : list event) (n : bytes) : Prop :=
  match tr with
  | [] => False
  | EvAnswer (Some l) :: _ => In n l
  | EvAnswer None :: _ => False
  | EvStart :: _ => False
  | _ :: r => listed r n
  end.
(* Was it listed by any answer while it's being watched, or by the one which was the last when that
   began? *)
Fixpoint seen (tr : list event) (n : bytes) : Prop :=
  match tr with
  | [] => False
  | EvAnswer (Some l) :: r => In n l \/ seen r n
  | EvWatch m :: r => if str_eqb m n then listed r n else seen r n
  | EvUnwatch m :: r => m <> n /\ seen r n
  | _ :: r => seen r n
  end.
(* Has there been an answer without it since it was reported? *)
Fixpoint absent_since (tr : list event) (n : bytes) : Prop :=
  match tr with
  | [] => False
  | EvReport m :: r => m <> n /\ absent_since r n
  | EvAnswer (Some l) :: r => ~ In n l \/ absent_since r n
  | EvAnswer None :: r => True
  | _ :: r => absent_since r n
  end.
(* Is a request waiting for its answer? *)
Fixpoint waiting (tr : list event) : Prop :=
  match tr with
  | [] => False
  | EvRequest :: _ => True
  | EvCancel :: _ => False
  | EvAnswer _ :: _ => False
  | _ :: r => waiting r
  end.
(* All events before some point satisfy P *)
Definition each (P : event -> list event -> Prop) (tr : list event) : Prop :=
  forall a e b, tr = a ++ e :: b -> P e b.

(* No answer is being processed *)
Definition idle (s : state) : Prop := frames s = [].
(* No callback is scheduled *)
Definition settled (s : state) : Prop := forall i, w_notify (watches s i) = false.
(* The timer of the poll object is running *)
Definition polling (s : state) : Prop := exists p, poll_ s = Some p /\ p_timer p = true.

Inductive reach (sort : list bytes -> list bytes) (ok : state -> move -> Prop) : state -> Prop :=
| reach_init : reach sort ok init
| reach_step s m s1 : reach sort ok s -> ok s m -> step sort s m = Ok s1 -> reach sort ok s1.

(* Anything may happen *)
Definition anything (s : state) (m : move) : Prop := True.
(* Handlers don't get further answers by running the main loop while one is being processed *)
Definition not_nested (s : state) (m : move) : Prop :=
  match m with MAnswer _ => idle s | _ => True end.
(* ... and don't start to watch then *)
Definition no_late_watch (s : state) (m : move) : Prop :=
  match m with MAnswer _ | MWatch _ => idle s | _ => True end.
(* ... and answers are processed after the callbacks which were scheduled before, list each name
   once, and don't fail *)
Definition orderly (s : state) (m : move) : Prop :=
  match m with
  | MAnswer l => idle s /\ settled s /\ exists x, l = Some x /\ NoDup x
  | MWatch _ => idle s
  | _ => True
  end.

Inductive path (sort : list bytes -> list bytes) (ok : state -> move -> Prop) : state -> state -> Prop :=
| path_nil s : path sort ok s s
| path_step s m s1 s2 : ok s m -> step sort s m = Ok s1 -> path sort ok s1 s2 -> path sort ok s s2.
(* All answers list the name, and nobody asks for it once more; there's no nesting *)
Definition still_listed (n : bytes) (s : state) (m : move) : Prop :=
  match m with
  | MWatch x => x <> n
  | MAnswer l => idle s /\ exists x, l = Some x /\ NoDup x /\ In n x
  | _ => True
  end.
