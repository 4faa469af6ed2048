(* What polling the service manager is expected to report *)
From Verif Require Import Base PollModel.

(* The names in the last answer before this moment: none if there was no answer yet, or
   if it was a failure *)
Fixpoint names_before (known : list bytes) (es : list poll_event) : list bytes :=
  match es with
  | [] => known
  | PTimer :: r => names_before known r
  | PAnswer (Some l) :: r => names_before l r
  | PAnswer None :: r => names_before [] r
  end.

(* The names in the last successful answer before this moment *)
Fixpoint names_before_ok (known : list bytes) (es : list poll_event) : list bytes :=
  match es with
  | [] => known
  | PAnswer (Some l) :: r => names_before_ok l r
  | _ :: r => names_before_ok known r
  end.

(* No answer was a failure *)
Definition no_failures (es : list poll_event) : Prop := ~ In (PAnswer None) es.

(* How many requests are made, and answered; the first one is made at the very beginning *)
Fixpoint requests (sort : list bytes -> list bytes) (p : poll) (es : list poll_event) : Z :=
  match es with
  | [] => 0
  | e :: r =>
    (match e with PTimer => if snd (poll_timer p) then 1 else 0 | _ => 0 end) +
    match poll_step sort p e with Some (p1, _) => requests sort p1 r | None => 0 end
  end.
Fixpoint answers (es : list poll_event) : Z :=
  match es with [] => 0 | PAnswer _ :: r => 1 + answers r | PTimer :: r => answers r end.
