(* What a user of local objects relies on: the words in which the theorems of LocalProps are
   stated. *)
From Verif Require Import Base.
From Verif Require Export LocalModel.

(* There's an object, and it's not being destroyed *)
Definition alive (s : state) (o : object) : Prop := obj s = Some o /\ state_of o <> Final.

(* A command which tells about a new reference is still to be handled by some thread *)
Definition is_new (c : cmd) : bool := match c with CIncrefs | CAcquire => true | _ => false end.
Definition incoming (s : state) : bool := existsb (fun t => existsb is_new (t_queue t)) (threads s).
(* Every thread has handled its commands *)
Definition idle (s : state) : bool :=
  forallb (fun t => match t_queue t with [] => true | _ => false end) (threads s).

(* How the kernel behaves: a strong reference is also a weak one, what isn't acknowledged remains
   referenced, and new references come from messages which the process sends, so its application
   has the object. *)
Definition lawful (s : state) (mv : move) : bool :=
  match mv with
  | MWork i w st =>
    implb st w && implb (k_pweak s) w && implb (k_pstrong s) st &&
    implb ((w && negb (k_weak s)) || (st && negb (k_strong s)))
          match obj s with Some o => 0 <? by_app o | None => false end
  | _ => true
  end.

(* What has to be avoided:
   - the application gives up the object after sending it, before the library has learnt that the
     kernel has a reference;
   - the last reference but the one being released is dropped by another thread after it was
     obtained during that release;
   - the address of the object is used for another one while the kernel still has a weak reference
     (or some command about the old one is to be handled). *)
Definition careful (s : state) (mv : move) : bool :=
  match mv, obj s with
  | MUnref a, Some o =>
    negb (a && (by_app o =? 1) && incoming s) &&
    negb (match state_of o with Left_ => true | _ => false end && (refs o =? 2))
  | MNew, _ => negb (k_weak s) && idle s
  | _, _ => true
  end.

Inductive reach (n : nat) : state -> Prop :=
| reach_init : reach n (init n)
| reach_step s mv s1 :
    reach n s -> lawful s mv = true -> careful s mv = true -> step s mv = Ok s1 -> reach n s1.

(* Nothing is going on: no commands, nothing deferred, nothing in the main loop, and no reference is
   about to be dropped *)
Definition quiet (s : state) : Prop :=
  (forall t, In t (threads s) -> t_queue t = [] /\ t_later t = []) /\ tasks s = [] /\
  forall o, obj s = Some o -> by_lib o = 0 /\ state_of o = Idle.
Definition b2z (b : bool) : Z := if b then 1 else 0.

(* The same state but for the handler *)
Definition without_handler (s : state) : state :=
  set_obj s (match obj s with
             | Some o => Some (Object (refs o) (strong o) (weak o) (in_table o) (state_of o) false (by_app o) (by_lib o))
             | None => None
             end).
Definition same (a b : out) : Prop :=
  match a, b with
  | Ok s, Ok t => without_handler s = without_handler t
  | Misuse, Misuse | Crash, Crash => True
  | _, _ => False
  end.
