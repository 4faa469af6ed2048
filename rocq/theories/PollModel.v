(* Model of src/gbinder_servicepoll.c: polling the service manager for names.
   Names are C strings: lists of bytes. *)
From Verif Require Import Base.
From Coq Require Import Sorted.
From Coq Require Permutation.

(* strcmp(a, b) <= 0 *)
Fixpoint str_le (a b : bytes) : bool :=
  match a, b with
  | [], _ => true
  | _ :: _, [] => false
  | x :: a1, y :: b1 => if x <? y then true else if y <? x then false else str_le a1 b1
  end.

Definition str_eqb (a b : bytes) : bool := if list_eq_dec Z.eq_dec a b then true else false.

(* gutil_strv_sort(strv, TRUE) of libglibutil: ascending order *)
Definition strv_sort_contract (sort : list bytes -> list bytes) : Prop :=
  forall l, Permutation.Permutation l (sort l) /\
    StronglySorted (fun a b => str_le a b = true) (sort l).

(* gutil_strv_find of libglibutil: index of the first match *)
Fixpoint strv_find (l : list bytes) (s : bytes) : option nat :=
  match l with
  | [] => None
  | x :: r =>
    if str_eqb x s then Some O
    else match strv_find r s with Some n => Some (S n) | None => None end
  end.

(* src/gbinder_servicepoll.c:88-113, the two loops of gbinder_servicepoll_list: the
   names which are signalled, in this order. Handlers don't change the lists. *)
Fixpoint new_names (old services : list bytes) : list bytes :=
  match services with
  | [] => []
  | s :: rest =>
    match old with
    | [] => s :: new_names [] rest
    | _ :: _ =>
      match strv_find old s with
      | None => s :: new_names old rest
      | Some i => new_names (skipn (S i) old) rest
      end
    end
  end.

(* struct gbinder_servicepoll, src/gbinder_servicepoll.c:45-51: the last list (NULL or
   not), and whether a list request is outstanding (list_id) *)
Record poll := { po_list : option (list bytes); po_busy : bool }.

(* src/gbinder_servicepoll.c:75-120 gbinder_servicepoll_list *)
Definition poll_list (sort : list bytes -> list bytes) (p : poll) (services : option (list bytes))
  : poll * list bytes :=
  match services with
  | Some l =>
    let l1 := sort l in
    ({| po_list := Some l1; po_busy := false |},
     new_names (match po_list p with Some o => o | None => [] end) l1)
  | None => ({| po_list := None; po_busy := false |}, [])
  end.

(* src/gbinder_servicepoll.c:122-134 gbinder_servicepoll_timer: TRUE if a new request is
   made. gbinder_servicemanager_list returns an id (see C30). *)
Definition poll_timer (p : poll) : poll * bool :=
  if po_busy p then (p, false) else ({| po_list := po_list p; po_busy := true |}, true).

(* src/gbinder_servicepoll.c:136-147 gbinder_servicepoll_create *)
Definition poll_create : poll := {| po_list := None; po_busy := true |}.

(* src/gbinder_servicepoll.c:199-205 gbinder_servicepoll_is_known_name, with
   gutil_strv_contains *)
Definition is_known_name (p : poll) (name : bytes) : bool :=
  match po_list p with
  | Some l => match strv_find l name with Some _ => true | None => false end
  | None => false
  end.

(* What happens to a poll object: the timer fires, or a request is answered (NULL if
   the manager failed to make a list) *)
Inductive poll_event := PTimer | PAnswer (services : option (list bytes)).

(* An answer comes only if there is a request. What is reported for an answer *)
Definition poll_step (sort : list bytes -> list bytes) (p : poll) (e : poll_event)
  : option (poll * list bytes) :=
  match e with
  | PTimer => Some (fst (poll_timer p), [])
  | PAnswer services => if po_busy p then Some (poll_list sort p services) else None
  end.

Fixpoint poll_run (sort : list bytes -> list bytes) (p : poll) (es : list poll_event)
  : option (poll * list (list bytes)) :=
  match es with
  | [] => Some (p, [])
  | e :: r =>
    match poll_step sort p e with
    | Some (p1, out) =>
      match poll_run sort p1 r with
      | Some (p2, outs) => Some (p2, out :: outs)
      | None => None
      end
    | None => None
    end
  end.
