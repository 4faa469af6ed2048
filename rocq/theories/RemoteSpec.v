(* What the runs of RemoteModel.v have to look like *)
From Verif Require Import Base RemoteModel.

(* ------------------------------------------------------------------ *)
(* The commands and signals which belong to an object, in order: the handle is acquired and
   released in turns, notifications are requested and then cleared or delivered in turns,
   there is one signal per request, and nothing is left over when the object is freed. *)
Record law := { acq : bool; watched : bool; signalled : bool; freed : bool }.
Definition law0 : law := {| acq := false; watched := false; signalled := true; freed := false |}.

Definition law_step (o : nat) (w : law) (e : event) : option law :=
  let mine i r := if Nat.eqb i o then (if freed w then None else r) else Some w in
  match e with
  | EvAcquire i _ =>
    mine i (if acq w then None
            else Some {| acq := true; watched := watched w; signalled := signalled w; freed := false |})
  | EvRelease i _ =>
    mine i (if acq w
            then Some {| acq := false; watched := watched w; signalled := signalled w; freed := false |}
            else None)
  | EvRequest i _ =>
    mine i (if watched w then None
            else Some {| acq := acq w; watched := true; signalled := false; freed := false |})
  | EvClear i _ =>
    mine i (if watched w
            then Some {| acq := acq w; watched := false; signalled := signalled w; freed := false |}
            else None)
  | EvDeath i =>
    mine i (if signalled w then None
            else Some {| acq := acq w; watched := false; signalled := true; freed := false |})
  | EvFreed i =>
    mine i (if acq w || watched w then None
            else Some {| acq := false; watched := false; signalled := signalled w; freed := true |})
  | EvGot _ i _ => mine i (Some w)
  | EvDone _ => Some w
  end.
Fixpoint law_run (o : nat) (w : law) (t : list event) : option law :=
  match t with
  | [] => Some w
  | e :: r => match law_step o w e with Some w1 => law_run o w1 r | None => None end
  end.
Definition lawful (o : nat) (t : list event) : Prop := law_run o law0 t <> None.

(* ------------------------------------------------------------------ *)
(* Histories in which handles are not mixed up *)

(* The race which is described in src/gbinder_ipc.c:1236-1257 doesn't happen: no object is
   left without references of others while its disposer has seen some *)
Definition calm (s : state) : bool :=
  forallb (fun o => match ro_phase (objs s o), table s (ro_handle (objs s o)) with
                    | PDisposed, Some i => negb (Nat.eqb i o) || (2 <=? ro_refs (objs s o))
                    | _, _ => true
                    end) (seq 0 (count s)).

(* A new object for a handle is made when those for the earlier nodes are freed, and all
   that the driver has to say about those nodes is handled. The object of the service
   manager doesn't commit suicide. *)
Definition gone (x : robj) : bool := match ro_phase x with PGone => true | _ => false end.
Definition polite (s : state) (m : move) : bool :=
  match m with
  | Get h _ =>
    match table s h with
    | Some _ => true
    | None =>
      forallb (fun o => gone (objs s o) || negb (ro_handle (objs s o) =? h)) (seq 0 (count s)) &&
      negb (existsb (Z.eqb h) (inflight s)) &&
      match kr_watch (kern s h) with WNone => true | _ => false end
    end
  | Suicide o => negb (ro_handle (objs s o) =? SM_HANDLE)
  | _ => true
  end.

Fixpoint careful (s : state) (l : list move) : bool :=
  match l with
  | [] => true
  | m :: r => polite s m && match step s m with Ok s1 => calm s1 && careful s1 r | _ => true end
  end.
