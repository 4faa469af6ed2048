(* Model of GBinderServiceName: src/gbinder_servicename.c.

   One service name, in a program which has any other activities. Everything runs on the main
   thread except the registration calls themselves, which are made by worker threads (see
   AsyncModel; ids of calls which aren't over are different, C30).

   The environment decides when the manager appears and disappears (NFlip) and when the
   presence handler is called (NSignal): handlers of the application may run before, and do
   anything; what C42 says about that is not assumed here. Using a name after its last
   reference is dropped is an error of the caller (Misuse); touching it after it's freed, or
   removing a timer which doesn't exist, is a Crash. *)
From Verif Require Import Base.

(* src/gbinder_servicename.c:44 GBINDER_SERVICENAME_RETRY_INTERVAL_MS *)
Definition RETRY_INTERVAL_MS : Z := 500.

(* A call of gbinder_servicemanager_add_service (src/gbinder_servicemanager.c:868-893):
   pushed to the pool, performed by a worker, or waiting for its completion on the main
   thread. The result is none if it wasn't performed. *)
Inductive cphase := Waiting | Running | Ended (result : option Z).
Record call := Call { c_id : Z; c_cancelled : bool; c_phase : cphase }.

Inductive event :=
| EvNew (present : bool)          (* the name is created; is the manager present? *)
| EvFlip (present : bool)         (* the manager has appeared or disappeared *)
| EvSignal (present : bool)       (* the presence handler is called *)
| EvCall (id : Z)                 (* a registration call is made *)
| EvExec (id : Z)                 (* and performed *)
| EvResult (id : Z) (status : Z)  (* and its result is reported *)
| EvTimer (id : Z) (ms : Z)       (* a timer is scheduled *)
| EvReleased.                     (* the last reference is dropped *)

Record state := State {
  present : bool;
  created : bool;
  refs : Z;                       (* priv->refcount; the structure is freed when it's 0 *)
  add_call_id : Z;                (* priv->add_call_id *)
  retry_timer : option Z;         (* priv->retry_timer *)
  calls : list call;              (* tx_table: calls which aren't freed yet *)
  timers : list Z;                (* of the event loop *)
  next : Z;
  obj_refs : Z;                   (* references to the object which are made here *)
  trace : list event              (* the latest one first *)
}.

Inductive out := Misuse | Crash | Ok (s : state).
Definition bind (m : out) (f : state -> out) : out := match m with Ok s => f s | x => x end.

Definition init (p : bool) : state := State p false 0 0 None [] [] 1 0 [].
Definition freed (s : state) : bool := refs s =? 0.

Definition say (s : state) (e : event) : state :=
  State (present s) (created s) (refs s) (add_call_id s) (retry_timer s) (calls s) (timers s) (next s)
        (obj_refs s) (e :: trace s).
Definition set_present (s : state) (p : bool) : state :=
  State p (created s) (refs s) (add_call_id s) (retry_timer s) (calls s) (timers s) (next s) (obj_refs s) (trace s).
Definition set_refs (s : state) (n : Z) : state :=
  State (present s) (created s) n (add_call_id s) (retry_timer s) (calls s) (timers s) (next s) (obj_refs s) (trace s).
Definition set_id (s : state) (id : Z) : state :=
  State (present s) (created s) (refs s) id (retry_timer s) (calls s) (timers s) (next s) (obj_refs s) (trace s).
Definition set_retry (s : state) (t : option Z) : state :=
  State (present s) (created s) (refs s) (add_call_id s) t (calls s) (timers s) (next s) (obj_refs s) (trace s).
Definition set_calls (s : state) (l : list call) : state :=
  State (present s) (created s) (refs s) (add_call_id s) (retry_timer s) l (timers s) (next s) (obj_refs s) (trace s).
Definition set_timers (s : state) (l : list Z) : state :=
  State (present s) (created s) (refs s) (add_call_id s) (retry_timer s) (calls s) l (next s) (obj_refs s) (trace s).
Definition fresh (s : state) : state :=
  State (present s) (created s) (refs s) (add_call_id s) (retry_timer s) (calls s) (timers s) (next s + 1)
        (obj_refs s) (trace s).
Definition obj_ref (s : state) (n : Z) : state :=
  State (present s) (created s) (refs s) (add_call_id s) (retry_timer s) (calls s) (timers s) (next s)
        (obj_refs s + n) (trace s).

(* src/gbinder_ipc.c:2014-2031 gbinder_ipc_cancel, through
   src/gbinder_servicemanager.c:909-917 gbinder_servicemanager_cancel *)
Definition cancel_call (id : Z) (c : call) : call :=
  if c_id c =? id then Call (c_id c) true (c_phase c) else c.
Definition cancel (s : state) (id : Z) : state :=
  if id =? 0 then s else set_calls s (map (cancel_call id) (calls s)).

(* gbinder_timeout_add, gbinder_timeout_remove *)
Definition timeout_add (s : state) (ms : Z) : state :=
  fresh (set_timers (say s (EvTimer (next s) ms)) (next s :: timers s)).
Definition remove_id (l : list Z) (id : Z) : list Z := filter (fun x => negb (x =? id)) l.
Definition timeout_remove (s : state) (t : option Z) : out :=
  match t with
  | None => Ok s
  | Some id => if existsb (Z.eqb id) (timers s) then Ok (set_timers s (remove_id (timers s) id)) else Crash
  end.

(* src/gbinder_servicemanager.c:868-893 gbinder_servicemanager_add_service: a new call, which
   references the object; returns its id *)
Definition sm_add_service (s : state) : state * Z :=
  let id := next s in
  (fresh (obj_ref (set_calls (say s (EvCall id)) (calls s ++ [Call id false Waiting])) 1), id).

(* src/gbinder_servicename.c:104-113 gbinder_servicename_add_service *)
Definition add_service (s : state) : out :=
  if freed s then Crash
  else
    let s1 := cancel s (add_call_id s) in
    let '(s2, id) := sm_add_service s1 in
    Ok (set_id s2 id).

(* src/gbinder_servicename.c:70-80 gbinder_servicename_add_service_retry, called by the event
   loop, which forgets the timer *)
Definition retry (s : state) (id : Z) : out :=
  if existsb (Z.eqb id) (timers s) then
    let s1 := set_timers s (remove_id (timers s) id) in
    if freed s1 then Crash else add_service (set_retry s1 None)
  else Misuse.

(* src/gbinder_servicename.c:82-102 gbinder_servicename_add_service_done *)
Definition add_service_done (s : state) (id status : Z) : out :=
  if freed s then Crash
  else
    let s1 := say (set_id s 0) (EvResult id status) in
    if status =? 0 then Ok s1
    else
      bind (timeout_remove s1 (retry_timer s1)) (fun s2 =>
        let t := next s2 in
        Ok (set_retry (timeout_add s2 RETRY_INTERVAL_MS) (Some t))).

(* src/gbinder_servicename.c:115-135 gbinder_servicename_presence_handler *)
Definition presence_handler (s : state) : out :=
  if freed s then Crash
  else
    let s1 := say s (EvSignal (present s)) in
    if present s1 then add_service s1
    else
      let s2 := if add_call_id s1 =? 0 then s1 else set_id (cancel s1 (add_call_id s1)) 0 in
      match retry_timer s2 with
      | None => Ok s2
      | Some _ => bind (timeout_remove s2 (retry_timer s2)) (fun s3 => Ok (set_retry s3 None))
      end.

(* src/gbinder_servicename.c:141-164 gbinder_servicename_new *)
Definition servicename_new (s : state) : out :=
  if created s then Misuse
  else
    let s1 := State (present s) true 1 0 None (calls s) (timers s) (next s) (obj_refs s + 1)
                    (EvNew (present s) :: trace s) in
    if present s1 then add_service s1 else Ok s1.

(* src/gbinder_servicename.c:166-177 gbinder_servicename_ref *)
Definition servicename_ref (s : state) : out :=
  if freed s then Misuse else Ok (set_refs s (refs s + 1)).

(* src/gbinder_servicename.c:179-197 gbinder_servicename_unref; the presence handler is
   disconnected *)
Definition servicename_unref (s : state) : out :=
  if freed s then Misuse
  else
    let s1 := set_refs s (refs s - 1) in
    if refs s1 =? 0 then
      let s2 := obj_ref (cancel (say s1 EvReleased) (add_call_id s1)) (-1) in
      timeout_remove s2 (retry_timer s2)
    else Ok s1.

(* Worker threads, src/gbinder_ipc.c:1706-1722 gbinder_ipc_tx_proc: a cancelled call isn't
   performed *)
Definition set_call (s : state) (id : Z) (p : cphase) : state :=
  set_calls s (map (fun c => if c_id c =? id then Call id (c_cancelled c) p else c) (calls s)).
Definition find_call (s : state) (id : Z) : option call := find (fun c => c_id c =? id) (calls s).
Definition start (s : state) (id : Z) : out :=
  match find_call s id with
  | Some (Call _ cancelled Waiting) =>
    if cancelled then Ok (set_call s id (Ended None)) else Ok (say (set_call s id Running) (EvExec id))
  | _ => Misuse
  end.
Definition finish (s : state) (id status : Z) : out :=
  match find_call s id with
  | Some (Call _ _ Running) => Ok (set_call s id (Ended (Some status)))
  | _ => Misuse
  end.

(* The completion on the main thread: src/gbinder_ipc.c:1505-1516 gbinder_ipc_tx_done, then
   src/gbinder_ipc.c:1487-1503 gbinder_ipc_tx_free, which drops the reference to the object
   (src/gbinder_servicemanager.c:305-316). While the callback runs the call is still in the
   table. The status is -EFAULT if the call wasn't performed. *)
Definition EFAULT : Z := 14.
Definition free_call (s : state) (id : Z) : state :=
  obj_ref (set_calls s (filter (fun c => negb (c_id c =? id)) (calls s))) (-1).
Definition complete (s : state) (id : Z) : out :=
  match find_call s id with
  | Some (Call _ cancelled (Ended r)) =>
    if cancelled then Ok (free_call s id)
    else bind (add_service_done s id (match r with Some x => x | None => - EFAULT end))
              (fun s1 => Ok (free_call s1 id))
  | _ => Misuse
  end.

Inductive move :=
| NNew | NRef | NUnref | NFlip | NSignal | NTimer (id : Z)
| NStart (id : Z) | NFinish (id : Z) (status : Z) | NComplete (id : Z).

(* The handler is connected as long as the name isn't freed *)
Definition step (s : state) (mv : move) : out :=
  match mv with
  | NNew => servicename_new s
  | NRef => servicename_ref s
  | NUnref => servicename_unref s
  | NFlip => Ok (say (set_present s (negb (present s))) (EvFlip (negb (present s))))
  | NSignal => if freed s then Misuse else presence_handler s
  | NTimer id => retry s id
  | NStart id => start s id
  | NFinish id st => finish s id st
  | NComplete id => complete s id
  end.
Fixpoint run (s : state) (l : list move) : out :=
  match l with
  | [] => Ok s
  | mv :: r => bind (step s mv) (fun s1 => run s1 r)
  end.
