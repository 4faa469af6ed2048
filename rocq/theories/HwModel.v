(* Model of how registrations are noticed with HIDL service managers: the watches of
   src/gbinder_servicemanager_hidl.c. A watch consists of an entry of the table, an object which the
   manager is going to notify, and an asynchronous call which asks for that. All three are created
   together, and have the same number here.

   The application, callbacks and notifications run on the main thread; the request is sent by a worker
   thread at any time. Using an entry, an object, a call or the service manager which is freed is a
   separate outcome (Crash). How many times each has been freed is recorded.

   Simplifications: asynchronous calls are those of AsyncModel (C29): after being accepted a call is
   performed at most once, then replied to at most once unless it's cancelled, and then it's destroyed,
   which may also happen without the others (when the library exits); ids of calls aren't reused while
   in use (C30). The kernel has a strong reference to an object from the moment when it's sent until the
   peer lets it go, which keeps the object alive (C35), and requests of the peer come in that time
   only. A request to an object which was dropped calls no handler (C36). *)
From Coq Require Import String.
From Verif Require Import Base ReaderModel ObjModel ObjReader PollModel DispatchModel.

(* src/gbinder_servicemanager_hidl.c:93-116 gbinder_servicemanager_hidl_handle_registration: the name
   which is passed to gbinder_servicemanager_service_registered, if any *)
Definition handle_registration (i : io) (g : message) (p : reader) : res (option bytes) :=
  let* (fqname, p1) := rd_hidl_string i g p in
  let* (name, p2) := rd_hidl_string i g p1 in
  match fqname, name with
  | Some f, Some n =>
    let* (b, p3) := rd_bool (m_data g) p2 in
    match b with
    | Some _ => if r_at_end p3 then Base.Ok (Some (f ++ [47] ++ n)) else Base.Ok None
    | None => Base.Ok None
    end
  | _, _ => Base.Ok None
  end.

(* src/gbinder_servicemanager_hidl.c:80-86 *)
Definition NOTIFICATION_IFACE : bytes := chars "android.hidl.manager@1.0::IServiceNotification".
Definition ON_REGISTRATION : Z := 1.

(* GBinderServiceManagerHidlWatch: src/gbinder_servicemanager_hidl.c:45-50 *)
Record watch := Watch {
  w_name : bytes;
  w_callback : bool;        (* callback isn't NULL: it's the object with the same number *)
  w_tx : bool;              (* tx_id isn't zero: it's that of the call with the same number *)
  w_alive : bool;
  w_freed : nat
}.
(* GBinderLocalObject: references which belong to the library, whether the kernel has one, and whether the
   handler is there *)
Record obj := Obj {
  o_refs : Z;
  o_kernel : bool;
  o_handler : bool;
  o_freed : nat
}.
(* GBinderServiceManagerHidlWatchCall: src/gbinder_servicemanager_hidl.c:52-55, with the state of the
   transaction *)
Inductive phase := Refused | Queued | Performed | Replied | Destroyed.
Record call := Call {
  c_phase : phase;
  c_cancelled : bool;
  c_freed : nat
}.
(* What the manager answers: gbinder_ipc_transact's status, and what can be read from the reply *)
Record answer := Answer { an_tx_status : Z; an_status : option Z; an_success : option bool }.

(* What can be seen *)
Inductive event :=
| EvWatch (n : bytes) (i : nat) (ok : bool)   (* the result of the call *)
| EvUnwatch (n : bytes)
| EvSent (i : nat)                            (* registerForNotifications with that object *)
| EvFail (i : nat)                            (* ... has failed *)
| EvRegistered (n : bytes)                    (* gbinder_servicemanager_service_registered *)
| EvAnswered (i : nat) (status : Z)           (* the status which the notification gets *)
| EvGone.                                     (* the service manager object is freed *)

Record state := State {
  watches : nat -> watch;
  objs : nat -> obj;
  calls : nat -> call;
  count : nat;
  table : bytes -> option nat;
  present : bool;               (* the GBinderServiceManagerHidl isn't freed *)
  trace : list event            (* the last one is the first *)
}.
Inductive out := Disabled | Crash | Ok (s : state).
Definition bind (m : out) (f : state -> out) : out := match m with Ok s => f s | x => x end.
Definition upd {A} (f : nat -> A) (i : nat) (x : A) : nat -> A := fun j => if Nat.eqb j i then x else f j.
Definition updn {A} (f : bytes -> A) (i : bytes) (x : A) : bytes -> A := fun j => if str_eqb j i then x else f j.
Definition set_watch (s : state) (i : nat) (w : watch) : state :=
  State (upd (watches s) i w) (objs s) (calls s) (count s) (table s) (present s) (trace s).
Definition set_obj (s : state) (i : nat) (o : obj) : state :=
  State (watches s) (upd (objs s) i o) (calls s) (count s) (table s) (present s) (trace s).
Definition set_call (s : state) (i : nat) (c : call) : state :=
  State (watches s) (objs s) (upd (calls s) i c) (count s) (table s) (present s) (trace s).
Definition set_table (s : state) (n : bytes) (w : option nat) : state :=
  State (watches s) (objs s) (calls s) (count s) (updn (table s) n w) (present s) (trace s).
Definition say (s : state) (e : event) : state :=
  State (watches s) (objs s) (calls s) (count s) (table s) (present s) (e :: trace s).

Definition o_alive (o : obj) : bool := (0 <? o_refs o) || o_kernel o.
(* src/gbinder_local_object.c:462-469 gbinder_local_object_unref *)
Definition obj_unref (s : state) (i : nat) : out :=
  let o := objs s i in
  if 0 <? o_refs o then
    Ok (set_obj s i (Obj (o_refs o - 1) (o_kernel o) (o_handler o)
                         (if (o_refs o <=? 1) && negb (o_kernel o) then S (o_freed o) else o_freed o)))
  else Crash.
(* src/gbinder_local_object.c:471-479 gbinder_local_object_drop *)
Definition obj_drop (s : state) (i : nat) : out :=
  let o := objs s i in
  if o_alive o then obj_unref (set_obj s i (Obj (o_refs o) (o_kernel o) false (o_freed o))) i else Crash.
(* src/gbinder_client.c:469-477 gbinder_client_cancel; the id is that of the call, or zero *)
Definition client_cancel (s : state) (i : nat) : state :=
  let c := calls s i in
  match c_phase c with
  | Queued | Performed => set_call s i (Call (c_phase c) true (c_freed c))
  | _ => s
  end.

(* src/gbinder_servicemanager_hidl.c:256-268 gbinder_servicemanager_hidl_watch_free. The reference to
   the client isn't modelled. *)
Definition watch_free (s : state) (i : nat) : out :=
  let w := watches s i in
  if w_alive w then
    bind (if w_callback w then obj_drop s i else Ok s) (fun s =>
    let s := if w_tx w then client_cancel s i else s in
    Ok (set_watch s i (Watch (w_name w) false false false (S (w_freed w)))))
  else Crash.
(* g_hash_table_remove *)
Definition table_remove (s : state) (n : bytes) : out :=
  match table s n with
  | Some i => watch_free (set_table s n None) i
  | None => Ok s
  end.
(* g_hash_table_replace *)
Definition table_replace (s : state) (n : bytes) (i : nat) : out :=
  let old := table s n in
  let s := set_table s n (Some i) in
  match old with Some j => watch_free s j | None => Ok s end.

(* src/gbinder_servicemanager_hidl.c:356-412 gbinder_servicemanager_hidl_watch. [accept]: what
   gbinder_client_transact (src/gbinder_client.c:426-467) does; if it refuses, it doesn't call the
   destroy function. *)
Definition hidl_watch (s : state) (n : bytes) (accept : bool) : out :=
  let i := count s in
  (* the references are those of the watch and of the call *)
  let s := State (upd (watches s) i (Watch n true false true 0)) (upd (objs s) i (Obj 1 false true 0))
                 (calls s) (S i) (table s) (present s) (trace s) in
  bind (table_replace s n i) (fun s =>
  let o := objs s i in
  if o_alive o then
    let s := set_obj s i (Obj (o_refs o + 1) (o_kernel o) (o_handler o) (o_freed o)) in
    let s := set_call s i (Call (if accept then Queued else Refused) false 0) in
    if accept then
      Ok (say (set_watch s i (Watch n (w_callback (watches s i)) true (w_alive (watches s i)) (w_freed (watches s i)))) (EvWatch n i true))
    else bind (table_remove s n) (fun s => Ok (say s (EvWatch n i false)))
  else Crash).

(* src/gbinder_servicemanager_hidl.c:414-422 gbinder_servicemanager_hidl_unwatch *)
Definition hidl_unwatch (s : state) (n : bytes) : out :=
  bind (table_remove s n) (fun s => Ok (say s (EvUnwatch n))).

(* src/gbinder_servicemanager_hidl.c:270-311 gbinder_servicemanager_hidl_watch_call_reply *)
Definition call_reply (s : state) (i : nat) (a : answer) : out :=
  let w := watches s i in
  if w_alive w then
    let s := set_watch s i (Watch (w_name w) (w_callback w) false true (w_freed w)) in
    let registered :=
      (an_tx_status a =? 0) &&
      match an_status a, an_success a with
      | Some st, Some b => (st =? 0) && b
      | _, _ => false
      end in
    if registered then Ok s
    else
      bind (if w_callback w then obj_drop s i else Ok s) (fun s =>
      Ok (say (set_watch s i (Watch (w_name w) false false true (w_freed w))) (EvFail i)))
  else Crash.

(* src/gbinder_servicemanager_hidl.c:313-323 gbinder_servicemanager_hidl_watch_call_destroy *)
Definition call_destroy (s : state) (i : nat) : out :=
  let c := calls s i in
  bind (obj_unref s i) (fun s => Ok (set_call s i (Call Destroyed (c_cancelled c) (S (c_freed c))))).

(* src/gbinder_servicemanager_hidl.c:118-152 gbinder_servicemanager_hidl_notification. [text]: what
   handle_registration makes of the data *)
Definition notification (s : state) (i : nat) (iface : option bytes) (code : Z) (text : option bytes) : out :=
  let o := objs s i in
  if o_handler o then
    if present s then
      if match iface with Some f => str_eqb f NOTIFICATION_IFACE | None => false end && (code =? ON_REGISTRATION)
      then
        let s := match text with Some n => say s (EvRegistered n) | None => s end in
        Ok (say s (EvAnswered i 0))
      else Ok (say s (EvAnswered i (-1)))
    else Crash
  else Ok s.

(* src/gbinder_servicemanager_hidl.c:433-442 gbinder_servicemanager_hidl_finalize: the table is
   destroyed in any order: first the entries with the given names, then the others *)
Fixpoint remove_all (s : state) (l : list bytes) : out :=
  match l with
  | [] => Ok s
  | n :: r => bind (table_remove s n) (fun s => remove_all s r)
  end.
Definition hidl_finalize (s : state) (names : list bytes) : out :=
  bind (remove_all s (names ++ map (fun i => w_name (watches s i)) (seq 0 (count s)))) (fun s =>
  Ok (State (watches s) (objs s) (calls s) (count s) (table s) false (EvGone :: trace s))).

Inductive move :=
| MWatch (n : bytes) (accept : bool) | MUnwatch (n : bytes)
| MFinalize (names : list bytes)
| MPerform (i : nat)                 (* a worker thread sends the request *)
| MReply (i : nat) (a : answer)      (* callbacks of the call *)
| MDestroy (i : nat)
| MNotify (i : nat) (iface : option bytes) (code : Z) (text : option bytes)   (* a request of the peer *)
| MLetGo (i : nat).                  (* the kernel drops its reference *)
Definition step (s : state) (m : move) : out :=
  match m with
  | MWatch n accept => if present s then hidl_watch s n accept else Disabled
  | MUnwatch n => if present s then hidl_unwatch s n else Disabled
  | MFinalize names => if present s then hidl_finalize s names else Disabled
  | MPerform i =>
    match c_phase (calls s i) with
    | Queued =>
      (* the pointer is passed to the kernel *)
      if o_alive (objs s i) then
        let o := objs s i in
        let s := set_obj s i (Obj (o_refs o) true (o_handler o) (o_freed o)) in
        Ok (say (set_call s i (Call Performed (c_cancelled (calls s i)) (c_freed (calls s i)))) (EvSent i))
      else Crash
    | _ => Disabled
    end
  | MReply i a =>
    match c_phase (calls s i) with
    | Performed =>
      if c_cancelled (calls s i) then Disabled
      else call_reply (set_call s i (Call Replied false (c_freed (calls s i)))) i a
    | _ => Disabled
    end
  | MDestroy i =>
    match c_phase (calls s i) with
    | Refused | Destroyed => Disabled
    | _ => call_destroy s i
    end
  | MNotify i iface code text => if o_kernel (objs s i) then notification s i iface code text else Disabled
  | MLetGo i =>
    let o := objs s i in
    if o_kernel o then
      Ok (set_obj s i (Obj (o_refs o) false (o_handler o) (if o_refs o <=? 0 then S (o_freed o) else o_freed o)))
    else Disabled
  end.
Fixpoint run (s : state) (l : list move) : out :=
  match l with
  | [] => Ok s
  | m :: r => bind (step s m) (fun s => run s r)
  end.
Definition init : state :=
  State (fun _ => Watch [] false false false 0) (fun _ => Obj 0 false false 0)
        (fun _ => Call Destroyed false 0) 0 (fun _ => None) true [].
