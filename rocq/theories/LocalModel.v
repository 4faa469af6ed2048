(* Model of the references to a local object: those of the application, those which the library
   takes for the kernel, and the commands by which the kernel tells about its own
   (src/gbinder_local_object.c, src/gbinder_driver.c, src/gbinder_ipc.c).

   The state has an address at which a local object may live, everything that concerns this
   address in the kernel (the binder node with this address as its cookie), the threads which
   read commands, and the queue of the main loop. The address may be used again for another object
   after the first one is freed.

   Kernel (drivers/android/binder.c, binder_thread_read for BINDER_WORK_NODE and BC_INCREFS_DONE,
   BC_ACQUIRE_DONE in binder_thread_write): the node remembers whether the process was told about
   a weak and a strong reference and whether it has acknowledged that; what it was told about and
   has not acknowledged remains referenced.

   Simplifications: a thread which handles a command takes a reference, schedules a callback
   (which has a reference of its own) and drops the first one; that's one step here, in which the
   first reference can't be the last one. Idle callbacks are called in the order in which they
   were scheduled (they have the same priority). Signals about changed counts are not modelled.
   The proxy's own acquire and release are in ProxyModel. *)
From Verif Require Import Base.

(* BR_INCREFS, BR_ACQUIRE, BR_RELEASE, BR_DECREFS *)
Inductive cmd := CIncrefs | CAcquire | CRelease | CDecrefs.
(* What's deferred until the incoming commands are handled: gbinder_driver_cleanup_release,
   gbinder_driver_cleanup_decrefs *)
Inductive later := LRelease | LDecrefs.
(* Callbacks in the main loop, each with a reference *)
Inductive task := TIncrefs | TAcquire | TRelease | TDecrefs.

Record thread := Thread {
  t_queue : list cmd;        (* commands which were read and not handled yet *)
  t_later : list later       (* context->unrefs, each with a reference *)
}.

(* The release of the last reference by g_object_unref: not going on; before
   gbinder_local_object_dispose, after it (the object was left in the table of the registry, or
   removed from it), and when the object is certain to be finalized *)
Inductive phase := Idle | Begun | Left_ | Removed | Final.
Record object := Object {
  refs : Z;                  (* object->ref_count *)
  strong : Z;                (* self->strong_refs *)
  weak : Z;                  (* self->weak_refs *)
  in_table : bool;           (* priv->local_objects *)
  state_of : phase;
  handler : bool;            (* priv->txproc *)
  by_app : Z;                (* ghost: references of the application *)
  by_lib : Z                 (* ghost: references of functions of the library which are about to be dropped *)
}.

Record state := State {
  k_weak : bool; k_strong : bool;      (* node->has_weak_ref, has_strong_ref *)
  k_pweak : bool; k_pstrong : bool;    (* node->pending_weak_ref, pending_strong_ref *)
  k_errors : Z;                        (* acknowledgements of nothing *)
  k_acquires : Z; k_acks : Z;          (* ghost: BR_ACQUIRE and BC_ACQUIRE_DONE so far *)
  obj : option object;
  threads : list thread;
  tasks : list task
}.
Inductive out := Misuse | Crash | Ok (s : state).
Definition bind (m : out) (f : state -> out) : out := match m with Ok s => f s | x => x end.

Definition set_obj (s : state) (o : option object) : state :=
  State (k_weak s) (k_strong s) (k_pweak s) (k_pstrong s) (k_errors s) (k_acquires s) (k_acks s) o (threads s) (tasks s).
Definition set_threads (s : state) (l : list thread) : state :=
  State (k_weak s) (k_strong s) (k_pweak s) (k_pstrong s) (k_errors s) (k_acquires s) (k_acks s) (obj s) l (tasks s).
Definition set_tasks (s : state) (l : list task) : state :=
  State (k_weak s) (k_strong s) (k_pweak s) (k_pstrong s) (k_errors s) (k_acquires s) (k_acks s) (obj s) (threads s) l.

Fixpoint replace_nth {A} (l : list A) (i : nat) (x : A) : list A :=
  match l, i with
  | [], _ => []
  | _ :: r, O => x :: r
  | y :: r, S j => y :: replace_nth r j x
  end.

(* BC_INCREFS_DONE and BC_ACQUIRE_DONE in the kernel *)
Definition increfs_done (s : state) : state :=
  State (k_weak s) (k_strong s) false (k_pstrong s) (k_errors s + if k_pweak s then 0 else 1)
        (k_acquires s) (k_acks s) (obj s) (threads s) (tasks s).
Definition acquire_done (s : state) : state :=
  State (k_weak s) (k_strong s) (k_pweak s) false (k_errors s + if k_pstrong s then 0 else 1)
        (k_acquires s) (k_acks s + 1) (obj s) (threads s) (tasks s).

(* The work for the node, read by thread i: [w] and [st] tell whether a weak and a strong
   reference are there. The process is told what it wasn't told before. *)
Definition work (w st : bool) (s : state) : list cmd :=
  (if w && negb (k_weak s) then [CIncrefs] else []) ++
  (if st && negb (k_strong s) then [CAcquire] else []) ++
  (if negb st && k_strong s then [CRelease] else []) ++
  (if negb w && k_weak s then [CDecrefs] else []).
Definition kernel_work (s : state) (i : nat) (w st : bool) : out :=
  match nth_error (threads s) i with
  | None => Misuse
  | Some t =>
    let ac := st && negb (k_strong s) in
    Ok (State w st (k_pweak s || (w && negb (k_weak s))) (k_pstrong s || ac) (k_errors s)
              (k_acquires s + if ac then 1 else 0) (k_acks s) (obj s)
              (replace_nth (threads s) i (Thread (t_queue t ++ work w st s) (t_later t))) (tasks s))
  end.

(* src/gbinder_ipc.c:1290-1316 gbinder_ipc_priv_get_local_object: the object gets a reference.
   Nothing is found if it's not in the table; if it's being finalized and still in the table, then
   a dangling pointer is returned. *)
Inductive lookup := Unknown | Dangling | Known (o : object).
Definition get_local (s : state) : lookup :=
  match obj s with
  | None => Unknown
  | Some o =>
    if in_table o then match state_of o with Final => Dangling | _ => Known o end else Unknown
  end.
Definition add_refs (o : object) (n : Z) : object :=
  Object (refs o + n) (strong o) (weak o) (in_table o) (state_of o) (handler o) (by_app o) (by_lib o).

(* gbinder_local_object_handle_increfs and handle_acquire
   (src/gbinder_local_object.c:566-571, 580-606): the callback with its reference *)
Definition schedule (s : state) (o : object) (t : task) : state :=
  set_tasks (set_obj s (Some (add_refs o 1))) (tasks s ++ [t]).

(* src/gbinder_driver.c:621-729 gbinder_driver_handle_command, for the first command of thread i *)
Definition handle (s0 : state) (i : nat) : out :=
  match nth_error (threads s0) i with
  | None => Misuse
  | Some t =>
    match t_queue t with
    | [] => Misuse
    | c :: q =>
      let s := set_threads s0 (replace_nth (threads s0) i (Thread q (t_later t))) in
      let defer (o : object) (l : later) :=
        set_threads (set_obj s (Some (add_refs o 1)))
                    (replace_nth (threads s0) i (Thread q (t_later t ++ [l]))) in
      match get_local s with
      | Dangling => Crash
      | Known o =>
        match c with
        | CIncrefs => Ok (increfs_done (schedule s o TIncrefs))
        | CAcquire => Ok (schedule s o TAcquire)
        | CRelease => Ok (defer o LRelease)
        | CDecrefs => Ok (defer o LDecrefs)
        end
      | Unknown =>
        match c with
        | CIncrefs => Ok (increfs_done s)
        | CAcquire => Ok (acquire_done s)
        | CRelease | CDecrefs => Ok s
        end
      end
    end
  end.

Definition set_lib (o : object) (n : Z) : object :=
  Object (refs o) (strong o) (weak o) (in_table o) (state_of o) (handler o) (by_app o) (by_lib o + n).

(* The object is used by something that should have a reference to it *)
Definition with_object (s : state) (f : object -> out) : out :=
  match obj s with
  | None => Crash
  | Some o => match state_of o with Final => Crash | _ => f o end
  end.

(* src/gbinder_driver.c:599-608 gbinder_driver_cleanup_decrefs, 610-619
   gbinder_driver_cleanup_release, when there are no more commands: the callback is scheduled with a
   new reference, and the one of the list is going to be dropped *)
Definition drain (s : state) (i : nat) : out :=
  match nth_error (threads s) i with
  | Some (Thread [] (l :: r)) =>
    with_object s (fun o =>
      let t := match l with LRelease => TRelease | LDecrefs => TDecrefs end in
      Ok (schedule (set_threads s (replace_nth (threads s) i (Thread [] r))) (set_lib o 1) t))
  | _ => Misuse
  end.

(* The next callback in the main loop: src/gbinder_local_object.c:293-378
   gbinder_local_object_increfs_proc, decrefs_proc, default_acquire and acquire_done,
   default_release. The reference of the callback is going to be dropped. *)
Definition with_counts (o : object) (r st w : Z) : object :=
  Object r st w (in_table o) (state_of o) (handler o) (by_app o) (by_lib o + 1).
Definition main_step (s : state) : out :=
  match tasks s with
  | t :: r =>
    let s1 := set_tasks s r in
    with_object s (fun o =>
      match t with
      | TIncrefs => Ok (set_obj s1 (Some (with_counts o (refs o) (strong o) (weak o + 1))))
      | TDecrefs => Ok (set_obj s1 (Some (with_counts o (refs o) (strong o) (weak o - 1))))
      | TAcquire => Ok (acquire_done (set_obj s1 (Some (with_counts o (refs o + 1) (strong o + 1) (weak o)))))
      | TRelease =>
        if 0 <? strong o then Ok (set_obj s1 (Some (with_counts o (refs o - 1) (strong o - 1) (weak o))))
        else Ok (set_obj s1 (Some (with_counts o (refs o) (strong o) (weak o))))
      end)
  | [] => Misuse
  end.

(* A transaction for the object is read: src/gbinder_driver.c:515-597
   gbinder_driver_handle_transaction has a reference until it's over *)
Definition transaction (s : state) : out :=
  match get_local s with
  | Dangling => Crash
  | Unknown => Ok s
  | Known o => Ok (set_obj s (Some (set_lib (add_refs o 1) 1)))
  end.

(* src/gbinder_local_object.c:395-411 gbinder_local_object_new_with_type,
   src/gbinder_ipc.c:1268-1288 gbinder_ipc_register_local_object *)
Definition new_object (s : state) : out :=
  match obj s with
  | None => Ok (set_obj s (Some (Object 1 0 0 true Idle true 1 0)))
  | Some _ => Misuse
  end.
(* src/gbinder_local_object.c:450-460 gbinder_local_object_ref *)
Definition app_ref (s : state) : out :=
  match obj s with
  | Some o =>
    if 0 <? by_app o
    then Ok (set_obj s (Some (Object (refs o + 1) (strong o) (weak o) (in_table o) (state_of o) (handler o) (by_app o + 1) (by_lib o))))
    else Misuse
  | None => Misuse
  end.
(* src/gbinder_local_object.c:462-469 gbinder_local_object_unref by the application ([a]) or by
   the library: the first part of g_object_unref *)
Definition unref (s : state) (a : bool) : out :=
  match obj s with
  | Some o =>
    if (if a then by_app o else by_lib o) <=? 0 then Misuse
    else
      let app := by_app o - (if a then 1 else 0) in
      let lib := by_lib o - (if a then 0 else 1) in
      if 1 <? refs o
      then Ok (set_obj s (Some (Object (refs o - 1) (strong o) (weak o) (in_table o) (state_of o) (handler o) app lib)))
      else Ok (set_obj s (Some (Object (refs o) (strong o) (weak o) (in_table o) Begun (handler o) app lib)))
  | None => Misuse
  end.
(* src/gbinder_local_object.c:640-649 gbinder_local_object_dispose,
   src/gbinder_ipc.c:1213-1227 gbinder_ipc_local_object_disposed *)
Definition dispose (s : state) : out :=
  match obj s with
  | Some o =>
    match state_of o with
    | Begun =>
      if refs o =? 1
      then Ok (set_obj s (Some (Object (refs o) (strong o) (weak o) false Removed (handler o) (by_app o) (by_lib o))))
      else Ok (set_obj s (Some (Object (refs o) (strong o) (weak o) (in_table o) Left_ (handler o) (by_app o) (by_lib o))))
    | _ => Misuse
    end
  | None => Misuse
  end.
(* The rest of g_object_unref: the references are counted again *)
Definition unref_end (s : state) : out :=
  match obj s with
  | Some o =>
    match state_of o with
    | Left_ | Removed =>
      if 1 <? refs o
      then Ok (set_obj s (Some (Object (refs o - 1) (strong o) (weak o) (in_table o) Idle (handler o) (by_app o) (by_lib o))))
      else Ok (set_obj s (Some (Object 0 (strong o) (weak o) (in_table o) Final (handler o) (by_app o) (by_lib o))))
    | _ => Misuse
    end
  | None => Misuse
  end.
(* src/gbinder_local_object.c:651-664 gbinder_local_object_finalize,
   src/gbinder_ipc.c:1165-1177 gbinder_ipc_invalidate_local_object, and the memory is freed *)
Definition finalize (s : state) : out :=
  match obj s with
  | Some o => match state_of o with Final => Ok (set_obj s None) | _ => Misuse end
  | None => Misuse
  end.
(* src/gbinder_local_object.c:471-479 gbinder_local_object_drop: src/gbinder_local_object.c:269-279
   gbinder_local_object_default_drop, then the reference of the application is dropped *)
Definition clear_handler (s : state) : out :=
  match obj s with
  | Some o =>
    if 0 <? by_app o
    then Ok (set_obj s (Some (Object (refs o) (strong o) (weak o) (in_table o) (state_of o) false (by_app o) (by_lib o))))
    else Misuse
  | None => Misuse
  end.

Inductive move :=
| MNew | MRef | MUnref (a : bool) | MDispose | MUnrefEnd | MFinalize | MDrop
| MWork (i : nat) (w st : bool) | MTransaction
| MHandle (i : nat) | MDrain (i : nat) | MMain.
Definition step (s : state) (mv : move) : out :=
  match mv with
  | MNew => new_object s
  | MRef => app_ref s
  | MUnref a => unref s a
  | MDispose => dispose s
  | MUnrefEnd => unref_end s
  | MFinalize => finalize s
  | MDrop => clear_handler s
  | MWork i w st => kernel_work s i w st
  | MTransaction => transaction s
  | MHandle i => handle s i
  | MDrain i => drain s i
  | MMain => main_step s
  end.
Fixpoint run (s : state) (l : list move) : out :=
  match l with
  | [] => Ok s
  | mv :: r => bind (step s mv) (fun s1 => run s1 r)
  end.
(* n threads, no object, and nothing known to the kernel *)
Definition init (n : nat) : state :=
  State false false false false 0 0 0 None (repeat (Thread [] []) n) [].
