(* Model of two-way calls between any number of processes which use the library: who waits for whom. Each process has a
   main thread, on which handlers and callbacks of the application are executed, looper threads, which receive calls, and
   worker threads, which make asynchronous calls.

   src/gbinder_ipc.c (loopers, the thread pool), src/gbinder_driver.c (gbinder_driver_transact,
   gbinder_driver_handle_transaction).

   Processes may die at any time. Simplifications: the driver doesn't fail; calls which the library answers itself (see
   DispatchModel.v) are left out: they don't wait for the main thread; so are cancelled calls (see AsyncModel.v). Those
   which wait in a queue of the driver or of the thread pool are taken in any order: whenever one can be taken, so can be
   the first one. The driver passes a call to a thread which waits for a reply, instead of a looper, if it is made by a
   thread which hasn't replied yet to a call of that one. Such threads are loopers, and they make no calls. *)
From Verif Require Import Base.

(* src/gbinder_ipc.c:133-140 gbinder_ipc_looper_tx_state and the threads which have the call. Pool: waits for a worker thread of the caller. Sent: waits for a looper of the receiver. Taken: a looper has it, and its
   callback is scheduled on the main thread. Running: the handler is being executed. Blocked: the handler has blocked it
   and returned. Handled v: the looper is told the answer (and whether it was blocked). Replied: the reply is sent. Back:
   the worker thread has got it, its completion is scheduled on the main thread. Over: the caller has got v, or
   None: GBINDER_STATUS_DEAD_OBJECT. *)
Inductive state :=
| Pool | Sent | Taken | Running | Blocked
| Handled (v : nat) (blocked : bool)
| Replied (v : option nat)
| Back (v : option nat)
| Over (v : option nat).

(* A call: src/gbinder_ipc.c:193-203 gbinder_ipc_tx_internal for asynchronous ones, the stack of the caller for others *)
Record call := { k_from : nat; k_sync : bool; k_to : nat; k_st : state }.

(* What the main thread does (GBinderEventLoop, src/gbinder_eventloop.c): code of the application, or a handler for a call *)
Inductive frame := FApp | FHandle (c : nat).

Record proc := {
  p_frame : option frame;       (* what the main thread executes, NULL if it's in the event loop *)
  p_wait : option nat;          (* the synchronous call for which it waits *)
  p_todo : list (nat * option nat); (* replies for it, in the driver. The call is there only to state theorems. *)
  p_prim : nat;                 (* primary_loopers *)
  p_dead : bool
}.

Record world := { made : list call; procs : nat -> proc }.

(* src/gbinder_ipc.c:902-929 gbinder_ipc_looper_check: there is one primary looper when there is an object *)
Definition start : world := {| made := []; procs := fun _ => {| p_frame := None; p_wait := None; p_todo := []; p_prim := 1; p_dead := false |} |}.

(* Updates of the state (no code) *)
Definition set_proc (f : nat -> proc) (p : nat) (v : proc) : nat -> proc := fun i => if Nat.eqb i p then v else f i.

Fixpoint set_call (l : list call) (c : nat) (s : state) : list call :=
  match l, c with
  | [], _ => []
  | k :: r, O => {| k_from := k_from k; k_sync := k_sync k; k_to := k_to k; k_st := s |} :: r
  | k :: r, S i => k :: set_call r i s
  end.

(* How many (no code) *)
Definition count {A} (f : A -> bool) (l : list A) : nat := length (filter f l).

(* src/gbinder_ipc.c:96-97 *)
Definition GBINDER_IPC_MAX_TX_THREADS : nat := 15.
Definition GBINDER_IPC_MAX_PRIMARY_LOOPERS : nat := 5.

(* A primary looper of the process has the call: src/gbinder_ipc.c:649-767 gbinder_ipc_looper_transact is being executed *)
Definition in_use (p : nat) (k : call) : bool :=
  Nat.eqb (k_to k) p && match k_st k with Taken | Running | Handled _ false => true | _ => false end.

(* A worker thread of the process has it: src/gbinder_ipc.c:1706-1722 gbinder_ipc_tx_proc is being executed *)
Definition in_work (p : nat) (k : call) : bool :=
  Nat.eqb (k_from k) p && negb (k_sync k) &&
  match k_st k with Sent | Taken | Running | Blocked | Handled _ _ | Replied _ => true | _ => false end.

(* The operations are described in step, with the functions which do them *)
Inductive op :=
(* by applications *)
| Begin (p : nat)
| End (p : nat)
| Sync (p q : nat)
| Async (p q : nat)
| Return (c v : nat)
| Block (c : nat)
| Complete (c v : nat)
| Die (p : nat)
(* by the library and the driver *)
| Work (c : nat)
| Take (c : nat)
| Dispatch (c : nat)
| Reply (c : nat)
| Dead (c : nat)
| Receive (p : nat)
| WorkerDone (c : nat)
| Callback (c : nat).

(* Updates of fields (no code) *)
Definition with_frame (x : proc) (f : option frame) : proc :=
  {| p_frame := f; p_wait := p_wait x; p_todo := p_todo x; p_prim := p_prim x; p_dead := p_dead x |}.
Definition with_wait (x : proc) (f : option nat) : proc :=
  {| p_frame := p_frame x; p_wait := f; p_todo := p_todo x; p_prim := p_prim x; p_dead := p_dead x |}.
Definition with_todo (x : proc) (f : list (nat * option nat)) : proc :=
  {| p_frame := p_frame x; p_wait := p_wait x; p_todo := f; p_prim := p_prim x; p_dead := p_dead x |}.
Definition with_prim (x : proc) (f : nat) : proc :=
  {| p_frame := p_frame x; p_wait := p_wait x; p_todo := p_todo x; p_prim := f; p_dead := p_dead x |}.

(* A process which is dead doesn't execute anything *)
Definition kill (x : proc) : proc :=
  {| p_frame := Some FApp; p_wait := p_wait x; p_todo := p_todo x; p_prim := p_prim x; p_dead := true |}.

(* None: it can't happen now *)
Definition step (w : world) (o : op) : option world :=
  let pr := procs w in
  let upd p x := set_proc pr p x in
  match o with
  (* The event loop calls some function of the application; it returns *)
  | Begin p => match p_frame (pr p) with None => Some {| made := made w; procs := upd p (with_frame (pr p) (Some FApp)) |} | _ => None end
  | End p =>
    match p_frame (pr p), p_wait (pr p), p_dead (pr p) with
    | Some FApp, None, false => Some {| made := made w; procs := upd p (with_frame (pr p) None) |}
    | _, _, _ => None
    end
  (* src/gbinder_ipc.c:1795-1821 gbinder_ipc_transact_sync_reply, src/gbinder_driver.c:1225-1313 gbinder_driver_transact,
     until it waits *)
  | Sync p q =>
    match p_frame (pr p), p_wait (pr p), p_dead (pr p) with
    | Some _, None, false =>
      Some {| made := made w ++ [{| k_from := p; k_sync := true; k_to := q; k_st := Sent |}];
              procs := upd p (with_wait (pr p) (Some (length (made w)))) |}
    | _, _, _ => None
    end
  (* src/gbinder_ipc.c:1966-1990 gbinder_ipc_transact *)
  | Async p q =>
    match p_frame (pr p), p_wait (pr p), p_dead (pr p) with
    | Some _, None, false =>
      Some {| made := made w ++ [{| k_from := p; k_sync := false; k_to := q; k_st := Pool |}]; procs := pr |}
    | _, _, _ => None
    end
  (* src/gbinder_ipc.c:477-552 gbinder_ipc_looper_tx_handle: the handler returns, the looper is woken up. It has not
     blocked the request, or has completed it too. *)
  | Return c v =>
    match nth_error (made w) c with
    | Some k =>
      match p_frame (pr (k_to k)), p_wait (pr (k_to k)) with
      | Some (FHandle i), None =>
        if Nat.eqb i c then
          Some {| made := set_call (made w) c (Handled v false); procs := upd (k_to k) (with_frame (pr (k_to k)) None) |}
        else None
      | _, _ => None
      end
    | None => None
    end
  (* The same, the request is blocked. src/gbinder_ipc.c:649-767 gbinder_ipc_looper_transact: its looper isn't a primary
     one anymore; there is another one if it was the last. This is one step here. *)
  | Block c =>
    match nth_error (made w) c with
    | Some k =>
      let x := pr (k_to k) in
      match p_frame x, p_wait x with
      | Some (FHandle i), None =>
        if Nat.eqb i c then
          Some {| made := set_call (made w) c Blocked;
                  procs := upd (k_to k) (with_prim (with_frame x None) (Nat.max 1 (p_prim x - 1))) |}
        else None
      | _, _ => None
      end
    | None => None
    end
  (* src/gbinder_ipc.c:389-429 gbinder_remote_request_complete *)
  | Complete c v =>
    match nth_error (made w) c with
    | Some k =>
      match k_st k, p_dead (pr (k_to k)) with
      | Blocked, false => Some {| made := set_call (made w) c (Handled v true); procs := pr |}
      | _, _ => None
      end
    | None => None
    end
  (* The process p dies. If it was executing a handler then that doesn't return anymore. *)
  | Die p =>
    if p_dead (pr p) then None
    else
      Some {| made := match p_frame (pr p) with Some (FHandle c) => set_call (made w) c Blocked | _ => made w end;
              procs := upd p (kill (pr p)) |}
  (* src/gbinder_ipc.c:1706-1722 gbinder_ipc_tx_proc, 1588-1603 gbinder_ipc_tx_internal_exec: a worker thread sends it *)
  | Work c =>
    match nth_error (made w) c with
    | Some k =>
      match k_st k, p_dead (pr (k_from k)) with
      | Pool, false =>
        if Nat.ltb (count (in_work (k_from k)) (made w)) GBINDER_IPC_MAX_TX_THREADS then
          Some {| made := set_call (made w) c Sent; procs := pr |}
        else None
      | _, _ => None
      end
    | None => None
    end
  (* src/gbinder_ipc.c:769-855 gbinder_ipc_looper_thread, 649-767 gbinder_ipc_looper_transact: a primary looper receives it
     and schedules the callback *)
  | Take c =>
    match nth_error (made w) c with
    | Some k =>
      match k_st k, p_dead (pr (k_to k)) with
      | Sent, false =>
        if Nat.ltb (count (in_use (k_to k)) (made w)) (p_prim (pr (k_to k))) then
          Some {| made := set_call (made w) c Taken; procs := pr |}
        else None
      | _, _ => None
      end
    | None => None
    end
  (* src/gbinder_ipc.c:477-552 gbinder_ipc_looper_tx_handle, until the handler is called by the event loop *)
  | Dispatch c =>
    match nth_error (made w) c with
    | Some k =>
      match k_st k, p_frame (pr (k_to k)) with
      | Taken, None =>
        Some {| made := set_call (made w) c Running; procs := upd (k_to k) (with_frame (pr (k_to k)) (Some (FHandle c))) |}
      | _, _ => None
      end
    | None => None
    end
  (* src/gbinder_ipc.c:649-767 gbinder_ipc_looper_transact: the end of it; src/gbinder_driver.c:515-597
     gbinder_driver_handle_transaction: the looper replies. A looper which was blocked becomes a primary one again, or exits. *)
  | Reply c =>
    match nth_error (made w) c with
    | Some k =>
      match k_st k, p_dead (pr (k_to k)) with
      | Handled v b, false =>
        let x := pr (k_to k) in
        let f := if b && Nat.ltb (p_prim x) GBINDER_IPC_MAX_PRIMARY_LOOPERS then upd (k_to k) (with_prim x (S (p_prim x))) else pr in
        Some {| made := set_call (made w) c (Replied (Some v));
                procs := if k_sync k then set_proc f (k_from k) (with_todo (f (k_from k)) (p_todo (f (k_from k)) ++ [(c, Some v)])) else f |}
      | _, _ => None
      end
    | None => None
    end
  (* src/gbinder_driver.c:774-854 gbinder_driver_txstatus: the process which has got the call, or would have, is dead. The
     driver tells the caller BR_DEAD_REPLY. *)
  | Dead c =>
    match nth_error (made w) c with
    | Some k =>
      match k_st k, p_dead (pr (k_to k)) with
      | (Sent | Taken | Blocked | Handled _ _), true =>
        Some {| made := set_call (made w) c (Replied None);
                procs := if k_sync k then upd (k_from k) (with_todo (pr (k_from k)) (p_todo (pr (k_from k)) ++ [(c, None)])) else pr |}
      | _, _ => None
      end
    | None => None
    end
  (* src/gbinder_driver.c:774-854 gbinder_driver_txstatus: the reply to the call for which the main thread waits, whatever it
     is *)
  | Receive p =>
    match p_wait (pr p), p_todo (pr p), p_dead (pr p) with
    | Some x, (_, v) :: r, false =>
      Some {| made := set_call (made w) x (Over v); procs := upd p (with_todo (with_wait (pr p) None) r) |}
    | _, _, _ => None
    end
  (* src/gbinder_ipc.c:1706-1722 gbinder_ipc_tx_proc: the worker thread has got the reply *)
  | WorkerDone c =>
    match nth_error (made w) c with
    | Some k =>
      if k_sync k || p_dead (pr (k_from k)) then None
      else match k_st k with Replied v => Some {| made := set_call (made w) c (Back v); procs := pr |} | _ => None end
    | None => None
    end
  (* src/gbinder_ipc.c:1505-1516 gbinder_ipc_tx_done: the callback of the application is called *)
  | Callback c =>
    match nth_error (made w) c with
    | Some k =>
      match k_st k, p_frame (pr (k_from k)) with
      | Back v, None =>
        Some {| made := set_call (made w) c (Over v); procs := upd (k_from k) (with_frame (pr (k_from k)) (Some FApp)) |}
      | _, _ => None
      end
    | None => None
    end
  end.

(* All of the history, in this order *)
Fixpoint happens (w : world) (h : list op) : option world :=
  match h with
  | [] => Some w
  | o :: r => match step w o with Some w1 => happens w1 r | None => None end
  end.
