(* Model of the order in which one-way calls are handled: the driver's queue for an object, src/gbinder_driver.c
   (gbinder_driver_handle_transaction), src/gbinder_ipc.c (loopers and callbacks on the main thread), requests which are
   kept, blocked and copied by the application, src/gbinder_proxy_object.c (requests which are forwarded by proxies), and
   the client on the other side, with its worker threads.

   Any number of loopers: each call which was taken from the driver has its own looper thread, which is
   interleaved with the main thread and others in any way. Objects are in a row: what the n-th one forwards goes to
   the object number n + 1. Two-way calls to the same objects are left out, the driver doesn't queue them for the
   object; they only keep loopers busy.

   Simplifications: pipes and allocations don't fail; the driver has room for each call; that loopers and their
   transactions are not used after they are freed is in BlockModel.v and PoolModel.v. *)
From Verif Require Import Base.

(* c_data: the request isn't empty. c_app: it's for the handler of the object and not for the library itself, and there
   is a handler (see DispatchModel.v). c_sync: made by gbinder_client_transact_sync_oneway. *)
Record call := { c_id : nat; c_data : bool; c_app : bool; c_sync : bool }.

(* src/gbinder_ipc.c:649-767 gbinder_ipc_looper_transact and src/gbinder_driver.c:515-597
   gbinder_driver_handle_transaction: the first and the second gbinder_ipc_wait, gbinder_ipc_looper_tx_unref,
   gbinder_idle_callback_destroy, gbinder_remote_request_unref, gbinder_driver_context_cleanup *)
Inductive stage := SWait1 | SWait2 | SDrop | SCancel | SFinish | SCleanup | SOver.

Inductive cbst := CbPending | CbRunning | CbReturned | CbGone.

(* src/gbinder_ipc.c:131-138 GBINDER_IPC_LOOPER_TX_STATE *)
Inductive txst := Scheduled | Processing | Processed | Blocking | Blocked | Completed.

Inductive note := TX_DONE | TX_BLOCKED.

(* FQueued: in the thread pool. FWritten: sent by the worker thread. FReplied: the reply function was called.
   FSkipped: the worker thread has found it cancelled. *)
Inductive fwd := FNone | FQueued | FWritten | FReplied | FSkipped.

(* A call which was taken by a looper, with its GBinderRemoteRequest and GBinderIpcLooperTx *)
Record tx := {
  t_call : call;                (* the call *)
  t_stage : stage;              (* where the looper is *)
  t_cb : cbst;                  (* the callback of the event loop *)
  t_st : txst;                  (* tx->state *)
  t_pipe : list note;           (* what was written to tx->pipefd and wasn't read yet *)
  x_looper : bool;              (* the looper has a reference to tx *)
  x_cb : bool;                  (* the callback has *)
  x_req : bool;                 (* the request has (req->tx) *)
  x_has : bool;                 (* tx->req is not NULL *)
  t_drv : bool;                 (* gbinder_driver_handle_transaction has its reference to the request *)
  t_ctx : bool;                 (* the data is in the list of its context *)
  t_app : nat;                  (* references to the request, by the application *)
  t_copies : nat;               (* references to the data, by what was copied from it *)
  t_fwd : fwd;                  (* the transaction which forwards the request *)
  t_wrote : bool;               (* it was forwarded (only to state theorems) *)
  t_freed : bool                (* the data was given back to the driver *)
}.

Definition set_t_stage (t : tx) (v : stage) : tx := {| t_call := t_call t; t_stage := v; t_cb := t_cb t; t_st := t_st t; t_pipe := t_pipe t; x_looper := x_looper t; x_cb := x_cb t; x_req := x_req t; x_has := x_has t; t_drv := t_drv t; t_ctx := t_ctx t; t_app := t_app t; t_copies := t_copies t; t_fwd := t_fwd t; t_wrote := t_wrote t; t_freed := t_freed t |}.
Definition set_t_cb (t : tx) (v : cbst) : tx := {| t_call := t_call t; t_stage := t_stage t; t_cb := v; t_st := t_st t; t_pipe := t_pipe t; x_looper := x_looper t; x_cb := x_cb t; x_req := x_req t; x_has := x_has t; t_drv := t_drv t; t_ctx := t_ctx t; t_app := t_app t; t_copies := t_copies t; t_fwd := t_fwd t; t_wrote := t_wrote t; t_freed := t_freed t |}.
Definition set_t_st (t : tx) (v : txst) : tx := {| t_call := t_call t; t_stage := t_stage t; t_cb := t_cb t; t_st := v; t_pipe := t_pipe t; x_looper := x_looper t; x_cb := x_cb t; x_req := x_req t; x_has := x_has t; t_drv := t_drv t; t_ctx := t_ctx t; t_app := t_app t; t_copies := t_copies t; t_fwd := t_fwd t; t_wrote := t_wrote t; t_freed := t_freed t |}.
Definition set_t_pipe (t : tx) (v : list note) : tx := {| t_call := t_call t; t_stage := t_stage t; t_cb := t_cb t; t_st := t_st t; t_pipe := v; x_looper := x_looper t; x_cb := x_cb t; x_req := x_req t; x_has := x_has t; t_drv := t_drv t; t_ctx := t_ctx t; t_app := t_app t; t_copies := t_copies t; t_fwd := t_fwd t; t_wrote := t_wrote t; t_freed := t_freed t |}.
Definition set_x_looper (t : tx) (v : bool) : tx := {| t_call := t_call t; t_stage := t_stage t; t_cb := t_cb t; t_st := t_st t; t_pipe := t_pipe t; x_looper := v; x_cb := x_cb t; x_req := x_req t; x_has := x_has t; t_drv := t_drv t; t_ctx := t_ctx t; t_app := t_app t; t_copies := t_copies t; t_fwd := t_fwd t; t_wrote := t_wrote t; t_freed := t_freed t |}.
Definition set_x_cb (t : tx) (v : bool) : tx := {| t_call := t_call t; t_stage := t_stage t; t_cb := t_cb t; t_st := t_st t; t_pipe := t_pipe t; x_looper := x_looper t; x_cb := v; x_req := x_req t; x_has := x_has t; t_drv := t_drv t; t_ctx := t_ctx t; t_app := t_app t; t_copies := t_copies t; t_fwd := t_fwd t; t_wrote := t_wrote t; t_freed := t_freed t |}.
Definition set_x_req (t : tx) (v : bool) : tx := {| t_call := t_call t; t_stage := t_stage t; t_cb := t_cb t; t_st := t_st t; t_pipe := t_pipe t; x_looper := x_looper t; x_cb := x_cb t; x_req := v; x_has := x_has t; t_drv := t_drv t; t_ctx := t_ctx t; t_app := t_app t; t_copies := t_copies t; t_fwd := t_fwd t; t_wrote := t_wrote t; t_freed := t_freed t |}.
Definition set_x_has (t : tx) (v : bool) : tx := {| t_call := t_call t; t_stage := t_stage t; t_cb := t_cb t; t_st := t_st t; t_pipe := t_pipe t; x_looper := x_looper t; x_cb := x_cb t; x_req := x_req t; x_has := v; t_drv := t_drv t; t_ctx := t_ctx t; t_app := t_app t; t_copies := t_copies t; t_fwd := t_fwd t; t_wrote := t_wrote t; t_freed := t_freed t |}.
Definition set_t_drv (t : tx) (v : bool) : tx := {| t_call := t_call t; t_stage := t_stage t; t_cb := t_cb t; t_st := t_st t; t_pipe := t_pipe t; x_looper := x_looper t; x_cb := x_cb t; x_req := x_req t; x_has := x_has t; t_drv := v; t_ctx := t_ctx t; t_app := t_app t; t_copies := t_copies t; t_fwd := t_fwd t; t_wrote := t_wrote t; t_freed := t_freed t |}.
Definition set_t_ctx (t : tx) (v : bool) : tx := {| t_call := t_call t; t_stage := t_stage t; t_cb := t_cb t; t_st := t_st t; t_pipe := t_pipe t; x_looper := x_looper t; x_cb := x_cb t; x_req := x_req t; x_has := x_has t; t_drv := t_drv t; t_ctx := v; t_app := t_app t; t_copies := t_copies t; t_fwd := t_fwd t; t_wrote := t_wrote t; t_freed := t_freed t |}.
Definition set_t_app (t : tx) (v : nat) : tx := {| t_call := t_call t; t_stage := t_stage t; t_cb := t_cb t; t_st := t_st t; t_pipe := t_pipe t; x_looper := x_looper t; x_cb := x_cb t; x_req := x_req t; x_has := x_has t; t_drv := t_drv t; t_ctx := t_ctx t; t_app := v; t_copies := t_copies t; t_fwd := t_fwd t; t_wrote := t_wrote t; t_freed := t_freed t |}.
Definition set_t_copies (t : tx) (v : nat) : tx := {| t_call := t_call t; t_stage := t_stage t; t_cb := t_cb t; t_st := t_st t; t_pipe := t_pipe t; x_looper := x_looper t; x_cb := x_cb t; x_req := x_req t; x_has := x_has t; t_drv := t_drv t; t_ctx := t_ctx t; t_app := t_app t; t_copies := v; t_fwd := t_fwd t; t_wrote := t_wrote t; t_freed := t_freed t |}.
Definition set_t_fwd (t : tx) (v : fwd) : tx := {| t_call := t_call t; t_stage := t_stage t; t_cb := t_cb t; t_st := t_st t; t_pipe := t_pipe t; x_looper := x_looper t; x_cb := x_cb t; x_req := x_req t; x_has := x_has t; t_drv := t_drv t; t_ctx := t_ctx t; t_app := t_app t; t_copies := t_copies t; t_fwd := v; t_wrote := t_wrote t; t_freed := t_freed t |}.
Definition set_t_wrote (t : tx) (v : bool) : tx := {| t_call := t_call t; t_stage := t_stage t; t_cb := t_cb t; t_st := t_st t; t_pipe := t_pipe t; x_looper := x_looper t; x_cb := x_cb t; x_req := x_req t; x_has := x_has t; t_drv := t_drv t; t_ctx := t_ctx t; t_app := t_app t; t_copies := t_copies t; t_fwd := t_fwd t; t_wrote := v; t_freed := t_freed t |}.
Definition set_t_freed (t : tx) (v : bool) : tx := {| t_call := t_call t; t_stage := t_stage t; t_cb := t_cb t; t_st := t_st t; t_pipe := t_pipe t; x_looper := x_looper t; x_cb := x_cb t; x_req := x_req t; x_has := x_has t; t_drv := t_drv t; t_ctx := t_ctx t; t_app := t_app t; t_copies := t_copies t; t_fwd := t_fwd t; t_wrote := t_wrote t; t_freed := v |}.

Definition tx_alive (t : tx) : bool := x_looper t || x_cb t || x_req t.

(* Somebody has a reference to the request: the driver code, tx, the application or gbinder_proxy_tx *)
Definition req_alive (t : tx) : bool :=
  t_drv t || (tx_alive t && x_has t) || Nat.ltb 0 (t_app t) || match t_fwd t with FNone => false | _ => true end.

Definition data_used (t : tx) : bool := req_alive t || t_ctx t || Nat.ltb 0 (t_copies t).

(* src/gbinder_remote_request.c:121-138 gbinder_remote_request_free: a request which is still blocked is completed (nobody
   waits for that: the driver code had a reference while it did); its buffer is freed.
   src/gbinder_buffer.c:77-90 gbinder_buffer_contents_free: the data is given back when nobody uses it *)
Definition settle (t : tx) : tx * bool :=
  let t1 := if req_alive t then t else set_x_req t false in
  if t_freed t1 then (t1, false)
  else if data_used t1 then (t1, false)
  else (set_t_freed t1 true, true).

(* src/gbinder_driver.c:515-597 gbinder_driver_handle_transaction, src/gbinder_ipc.c:281-299 gbinder_ipc_looper_tx_new
   and the callback which is scheduled. Empty data is given back at once. *)
Definition taken (c : call) : tx :=
  {| t_call := c; t_stage := if c_app c then SWait1 else SFinish; t_cb := if c_app c then CbPending else CbGone;
     t_st := Scheduled; t_pipe := []; x_looper := c_app c; x_cb := c_app c; x_req := false; x_has := c_app c; t_drv := true;
     t_ctx := c_data c; t_app := 0; t_copies := 0; t_fwd := FNone; t_wrote := false; t_freed := negb (c_data c) |}.

(* src/gbinder_ipc.c:389-429 gbinder_remote_request_complete *)
Definition complete (t : tx) : tx :=
  if x_req t then
    match t_st t with
    | Blocking => set_x_req (set_t_st t Processed) false
    | Blocked => set_x_req (set_t_pipe (set_t_st t Completed) (t_pipe t ++ [TX_DONE])) false
    | _ => set_x_req t false
    end
  else t.

(* src/gbinder_ipc.c:477-552 gbinder_ipc_looper_tx_handle, after the handler has returned *)
Definition returned (t : tx) : tx :=
  let st := match t_st t with
    | Processing => Completed
    | Processed => Completed
    | Blocking => Blocked
    | s => s
    end in
  match st with
  | Blocked => set_t_cb (set_x_has (set_t_pipe (set_t_st t st) (t_pipe t ++ [TX_BLOCKED])) false) CbReturned
  | _ => set_t_cb (set_x_req (set_t_pipe (set_t_st t st) (t_pipe t ++ [TX_DONE])) false) CbReturned
  end.

(* The application may use the request *)
Definition in_hand (t : tx) : bool := match t_cb t with CbRunning => true | _ => Nat.ltb 0 (t_app t) end.

(* What happens to the call number k *)
Inductive op :=
| Take
| Run (k : nat)
| Ref (k : nat)
| Unref (k : nat)
| Copy (k : nat)
| Uncopy (k : nat)
| Block (k : nat)
| Complete (k : nat)
| Forward (k : nat)
| Return (k : nat)
| CbDone (k : nat)
| Wake (k : nat)
| Stop (k : nat)
| Drop (k : nat)
| Cancel (k : nat)
| Finish (k : nat)
| Cleanup (k : nat)
| Write (k : nat)
| Skip (k : nat)
| Replied (k : nat)
| Destroyed (k : nat).

(* What it does to the call. None: it can't happen now. *)
Definition act (t : tx) (o : op) : option tx :=
  match o with
  | Take => None
  (* src/gbinder_ipc.c:477-552 gbinder_ipc_looper_tx_handle, until the handler is called *)
  | Run _ => match t_cb t with CbPending => Some (set_t_st (set_x_req (set_t_cb t CbRunning) true) Processing) | _ => None end
  (* src/gbinder_remote_request.c:196-221 gbinder_remote_request_ref and gbinder_remote_request_unref *)
  | Ref _ => if in_hand t then Some (set_t_app t (S (t_app t))) else None
  | Unref _ => match t_app t with S n => Some (set_t_app t n) | O => None end
  (* src/gbinder_buffer.c:92-113 gbinder_buffer_contents_ref and gbinder_buffer_contents_unref: by the requests and
     replies into which data is copied *)
  | Copy _ => if in_hand t then Some (set_t_copies t (S (t_copies t))) else None
  | Uncopy _ => match t_copies t with S n => Some (set_t_copies t n) | O => None end
  (* src/gbinder_ipc.c:372-387 gbinder_remote_request_block *)
  | Block _ =>
    if in_hand t then
      if x_req t then match t_st t with Processing => Some (set_t_st t Blocking) | _ => Some t end else Some t
    else None
  | Complete _ => if in_hand t then Some (complete t) else None
  (* src/gbinder_proxy_object.c:237-282 gbinder_proxy_object_handle_transaction *)
  | Forward _ =>
    match t_cb t, t_st t, x_req t, t_fwd t with
    | CbRunning, Processing, true, FNone => Some (set_t_fwd (set_t_st t Blocking) FQueued)
    | _, _, _, _ => None
    end
  | Return _ => match t_cb t with CbRunning => Some (returned t) | _ => None end
  (* src/gbinder_ipc.c:554-560 gbinder_ipc_looper_tx_done *)
  | CbDone _ => match t_cb t with CbReturned => Some (set_x_cb (set_t_cb t CbGone) false) | _ => None end
  (* src/gbinder_ipc.c:238-266 gbinder_ipc_wait *)
  | Wake _ =>
    match t_stage t, t_pipe t with
    | SWait1, TX_BLOCKED :: r => Some (set_t_pipe (set_t_stage t SWait2) r)
    | SWait1, TX_DONE :: r => Some (set_t_pipe (set_t_stage t SDrop) r)
    | SWait2, _ :: r => Some (set_t_pipe (set_t_stage t SDrop) r)
    | _, _ => None
    end
  (* It returns FALSE because the looper is told to stop *)
  | Stop _ => match t_stage t with SWait1 | SWait2 => Some (set_t_stage t SDrop) | _ => None end
  (* src/gbinder_ipc.c:326-342 gbinder_ipc_looper_tx_unref *)
  | Drop _ => match t_stage t with SDrop => Some (set_x_looper (set_t_stage t SCancel) false) | _ => None end
  (* src/gbinder_eventloop.c:353-363 gbinder_idle_callback_destroy *)
  | Cancel _ =>
    match t_stage t with
    | SCancel =>
      Some match t_cb t with
        | CbPending => set_x_cb (set_t_cb (set_t_stage t SFinish) CbGone) false
        | _ => set_t_stage t SFinish
        end
    | _ => None
    end
  (* src/gbinder_driver.c:515-597: gbinder_remote_request_unref at the end of gbinder_driver_handle_transaction *)
  | Finish _ => match t_stage t with SFinish => Some (set_t_drv (set_t_stage t SCleanup) false) | _ => None end
  (* src/gbinder_driver.c:409-416 gbinder_driver_context_cleanup, at the end of gbinder_driver_read *)
  | Cleanup _ => match t_stage t with SCleanup => Some (set_t_ctx (set_t_stage t SOver) false) | _ => None end
  (* src/gbinder_ipc.c:1706-1722 gbinder_ipc_tx_proc, 1588-1603 gbinder_ipc_tx_internal_exec *)
  | Write _ => match t_fwd t with FQueued => Some (set_t_wrote (set_t_fwd t FWritten) true) | _ => None end
  | Skip _ => match t_fwd t with FQueued => Some (set_t_fwd t FSkipped) | _ => None end
  (* src/gbinder_proxy_object.c:188-223 gbinder_proxy_tx_reply *)
  | Replied _ => match t_fwd t with FWritten => Some (complete (set_t_fwd t FReplied)) | _ => None end
  (* src/gbinder_proxy_object.c:225-235 gbinder_proxy_tx_destroy *)
  | Destroyed _ => match t_fwd t with FWritten | FReplied | FSkipped => Some (set_t_fwd t FNone) | _ => None end
  end.

Definition of_call (o : op) : nat :=
  match o with
  | Take => 0
  | Run k | Ref k | Unref k | Copy k | Uncopy k | Block k | Complete k | Forward k | Return k | CbDone k | Wake k | Stop k
  | Drop k | Cancel k | Finish k | Cleanup k | Write k | Skip k | Replied k | Destroyed k => k
  end.

(* An object: has_async_transaction and async_todo of its node in the driver (drivers/android/binder.c of Linux), its
   one-way calls in the queue of the process, and those which were taken; what its handler was called for, and what was
   forwarded. *)
Record node := {
  busy : bool;
  async : list call;
  todo : list call;
  txs : list tx;
  heard : list call;
  told : list call
}.

Definition new_node : node := {| busy := false; async := []; todo := []; txs := []; heard := []; told := [] |}.

(* binder_proc_transaction of the driver: one call is in the queue of the process, or being handled; others wait *)
Definition enqueue (n : node) (c : call) : node :=
  if busy n then {| busy := true; async := async n ++ [c]; todo := todo n; txs := txs n; heard := heard n; told := told n |}
  else {| busy := true; async := async n; todo := todo n ++ [c]; txs := txs n; heard := heard n; told := told n |}.

(* BC_FREE_BUFFER (src/gbinder_driver.c:1156-1178 gbinder_driver_free_buffer): the next one *)
Definition released (n : node) : node :=
  match async n with
  | [] => {| busy := false; async := []; todo := todo n; txs := txs n; heard := heard n; told := told n |}
  | c :: r => {| busy := busy n; async := r; todo := todo n ++ [c]; txs := txs n; heard := heard n; told := told n |}
  end.

Fixpoint set_nth (l : list tx) (k : nat) (t : tx) : list tx :=
  match l, k with
  | [], _ => []
  | _ :: r, O => t :: r
  | x :: r, S i => x :: set_nth r i t
  end.

Definition put (n : node) (k : nat) (t : tx) (h s : list call) : node :=
  let n1 := {| busy := busy n; async := async n; todo := todo n; txs := set_nth (txs n) k (fst (settle t));
               heard := heard n ++ h; told := told n ++ s |} in
  if snd (settle t) then released n1 else n1.

Definition nstep (n : node) (o : op) : option node :=
  match o with
  (* src/gbinder_driver.c:1196-1223 gbinder_driver_read *)
  | Take =>
    match todo n with
    | c :: r =>
      let n1 := {| busy := busy n; async := async n; todo := r; txs := txs n ++ [taken c]; heard := heard n; told := told n |} in
      Some (if c_data c then n1 else released n1)
    | [] => None
    end
  | _ =>
    match nth_error (txs n) (of_call o) with
    | Some t =>
      match act t o with
      | Some t1 =>
        Some (put n (of_call o) t1 (match o with Run _ => [t_call t] | _ => [] end) (match o with Write _ => [t_call t] | _ => [] end))
      | None => None
      end
    | None => None
    end
  end.

(* The client: transactions in the queue of its thread pool, and those which were taken by worker threads. Then the
   objects, and what the driver has got for the first one. *)
Record world := { queue : list call; working : list call; wire : list call; nodes : nat -> node }.

Definition start : world := {| queue := []; working := []; wire := []; nodes := fun _ => new_node |}.

Definition set_node (f : nat -> node) (j : nat) (n : node) : nat -> node := fun i => if Nat.eqb i j then n else f i.

Fixpoint remove_nth {A} (l : list A) (i : nat) : list A :=
  match l, i with
  | [], _ => []
  | _ :: r, O => r
  | x :: r, S k => x :: remove_nth r k
  end.

Inductive move :=
| Call (c : call)
| Async (c : call)
| Pick
| Perform (i : nat)
| At (j : nat) (o : op).

(* src/gbinder_ipc.c:96 *)
Definition GBINDER_IPC_MAX_TX_THREADS : nat := 15.

Definition moves (w : world) (v : move) : option world :=
  match v with
  (* src/gbinder_client.c:219-250 gbinder_client_transact_sync_oneway2, src/gbinder_ipc.c:1762-1784: the thread which
     calls it sends the transaction *)
  | Call c =>
    if c_sync c then
      Some {| queue := queue w; working := working w; wire := wire w ++ [c];
              nodes := set_node (nodes w) 0 (enqueue (nodes w 0%nat) c) |}
    else None
  (* src/gbinder_client.c:426-467 gbinder_client_transact, src/gbinder_ipc.c:1966-1990 gbinder_ipc_transact *)
  | Async c =>
    if c_sync c then None
    else Some {| queue := queue w ++ [c]; working := working w; wire := wire w; nodes := nodes w |}
  (* A thread of the pool takes the first transaction of the queue *)
  | Pick =>
    match queue w with
    | c :: r =>
      if Nat.ltb (length (working w)) GBINDER_IPC_MAX_TX_THREADS then
        Some {| queue := r; working := working w ++ [c]; wire := wire w; nodes := nodes w |}
      else None
    | [] => None
    end
  (* src/gbinder_ipc.c:1706-1722 gbinder_ipc_tx_proc *)
  | Perform i =>
    match nth_error (working w) i with
    | Some c =>
      Some {| queue := queue w; working := remove_nth (working w) i; wire := wire w ++ [c];
              nodes := set_node (nodes w) 0 (enqueue (nodes w 0%nat) c) |}
    | None => None
    end
  | At j o =>
    match nstep (nodes w j) o with
    | Some n =>
      let f := set_node (nodes w) j n in
      Some {| queue := queue w; working := working w; wire := wire w;
              nodes := match o, nth_error (txs (nodes w j)) (of_call o) with
                | Write _, Some t => set_node f (S j) (enqueue (f (S j)) (t_call t))
                | _, _ => f
                end |}
    | None => None
    end
  end.

Fixpoint happens (w : world) (h : list move) : option world :=
  match h with
  | [] => Some w
  | v :: r => match moves w v with Some w1 => happens w1 r | None => None end
  end.
