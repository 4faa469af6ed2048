(* Model of the handling of incoming transactions: src/gbinder_ipc.c from the moment when
   a thread gets a transaction from the driver until it has the answer, including requests
   which are blocked by the handler and completed later.

   One thread which receives transactions (a looper, or a worker thread which gets one
   while it's waiting for a reply) is interleaved with the main thread in any way. Other
   threads like that have their own transactions and nothing in common with these. The main
   thread runs the event loop, handlers and the application, which may call the API at any
   time if it has a reference to the request or if it's in the handler of that request.
   Handlers may be nested in any way.

   A step is what one thread does between two accesses to what they share. Touching an
   object without references, or a closed pipe, is a separate outcome (Crash).

   Simplifications: pipe, poll, read and write don't fail; references to the local object and
   to replies are not modelled; what a looper does with its lists while a request is blocked
   is in PoolModel.v. When a looper has been told to stop and has answered one more
   transaction, it doesn't get another one: the exit flag is set by then, and the kernel
   returns after one transaction. *)
From Verif Require Import Base.

Definition upd {A} (f : nat -> A) (i : nat) (v : A) : nat -> A := fun j => if Nat.eqb j i then v else f j.

Definition EFAULT : Z := 14.
Definition ECANCELED : Z := 125.

(* The reply (NULL is None) and the status *)
Definition answer : Set := (option Z * Z)%type.

(* What is written to the pipe *)
Inductive note : Set := TX_DONE | TX_BLOCKED.

(* src/gbinder_ipc.c:131-138 GBINDER_IPC_LOOPER_TX_STATE *)
Inductive txstate : Set := SCHEDULED | PROCESSING | PROCESSED | BLOCKING | BLOCKED | COMPLETE.

(* The callback of the event loop which handles the transaction *)
Inductive cbstate : Set := CbPending | CbRunning | CbReturned | CbGone.

(* GBinderIpcLooperTx and its GBinderRemoteRequest *)
Record ltx := {
  x_state : txstate;
  x_answer : answer;                 (* tx->reply and tx->status *)
  x_refs : Z;                        (* tx->refcount *)
  x_pipe : nat;                      (* tx->pipefd *)
  x_has_req : bool;                  (* tx->req is not NULL *)
  q_refs : Z;                        (* req->refcount *)
  q_has_tx : bool;                   (* req->tx is not NULL *)
  q_app : Z;                         (* references to the request, by the application *)
  x_cb : cbstate
}.

(* Where the thread is. [k] is the transaction *)
Inductive phase :=
| TIdle
| TWait1 (k : nat)                   (* the first gbinder_ipc_wait *)
| TWait2 (k : nat)                   (* the second one *)
| TTake (k : nat) (done : bool)      (* about to look at the result *)
| TUnref (k : nat) (a : answer)      (* about to drop the reference to the transaction *)
| TCancel (k : nat) (a : answer)     (* about to destroy the callback *)
| TSent (k : nat).                   (* the driver has got the answer *)

(* What can be seen from outside *)
Inductive bev :=
| Arrived (k : nat)
| Handle (k : nat)                   (* the handler is called *)
| BlockCalled (k : nat)
| CompleteCalled (k : nat) (a : answer)
| HandlerReturned (k : nat) (a : answer)
| Dropped (k : nat)                  (* the request is gone without being completed *)
| Answered (k : nat) (a : answer)    (* that's what the driver sends *)
| StopCalled                         (* gbinder_ipc_looper_stop *)
| TxFreed (k : nat)
| ReqFreed (k : nat)
| PipeClosed (p : nat).

Record bstate := {
  looper : bool;                     (* a looper, or a worker thread? *)
  txs : nat -> ltx;
  count : nat;
  pipes : nat -> option (list note); (* None if closed *)
  npipes : nat;
  txfd : option nat;                 (* looper->txfd *)
  stopped : bool;
  last : bool;                       (* the last transaction was answered *)
  th : phase;
  btrace : list bev
}.

Inductive out (A : Type) := Disabled | Crash | Ok (a : A).
Arguments Disabled {A}.
Arguments Crash {A}.
Arguments Ok {A} a.
Definition bind {A B} (m : out A) (f : A -> out B) : out B :=
  match m with Ok a => f a | Disabled => Disabled | Crash => Crash end.
Notation "'do' x '<-' a ';' b" := (bind a (fun x => b))
  (at level 200, x pattern, a at level 100, b at level 200, right associativity).

(* What the main thread touches when it deals with a transaction: the transaction (with its
   request), the contents of its pipe (None if closed), and what happens *)
Record cell := { c_tx : ltx; c_pipe : option (list note); c_ev : list bev }.
Definition put (c : cell) (t : ltx) : cell := {| c_tx := t; c_pipe := c_pipe c; c_ev := c_ev c |}.
Definition say (c : cell) (e : bev) : cell := {| c_tx := c_tx c; c_pipe := c_pipe c; c_ev := c_ev c ++ [e] |}.

Definition x_set_state (t : ltx) (st : txstate) : ltx :=
  {| x_state := st; x_answer := x_answer t; x_refs := x_refs t; x_pipe := x_pipe t; x_has_req := x_has_req t;
     q_refs := q_refs t; q_has_tx := q_has_tx t; q_app := q_app t; x_cb := x_cb t |}.
Definition x_set_answer (t : ltx) (a : answer) : ltx :=
  {| x_state := x_state t; x_answer := a; x_refs := x_refs t; x_pipe := x_pipe t; x_has_req := x_has_req t;
     q_refs := q_refs t; q_has_tx := q_has_tx t; q_app := q_app t; x_cb := x_cb t |}.
Definition x_set_refs (t : ltx) (n : Z) : ltx :=
  {| x_state := x_state t; x_answer := x_answer t; x_refs := n; x_pipe := x_pipe t; x_has_req := x_has_req t;
     q_refs := q_refs t; q_has_tx := q_has_tx t; q_app := q_app t; x_cb := x_cb t |}.
Definition x_set_has_req (t : ltx) (b : bool) : ltx :=
  {| x_state := x_state t; x_answer := x_answer t; x_refs := x_refs t; x_pipe := x_pipe t; x_has_req := b;
     q_refs := q_refs t; q_has_tx := q_has_tx t; q_app := q_app t; x_cb := x_cb t |}.
Definition q_set_refs (t : ltx) (n : Z) : ltx :=
  {| x_state := x_state t; x_answer := x_answer t; x_refs := x_refs t; x_pipe := x_pipe t; x_has_req := x_has_req t;
     q_refs := n; q_has_tx := q_has_tx t; q_app := q_app t; x_cb := x_cb t |}.
Definition q_set_has_tx (t : ltx) (b : bool) : ltx :=
  {| x_state := x_state t; x_answer := x_answer t; x_refs := x_refs t; x_pipe := x_pipe t; x_has_req := x_has_req t;
     q_refs := q_refs t; q_has_tx := b; q_app := q_app t; x_cb := x_cb t |}.
Definition q_set_app (t : ltx) (n : Z) : ltx :=
  {| x_state := x_state t; x_answer := x_answer t; x_refs := x_refs t; x_pipe := x_pipe t; x_has_req := x_has_req t;
     q_refs := q_refs t; q_has_tx := q_has_tx t; q_app := n; x_cb := x_cb t |}.
Definition x_set_cb (t : ltx) (c : cbstate) : ltx :=
  {| x_state := x_state t; x_answer := x_answer t; x_refs := x_refs t; x_pipe := x_pipe t; x_has_req := x_has_req t;
     q_refs := q_refs t; q_has_tx := q_has_tx t; q_app := q_app t; x_cb := c |}.

(* write(tx->pipefd[1], ...) *)
Definition pipe_write (c : cell) (n : note) : out cell :=
  match c_pipe c with
  | Some l => Ok {| c_tx := c_tx c; c_pipe := Some (l ++ [n]); c_ev := c_ev c |}
  | None => Crash
  end.

(* close() of both ends *)
Definition pipe_close (c : cell) : out cell :=
  match c_pipe c with
  | Some _ => Ok {| c_tx := c_tx c; c_pipe := None; c_ev := c_ev c ++ [PipeClosed (x_pipe (c_tx c))] |}
  | None => Crash
  end.

(* src/gbinder_remote_request.c:209-221 gbinder_remote_request_unref where the request is
   known to have no transaction (if it does, then the transaction was freed too early) *)
Definition req_unref_by_tx (k : nat) (c : cell) : out cell :=
  let t := c_tx c in
  if q_refs t <=? 0 then Crash
  else
    let c1 := put c (q_set_refs t (q_refs t - 1)) in
    if q_refs t - 1 =? 0 then
      if q_has_tx t then Crash else Ok (say c1 (ReqFreed k))
    else Ok c1.

(* src/gbinder_ipc.c:326-342 gbinder_ipc_looper_tx_unref,
   src/gbinder_ipc.c:301-314 gbinder_ipc_looper_tx_free. The second part of the result tells
   if the descriptors are dropped *)
Definition tx_unref (k : nat) (dropfd : bool) (c : cell) : out (cell * bool) :=
  let t := c_tx c in
  if x_refs t <=? 0 then Crash
  else
    let c1 := put c (x_set_refs t (x_refs t - 1)) in
    if x_refs t - 1 =? 0 then
      do c2 <- (if dropfd then Ok c1 else pipe_close c1);
      do c3 <- (if x_has_req t then req_unref_by_tx k c2 else Ok c2);
      Ok (say c3 (TxFreed k), dropfd)
    else Ok (c1, false).

(* gbinder_ipc_looper_tx_unref(req->tx, FALSE); req->tx = NULL *)
Definition clear_tx (k : nat) (c : cell) : out cell :=
  do (c1, _) <- tx_unref k false c;
  Ok (put c1 (q_set_has_tx (c_tx c1) false)).

(* src/gbinder_ipc.c:389-429 gbinder_remote_request_complete *)
Definition request_complete (k : nat) (a : answer) (c : cell) : out cell :=
  let t := c_tx c in
  if q_refs t <=? 0 then Crash
  else if q_has_tx t then
    if x_refs t <=? 0 then Crash
    else
      do c1 <-
        match x_state t with
        | BLOCKING => Ok (put c (x_set_state (x_set_answer t a) PROCESSED))
        | BLOCKED => pipe_write (put c (x_set_state (x_set_answer t a) COMPLETE)) TX_DONE
        | _ => Ok c
        end;
      clear_tx k c1
  else Ok c.

(* src/gbinder_ipc.c:372-387 gbinder_remote_request_block *)
Definition request_block (c : cell) : out cell :=
  let t := c_tx c in
  if q_refs t <=? 0 then Crash
  else if q_has_tx t then
    if x_refs t <=? 0 then Crash
    else
      match x_state t with
      | PROCESSING => Ok (put c (x_set_state t BLOCKING))
      | _ => Ok c
      end
  else Ok c.

(* src/gbinder_remote_request.c:196-207 gbinder_remote_request_ref *)
Definition request_ref (c : cell) : out cell :=
  let t := c_tx c in
  if q_refs t <=? 0 then Crash
  else Ok (put c (q_set_app (q_set_refs t (q_refs t + 1)) (q_app t + 1))).

(* src/gbinder_remote_request.c:209-221 gbinder_remote_request_unref,
   src/gbinder_remote_request.c:121-138 gbinder_remote_request_free. The last reference is
   still counted while the request is being freed *)
Definition req_unref (k : nat) (c : cell) : out cell :=
  let t := c_tx c in
  if q_refs t <=? 0 then Crash
  else if q_refs t - 1 =? 0 then
    do c1 <- (if q_has_tx t then request_complete k (None, - ECANCELED) (say c (Dropped k)) else Ok c);
    Ok (say (put c1 (q_set_refs (c_tx c1) 0)) (ReqFreed k))
  else Ok (put c (q_set_refs t (q_refs t - 1))).

(* src/gbinder_ipc.c:477-552 gbinder_ipc_looper_tx_handle, up to the call of the handler *)
Definition handle_begin (k : nat) (c : cell) : out cell :=
  let t := c_tx c in
  if (x_refs t <=? 0) || (q_refs t <=? 0) || negb (x_has_req t) then Crash
  else
    let t1 := x_set_refs (q_set_has_tx t true) (x_refs t + 1) in
    Ok (say (put c (x_set_cb (x_set_state t1 PROCESSING) CbRunning)) (Handle k)).

(* src/gbinder_ipc.c:477-552 gbinder_ipc_looper_tx_handle, after the handler *)
Definition handle_end (k : nat) (a : answer) (c : cell) : out cell :=
  let t := c_tx c in
  if (x_refs t <=? 0) || (q_refs t <=? 0) then Crash
  else
    let t1 :=
      match x_state t with
      | PROCESSING => x_set_state (x_set_answer t a) COMPLETE
      | PROCESSED => x_set_state t COMPLETE
      | BLOCKING => x_set_state t BLOCKED
      | _ => t
      end in
    let c1 := say (put c (x_set_cb t1 CbReturned)) (HandlerReturned k a) in
    match x_state t1 with
    | BLOCKED =>
      do c2 <- (if x_has_req t then req_unref k c1 else Ok c1);
      pipe_write (put c2 (x_set_has_req (c_tx c2) false)) TX_BLOCKED
    | _ =>
      do c2 <- (if q_has_tx t then clear_tx k c1 else Ok c1);
      pipe_write c2 TX_DONE
    end.

(* The event loop drops the callback: src/gbinder_ipc.c:554-560 gbinder_ipc_looper_tx_done *)
Definition callback_gone (k : nat) (c : cell) : out cell :=
  do (c1, _) <- tx_unref k false (put c (x_set_cb (c_tx c) CbGone));
  Ok c1.

(* src/gbinder_ipc.c:238-266 gbinder_ipc_wait: the first byte, or None if it's woken up by
   the other pipe *)
Definition ipc_wait (stop : bool) (c : cell) : out (cell * option note) :=
  if x_refs (c_tx c) <=? 0 then Crash
  else
    match c_pipe c with
    | None => Crash
    | Some (n :: l) => Ok ({| c_tx := c_tx c; c_pipe := Some l; c_ev := c_ev c |}, Some n)
    | Some [] => if stop then Ok (c, None) else Disabled
    end.

(* The transaction and its pipe *)
Definition get_cell (s : bstate) (k : nat) : cell :=
  {| c_tx := txs s k; c_pipe := pipes s (x_pipe (txs s k)); c_ev := [] |}.
Definition put_cell (s : bstate) (k : nat) (c : cell) : bstate :=
  {| looper := looper s; txs := upd (txs s) k (c_tx c); count := count s;
     pipes := upd (pipes s) (x_pipe (txs s k)) (c_pipe c); npipes := npipes s; txfd := txfd s;
     stopped := stopped s; last := last s; th := th s; btrace := btrace s ++ c_ev c |}.
Definition on_cell (s : bstate) (k : nat) (f : cell -> out cell) : out bstate :=
  do c <- f (get_cell s k); Ok (put_cell s k c).

(* Where the thread is now, and its descriptors *)
Definition go (s : bstate) (t : phase) (fd : option nat) : bstate :=
  {| looper := looper s; txs := txs s; count := count s; pipes := pipes s; npipes := npipes s; txfd := fd;
     stopped := stopped s; last := last s; th := t; btrace := btrace s |}.

(* src/gbinder_ipc.c:649-767 gbinder_ipc_looper_transact,
   src/gbinder_ipc.c:1062-1117 gbinder_ipc_tx_handler_transact: a new transaction.
   src/gbinder_ipc.c:281-299 gbinder_ipc_looper_tx_new. The driver has one reference to the
   request (src/gbinder_driver.c:515-597 gbinder_driver_handle_transaction) *)
Definition transact_begin (s : bstate) : bstate :=
  let k := count s in
  let p := match txfd s with Some p => p | None => npipes s end in
  {| looper := looper s;
     txs := upd (txs s) k
       {| x_state := SCHEDULED; x_answer := (None, 0); x_refs := 2; x_pipe := p; x_has_req := true;
          q_refs := 2; q_has_tx := false; q_app := 0; x_cb := CbPending |};
     count := S k;
     pipes := match txfd s with Some _ => pipes s | None => upd (pipes s) p (Some []) end;
     npipes := match txfd s with Some _ => npipes s | None => S (npipes s) end;
     txfd := Some p; stopped := stopped s; last := last s; th := TWait1 k;
     btrace := btrace s ++ [Arrived k] |}.

(* The end of the same functions. A worker thread closes the pipe which is still its own:
   src/gbinder_ipc.c:1048-1060 gbinder_ipc_tx_handler_free *)
Definition transact_end (s : bstate) (k : nat) (a : answer) : out bstate :=
  let fin s := {| looper := looper s; txs := txs s; count := count s; pipes := pipes s; npipes := npipes s;
                  txfd := if looper s then txfd s else None; stopped := stopped s; last := stopped s;
                  th := TSent k; btrace := btrace s ++ [Answered k a] |} in
  match looper s, txfd s with
  | false, Some p =>
    match pipes s p with
    | Some _ =>
      Ok (fin {| looper := looper s; txs := txs s; count := count s; pipes := upd (pipes s) p None;
                 npipes := npipes s; txfd := txfd s; stopped := stopped s; last := last s; th := th s;
                 btrace := btrace s ++ [PipeClosed p] |})
    | None => Crash
    end
  | _, _ => Ok (fin s)
  end.

(* And what is in between *)
Definition thread_step (s : bstate) : out bstate :=
  match th s with
  | TIdle => Disabled
  | TWait1 k =>
    do (c, n) <- ipc_wait (stopped s) (get_cell s k);
    Ok (go (put_cell s k c)
          (match n with Some TX_BLOCKED => TWait2 k | Some TX_DONE => TTake k true | None => TTake k false end)
          (txfd s))
  | TWait2 k =>
    do (c, n) <- ipc_wait (stopped s) (get_cell s k);
    Ok (go (put_cell s k c) (TTake k (match n with Some _ => true | None => false end)) (txfd s))
  | TTake k done =>
    if x_refs (txs s k) <=? 0 then Crash
    else Ok (go s (TUnref k (if done then x_answer (txs s k) else (None, - EFAULT))) (txfd s))
  | TUnref k a =>
    do (c, dropped) <- tx_unref k true (get_cell s k);
    Ok (go (put_cell s k c) (TCancel k a) (if dropped : bool then txfd s else None))
  | TCancel k a =>
    do s1 <- (match x_cb (txs s k) with CbPending => on_cell s k (callback_gone k) | _ => Ok s end);
    transact_end s1 k a
  | TSent k =>
    do s1 <- on_cell s k (req_unref k);
    Ok (go s1 TIdle (txfd s1))
  end.

(* Who does what *)
Inductive move :=
| Arrive                             (* a transaction comes from the driver *)
| Thread                             (* the thread which has got it goes on *)
| Dispatch (k : nat)                 (* the event loop calls the handler *)
| Return (k : nat) (a : answer)      (* which returns *)
| Forget (k : nat)                   (* and the callback is dropped *)
| Ref (k : nat) | Unref (k : nat)    (* the application: gbinder_remote_request_ref, gbinder_remote_request_unref *)
| Block (k : nat)
| Complete (k : nat) (a : answer)
| Stop.                              (* src/gbinder_ipc.c:931-948 gbinder_ipc_looper_stop *)

(* The application can use the request *)
Definition usable (t : ltx) : bool :=
  (0 <? q_app t) || match x_cb t with CbRunning => true | _ => false end.

Definition step (s : bstate) (m : move) : out bstate :=
  let valid k f := if Nat.ltb k (count s) then on_cell s k f else Disabled in
  let app k f := valid k (fun c => if usable (c_tx c) then f c else Disabled) in
  match m with
  | Arrive =>
    match th s with
    | TIdle => if last s then Disabled else Ok (transact_begin s)
    | _ => Disabled
    end
  | Thread => thread_step s
  | Dispatch k => valid k (fun c => match x_cb (c_tx c) with CbPending => handle_begin k c | _ => Disabled end)
  | Return k a => valid k (fun c => match x_cb (c_tx c) with CbRunning => handle_end k a c | _ => Disabled end)
  | Forget k => valid k (fun c => match x_cb (c_tx c) with CbReturned => callback_gone k c | _ => Disabled end)
  | Ref k => app k request_ref
  | Unref k =>
    valid k (fun c =>
      if 0 <? q_app (c_tx c) then req_unref k (put c (q_set_app (c_tx c) (q_app (c_tx c) - 1))) else Disabled)
  | Block k => app k (fun c => request_block (say c (BlockCalled k)))
  | Complete k a => app k (fun c => request_complete k a (say c (CompleteCalled k a)))
  | Stop =>
    if looper s && negb (stopped s) then
      Ok {| looper := looper s; txs := txs s; count := count s; pipes := pipes s; npipes := npipes s; txfd := txfd s;
            stopped := true; last := last s; th := th s; btrace := btrace s ++ [StopCalled] |}
    else Disabled
  end.

(* A schedule *)
Fixpoint run (s : bstate) (l : list move) : out bstate :=
  match l with
  | [] => Ok s
  | m :: r => do s1 <- step s m; run s1 r
  end.

Definition no_tx : ltx :=
  {| x_state := SCHEDULED; x_answer := (None, 0); x_refs := 0; x_pipe := 0; x_has_req := false;
     q_refs := 0; q_has_tx := false; q_app := 0; x_cb := CbGone |}.
Definition initial (is_looper : bool) : bstate :=
  {| looper := is_looper; txs := fun _ => no_tx; count := 0; pipes := fun _ => None; npipes := 0;
     txfd := None; stopped := false; last := false; th := TIdle; btrace := [] |}.
