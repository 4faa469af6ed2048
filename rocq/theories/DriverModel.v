(* Model of src/gbinder_driver.c: the stream of commands from the kernel, and of
   references to kernel buffers (src/gbinder_buffer.c).

   One thread is modelled. Whatever the rest of the process does (the registry of
   objects, transaction handlers of the application, the contents of memory) is given
   by arbitrary functions of the history of the thread; handlers are programs which
   may make calls of their own and keep or drop references to received buffers.
   Functions take fuel because loops and recursion are unlimited; running out of fuel
   is a separate outcome. *)
From Verif Require Import Base UtfModel WriterModel ReaderModel ObjModel ObjReader KernelModel TxModel.

Definition EBADMSG : Z := 74.
Definition EAGAIN : Z := 11.
Definition EFAULT : Z := 14.
(* include/gbinder_types.h:151-155 *)
Definition STATUS_OK : Z := 0.
Definition STATUS_FAILED : Z := 1.
Definition STATUS_DEAD_OBJECT : Z := 2.

(* include/uapi/asm-generic/ioctl.h of Linux: _IO, _IOR and _IOC_SIZE *)
Definition ioc_size (cmd : Z) : Z := cmd / 2 ^ 16 mod 2 ^ 14.
Definition br_io (nr : Z) : Z := 114 * 2 ^ 8 + nr.
Definition br_ior (nr size : Z) : Z := 2 * 2 ^ 30 + size * 2 ^ 16 + 114 * 2 ^ 8 + nr.

(* What comes from the driver, src/binder.h:161-180 enum binder_driver_return_protocol *)
Inductive rcmd :=
| RNoop | ROk | RComplete | RSpawnLooper | RFinished
| RIncrefs (obj : Z) | RDecrefs (obj : Z) | RAcquire (obj : Z) | RRelease (obj : Z)
| RTransaction (tx : txdata) | RReply (tx : txdata) | RDeadReply | RFailedReply
| RDeadBinder (handle : Z) | RClearDone | ROther.

(* The payloads are decoded by decode_transaction_data, decode_ptr_cookie and
   decode_cookie, src/gbinder_io.c:268-291 *)
Definition decode_cmd (i : io) (m : memory) (cmd : Z) (payload : bytes) : rcmd :=
  let ptr := psz i in
  let first := unle (slice payload 0 ptr) in
  if cmd =? br_io 6 then RComplete
  else if cmd =? br_io 5 then RDeadReply
  else if cmd =? br_io 17 then RFailedReply
  else if cmd =? br_ior 3 (tr_size i) then RReply (decode_transaction_data i m payload)
  else if cmd =? br_io 12 then RNoop
  else if cmd =? br_io 1 then ROk
  else if cmd =? br_io 13 then RSpawnLooper
  else if cmd =? br_io 14 then RFinished
  else if cmd =? br_ior 7 (2 * ptr) then RIncrefs first
  else if cmd =? br_ior 10 (2 * ptr) then RDecrefs first
  else if cmd =? br_ior 8 (2 * ptr) then RAcquire first
  else if cmd =? br_ior 9 (2 * ptr) then RRelease first
  else if cmd =? br_ior 2 (tr_size i) then RTransaction (decode_transaction_data i m payload)
  else if cmd =? br_ior 15 ptr then RDeadBinder (u32 first)
  else if cmd =? br_ior 16 ptr then RClearDone
  else ROther.

(* What is written to the driver *)
Inductive wcmd :=
| WTransaction (oneway : bool)
| WReplyData
| WReplyStatus (status : Z)
| WFreeBuffer (buffer : Z)
| WIncrefsDone (payload : bytes)
| WAcquireDone (payload : bytes)
| WDeadBinderDone (payload : bytes).

(* What a thread does, in order *)
Inductive dev :=
| Begin (oneway : option bool)                    (* a call: read (None) or transact *)
| End (status : Z)
| Input (b : bytes)                               (* bytes which came from the kernel *)
| Failed (err : positive)                                (* the system call failed *)
| Got (cmd : Z) (payload : bytes) (c : rcmd)      (* a command is taken *)
| Returned (reply : bool) (status : Z)            (* a transaction handler returned that *)
| Leave                                           (* the transaction has been handled *)
| Wrote (w : wcmd)
| Increfs (obj : Z) | Acquire (obj : Z)
| Deferred (release : bool) (obj : Z)             (* to be unreferenced later *)
| Unref (release : bool) (obj : Z)                (* and that's when it happens *)
| Death (handle : Z)
| Unexpected (c : rcmd).                          (* a warning is printed *)

(* A transaction handler. It can keep the received data (e.g. by referencing the
   request), drop any reference which the application has, or make a call. The result
   is a reply, which may refer to contents of a buffer, or a status. *)
Inductive hprog :=
| HReturn (reply : option (option nat)) (status : Z)
| HKeep (k : hprog)
| HDrop (n : nat) (k : hprog)
| HTransact (oneway : bool) (k : Z -> hprog).

Record env := {
  e_io : io;
  e_mem : list dev -> memory;
  e_local : list dev -> Z -> bool;            (* is there such a local object? *)
  e_remote : list dev -> Z -> bool;           (* is there such a remote object? *)
  e_handler : list dev -> txdata -> option hprog;
  e_can_loop : list dev -> bool
}.

(* What the system call does: fails, or returns the data. If there is no room for all
   that data, the rest comes later. *)
Inductive ioresult := IoErr (err : positive) | IoData (b : bytes).

(* EAGAIN means one more try *)
Fixpoint no_again (l : list ioresult) : list ioresult :=
  match l with IoErr 11 :: r => no_again r | _ => l end.

(* [heap]: address and number of references of each GBinderBufferContents ever made.
   [app]: the contents which the rest of the process refers to, once per reference *)
Record dstate := {
  ios : list ioresult;
  trace : list dev;
  heap : list (Z * Z);
  app : list nat
}.

Inductive why := NoFuel | Blocked | Faulted.
Inductive out (A : Type) :=
| Done (a : A) (s : dstate)
| Stop (w : why) (s : dstate).
Arguments Done {A} a s.
Arguments Stop {A} w s.
Definition M (A : Type) : Type := dstate -> out A.
Definition ret {A} (a : A) : M A := fun s => Done a s.
Definition bindM {A B} (m : M A) (f : A -> M B) : M B :=
  fun s => match m s with Done a s1 => f a s1 | Stop w s1 => Stop w s1 end.
Notation "'do' x '<-' a ';' b" := (bindM a (fun x => b))
  (at level 200, x pattern, a at level 100, b at level 200, right associativity).

Definition emit (e : dev) : M unit :=
  fun s => Done tt {| ios := ios s; trace := trace s ++ [e]; heap := heap s; app := app s |}.
Definition history : M (list dev) := fun s => Done (trace s) s.
Definition set_app (l : list nat) : M unit :=
  fun s => Done tt {| ios := ios s; trace := trace s; heap := heap s; app := l |}.
Definition get_app : M (list nat) := fun s => Done (app s) s.

(* ------------------------------------------------------------------ *)
(* src/gbinder_buffer.c *)
Definition refs_of (s : dstate) (id : nat) : Z := snd (nth id (heap s) (0, 0)).
Definition buffer_of (s : dstate) (id : nat) : Z := fst (nth id (heap s) (0, 0)).
Definition set_refs (h : list (Z * Z)) (id : nat) (n : Z) : list (Z * Z) :=
  firstn id h ++ match skipn id h with [] => [] | (b, _) :: r => (b, n) :: r end.

(* src/gbinder_buffer.c:59-75 gbinder_buffer_contents_new; the number identifies it *)
Definition contents_new (buffer : Z) : M nat :=
  fun s => Done (length (heap s))
    {| ios := ios s; trace := trace s; heap := heap s ++ [(buffer, 1)]; app := app s |}.

(* src/gbinder_buffer.c:92-101 gbinder_buffer_contents_ref *)
Definition contents_ref (id : nat) : M unit :=
  fun s =>
    if refs_of s id <=? 0 then Stop Faulted s
    else Done tt {| ios := ios s; trace := trace s; heap := set_refs (heap s) id (refs_of s id + 1); app := app s |}.

(* src/gbinder_driver.c:1156-1178 gbinder_driver_free_buffer *)
Definition free_buffer (buffer : Z) : M unit :=
  if buffer =? 0 then ret tt else emit (Wrote (WFreeBuffer buffer)).

(* src/gbinder_buffer.c:103-113 gbinder_buffer_contents_unref and
   src/gbinder_buffer.c:77-90 gbinder_buffer_contents_free (closing of file descriptors
   is not modelled, it happens at the same time) *)
Definition contents_unref (id : nat) : M unit :=
  fun s =>
    if refs_of s id <=? 0 then Stop Faulted s
    else
      let s1 := {| ios := ios s; trace := trace s; heap := set_refs (heap s) id (refs_of s id - 1); app := app s |} in
      if refs_of s id - 1 =? 0 then free_buffer (buffer_of s id) s1 else Done tt s1.

Fixpoint each (f : nat -> M unit) (l : list nat) : M unit :=
  match l with [] => ret tt | i :: r => do _ <- f i; each f r end.

(* src/gbinder_buffer.c:120-128 gbinder_buffer_contents_list_add *)
Definition list_add (l : list nat) (c : option nat) : M (list nat) :=
  match c with
  | Some id => do _ <- contents_ref id; ret (id :: l)
  | None => ret l
  end.

(* ------------------------------------------------------------------ *)
(* src/gbinder_driver.c *)
Definition READ_BUFFER_SIZE : Z := 128.

(* GBinderDriverReadBuf *)
Record rbuf := { rb_data : bytes; rb_consumed : Z; rb_offset : Z }.
(* src/gbinder_driver.c:379-392 gbinder_driver_read_init *)
Definition read_init : rbuf := {| rb_data := zrepeat 0 READ_BUFFER_SIZE; rb_consumed := 0; rb_offset := 0 |}.

(* GBinderDriverContext *)
Record ctx := { cx_rbuf : rbuf; cx_unrefs : list (bool * Z); cx_bufs : list nat }.
Definition set_rbuf (cx : ctx) (rb : rbuf) : ctx := {| cx_rbuf := rb; cx_unrefs := cx_unrefs cx; cx_bufs := cx_bufs cx |}.
Definition set_bufs (cx : ctx) (l : list nat) : ctx := {| cx_rbuf := cx_rbuf cx; cx_unrefs := cx_unrefs cx; cx_bufs := l |}.
(* src/gbinder_driver.c:394-407 gbinder_driver_context_init *)
Definition context_init : ctx := {| cx_rbuf := read_init; cx_unrefs := []; cx_bufs := [] |}.

(* src/gbinder_driver.c:246-307 gbinder_driver_write_read, together with write_read of
   src/gbinder_io.c:61-92. EINTR is handled by gbinder_system_ioctl and doesn't appear
   here; the write part is the caller's business. Returns zero or an error. *)
Definition write_read (rb : rbuf) : M (Z * rbuf) :=
  fun s =>
    match no_again (ios s) with
    | [] => Stop Blocked s
    | IoErr err :: r =>
      Done (Z.neg err, rb) {| ios := r; trace := trace s ++ [Failed err]; heap := heap s; app := app s |}
    | IoData b :: r =>
      let at_ := rb_offset rb + (rb_consumed rb - rb_offset rb) in
      let room := (READ_BUFFER_SIZE - rb_offset rb) - (rb_consumed rb - rb_offset rb) in
      let now := ztake room b in
      let later := zdrop room b in
      Done (0, {| rb_data := poke (rb_data rb) at_ now;
                  rb_consumed := (rb_consumed rb - rb_offset rb) + blen now + rb_offset rb;
                  rb_offset := rb_offset rb |})
        {| ios := match later with [] => r | _ => IoData later :: r end;
           trace := trace s ++ [Input now]; heap := heap s; app := app s |}
    end.

(* src/gbinder_driver.c:418-438 gbinder_driver_next_command *)
Definition next_command (rb : rbuf) : Z :=
  if rb_offset rb <? rb_consumed rb then
    let remaining := rb_consumed rb - rb_offset rb in
    if 4 <=? remaining then
      let cmd := unle (slice (rb_data rb) (rb_offset rb) 4) in
      if 4 + ioc_size cmd <=? remaining then cmd else 0
    else 0
  else 0.

(* The command, its data, and what it is *)
Definition take_command (E : env) (rb : rbuf) (cmd : Z) : M (rbuf * bytes * rcmd) :=
  fun s =>
    let payload := slice (rb_data rb) (rb_offset rb + 4) (ioc_size cmd) in
    let c := decode_cmd (e_io E) (e_mem E (trace s)) cmd payload in
    Done ({| rb_data := rb_data rb; rb_consumed := rb_consumed rb; rb_offset := rb_offset rb + (ioc_size cmd + 4) |}, payload, c)
      {| ios := ios s; trace := trace s ++ [Got cmd payload c]; heap := heap s; app := app s |}.

(* src/gbinder_driver.c:731-750 gbinder_driver_compact_read_buf *)
Definition compact_read_buf (rb : rbuf) : rbuf :=
  if rb_offset rb <? rb_consumed rb then
    let unprocessed := rb_consumed rb - rb_offset rb in
    {| rb_data := poke (rb_data rb) 0 (slice (rb_data rb) (rb_offset rb) unprocessed);
       rb_consumed := unprocessed; rb_offset := 0 |}
  else {| rb_data := rb_data rb; rb_consumed := 0; rb_offset := 0 |}.

(* src/gbinder_driver.c:599-608 gbinder_driver_cleanup_decrefs,
   src/gbinder_driver.c:610-619 gbinder_driver_cleanup_release;
   src/gbinder_cleanup.c:80-87 gbinder_cleanup_free calls them in the order in which
   they were added *)
Fixpoint run_unrefs (l : list (bool * Z)) : M unit :=
  match l with
  | [] => ret tt
  | (release, obj) :: r => do _ <- emit (Unref release obj); run_unrefs r
  end.

(* src/gbinder_driver.c:409-416 gbinder_driver_context_cleanup *)
Definition context_cleanup (cx : ctx) : M unit :=
  do _ <- run_unrefs (cx_unrefs cx);
  each contents_unref (cx_bufs cx).

(* Functions which call each other *)
Record fns := {
  f_handle_command : ctx -> bytes -> rcmd -> M ctx;
  f_handle_commands : ctx -> M ctx;
  f_txstatus : ctx -> bool -> M (Z * ctx * option nat);
  f_wait_handled : ctx -> M ctx;
  f_run_handler : option nat -> hprog -> M (option (option nat) * Z);
  f_wait_reply : ctx -> bool -> M (Z * ctx * option nat);
  f_drain : ctx -> bool -> Z -> M (Z * ctx)
}.

(* A reference which the application has, and the others *)
Fixpoint take_nth (n : nat) (l : list nat) : option nat * list nat :=
  match l, n with
  | [], _ => (None, [])
  | x :: r, O => (Some x, r)
  | x :: r, S m => let (y, r') := take_nth m r in (y, x :: r')
  end.

(* gbinder_local_object_handle_acquire, src/gbinder_local_object.c:580-606: the buffers
   stay referenced until the object is acquired on the main thread *)
Definition handle_acquire (bufs : list nat) (obj : Z) : M unit :=
  do _ <- emit (Acquire obj);
  do _ <- each contents_ref bufs;
  do l <- get_app;
  set_app (l ++ bufs).

(* Dropping of an optional reference *)
Definition unref_opt (c : option nat) : M unit :=
  match c with Some id => contents_unref id | None => ret tt end.

(* src/gbinder_driver.c:515-597 gbinder_driver_handle_transaction *)
Definition handle_transaction (E : env) (F : fns) (cx : ctx) (tx : txdata) : M ctx :=
  do (cx1, req) <-
    (if negb (tx_data tx =? 0) && negb (tx_size tx =? 0) then
       do id <- contents_new (tx_data tx);
       do bufs <- list_add (cx_bufs cx) (Some id);
       ret (set_bufs cx bufs, Some id)
     else
       do _ <- free_buffer (tx_data tx);
       ret (cx, None));
  do h <- history;
  do (reply, status) <-
    match e_handler E h tx with
    | Some p => f_run_handler F req p
    | None => ret (None, - EBADMSG)
    end;
  do _ <- emit (Returned (match reply with Some _ => true | None => false end) status);
  do cx2 <-
    (if Z.testbit (tx_flags tx) 0 then ret cx1
     else
       do cx2 <-
         match reply with
         | Some contents =>
           (* src/gbinder_driver.c:467-513 gbinder_driver_reply_data *)
           do bufs <- list_add (cx_bufs cx1) contents;
           do _ <- emit (Wrote WReplyData);
           ret (set_bufs cx1 bufs)
         | None =>
           (* src/gbinder_driver.c:440-465 gbinder_driver_reply_status *)
           do _ <- emit (Wrote (WReplyStatus status));
           ret cx1
         end;
       f_wait_handled F cx2);
  do _ <- unref_opt req;
  do _ <- unref_opt (match reply with Some contents => contents | None => None end);
  do _ <- emit Leave;
  ret cx2.

(* The loop which waits until the reply is handled, src/gbinder_driver.c:585-590 *)
Definition wait_handled (E : env) (F : fns) (cx : ctx) : M ctx :=
  do (err, rb) <- write_read (cx_rbuf cx);
  if 0 <=? err then
    do (status, cx1, _) <- f_txstatus F (set_rbuf cx rb) false;
    if status =? - EAGAIN then f_wait_handled F cx1 else ret cx1
  else if err =? - EAGAIN then f_wait_handled F (set_rbuf cx rb)
  else ret (set_rbuf cx rb).

(* src/gbinder_driver.c:621-729 gbinder_driver_handle_command *)
Definition handle_command (E : env) (F : fns) (cx : ctx) (data : bytes) (c : rcmd) : M ctx :=
  do h <- history;
  match c with
  | RIncrefs obj =>
    do _ <- (if e_local E h obj then emit (Increfs obj) else ret tt);
    do _ <- emit (Wrote (WIncrefsDone data));
    ret cx
  | RDecrefs obj =>
    if e_local E h obj then
      do _ <- emit (Deferred false obj);
      ret {| cx_rbuf := cx_rbuf cx; cx_unrefs := cx_unrefs cx ++ [(false, obj)]; cx_bufs := cx_bufs cx |}
    else ret cx
  | RAcquire obj =>
    if e_local E h obj then
      do _ <- handle_acquire (cx_bufs cx) obj;
      ret cx
    else
      do _ <- emit (Wrote (WAcquireDone data));
      ret cx
  | RRelease obj =>
    if e_local E h obj then
      do _ <- emit (Deferred true obj);
      ret {| cx_rbuf := cx_rbuf cx; cx_unrefs := cx_unrefs cx ++ [(true, obj)]; cx_bufs := cx_bufs cx |}
    else ret cx
  | RTransaction tx => handle_transaction E F cx tx
  | RDeadBinder handle =>
    do _ <- (if e_remote E h handle then emit (Death handle) else emit (Wrote (WDeadBinderDone data)));
    ret cx
  | RReply _ | RDeadReply | RFailedReply | ROther =>
    do _ <- emit (Unexpected c);
    ret cx
  | RNoop | ROk | RComplete | RSpawnLooper | RFinished | RClearDone => ret cx
  end.

(* src/gbinder_driver.c:752-772 gbinder_driver_handle_commands; one round of the loop *)
Definition handle_commands (E : env) (F : fns) (cx : ctx) : M ctx :=
  let rb := cx_rbuf cx in
  let cmd := next_command rb in
  if cmd =? 0 then ret (set_rbuf cx (compact_read_buf rb))
  else
    do (rb1, data, c) <- take_command E rb cmd;
    do cx1 <- f_handle_command F (set_rbuf cx rb1) data c;
    f_handle_commands F cx1.

(* src/gbinder_driver.c:774-854 gbinder_driver_txstatus; one round of the loop. [reply]
   tells if there is a reply to fill; the last part of the result is its buffer. *)
Definition txstatus (E : env) (F : fns) (cx : ctx) (reply : bool) : M (Z * ctx * option nat) :=
  let rb := cx_rbuf cx in
  let cmd := next_command rb in
  let finish status cx tok := ret (status, set_rbuf cx (compact_read_buf (cx_rbuf cx)), tok) in
  if cmd =? 0 then finish (- EAGAIN) cx None
  else
    do (rb1, data, c) <- take_command E rb cmd;
    let cx1 := set_rbuf cx rb1 in
    match c with
    | RComplete => if reply then f_txstatus F cx1 reply else finish STATUS_OK cx1 None
    | RDeadReply => finish STATUS_DEAD_OBJECT cx1 None
    | RFailedReply => finish STATUS_FAILED cx1 None
    | RReply tx =>
      do (cx2, tok) <-
        (if negb (tx_data tx =? 0) && negb (tx_size tx =? 0) && reply then
           do id <- contents_new (tx_data tx);
           do bufs <- list_add (cx_bufs cx1) (Some id);
           ret (set_bufs cx1 bufs, Some id)
         else
           do _ <- free_buffer (tx_data tx);
           ret (cx1, None));
      let status :=
        if (tx_status tx =? - EAGAIN) || (tx_status tx =? STATUS_FAILED) || (tx_status tx =? STATUS_DEAD_OBJECT)
        then - EFAULT else tx_status tx in
      finish status cx2 tok
    | _ =>
      do cx2 <- f_handle_command F cx1 data c;
      f_txstatus F cx2 reply
    end.

(* The loops of gbinder_driver_transact: wait for the status... *)
Definition wait_reply (E : env) (F : fns) (cx : ctx) (reply : bool) : M (Z * ctx * option nat) :=
  do (err, rb) <- write_read (cx_rbuf cx);
  if err <? 0 then
    if err =? - EAGAIN then f_wait_reply F (set_rbuf cx rb) reply
    else ret (err, set_rbuf cx rb, None)
  else
    do (status, cx1, tok) <- f_txstatus F (set_rbuf cx rb) reply;
    if status =? - EAGAIN then f_wait_reply F cx1 reply else ret (status, cx1, tok).

(* ...and handle what else there is (the loop of gbinder_driver_read is like that too,
   only it stops when the handler can't loop). [status] is the result if there are no
   errors *)
Definition drain (E : env) (F : fns) (cx : ctx) (check : bool) (status : Z) : M (Z * ctx) :=
  do cx1 <- f_handle_commands F cx;
  do h <- history;
  if negb (rb_consumed (cx_rbuf cx1) =? 0) && (negb check || e_can_loop E h) then
    do (err, rb) <- write_read (cx_rbuf cx1);
    if err <? 0 then ret (err, set_rbuf cx1 rb)
    else f_drain F (set_rbuf cx1 rb) check status
  else ret (status, cx1).

(* src/gbinder_driver.c:1225-1313 gbinder_driver_transact. The write is accepted with the
   first system call which doesn't fail. The result is the status, and the contents
   of the reply. *)
Definition transact (E : env) (F : fns) (oneway : bool) : M (Z * option nat) :=
  do _ <- emit (Begin (Some oneway));
  do _ <- emit (Wrote (WTransaction oneway));
  do (status, cx1, tok) <- f_wait_reply F context_init (negb oneway);
  do (status2, cx2) <- (if 0 <=? status then f_drain F cx1 false status else ret (status, cx1));
  do _ <- context_cleanup cx2;
  do _ <- emit (End status2);
  ret (status2, tok).

(* src/gbinder_driver.c:1196-1223 gbinder_driver_read *)
Definition driver_read (E : env) (F : fns) : M Z :=
  do _ <- emit (Begin None);
  do (err, rb) <- write_read read_init;
  do (status, cx1) <-
    (if 0 <=? err then f_drain F (set_rbuf context_init rb) true err else ret (err, set_rbuf context_init rb));
  do _ <- context_cleanup cx1;
  do _ <- emit (End status);
  ret status.

(* A transaction handler of the application *)
Definition run_handler (E : env) (F : fns) (req : option nat) (p : hprog) : M (option (option nat) * Z) :=
  match p with
  | HReturn None status => ret (None, status)
  | HReturn (Some None) status => ret (Some None, status)
  | HReturn (Some (Some n)) status =>
    do l <- get_app;
    let (c, l1) := take_nth n l in
    do _ <- set_app l1;
    ret (Some c, status)
  | HKeep k =>
    do _ <-
      match req with
      | Some id =>
        do _ <- contents_ref id;
        do l <- get_app;
        set_app (l ++ [id])
      | None => ret tt
      end;
    f_run_handler F req k
  | HDrop n k =>
    do l <- get_app;
    let (c, l1) := take_nth n l in
    do _ <- set_app l1;
    do _ <- unref_opt c;
    f_run_handler F req k
  | HTransact oneway k =>
    do (status, tok) <- transact E F oneway;
    do l <- get_app;
    do _ <- set_app (l ++ match tok with Some id => [id] | None => [] end);
    f_run_handler F req (k status)
  end.

Definition no_fuel {A} : M A := fun s => Stop NoFuel s.
Fixpoint fns_of (E : env) (fuel : nat) : fns :=
  match fuel with
  | O => {| f_handle_command := fun _ _ _ => no_fuel; f_handle_commands := fun _ => no_fuel;
            f_txstatus := fun _ _ => no_fuel; f_wait_handled := fun _ => no_fuel;
            f_run_handler := fun _ _ => no_fuel; f_wait_reply := fun _ _ => no_fuel;
            f_drain := fun _ _ _ => no_fuel |}
  | S n =>
    let F := fns_of E n in
    {| f_handle_command := handle_command E F; f_handle_commands := handle_commands E F;
       f_txstatus := txstatus E F; f_wait_handled := wait_handled E F;
       f_run_handler := run_handler E F; f_wait_reply := wait_reply E F;
       f_drain := drain E F |}
  end.

(* ------------------------------------------------------------------ *)
(* What the thread does over its life: reads, calls, and the rest of the process drops
   references or takes more of them *)
Inductive top := TopRead | TopCall (oneway : bool) | TopDrop (n : nat) | TopKeep (n : nat).

Definition top_step (E : env) (F : fns) (o : top) : M unit :=
  match o with
  | TopRead => do _ <- driver_read E F; ret tt
  | TopCall oneway =>
    do (_, tok) <- transact E F oneway;
    do l <- get_app;
    set_app (l ++ match tok with Some id => [id] | None => [] end)
  | TopDrop n =>
    do l <- get_app;
    let (c, l1) := take_nth n l in
    do _ <- set_app l1;
    unref_opt c
  | TopKeep n =>
    do l <- get_app;
    match fst (take_nth n l) with
    | Some id => do _ <- contents_ref id; set_app (l ++ [id])
    | None => ret tt
    end
  end.

Fixpoint life (E : env) (F : fns) (l : list top) : M unit :=
  match l with [] => ret tt | o :: r => do _ <- top_step E F o; life E F r end.

Definition start (input : list ioresult) : dstate := {| ios := input; trace := []; heap := []; app := [] |}.
