(* Model of what is written to the binder driver: the commands which src/gbinder_driver.c makes, and how
   they are passed to the kernel by ioctl.

   Simplifications: addresses of the payload, of the array of offsets and of the status are given (the
   structures which contain them are in TxModel); arguments which aren't NULL. *)
From Verif Require Import Base UtfModel WriterModel ReaderModel ObjModel ObjReader KernelModel TxModel.

(* ------------------------------------------------------------------ *)
(* Commands *)

(* include/uapi/asm-generic/ioctl.h of Linux: _IO('c', nr) and _IOW('c', nr, type), and src/binder.h:181-201
   enum binder_driver_command_protocol *)
Definition bc_io (nr : Z) : Z := 99 * 2 ^ 8 + nr.
Definition bc_iow (nr size : Z) : Z := 1 * 2 ^ 30 + size * 2 ^ 16 + 99 * 2 ^ 8 + nr.
Definition BC_TRANSACTION (i : io) : Z := bc_iow 0 (tr_size i).
Definition BC_REPLY (i : io) : Z := bc_iow 1 (tr_size i).
Definition BC_FREE_BUFFER (i : io) : Z := bc_iow 3 (psz i).
Definition BC_INCREFS : Z := bc_iow 4 4.
Definition BC_ACQUIRE : Z := bc_iow 5 4.
Definition BC_RELEASE : Z := bc_iow 6 4.
Definition BC_DECREFS : Z := bc_iow 7 4.
Definition BC_INCREFS_DONE (i : io) : Z := bc_iow 8 (2 * psz i).
Definition BC_ACQUIRE_DONE (i : io) : Z := bc_iow 9 (2 * psz i).
Definition BC_ENTER_LOOPER : Z := bc_io 12.
Definition BC_EXIT_LOOPER : Z := bc_io 13.
Definition BC_REQUEST_DEATH_NOTIFICATION (i : io) : Z := bc_iow 14 (4 + psz i).
Definition BC_CLEAR_DEATH_NOTIFICATION (i : io) : Z := bc_iow 15 (4 + psz i).
Definition BC_DEAD_BINDER_DONE (i : io) : Z := bc_iow 16 (psz i).
Definition BC_TRANSACTION_SG (i : io) : Z := bc_iow 17 (tr_size i + psz i).
Definition BC_REPLY_SG (i : io) : Z := bc_iow 18 (tr_size i + psz i).
(* _IOC_SIZE *)
Definition ioc_size (cmd : Z) : Z := cmd / 2 ^ 16 mod 2 ^ 14.

(* src/gbinder_io.h:135-171 *)
Definition MAX_POINTER_SIZE : Z := 8.
Definition MAX_COOKIE_SIZE : Z := 8.
Definition MAX_HANDLE_COOKIE_SIZE : Z := 12.
Definition MAX_PTR_COOKIE_SIZE : Z := 16.
Definition MAX_BC_TRANSACTION_SIZE : Z := 64.
Definition MAX_BC_TRANSACTION_SG_SIZE : Z := 72.
(* The command is made in an array of that size *)
Definition in_array (size : Z) (b : bytes) : res bytes := if blen b <=? size then Ok b else Fault OutOfBounds.

(* src/gbinder_io.c:141-152 encode_pointer *)
Definition encode_pointer (i : io) (p : Z) : bytes := le (psize i) p.
(* src/gbinder_io.c:154-165 encode_cookie *)
Definition encode_cookie (i : io) (c : Z) : bytes := le (psize i) c.
(* src/gbinder_io.c:265-277 encode_handle_cookie; src/binder.h:148-151 struct binder_handle_cookie is packed *)
Definition encode_handle_cookie (i : io) (handle : Z) : bytes := le 4 handle ++ le (psize i) handle.
(* src/gbinder_io.c:279-291 encode_ptr_cookie *)
Definition encode_ptr_cookie (i : io) (obj : Z) : bytes := le (psize i) obj ++ le (psize i) 0.

(* src/gbinder_driver.c:309-321 gbinder_driver_cmd: what is written *)
Definition driver_cmd (cmd : Z) : res bytes := in_array 4 (le 4 cmd).
(* src/gbinder_driver.c:323-339 gbinder_driver_cmd_int32 *)
Definition driver_cmd_int32 (cmd param : Z) : res bytes := in_array 8 (le 4 cmd ++ le 4 param).
(* src/gbinder_driver.c:341-359 gbinder_driver_cmd_data. [size] is that of the array of the caller *)
Definition driver_cmd_data (cmd : Z) (payload : bytes) (size : Z) : res bytes :=
  let* p := load payload 0 (ioc_size cmd) in
  in_array size (le 4 cmd ++ p).
(* src/gbinder_driver.c:361-377 gbinder_driver_handle_cookie *)
Definition driver_handle_cookie (i : io) (cmd handle : Z) : res bytes :=
  in_array (4 + MAX_HANDLE_COOKIE_SIZE) (le 4 cmd ++ encode_handle_cookie i handle).
(* src/gbinder_driver.c:440-465 gbinder_driver_reply_status *)
Definition driver_reply_status (i : io) (status_addr : Z) : res bytes :=
  in_array (4 + MAX_BC_TRANSACTION_SIZE) (le 4 (BC_REPLY i) ++ encode_status_reply i status_addr).
(* src/gbinder_driver.c:467-513 gbinder_driver_reply_data *)
Definition driver_reply_data (i : io) (payload payload_len : Z) (offsets : list Z) (offs_addr extra_buffers : Z) : res bytes :=
  in_array (MAX_BC_TRANSACTION_SG_SIZE + 4)
    (if extra_buffers =? 0
     then le 4 (BC_REPLY i) ++ fst (encode_reply i 0 0 payload payload_len offsets offs_addr)
     else le 4 (BC_REPLY_SG i) ++ fst (encode_reply_sg i 0 0 payload payload_len offsets offs_addr extra_buffers)).
(* src/gbinder_driver.c:1225-1313 gbinder_driver_transact: what is written. [reply]: whether there's a
   GBinderRemoteReply *)
Definition driver_transact (i : io) (handle code : Z) (reply : bool) (payload payload_len : Z) (offsets : list Z)
  (offs_addr extra_buffers : Z) : res bytes :=
  let flags := if reply then 0 else TX_FLAG_ONEWAY in
  in_array (MAX_BC_TRANSACTION_SG_SIZE + 4)
    (if extra_buffers =? 0
     then le 4 (BC_TRANSACTION i) ++ fst (encode_transaction i handle code payload payload_len flags offsets offs_addr)
     else le 4 (BC_TRANSACTION_SG i) ++ fst (encode_transaction_sg i handle code payload payload_len flags offsets offs_addr extra_buffers)).

(* Functions of src/gbinder_driver.c which write something, with their arguments. Remote objects are given by
   their handles, local objects by their addresses. *)
Inductive call :=
| CIncrefs (handle : Z) | CDecrefs (handle : Z) | CAcquire (handle : Z) | CRelease (handle : Z)
| CRequestDeath (handle : Z) | CClearDeath (handle : Z) | CDeadDone (handle : Z)
| CAcquireDone (obj : Z)
| CFreeBuffer (buffer : Z)
| CEnterLooper | CExitLooper
| CGotIncrefs (payload : bytes)            (* a command from the kernel with that payload *)
| CGotAcquire (payload : bytes)            (* the same when there's no such object *)
| CGotDead (payload : bytes)
| CReplyStatus (status_addr : Z)
| CReply (payload payload_len : Z) (offsets : list Z) (offs_addr extra_buffers : Z)
| CTransact (handle code : Z) (reply : bool) (payload payload_len : Z) (offsets : list Z) (offs_addr extra_buffers : Z).
Definition command (i : io) (c : call) : res bytes :=
  match c with
  (* src/gbinder_driver.c:1094-1101 gbinder_driver_increfs, 1103-1110 gbinder_driver_decrefs, 1112-1119
     gbinder_driver_acquire, 1121-1128 gbinder_driver_release *)
  | CIncrefs h => driver_cmd_int32 BC_INCREFS h
  | CDecrefs h => driver_cmd_int32 BC_DECREFS h
  | CAcquire h => driver_cmd_int32 BC_ACQUIRE h
  | CRelease h => driver_cmd_int32 BC_RELEASE h
  (* src/gbinder_driver.c:1066-1078 gbinder_driver_request_death_notification, 1080-1092
     gbinder_driver_clear_death_notification *)
  | CRequestDeath h => driver_handle_cookie i (BC_REQUEST_DEATH_NOTIFICATION i) h
  | CClearDeath h => driver_handle_cookie i (BC_CLEAR_DEATH_NOTIFICATION i) h
  (* src/gbinder_driver.c:1043-1064 gbinder_driver_dead_binder_done *)
  | CDeadDone h => in_array (4 + MAX_COOKIE_SIZE) (le 4 (BC_DEAD_BINDER_DONE i) ++ encode_cookie i h)
  (* src/gbinder_driver.c:1024-1041 gbinder_driver_acquire_done *)
  | CAcquireDone obj => in_array (4 + MAX_PTR_COOKIE_SIZE) (le 4 (BC_ACQUIRE_DONE i) ++ encode_ptr_cookie i obj)
  (* src/gbinder_driver.c:1156-1178 gbinder_driver_free_buffer *)
  | CFreeBuffer p => in_array (MAX_POINTER_SIZE + 4) (le 4 (BC_FREE_BUFFER i) ++ encode_pointer i p)
  (* src/gbinder_driver.c:1180-1186 gbinder_driver_enter_looper, 1188-1194 gbinder_driver_exit_looper *)
  | CEnterLooper => driver_cmd BC_ENTER_LOOPER
  | CExitLooper => driver_cmd BC_EXIT_LOOPER
  (* src/gbinder_driver.c:621-729 gbinder_driver_handle_command *)
  | CGotIncrefs p => driver_cmd_data (BC_INCREFS_DONE i) p (4 + MAX_PTR_COOKIE_SIZE)
  | CGotAcquire p => driver_cmd_data (BC_ACQUIRE_DONE i) p (4 + MAX_PTR_COOKIE_SIZE)
  | CGotDead p => driver_cmd_data (BC_DEAD_BINDER_DONE i) p (4 + MAX_COOKIE_SIZE)
  | CReplyStatus a => driver_reply_status i a
  | CReply p n offs a extra => driver_reply_data i p n offs a extra
  | CTransact h code reply p n offs a extra => driver_transact i h code reply p n offs a extra
  end.

(* ------------------------------------------------------------------ *)
(* Writing *)
Definition EINTR : Z := 4.
Definition EAGAIN : Z := 11.
(* One ioctl, as seen by the library. The kernel takes some of the bytes which it's offered, counts them in
   write_consumed, and then succeeds or fails; failing in the end (e.g. while it waits for something to
   read) doesn't mean that nothing was taken. [again]: gbinder_driver_txstatus finds no status of the
   transaction in what was read. *)
Inductive answer :=
| Took (n : nat) (again : bool)
| Error (e : positive) (n : nat).       (* errno *)
Inductive result :=
| Waits (got : bytes)                     (* it's still in the kernel *)
| Returns (ret : Z) (got : bytes).        (* what the function returns; all the bytes which were taken *)

(* GBinderIoBuf, and write_consumed of struct binder_write_read *)
Definition rest (data : bytes) (consumed : nat) : bytes := skipn consumed data.
(* src/gbinder_system.c:56-66 gbinder_system_ioctl repeats the call if it was interrupted, with the same
   structure, therefore write_consumed stays. src/gbinder_io.c:61-92 write_read offers what isn't consumed,
   and counts as consumed what was taken by a call which has succeeded.
   src/gbinder_driver.c:225-244 gbinder_driver_write ([once]), 246-307 gbinder_driver_write_read repeat it
   after EAGAIN, and so does 1225-1313 gbinder_driver_transact while there's no status (the reading part and
   what is done with it is in DriverModel). *)
Fixpoint writes (once : bool) (data : bytes) (l : list answer) (consumed taken : nat) (got : bytes) : result :=
  match l with
  | [] => Waits got
  | Took n again :: r =>
    let n := Nat.min n (length (rest data consumed) - taken) in
    let got := (got ++ firstn n (skipn taken (rest data consumed)))%list in
    if once || negb again then Returns 0 got
    else writes once data r (consumed + (taken + n)) 0 got
  | Error e n :: r =>
    let n := Nat.min n (length (rest data consumed) - taken) in
    let got := (got ++ firstn n (skipn taken (rest data consumed)))%list in
    if Z.pos e =? EINTR then writes once data r consumed (taken + n) got
    else if Z.pos e =? EAGAIN then writes once data r consumed 0 got
    else Returns (Z.neg e) got
  end.
Definition driver_write (data : bytes) (l : list answer) : result := writes true data l 0 0 [].
Definition transact_write (data : bytes) (l : list answer) : result := writes false data l 0 0 [].
(* Which one is used *)
Definition perform (c : call) (data : bytes) (l : list answer) : result :=
  match c with
  | CTransact _ _ _ _ _ _ _ _ => transact_write data l
  | _ => driver_write data l
  end.
(* A thread makes calls one after another until one of them doesn't return. The result: what each of them has
   returned, and everything that the kernel has taken. *)
Fixpoint thread (i : io) (l : list (call * list answer)) (got : bytes) : res (list Z * bytes) :=
  match l with
  | [] => Ok ([], got)
  | (c, a) :: r =>
    let* data := command i c in
    match perform c data a with
    | Waits b => Ok ([], (got ++ b)%list)
    | Returns ret b =>
      let* x := thread i r (got ++ b)%list in
      Ok (ret :: fst x, snd x)
    end
  end.
