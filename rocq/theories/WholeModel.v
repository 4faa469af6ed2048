(* A call from one process to another, from end to end: what is in the other models, put together. The
   library of the caller writes a command; the driver takes the message from the memory of the caller and puts
   it, with what it refers to, into the memory of the receiver; the library of the receiver finds it there,
   calls the handler and writes another command; and so on.

   Simplifications: each command is written and read at once (that they arrive whole whatever the driver does
   is in CmdModel, DriverModel); memory which is in use isn't changed by others (that it is kept while it's in
   use is in DriverModel, AsyncModel, CallModel). *)
From Verif Require Import Base UtfModel WriterModel ReaderModel CodecSpec ObjModel ObjReader KernelModel ObjSpec
  TxModel RpcModel.
From Verif Require DispatchModel DriverModel CmdModel CmdSpec ClientModel.

(* ------------------------------------------------------------------ *)
(* The sender *)

(* Where the data (GByteArray) and the array of offsets which the driver is going to read are *)
Record place := { pl_data : Z; pl_offs : Z }.
(* src/gbinder_driver.c:1225-1313 gbinder_driver_transact, with the data, the offsets and the size of buffers
   of the request (src/gbinder_local_request.c:57-71); [reply] is FALSE if the call is one-way *)
Definition request_call (handle code : Z) (reply : bool) (d : wdata) (pl : place) : CmdModel.call :=
  CmdModel.CTransact handle code reply (pl_data pl) (blen (wd_bytes d)) (wd_offsets d) (pl_offs pl) (wd_bufsize d).
(* src/gbinder_driver.c:467-513 gbinder_driver_reply_data, with the data of the reply
   (src/gbinder_local_reply.c:57-71) *)
Definition reply_call (d : wdata) (pl : place) : CmdModel.call :=
  CmdModel.CReply (pl_data pl) (blen (wd_bytes d)) (wd_offsets d) (pl_offs pl) (wd_bufsize d).

(* ------------------------------------------------------------------ *)
(* The driver: not code in /repo, like KernelModel and parse of CmdSpec *)

(* Transactions among the commands: whether it's a reply, the structure, and the size of the buffers *)
Definition k_transaction (k : CmdSpec.kcmd) : option (bool * trdata * Z) :=
  match k with
  | CmdSpec.KTransaction t => Some (false, t, 0)
  | CmdSpec.KTransactionSg t buffers => Some (false, t, buffers)
  | CmdSpec.KReply t => Some (true, t, 0)
  | CmdSpec.KReplySg t buffers => Some (true, t, buffers)
  | _ => None
  end.
(* What was written is one transaction. The driver reads the data and the offsets from the memory of the
   sender, at the addresses which are in the structure, and translates them *)
Definition k_accept (e : kenv) (written : bytes) : option (bool * trdata * message * list Z) :=
  let i := k_io e in
  match CmdSpec.parse i written with
  | Some (k, []) =>
    match k_transaction k with
    | Some (reply, t, buffers) =>
      let offs := offsets_at i (k_mem e) (tr_offsets t) (Z.to_nat (tr_offsets_size t / psz i)) in
      match k_send e (mread (k_mem e) (tr_buffer t) (tr_data_size t)) offs buffers with
      | Some g => Some (reply, t, g, offs)
      | None => None
      end
    | None => None
    end
  | _ => None
  end.
(* The memory of the receiver, and what the driver fills in for it *)
Record arrival := {
  ar_mem : memory; ar_target : Z; ar_cookie : Z; ar_pid : Z; ar_euid : Z;
  ar_buffer : Z;               (* where the data is *)
  ar_offsets : Z;              (* the array of offsets *)
  ar_sg : Z * Z                (* the buffers: their address and size *)
}.
Definition arriving (i : io) (t : trdata) (a : arrival) : bytes :=
  tr_image i {| tr_target := ar_target a; tr_cookie := ar_cookie a; tr_code := tr_code t; tr_flags := tr_flags t;
    tr_pid := ar_pid a; tr_euid := ar_euid a; tr_data_size := tr_data_size t;
    tr_offsets_size := tr_offsets_size t; tr_buffer := ar_buffer a; tr_offsets := ar_offsets a |}.
Definition BR_TRANSACTION (i : io) : Z := DriverModel.br_ior 2 (tr_size i).
Definition BR_REPLY (i : io) : Z := DriverModel.br_ior 3 (tr_size i).

(* ------------------------------------------------------------------ *)
(* The receiver *)

(* src/gbinder_buffer.c:188-198 gbinder_buffer_new. Objects are offsets in the data *)
Definition received (a : arrival) (tx : txdata) : message * list Z :=
  ({| m_data := mread (ar_mem a) (tx_data tx) (tx_size tx); m_sgbase := fst (ar_sg a);
      m_sg := mread (ar_mem a) (fst (ar_sg a)) (snd (ar_sg a)) |},
   map (fun o => o - tx_data tx) (tx_objects tx)).
Definition has_data (tx : txdata) : bool := negb (tx_data tx =? 0) && negb (tx_size tx =? 0).
Definition no_data : message := {| m_data := []; m_sgbase := 0; m_sg := [] |}.

(* A request, as the handler sees it: where it came from, the code, the flags, the interface, the data, and the
   reader of the arguments *)
Record incoming := {
  in_target : Z; in_pid : Z; in_euid : Z; in_code : Z; in_flags : Z; in_iface : option bytes;
  in_data : message; in_args : reader }.
(* src/gbinder_driver.c:515-597 gbinder_driver_handle_transaction, up to the switch;
   src/gbinder_remote_request.c:159-185 gbinder_remote_request_set_data, and 141-157
   gbinder_remote_request_init_reader2 of the same file which is called later. None: not a transaction *)
Definition receive (cm : cmode) (i : io) (pr : protocol) (a : arrival) (cmd : Z) (payload : bytes)
  : res (option incoming) :=
  match DriverModel.decode_cmd i (ar_mem a) cmd payload with
  | DriverModel.RTransaction tx =>
    let make iface g args :=
      Some {| in_target := tx_target tx; in_pid := tx_pid tx; in_euid := tx_euid tx; in_code := tx_code tx;
              in_flags := tx_flags tx; in_iface := iface; in_data := g; in_args := args |} in
    if has_data tx then
      let (g, objs) := received a tx in
      let* (iface, header) := set_data pr cm (m_data g) objs (tx_code tx) in
      Ok (make iface g (args_reader (m_data g) objs header))
    else Ok (make None no_data (reader_init 0 0 []))
  | _ => Ok None
  end.
(* The rest of gbinder_driver_handle_transaction, see DispatchModel. What the handler does depends on what it
   gets *)
Definition handler := incoming -> DispatchModel.result.
Definition handle (rc : DispatchModel.receiver) (o : option DispatchModel.lobj) (later : DispatchModel.lobj)
  (h : handler) (x : incoming) : DispatchModel.reply * Z * list DispatchModel.call :=
  DispatchModel.dispatch rc o later (in_iface x) (in_code x) (in_flags x) (h x).

(* ... and its end: what is written in return. Nothing if the call is one-way; the data of the reply if there is
   one (the status isn't used then); else the status, which is in a variable at [status_addr] *)
Definition response (x : incoming) (r : DispatchModel.reply * Z) (d : wdata) (pl : place) (status_addr : Z)
  : option CmdModel.call :=
  if Z.testbit (in_flags x) 0 then None
  else Some (match fst r with Some _ => reply_call d pl | None => CmdModel.CReplyStatus status_addr end).

(* src/gbinder_driver.c:774-854 gbinder_driver_txstatus of the caller who waits for a reply: the status and the
   data of the reply. None: it waits *)
Definition reply_answer (i : io) (a : arrival) (cmd : Z) (payload : bytes) : option ClientModel.answer :=
  match DriverModel.decode_cmd i (ar_mem a) cmd payload with
  | DriverModel.RDeadReply => Some {| ClientModel.an_status := DriverModel.STATUS_DEAD_OBJECT; ClientModel.an_reply := None |}
  | DriverModel.RFailedReply => Some {| ClientModel.an_status := DriverModel.STATUS_FAILED; ClientModel.an_reply := None |}
  | DriverModel.RReply tx =>
    let special := (tx_status tx =? - DriverModel.EAGAIN) || (tx_status tx =? DriverModel.STATUS_FAILED) ||
                   (tx_status tx =? DriverModel.STATUS_DEAD_OBJECT) in
    Some {| ClientModel.an_status := if special then - DriverModel.EFAULT else tx_status tx;
            ClientModel.an_reply := if has_data tx then Some (received a tx) else None |}
  | _ => None
  end.
