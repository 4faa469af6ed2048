(* What proxy objects do with a call which has arrived, in terms of WholeModel: the request is copied and sent on to
   the object which the proxy stands for, the answer is copied and sent back.

   Simplifications: those of WholeModel.v; the proxy isn't dropped and the object isn't dead (histories in which
   they are, the queue of the proxy and the threads are in ProxyModel.v, with the properties of C48). *)
From Verif Require Import Base UtfModel WriterModel ReaderModel CodecSpec ObjModel ObjReader KernelModel ObjSpec
  TxModel RpcModel WholeModel.
From Verif Require ProxyConv DriverModel CmdModel ClientModel.

(* The buffer of a received request or reply. None: there's no data
   (src/gbinder_driver.c:515-597 gbinder_driver_handle_transaction, 774-854 gbinder_driver_txstatus) *)
Definition received_buffer (i : io) (a : arrival) (cmd : Z) (payload : bytes) : option (message * list Z) :=
  match DriverModel.decode_cmd i (ar_mem a) cmd payload with
  | DriverModel.RTransaction tx | DriverModel.RReply tx => if has_data tx then Some (received a tx) else None
  | _ => None
  end.

(* A proxy: the driver between its process and the next one, the protocol and the handle of the object which it
   stands for, how it replaces the handles which are in requests, and those which are in replies *)
Record proxy := {
  px_out : kenv;                       (* for requests *)
  px_back : kenv;                      (* for replies, which go in the other direction *)
  px_other : protocol;
  px_handle : Z;
  px_requests : converter;
  px_replies : converter
}.

(* What is copied. The copy is made from the buffer; None: no buffer *)
Definition contents (b : option (message * list Z)) : ProxyConv.message :=
  option_map (fun b => (m_data (fst b), snd b)) b.

(* src/gbinder_proxy_object.c:237-282 gbinder_proxy_object_handle_transaction (284-293
   gbinder_proxy_object_can_handle_transaction: all transactions get there), up to gbinder_ipc_transact: the copy *)
Definition proxy_copies (cm : cmode) (i : io) (pr : protocol) (p : proxy) (x : incoming) (b : option (message * list Z))
  : res (option wdata) :=
  ProxyConv.forward_request i cm pr (px_other p) (px_requests p) (in_code x) (contents b).
(* ... and the call: with the same code, and it's one-way if the received one is (src/gbinder_ipc.c:1588-1603
   gbinder_ipc_tx_internal_exec) *)
Definition proxy_calls (p : proxy) (x : incoming) (d : wdata) (pl : place) : CmdModel.call :=
  request_call (px_handle p) (in_code x) (negb (Z.testbit (in_flags x) 0)) d pl.

(* src/gbinder_proxy_object.c:188-223 gbinder_proxy_tx_reply: the copy of the reply (None is NULL) ... *)
Definition proxy_reply (i : io) (pr : protocol) (p : proxy) (an : ClientModel.answer) : res (option wdata) :=
  ProxyConv.reply_to_local i pr (px_replies p) (Some (contents (ClientModel.an_reply an))).
(* ... and the status with which the request is completed *)
Definition proxy_status (an : ClientModel.answer) : Z :=
  if 0 <? ClientModel.an_status an then - DriverModel.EFAULT else ClientModel.an_status an.
(* What is written for the completed request, see response in WholeModel *)
Definition proxy_response (fwd : option wdata) (pl : place) (status_addr : Z) : CmdModel.call :=
  match fwd with Some d => reply_call d pl | None => CmdModel.CReplyStatus status_addr end.
