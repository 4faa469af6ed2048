(* Pings: requests to see whether there is anything behind a handle. *)
From Verif Require Import Base UtfModel WriterModel ReaderModel CodecSpec ObjModel ObjReader KernelModel ObjSpec RpcModel WholeModel.
From Verif Require DispatchModel CmdModel ClientModel.

(* src/gbinder_driver.c:1323-1334 gbinder_driver_local_request_new_ping: what is appended to the new request, which
   has no header. src/gbinder_rpc_protocol.c:83-89 gbinder_rpc_protocol_aidl_write_ping, which is also the one of the
   other two kinds of AIDL, and 255-262 gbinder_rpc_protocol_hidl_write_ping of the same file, with 244-253
   gbinder_rpc_protocol_hidl_write_rpc_header *)
Definition ping_ops (pr : protocol) : list op :=
  match pr with
  | Hidl => [OpPlain (VString8 (utf8 DispatchModel.hidl_base_interface))]
  | _ => []
  end.

(* ping_tx of the four structures: src/gbinder_rpc_protocol.c:124-130, 172-178, 229-237, 275-281 *)
Definition ping_code (pr : protocol) : Z :=
  match pr with
  | Hidl => DispatchModel.HIDL_PING_TRANSACTION
  | _ => DispatchModel.PING_TRANSACTION
  end.

(* src/gbinder_ipc.c:1950-1964 gbinder_ipc_ping_sync: what is sent to the handle (a call which waits for a reply)... *)
Definition ping_call (pr : protocol) (handle : Z) (d : wdata) (pl : place) : CmdModel.call :=
  request_call handle (ping_code pr) true d pl.
(* ... and what is returned when the answer is there. The reply is dropped *)
Definition ping_result (an : ClientModel.answer) : Z := snd (ClientModel.ipc_sync_reply an).
