(* Model of how a proxy object translates messages: the forwarded request and the forwarded
   reply are copies of what was received, made by src/gbinder_remote_request.c,
   src/gbinder_remote_reply.c and src/gbinder_writer.c (TxModel.v). Which local objects the
   received handles are replaced with is the business of ProxyModel.v.

   Simplifications: GASSERTs are compiled out (release build). *)
From Verif Require Import Base UtfModel WriterModel ReaderModel ObjModel ObjReader KernelModel RpcModel TxModel.

(* Data of a received message: the bytes and the places of the objects. None is a message
   without data, for which no GBinderBuffer is created (src/gbinder_driver.c:515-597
   gbinder_driver_handle_transaction) *)
Definition message : Set := option (bytes * list Z).

Definition protocol_eqb (a b : protocol) : bool :=
  match a, b with
  | Aidl, Aidl | Aidl2, Aidl2 | Aidl3, Aidl3 | Hidl, Hidl => true
  | _, _ => false
  end.

(* src/gbinder_remote_request.c:95-119 gbinder_remote_request_convert_to_local,
   src/gbinder_local_request.c:129-141 gbinder_local_request_new_from_data,
   src/gbinder_local_request.c:74-109 gbinder_local_request_new,
   src/gbinder_local_request.c:143-153 gbinder_local_request_append_contents.
   [pr] is the protocol of the request, [cp] is that of the converter. None is NULL: without
   a buffer there's no GBinderIo and no protocol *)
Definition request_to_local (i : io) (m : cmode) (pr cp : protocol) (c : converter) (code : Z) (msg : message)
  : res (option wdata) :=
  if protocol_eqb cp pr then
    match msg with
    | None => Ok None
    | Some (data, objs) => let* d := append_contents i pr c wd_empty data objs 0 in Ok (Some d)
    end
  else
    match msg with
    | None => Ok (Some wd_empty)
    | Some (data, objs) =>
      let* (iface, header_size) := set_data pr m data objs code in
      let* hdr := new_iface cp iface in
      let* d := append_contents i pr c (wd_set_bytes wd_empty hdr) data objs header_size in
      Ok (Some d)
    end.

(* src/gbinder_remote_reply.c:121-137 gbinder_remote_reply_convert_to_local,
   src/gbinder_local_reply.c:100-113 gbinder_local_reply_set_contents,
   src/gbinder_local_reply.c:73-98 gbinder_local_reply_new. The outer None is NULL instead of
   the reply *)
Definition reply_to_local (i : io) (pr : protocol) (c : converter) (reply : option message) : res (option wdata) :=
  match reply with
  | Some (Some (data, objs)) => let* d := set_contents i pr c wd_empty data objs in Ok (Some d)
  | _ => Ok None
  end.

(* src/gbinder_proxy_object.c:130-151 gbinder_proxy_object_converter_init: the protocol of the
   converter. [own] is the protocol of the GBinderIpc of the proxy object (on which it
   receives requests), [other] is that of the object which it stands for *)
Definition converter_protocol (own other : protocol) : protocol := own.

(* The request as it is sent to the remote object *)
Definition forward_request (i : io) (m : cmode) (own other : protocol) (c : converter) (code : Z) (msg : message)
  : res (option wdata) :=
  request_to_local i m own (converter_protocol own other) c code msg.

(* src/gbinder_driver.c:1225-1313 gbinder_driver_transact: the flags of the transaction, which
   depend on which function is called (src/gbinder_ipc.c:1588-1603
   gbinder_ipc_tx_internal_exec) *)
Definition forwarded_flags (flags : Z) : Z := request_flags (if Z.testbit flags 0 then TX_FLAG_ONEWAY else 0).
