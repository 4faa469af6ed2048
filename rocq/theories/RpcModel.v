(* Model of the RPC headers: src/gbinder_rpc_protocol.c, and their use in
   src/gbinder_local_request.c and src/gbinder_remote_request.c *)
From Verif Require Import Base UtfModel WriterModel ReaderModel ObjModel.

(* src/gbinder_rpc_protocol.c:40-45 *)
Definition BINDER_RPC_FLAGS : Z := Z.shiftl 0x40 16.
Definition UNSET_WORK_SOURCE : Z := -1.
(* GBINDER_FOURCC, src/gbinder_types_p.h:55-62 *)
Definition fourcc (a b c d : Z) : Z := a * 2 ^ 24 + b * 2 ^ 16 + c * 2 ^ 8 + d.
Definition BINDER_SYS_HEADER : Z := fourcc 0x53 0x59 0x53 0x54.
(* GBINDER_TRANSACTION(0,0,0): codes above it are internal ones *)
Definition INTERNAL_TRANSACTIONS : Z := fourcc 0x5f 0 0 0.

(* src/gbinder_rpc_protocol.c:91-104 gbinder_rpc_protocol_aidl_write_rpc_header,
   136-151 gbinder_rpc_protocol_aidl2_write_rpc_header,
   184-194 gbinder_rpc_protocol_aidl3_write_rpc_header,
   243-253 gbinder_rpc_protocol_hidl_write_rpc_header *)
Definition write_rpc_header (pr : protocol) (buf iface : bytes) : res bytes :=
  match pr with
  | Aidl =>
    let* buf1 := w_int32 buf BINDER_RPC_FLAGS in
    w_string16 buf1 (Some iface)
  | Aidl2 =>
    let* buf1 := w_int32 buf BINDER_RPC_FLAGS in
    let* buf2 := w_int32 buf1 UNSET_WORK_SOURCE in
    w_string16 buf2 (Some iface)
  | Aidl3 =>
    let* buf1 := w_int32 buf BINDER_RPC_FLAGS in
    let* buf2 := w_int32 buf1 UNSET_WORK_SOURCE in
    let* buf3 := w_int32 buf2 BINDER_SYS_HEADER in
    w_string16 buf3 (Some iface)
  | Hidl => w_string8 buf (Some iface)
  end.

(* src/gbinder_reader.c:764-774 gbinder_reader_read_string16: NULL on failure *)
Definition rd_string16 (m : cmode) (mem : bytes) (p : reader) : res (option bytes * reader) :=
  let* (s, p1) := rd_nullable_string16 m mem p in
  Ok (match s with Some t => t | None => None end, p1).

(* n calls of gbinder_reader_read_int32(reader, NULL), up to the first failure *)
Fixpoint rd_skip_int32 (mem : bytes) (p : reader) (n : nat) : res (bool * reader) :=
  match n with
  | O => Ok (true, p)
  | S k =>
    let* (v, p1) := rd_int32 mem p in
    match v with
    | Some _ => rd_skip_int32 mem p1 k
    | None => Ok (false, p1)
    end
  end.

(* The number of 32-bit numbers before the interface name *)
Definition header_ints (pr : protocol) : nat :=
  match pr with Aidl => 1 | Aidl2 => 2 | Aidl3 => 3 | Hidl => 0 end.

(* src/gbinder_rpc_protocol.c:106-122 gbinder_rpc_protocol_aidl_read_rpc_header,
   153-170 gbinder_rpc_protocol_aidl2_read_rpc_header,
   196-214 gbinder_rpc_protocol_aidl3_read_rpc_header,
   264-273 gbinder_rpc_protocol_hidl_read_rpc_header *)
Definition read_rpc_header (pr : protocol) (m : cmode) (mem : bytes) (p : reader) (txcode : Z)
  : res (option bytes * reader) :=
  match pr with
  | Hidl => rd_string8 mem p
  | _ =>
    if INTERNAL_TRANSACTIONS <? txcode then Ok (None, p)
    else
      let* (ok, p1) := rd_skip_int32 mem p (header_ints pr) in
      if ok then rd_string16 m mem p1 else Ok (None, p1)
  end.

(* src/gbinder_local_request.c:111-127 gbinder_local_request_new_iface; None is
   the NULL interface *)
Definition new_iface (pr : protocol) (iface : option bytes) : res bytes :=
  match iface with
  | Some s => write_rpc_header pr [] s
  | None => Ok []
  end.

(* src/gbinder_remote_request.c:159-185 gbinder_remote_request_set_data of a new
   request. The interface and the size of the header *)
Definition set_data (pr : protocol) (m : cmode) (mem : bytes) (objs : list Z) (txcode : Z)
  : res (option bytes * Z) :=
  let* (iface, p) := read_rpc_header pr m mem (reader_init 0 (blen mem) objs) txcode in
  Ok (match iface with
      | Some s => (Some s, r_bytes_read p)
      | None => (None, 0)
      end).

(* src/gbinder_remote_request.c:141-157 gbinder_remote_request_init_reader2: the
   reader of the arguments *)
Definition args_reader (mem : bytes) (objs : list Z) (header_size : Z) : reader :=
  reader_init header_size (blen mem - header_size) objs.
