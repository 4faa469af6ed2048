(* The shortcuts: functions of requests and replies which append or read without a writer or a reader of their
   own. NULL is None. *)
From Verif Require Import Base UtfModel WriterModel ReaderModel CodecSpec ObjModel ObjReader KernelModel ObjSpec
  RpcModel WholeModel.

(* What a request or a reply is made with: the pointer size and the protocol of the device, and the memory which
   the buffers are going to be allocated from *)
Record ctx := { c_io : io; c_protocol : protocol; c_alloc : nat -> Z }.

(* ------------------------------------------------------------------ *)
(* Appending. [self] is NULL or the data of the request or the reply; it's returned *)

(* src/gbinder_local_request.c:223-232 gbinder_local_request_append_bool *)
Definition lrq_bool (c : ctx) (self : option wdata) (value : Z) : res (option wdata) :=
  match self with
  | Some d => let* d1 := wd_plain d (fun b => w_bool b value) in Ok (Some d1)
  | None => Ok None
  end.
(* src/gbinder_local_request.c:234-243 gbinder_local_request_append_int32 *)
Definition lrq_int32 (c : ctx) (self : option wdata) (value : Z) : res (option wdata) :=
  match self with
  | Some d => let* d1 := wd_plain d (fun b => w_int32 b value) in Ok (Some d1)
  | None => Ok None
  end.
(* src/gbinder_local_request.c:245-254 gbinder_local_request_append_int64 *)
Definition lrq_int64 (c : ctx) (self : option wdata) (value : Z) : res (option wdata) :=
  match self with
  | Some d => let* d1 := wd_plain d (fun b => w_int64 b value) in Ok (Some d1)
  | None => Ok None
  end.
(* src/gbinder_local_request.c:256-265 gbinder_local_request_append_float *)
Definition lrq_float (c : ctx) (self : option wdata) (bits : Z) : res (option wdata) :=
  match self with
  | Some d => let* d1 := wd_plain d (fun b => w_float b bits) in Ok (Some d1)
  | None => Ok None
  end.
(* src/gbinder_local_request.c:267-276 gbinder_local_request_append_double *)
Definition lrq_double (c : ctx) (self : option wdata) (bits : Z) : res (option wdata) :=
  match self with
  | Some d => let* d1 := wd_plain d (fun b => w_double b bits) in Ok (Some d1)
  | None => Ok None
  end.
(* src/gbinder_local_request.c:278-287 gbinder_local_request_append_string8 *)
Definition lrq_string8 (c : ctx) (self : option wdata) (str : option bytes) : res (option wdata) :=
  match self with
  | Some d => let* d1 := wd_plain d (fun b => w_string8 b str) in Ok (Some d1)
  | None => Ok None
  end.
(* src/gbinder_local_request.c:289-298 gbinder_local_request_append_string16 *)
Definition lrq_string16 (c : ctx) (self : option wdata) (utf8s : option bytes) : res (option wdata) :=
  match self with
  | Some d => let* d1 := wd_plain d (fun b => w_string16 b utf8s) in Ok (Some d1)
  | None => Ok None
  end.
(* src/gbinder_local_request.c:300-309 gbinder_local_request_append_hidl_string *)
Definition lrq_hidl_string (c : ctx) (self : option wdata) (str : cstring) : res (option wdata) :=
  match self with
  | Some d => let* d1 := w_hidl_string (c_io c) (c_alloc c) d str in Ok (Some d1)
  | None => Ok None
  end.
(* src/gbinder_local_request.c:311-321 gbinder_local_request_append_hidl_string_vec *)
Definition lrq_hidl_string_vec (c : ctx) (self : option wdata) (strv : list cstring) : res (option wdata) :=
  match self with
  | Some d => let* d1 := w_hidl_string_vec (c_io c) (c_alloc c) d strv in Ok (Some d1)
  | None => Ok None
  end.
(* src/gbinder_local_request.c:323-332 gbinder_local_request_append_local_object *)
Definition lrq_local_object (c : ctx) (self : option wdata) (obj : option local) : res (option wdata) :=
  match self with
  | Some d => let* d1 := w_local_object (c_io c) (c_protocol c) d obj in Ok (Some d1)
  | None => Ok None
  end.
(* src/gbinder_local_request.c:334-343 gbinder_local_request_append_remote_object *)
Definition lrq_remote_object (c : ctx) (self : option wdata) (handle : option Z) : res (option wdata) :=
  match self with
  | Some d => let* d1 := w_remote_object (c_io c) d handle in Ok (Some d1)
  | None => Ok None
  end.

(* src/gbinder_local_reply.c:191-200 gbinder_local_reply_append_bool *)
Definition lrp_bool (c : ctx) (self : option wdata) (value : Z) : res (option wdata) :=
  match self with
  | Some d => let* d1 := wd_plain d (fun b => w_bool b value) in Ok (Some d1)
  | None => Ok None
  end.
(* src/gbinder_local_reply.c:202-211 gbinder_local_reply_append_int32 *)
Definition lrp_int32 (c : ctx) (self : option wdata) (value : Z) : res (option wdata) :=
  match self with
  | Some d => let* d1 := wd_plain d (fun b => w_int32 b value) in Ok (Some d1)
  | None => Ok None
  end.
(* src/gbinder_local_reply.c:213-222 gbinder_local_reply_append_int64 *)
Definition lrp_int64 (c : ctx) (self : option wdata) (value : Z) : res (option wdata) :=
  match self with
  | Some d => let* d1 := wd_plain d (fun b => w_int64 b value) in Ok (Some d1)
  | None => Ok None
  end.
(* src/gbinder_local_reply.c:224-233 gbinder_local_reply_append_float *)
Definition lrp_float (c : ctx) (self : option wdata) (bits : Z) : res (option wdata) :=
  match self with
  | Some d => let* d1 := wd_plain d (fun b => w_float b bits) in Ok (Some d1)
  | None => Ok None
  end.
(* src/gbinder_local_reply.c:235-244 gbinder_local_reply_append_double *)
Definition lrp_double (c : ctx) (self : option wdata) (bits : Z) : res (option wdata) :=
  match self with
  | Some d => let* d1 := wd_plain d (fun b => w_double b bits) in Ok (Some d1)
  | None => Ok None
  end.
(* src/gbinder_local_reply.c:246-255 gbinder_local_reply_append_string8 *)
Definition lrp_string8 (c : ctx) (self : option wdata) (str : option bytes) : res (option wdata) :=
  match self with
  | Some d => let* d1 := wd_plain d (fun b => w_string8 b str) in Ok (Some d1)
  | None => Ok None
  end.
(* src/gbinder_local_reply.c:257-266 gbinder_local_reply_append_string16 *)
Definition lrp_string16 (c : ctx) (self : option wdata) (utf8s : option bytes) : res (option wdata) :=
  match self with
  | Some d => let* d1 := wd_plain d (fun b => w_string16 b utf8s) in Ok (Some d1)
  | None => Ok None
  end.
(* src/gbinder_local_reply.c:268-277 gbinder_local_reply_append_hidl_string *)
Definition lrp_hidl_string (c : ctx) (self : option wdata) (str : cstring) : res (option wdata) :=
  match self with
  | Some d => let* d1 := w_hidl_string (c_io c) (c_alloc c) d str in Ok (Some d1)
  | None => Ok None
  end.
(* src/gbinder_local_reply.c:279-289 gbinder_local_reply_append_hidl_string_vec *)
Definition lrp_hidl_string_vec (c : ctx) (self : option wdata) (strv : list cstring) : res (option wdata) :=
  match self with
  | Some d => let* d1 := w_hidl_string_vec (c_io c) (c_alloc c) d strv in Ok (Some d1)
  | None => Ok None
  end.
(* src/gbinder_local_reply.c:291-300 gbinder_local_reply_append_local_object *)
Definition lrp_local_object (c : ctx) (self : option wdata) (obj : option local) : res (option wdata) :=
  match self with
  | Some d => let* d1 := w_local_object (c_io c) (c_protocol c) d obj in Ok (Some d1)
  | None => Ok None
  end.
(* src/gbinder_local_reply.c:302-311 gbinder_local_reply_append_remote_object *)
Definition lrp_remote_object (c : ctx) (self : option wdata) (handle : option Z) : res (option wdata) :=
  match self with
  | Some d => let* d1 := w_remote_object (c_io c) d handle in Ok (Some d1)
  | None => Ok None
  end.
(* src/gbinder_local_reply.c:313-322 gbinder_local_reply_append_fd *)
Definition lrp_fd (c : ctx) (self : option wdata) (fd dupfd : Z) : res (option wdata) :=
  match self with
  | Some d => let* d1 := w_fd (c_io c) d fd dupfd in Ok (Some d1)
  | None => Ok None
  end.

(* src/gbinder_local_request.c:213-221 gbinder_local_request_init_writer,
   src/gbinder_local_reply.c:181-189 gbinder_local_reply_init_writer,
   src/gbinder_writer.c:175-182 gbinder_writer_init: the writer of NULL has no data *)
Definition init_writer (self : option wdata) : option wdata := self.
(* The functions of the writer: src/gbinder_writer.c:232-242 gbinder_writer_append_bool, for example. They do
   nothing if the writer has no data *)
Definition writer_call (c : ctx) (data : option wdata) (o : op) : res (option wdata) :=
  match data with
  | Some d => let* d1 := w_op (c_io c) (c_protocol c) (c_alloc c) d o in Ok (Some d1)
  | None => Ok None
  end.

(* ------------------------------------------------------------------ *)
(* Reading: a new reader each time *)

(* The value without the reader *)
Definition only {A} (x : rd A) : res (option A) := let* (v, _) := x in Ok v.
(* src/gbinder_reader.c:373-381 gbinder_reader_read_object *)
Definition rd_object (i : io) (pr : protocol) (g : message) (p : reader) : res (option Z * reader) :=
  let* (v, p1) := rd_nullable_object i pr g p in
  Ok (match v with Some obj => obj | None => None end, p1).

(* A received reply: its data and objects, or None if there's no data. NULL is None *)
Definition remote_reply := option (message * list Z).
(* src/gbinder_remote_reply.c:139-155 gbinder_remote_reply_init_reader2 *)
Definition rrp_init_reader2 (self : remote_reply) : message * reader :=
  match self with
  | Some (g, objs) => (g, reader_init 0 (blen (m_data g)) objs)
  | None => (no_data, reader_init 0 0 [])
  end.
(* src/gbinder_remote_request.c:140-157 gbinder_remote_request_init_reader2, see WholeModel.receive *)
Definition rrq_init_reader2 (self : incoming) : message * reader := (in_data self, in_args self).
(* src/gbinder_remote_request.c:223-235 gbinder_remote_request_init_reader *)
Definition rrq_init_reader (self : option incoming) : message * reader :=
  match self with Some r => rrq_init_reader2 r | None => (no_data, reader_init 0 0 []) end.
(* src/gbinder_remote_reply.c:157-167 gbinder_remote_reply_init_reader *)
Definition rrp_init_reader (self : option remote_reply) : message * reader :=
  match self with Some r => rrp_init_reader2 r | None => (no_data, reader_init 0 0 []) end.

(* src/gbinder_remote_request.c:263-277 gbinder_remote_request_read_uint32 *)
Definition rrq_uint32 (self : option incoming) : res (option Z) :=
  match self with
  | Some r => let (g, p) := rrq_init_reader2 r in only (rd_uint32 (m_data g) p)
  | None => Ok None
  end.
(* src/gbinder_remote_request.c:255-261 gbinder_remote_request_read_int32: the same bits *)
Definition rrq_int32 (self : option incoming) : res (option Z) :=
  let* v := rrq_uint32 self in Ok (option_map (sgn 32) v).
(* src/gbinder_remote_request.c:287-301 gbinder_remote_request_read_uint64 *)
Definition rrq_uint64 (self : option incoming) : res (option Z) :=
  match self with
  | Some r => let (g, p) := rrq_init_reader2 r in only (rd_uint64 (m_data g) p)
  | None => Ok None
  end.
(* src/gbinder_remote_request.c:279-285 gbinder_remote_request_read_int64: the same bits *)
Definition rrq_int64 (self : option incoming) : res (option Z) :=
  let* v := rrq_uint64 self in Ok (option_map (sgn 64) v).
(* src/gbinder_remote_request.c:303-316 gbinder_remote_request_read_string8 *)
Definition rrq_string8 (self : option incoming) : res (option bytes) :=
  match self with
  | Some r => let (g, p) := rrq_init_reader2 r in only (rd_string8 (m_data g) p)
  | None => Ok None
  end.
(* src/gbinder_remote_request.c:318-331 gbinder_remote_request_read_string16 *)
Definition rrq_string16 (cm : cmode) (self : option incoming) : res (option bytes) :=
  match self with
  | Some r => let (g, p) := rrq_init_reader2 r in only (rd_string16 cm (m_data g) p)
  | None => Ok None
  end.
(* src/gbinder_remote_request.c:333-346 gbinder_remote_request_read_object *)
Definition rrq_object (c : ctx) (self : option incoming) : res (option Z) :=
  match self with
  | Some r => let (g, p) := rrq_init_reader2 r in only (rd_object (c_io c) (c_protocol c) g p)
  | None => Ok None
  end.

(* src/gbinder_remote_reply.c:177-189 gbinder_remote_reply_read_uint32 *)
Definition rrp_uint32 (self : option remote_reply) : res (option Z) :=
  match self with
  | Some r => let (g, p) := rrp_init_reader2 r in only (rd_uint32 (m_data g) p)
  | None => Ok None
  end.
(* src/gbinder_remote_reply.c:169-175 gbinder_remote_reply_read_int32: the same bits *)
Definition rrp_int32 (self : option remote_reply) : res (option Z) :=
  let* v := rrp_uint32 self in Ok (option_map (sgn 32) v).
(* src/gbinder_remote_reply.c:199-211 gbinder_remote_reply_read_uint64 *)
Definition rrp_uint64 (self : option remote_reply) : res (option Z) :=
  match self with
  | Some r => let (g, p) := rrp_init_reader2 r in only (rd_uint64 (m_data g) p)
  | None => Ok None
  end.
(* src/gbinder_remote_reply.c:191-197 gbinder_remote_reply_read_int64: the same bits *)
Definition rrp_int64 (self : option remote_reply) : res (option Z) :=
  let* v := rrp_uint64 self in Ok (option_map (sgn 64) v).
(* src/gbinder_remote_reply.c:213-224 gbinder_remote_reply_read_string8 *)
Definition rrp_string8 (self : option remote_reply) : res (option bytes) :=
  match self with
  | Some r => let (g, p) := rrp_init_reader2 r in only (rd_string8 (m_data g) p)
  | None => Ok None
  end.
(* src/gbinder_remote_reply.c:226-237 gbinder_remote_reply_read_string16 *)
Definition rrp_string16 (cm : cmode) (self : option remote_reply) : res (option bytes) :=
  match self with
  | Some r => let (g, p) := rrp_init_reader2 r in only (rd_string16 cm (m_data g) p)
  | None => Ok None
  end.
(* src/gbinder_remote_reply.c:239-250 gbinder_remote_reply_read_object *)
Definition rrp_object (c : ctx) (self : option remote_reply) : res (option Z) :=
  match self with
  | Some r => let (g, p) := rrp_init_reader2 r in only (rd_object (c_io c) (c_protocol c) g p)
  | None => Ok None
  end.

(* src/gbinder_remote_request.c:187-194 gbinder_remote_request_interface *)
Definition rrq_interface (self : option incoming) : option bytes :=
  match self with Some r => in_iface r | None => None end.
(* src/gbinder_remote_request.c:237-244 gbinder_remote_request_sender_pid. The number of the process is kept as
   the driver has written it, and pid_t is signed *)
Definition rrq_sender_pid (self : option incoming) : Z :=
  match self with Some r => sgn 32 (in_pid r) | None => sgn 32 (u32 (-1)) end.
(* src/gbinder_remote_request.c:246-253 gbinder_remote_request_sender_euid *)
Definition rrq_sender_euid (self : option incoming) : Z :=
  match self with Some r => in_euid r | None => u32 (-1) end.
(* src/gbinder_remote_reply.c:107-112 gbinder_remote_reply_is_empty *)
Definition rrp_is_empty (self : option remote_reply) : bool :=
  match self with
  | Some (Some (g, _)) => blen (m_data g) =? 0
  | _ => true
  end.
