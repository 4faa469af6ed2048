(* Vocabulary of the properties of the shortcuts *)
From Verif Require Import Base UtfModel WriterModel ReaderModel CodecSpec ObjModel ObjReader KernelModel ObjSpec
  HidlSpec TxModel RpcModel WholeModel WholeSpec ShortModel.
From Verif Require CmdSpec.

(* gbinder_local_request_append_xxx or gbinder_local_reply_append_xxx *)
Inductive short : Type :=
| SBool (b : bool)
| SInt32 (v : Z) | SUint32 (v : Z)      (* append_int32, whatever the sign is *)
| SInt64 (v : Z) | SUint64 (v : Z)      (* append_int64 *)
| SFloat (bits : Z) | SDouble (bits : Z)
| SString8 (s : bytes)
| SString16 (s : option (list Z))       (* NULL or Unicode text *)
| SHidlString (s : cstring) | SHidlStringVec (l : list cstring)
| SLocal (o : option local) | SRemote (h : option Z).

(* What is appended to a request: by a shortcut, or by a writer of this request *)
Inductive adding : Type :=
| ByShortcut (s : short)
| ByWriter (o : op)
| ByReplyFd (fd dupfd : Z).     (* gbinder_local_reply_append_fd; requests don't have that *)

(* What each shortcut does, in terms of the functions of the writer *)
Definition same_as (s : short) : op :=
  match s with
  | SBool b => OpPlain (VBool b)
  | SInt32 v => OpPlain (VInt32 v) | SUint32 v => OpPlain (VUint32 v)
  | SInt64 v => OpPlain (VInt64 v) | SUint64 v => OpPlain (VUint64 v)
  | SFloat v => OpPlain (VFloat v) | SDouble v => OpPlain (VDouble v)
  | SString8 s => OpPlain (VString8 s)
  | SString16 s => OpPlain (VString16 s)
  | SHidlString s => OpHidlString s
  | SHidlStringVec l => OpHidlStringVec l
  | SLocal o => OpLocal o
  | SRemote h => OpRemote h
  end.
Definition adds (a : adding) : op :=
  match a with ByShortcut s => same_as s | ByWriter o => o | ByReplyFd fd dupfd => OpFd fd dupfd end.

(* Which function is called *)
Definition lrq_call (c : ctx) (self : option wdata) (s : short) : res (option wdata) :=
  match s with
  | SBool b => lrq_bool c self (if b then 1 else 0)
  | SInt32 v | SUint32 v => lrq_int32 c self v
  | SInt64 v | SUint64 v => lrq_int64 c self v
  | SFloat v => lrq_float c self v
  | SDouble v => lrq_double c self v
  | SString8 s => lrq_string8 c self (Some s)
  | SString16 s => lrq_string16 c self (option_map utf8 s)
  | SHidlString s => lrq_hidl_string c self s
  | SHidlStringVec l => lrq_hidl_string_vec c self l
  | SLocal o => lrq_local_object c self o
  | SRemote h => lrq_remote_object c self h
  end.
Definition lrp_call (c : ctx) (self : option wdata) (s : short) : res (option wdata) :=
  match s with
  | SBool b => lrp_bool c self (if b then 1 else 0)
  | SInt32 v | SUint32 v => lrp_int32 c self v
  | SInt64 v | SUint64 v => lrp_int64 c self v
  | SFloat v => lrp_float c self v
  | SDouble v => lrp_double c self v
  | SString8 s => lrp_string8 c self (Some s)
  | SString16 s => lrp_string16 c self (option_map utf8 s)
  | SHidlString s => lrp_hidl_string c self s
  | SHidlStringVec l => lrp_hidl_string_vec c self l
  | SLocal o => lrp_local_object c self o
  | SRemote h => lrp_remote_object c self h
  end.

Fixpoint fill (f : option wdata -> adding -> res (option wdata)) (self : option wdata) (l : list adding)
  : res (option wdata) :=
  match l with
  | [] => Ok self
  | a :: r => let* self1 := f self a in fill f self1 r
  end.
Definition lrq_add (c : ctx) (self : option wdata) (a : adding) : res (option wdata) :=
  match a with
  | ByShortcut s => lrq_call c self s
  | ByWriter o => writer_call c (init_writer self) o
  | ByReplyFd fd dupfd => writer_call c (init_writer self) (OpFd fd dupfd)
  end.
Definition lrp_add (c : ctx) (self : option wdata) (a : adding) : res (option wdata) :=
  match a with
  | ByShortcut s => lrp_call c self s
  | ByWriter o => writer_call c (init_writer self) o
  | ByReplyFd fd dupfd => lrp_fd c self fd dupfd
  end.
Definition writer_add (c : ctx) (data : option wdata) (a : adding) : res (option wdata) :=
  writer_call c data (adds a).

(* What a new request has: the header. A new reply is empty *)
Definition new_request_data (hdr : bytes) : wdata := wd_set_bytes wd_empty hdr.

(* Everything which WholeSpec.ready says about a message except how it was made *)
Definition sendable (e : kenv) (c : ctx) (l : list op) (d : wdata) (pl : place) : Prop :=
  let i := k_io e in
  c_io c = i /\ (forall n, is_addr i (c_alloc c n)) /\ Forall (call_ok i (c_protocol c) (k_mem e)) l /\ Forall (foreign e) l /\
  blen (wd_bytes d) < 2 ^ 31 /\
  holds (k_mem e) (pl_data pl) (wd_bytes d) /\
  holds (k_mem e) (pl_offs pl) (offsets_image i (wd_offsets d)) /\
  Forall (fun b => holds (k_mem e) (fst b) (snd b)) (wd_heap d) /\
  CmdSpec.is_word i (pl_data pl) /\ CmdSpec.is_word i (pl_offs pl) /\
  0 < k_sgbase e /\ k_sgbase e + align8 (wd_bufsize d) + 7 < 2 ^ (8 * psz i).

(* What the reading shortcuts return (None: FALSE or NULL) *)
Record answers := {
  a_int32 : res (option Z); a_uint32 : res (option Z); a_int64 : res (option Z); a_uint64 : res (option Z);
  a_string8 : res (option bytes); a_string16 : res (option bytes); a_object : res (option Z) }.
Definition rrq_answers (cm : cmode) (c : ctx) (self : option incoming) : answers :=
  {| a_int32 := rrq_int32 self; a_uint32 := rrq_uint32 self; a_int64 := rrq_int64 self; a_uint64 := rrq_uint64 self;
     a_string8 := rrq_string8 self; a_string16 := rrq_string16 cm self; a_object := rrq_object c self |}.
Definition rrp_answers (cm : cmode) (c : ctx) (self : option remote_reply) : answers :=
  {| a_int32 := rrp_int32 self; a_uint32 := rrp_uint32 self; a_int64 := rrp_int64 self; a_uint64 := rrp_uint64 self;
     a_string8 := rrp_string8 self; a_string16 := rrp_string16 cm self; a_object := rrp_object c self |}.

Definition no_answers (a : answers) : Prop :=
  a_int32 a = Ok None /\ a_uint32 a = Ok None /\ a_int64 a = Ok None /\ a_uint64 a = Ok None /\
  a_string8 a = Ok None /\ a_string16 a = Ok None /\ a_object a = Ok None.

(* What was appended first, as seen by the shortcut for this kind of thing *)
Definition shows (e : kenv) (o : op) (a : answers) : Prop :=
  match o with
  | OpPlain (VInt32 v) => a_int32 a = Ok (Some v)
  | OpPlain (VUint32 v) => a_uint32 a = Ok (Some v)
  | OpPlain (VInt64 v) => a_int64 a = Ok (Some v)
  | OpPlain (VUint64 v) => a_uint64 a = Ok (Some v)
  | OpPlain (VString8 s) => a_string8 a = Ok (Some s)
  | OpPlain (VString16 s) => a_string16 a = Ok (option_map utf8 s)
  | OpLocal (Some o) => a_object a = Ok (Some (u32 (k_node e (lo_ptr o))))
  | OpRemote (Some h) => exists h2, k_ref e h = Some h2 /\ a_object a = Ok (Some (u32 h2))
  | _ => True
  end.
(* They read the first of the arguments, or fail if there are none *)
Definition show_first (e : kenv) (l : list op) (a : answers) : Prop :=
  match l with [] => no_answers a | o :: _ => shows e o a end.

(* No shortcut leaves the data, except the one for UTF-16 strings, and that only if the length is a bad one *)
Definition answers_safe (cm : cmode) (mem : bytes) (p : reader) (a : answers) : Prop :=
  (exists x, a_int32 a = Ok x) /\ (exists x, a_uint32 a = Ok x) /\ (exists x, a_int64 a = Ok x) /\
  (exists x, a_uint64 a = Ok x) /\ (exists x, a_string8 a = Ok x) /\ (exists x, a_object a = Ok x) /\
  (~ bad_call cm mem p KString16 -> exists x, a_string16 a = Ok x).
