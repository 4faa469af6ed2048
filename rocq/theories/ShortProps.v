(* Property theorems about the shortcuts of requests and replies. The vocabulary is in ShortSpec.v, the functions are
   in ShortModel.v; what is assumed about the driver is in WholeSpec.v. *)
From Verif Require Import Base UtfModel WriterModel ReaderModel CodecSpec CodecSafety ObjModel ObjReader KernelModel
  ObjSpec HidlSpec TxModel RpcModel RpcSpec WholeModel WholeSpec WholeProps ShortModel ShortSpec ShortProofs.
From Verif Require CmdModel CmdSpec ClientModel HidlProps.

(* C69: shortcuts do what the functions of the writer do, in any order and together with writers, for requests and
   for replies. [writer_call]s don't depend on whether that's a request or a reply *)
Theorem C69_same_as_writer : forall (c : ctx) (self : option wdata) (l : list adding),
  fill (lrq_add c) self l = fill (writer_add c) (init_writer self) l /\
  fill (lrp_add c) self l = fill (writer_add c) (init_writer self) l.
Proof. intros c self l. split; apply fill_ext; [apply lrq_add_is|apply lrp_add_is]. Qed.
Print Assumptions C69_same_as_writer.

(* C69: NULL. Nothing is appended and NULL is returned; nothing is read, and a reader of NULL has no data *)
Theorem C69_null : forall (cm : cmode) (c : ctx) (l : list adding),
  fill (lrq_add c) None l = Ok None /\ fill (lrp_add c) None l = Ok None /\
  no_answers (rrq_answers cm c None) /\ no_answers (rrp_answers cm c None) /\ rrp_is_empty None = true /\
  rrq_interface None = None /\ rrq_sender_pid None = -1 /\ rrq_sender_euid None = 2 ^ 32 - 1 /\
  (let (g, p) := rrq_init_reader None in m_data g = [] /\ r_ptr p = r_end p /\ r_objects p = []) /\
  (let (g, p) := rrp_init_reader None in m_data g = [] /\ r_ptr p = r_end p /\ r_objects p = []).
Proof.
  intros cm c l. destruct (C69_same_as_writer c None l) as [-> ->]. unfold init_writer. rewrite fill_null.
  split; [reflexivity|]. split; [reflexivity|]. repeat split.
Qed.
Print Assumptions C69_null.

(* C69: a request which was filled that way arrives, and each of the reading shortcuts gives the first of its
   arguments, no matter how often it's called and what else has been read. They fail if there are no arguments *)
Theorem C69_request : forall (cm : cmode) (e : kenv) (c : ctx) (name hdr : bytes) (handle code : Z) (oneway : bool)
    (l : list adding) (d : wdata) (pl : place),
  let i := k_io e in
  new_iface (c_protocol c) (Some name) = Ok hdr -> iface_ok (c_protocol c) name -> has_header (c_protocol c) code ->
  CmdSpec.is_u32 handle -> CmdSpec.is_u32 code ->
  fill (lrq_add c) (Some (new_request_data hdr)) l = Ok (Some d) ->
  sendable e c (OpPlain (VRaw hdr) :: map adds l) d pl ->
  exists cmd t g, CmdModel.command i (request_call handle code (negb oneway) d pl) = Ok cmd /\
    k_accept e cmd = Some (false, t, g, wd_offsets d) /\ tr_target t = handle /\
    forall a, arrives i g (wd_offsets d) a ->
    exists x, receive cm i (c_protocol c) a (BR_TRANSACTION i) (arriving i t a) = Ok (Some x) /\
      rrq_interface (Some x) = Some name /\ rrq_sender_pid (Some x) = sgn 32 (ar_pid a) /\
      rrq_sender_euid (Some x) = ar_euid a /\
      show_first e (map adds l) (rrq_answers cm c (Some x)).
Proof. exact request_shortcuts. Qed.
Print Assumptions C69_request.

(* C69: the same for replies. A reply is empty to the caller if and only if nothing was appended *)
Theorem C69_reply : forall (cm : cmode) (e : kenv) (c : ctx) (l : list adding) (d : wdata) (pl : place),
  let i := k_io e in
  fill (lrp_add c) (Some wd_empty) l = Ok (Some d) -> sendable e c (map adds l) d pl -> starts_well (map adds l) ->
  exists cmd t g, CmdModel.command i (reply_call d pl) = Ok cmd /\
    k_accept e cmd = Some (true, t, g, wd_offsets d) /\
    forall a, arrives i g (wd_offsets d) a ->
    exists an, reply_answer i a (BR_REPLY i) (arriving i t a) = Some an /\ ClientModel.an_status an = 0 /\
      (rrp_is_empty (Some (ClientModel.an_reply an)) = true <-> l = []) /\
      show_first e (map adds l) (rrp_answers cm c (Some (ClientModel.an_reply an))).
Proof. exact reply_shortcuts. Qed.
Print Assumptions C69_reply.

(* C69: whatever is in a request or in a reply, the reading shortcuts don't leave its data, with the exception which
   is known from C02 *)
Theorem C69_any_request_partial : forall (cm : cmode) (c : ctx) (g : message) (objs : list Z) (code : Z) iface (h : Z) (x : incoming),
  all_bytes (m_data g) -> blen (m_data g) < 2 ^ 31 -> name_length_ok (c_protocol c) (m_data g) ->
  set_data (c_protocol c) cm (m_data g) objs code = Ok (iface, h) ->
  in_data x = g -> in_args x = args_reader (m_data g) objs h ->
  answers_safe cm (m_data g) (in_args x) (rrq_answers cm c (Some x)).
Proof. exact request_safe. Qed.
Print Assumptions C69_any_request_partial.

Theorem C69_any_reply_partial : forall (cm : cmode) (c : ctx) (g : message) (objs : list Z),
  all_bytes (m_data g) -> blen (m_data g) < 2 ^ 31 ->
  answers_safe cm (m_data g) (reader_init 0 (blen (m_data g)) objs) (rrp_answers cm c (Some (Some (g, objs)))).
Proof. intros cm c g objs H1 H2. exact (reply_safe cm c (Some (g, objs)) H1 H2). Qed.
Print Assumptions C69_any_reply_partial.

(* C69, refuted: that they never do. A string of 2^31 - 2 units, as in C02 *)
Theorem C69_any_reply_refuted : forall c,
  let g := {| m_data := le 4 (2 ^ 31 - 2); m_sgbase := 0; m_sg := [] |} in
  all_bytes (m_data g) /\ a_string16 (rrp_answers Wrapv c (Some (Some (g, [])))) = Fault OutOfBounds /\
  a_string16 (rrp_answers Strict c (Some (Some (g, [])))) = Fault SignedOverflow.
Proof.
  intros c. split; [cbn; unfold all_bytes, is_byte; repeat (apply Forall_cons; [vm_compute; intuition congruence|]); apply Forall_nil|].
  split; vm_compute; reflexivity.
Qed.
Print Assumptions C69_any_reply_refuted.

(* non-vacuity: the request of WholeProps, filled partly by shortcuts, partly by a writer *)
Definition short_ctx : ctx := {| c_io := Io64; c_protocol := Hidl; c_alloc := HidlProps.heap_at |}.
Definition short_calls : list adding :=
  [ByShortcut (SInt32 7); ByWriter (OpLocal (Some {| lo_ptr := 8192; lo_stability := 0 |})); ByShortcut (SHidlString (Some (1100, [65; 66])))].
Example short_request :
  fill (lrq_add short_ctx) (Some (new_request_data [97; 98; 0; 0])) short_calls = Ok (Some (demo_data demo_request)) /\
  sendable (demo_env demo_request) short_ctx (OpPlain (VRaw [97; 98; 0; 0]) :: map adds short_calls) (demo_data demo_request) demo_place.
Proof.
  split; [vm_compute; reflexivity|].
  destruct demo_request_ready as (R1 & R2 & R3 & _ & R5 & R6 & R7 & R8 & R9 & R10 & R11 & R12).
  unfold sendable. split; [reflexivity|]. exact (conj R1 (conj R2 (conj R3 (conj R5 (conj R6 (conj R7 (conj R8 (conj R9 (conj R10 (conj R11 R12)))))))))).
Qed.
Example short_run :
  match demo_sent demo_request (request_call 3 5 true (demo_data demo_request) demo_place) with
  | Some (false, t, g, offs) =>
    match receive Strict Io64 Hidl (demo_arrival g offs) (BR_TRANSACTION Io64) (arriving Io64 t (demo_arrival g offs)) with
    | Ok (Some x) => Some (rrq_int32 (Some x), rrq_interface (Some x), rrq_sender_pid (Some x), rrq_object short_ctx (Some x))
    | _ => None
    end
  | _ => None
  end = Some (Ok (Some 7), Some [97; 98], 11, Ok None).
Proof. vm_compute. reflexivity. Qed.
(* ... and the reply *)
Definition short_reply_calls : list adding :=
  [ByShortcut (SLocal (Some {| lo_ptr := 12288; lo_stability := 0 |})); ByShortcut (SHidlString (Some (1100, [65; 66])))].
Example short_reply :
  fill (lrp_add short_ctx) (Some wd_empty) short_reply_calls = Ok (Some (demo_data demo_reply)) /\
  sendable (demo_env demo_reply) short_ctx (map adds short_reply_calls) (demo_data demo_reply) demo_place /\
  starts_well (map adds short_reply_calls).
Proof.
  split; [vm_compute; reflexivity|]. split; [|exact I].
  destruct demo_reply_ready as (R1 & R2 & R3 & _ & R5 & R6 & R7 & R8 & R9 & R10 & R11 & R12).
  unfold sendable. split; [reflexivity|]. exact (conj R1 (conj R2 (conj R3 (conj R5 (conj R6 (conj R7 (conj R8 (conj R9 (conj R10 (conj R11 R12)))))))))).
Qed.
Example short_reply_run :
  match demo_sent demo_reply (reply_call (demo_data demo_reply) demo_place) with
  | Some (true, t, g, offs) =>
    match reply_answer Io64 (demo_arrival g offs) (BR_REPLY Io64) (arriving Io64 t (demo_arrival g offs)) with
    | Some an => Some (rrp_object short_ctx (Some (ClientModel.an_reply an)), rrp_is_empty (Some (ClientModel.an_reply an)))
    | None => None
    end
  | _ => None
  end = Some (Ok (Some 3), false).
Proof. vm_compute. reflexivity. Qed.
