(* Proofs about pings *)
From Verif Require Import Base BaseLemmas UtfModel WriterModel ReaderModel CodecSpec CodecProofs CodecSafety ObjModel ObjReader
  KernelModel ObjSpec HidlSpec HidlTrip TxModel RpcModel RpcSpec WholeModel WholeSpec WholeProofs PingModel PingSpec.
From Verif Require DispatchModel DriverModel CmdModel CmdSpec CmdProofs ClientModel.

(* A request without data *)
Lemma empty_arrives cm e pr al handle code d pl :
  let i := k_io e in
  CmdSpec.is_u32 handle -> CmdSpec.is_u32 code -> ready e pr al [] d pl ->
  exists cmd t g, CmdModel.command i (request_call handle code true d pl) = Ok cmd /\
    k_accept e cmd = Some (false, t, g, wd_offsets d) /\ tr_target t = handle /\
    forall a, arrives i g (wd_offsets d) a ->
    receive cm i pr a (BR_TRANSACTION i) (arriving i t a) =
    Ok (Some {| in_target := ar_target a; in_pid := ar_pid a; in_euid := ar_euid a; in_code := code;
                in_flags := 0; in_iface := None; in_data := no_data; in_args := reader_init 0 0 [] |}).
Proof.
  intros i Hha Hco Hr. pose proof Hr as (R1 & R2 & R3 & R4 & R5 & R6 & R7 & R8 & R9 & R10 & R11 & R12).
  fold i in R1, R2, R4, R7, R9, R10, R12.
  destruct (in_order_delivered e pr al [] d R1 R2 R4) as (Hord & Hb). fold i in Hord.
  destruct (delivered pr al e [] d R1 R2 Logic.I R4 R5 R8 R11 ltac:(fold i; lia))
    as (g & pss & Hg & _ & _ & _ & _ & _ & _ & Gl & _).
  set (t := CmdSpec.reply_is 16 (blen (wd_bytes d)) (fst (CmdSpec.table i (wd_offsets d) (pl_offs pl)))
    (pl_data pl) (snd (CmdSpec.table i (wd_offsets d) (pl_offs pl))) code handle).
  assert (Hm : exists x, k_transaction (CmdSpec.meaning i (request_call handle code true d pl)) = Some (false, t, x) /\
    align8 x = align8 (wd_bufsize d)).
  { unfold request_call. cbn [CmdSpec.meaning].
    destruct (bufsize_cases (wd_bufsize d) Hb) as [[-> E]|[-> E]]; eexists; (split; [reflexivity|exact E]). }
  destruct Hm as (xs & Hm & Hal).
  destruct (accept_one e (request_call handle code true d pl) t false xs (wd_bytes d) (wd_offsets d)
    (pl_data pl) (pl_offs pl) (wd_bufsize d) g) as (cmd & Ec & Ha); auto.
  { cbn [request_call CmdSpec.args_ok]. split; [exact Hha|]. split; [exact Hco|].
    exact (message_ok_ready e pr al _ d pl Hr Hb Hord). }
  exists cmd, t, g. split; [exact Ec|]. split; [exact Ha|]. split; [reflexivity|].
  intros a Hv. pose proof Hv as (V1 & V2 & V3 & V4 & V5 & V6 & V7 & V8 & V9 & V10).
  unfold receive.
  assert (Ed : DriverModel.decode_cmd i (ar_mem a) (BR_TRANSACTION i) (arriving i t a) =
    DriverModel.RTransaction (decode_transaction_data i (ar_mem a) (arriving i t a))).
  { destruct i; reflexivity. }
  rewrite Ed. clear Ed.
  rewrite (decode_arriving i t a (m_data g) (wd_offsets d) (pl_offs pl));
    [|exact Hco|split; vm_compute; congruence|reflexivity
     |cbn [t CmdSpec.reply_is tr_data_size]; congruence|reflexivity|lia|rewrite Gl; exact Hord|exact V2|exact V5|exact V6|exact V7|exact V8|exact V9|exact V10].
  cbn [w_ops] in R4. injection R4 as <-. unfold has_data. cbn [tx_data tx_size]. rewrite Gl.
  change (blen (wd_bytes wd_empty)) with 0. cbn [Z.eqb negb]. rewrite andb_false_r. reflexivity.
Qed.

(* The ping of HIDL is a header *)
Lemma hidl_header : exists hdr, new_iface Hidl (Some base_name) = Ok hdr /\ chunk (VString8 base_name) = hdr /\ all_bytes hdr.
Proof.
  eexists. split; [vm_compute; reflexivity|]. split; [vm_compute; reflexivity|].
  repeat (apply Forall_cons; [unfold is_byte; lia|]). apply Forall_nil.
Qed.
Lemma base_name_ok : iface_ok Hidl base_name.
Proof.
  split; [repeat (apply Forall_cons; [unfold is_byte; lia|]); apply Forall_nil|].
  cbn. intros H. repeat (destruct H as [H|H]; [discriminate|]). exact H.
Qed.
Lemma base_name_is : utf8 DispatchModel.hidl_base_interface = base_name.
Proof. vm_compute. reflexivity. Qed.

Lemma ready_header e al d pl hdr :
  chunk (VString8 base_name) = hdr -> all_bytes hdr -> (4 | blen hdr) ->
  ready e Hidl al [OpPlain (VString8 base_name)] d pl -> ready e Hidl al [OpPlain (VRaw hdr)] d pl.
Proof.
  intros Ec Hb Hd (R1 & R2 & R3 & R4 & R). split; [exact R1|]. split.
  { apply Forall_cons; [|apply Forall_nil]. cbn. split; [exact Hb|]. apply Z.mod_divide; [lia|exact Hd]. }
  split; [apply Forall_cons; [exact Logic.I|apply Forall_nil]|].
  split; [|exact R]. rewrite <- R4. cbn [w_ops w_op]. unfold wd_plain. rewrite !append_value_eq, Ec. reflexivity.
Qed.

Theorem ping_arrives cm e pr al handle d pl :
  let i := k_io e in
  CmdSpec.is_u32 handle -> ready e pr al (ping_ops pr) d pl ->
  exists cmd t g, CmdModel.command i (ping_call pr handle d pl) = Ok cmd /\
    k_accept e cmd = Some (false, t, g, wd_offsets d) /\ tr_target t = handle /\
    forall a, arrives i g (wd_offsets d) a ->
    exists x, receive cm i pr a (BR_TRANSACTION i) (arriving i t a) = Ok (Some x) /\
      in_target x = ar_target a /\ is_ping pr x.
Proof.
  intros i Hh Hr. destruct pr.
  1-3: destruct (empty_arrives cm e _ al handle DispatchModel.PING_TRANSACTION d pl Hh ltac:(split; vm_compute; congruence) Hr)
    as (cmd & t & g & A & B & C & D); exists cmd, t, g; repeat (split; [assumption|]);
    intros a Ha; eexists; (split; [exact (D a Ha)|]); cbn; repeat split.
  destruct hidl_header as (hdr & H1 & H2 & H3).
  assert (H4 : (4 | blen hdr)) by (rewrite <- H2; exists 8; vm_compute; reflexivity).
  cbn [ping_ops] in Hr. rewrite base_name_is in Hr. apply (ready_header e al d pl hdr H2 H3 H4) in Hr.
  destruct (request_arrives cm e Hidl al base_name [] hdr handle DispatchModel.HIDL_PING_TRANSACTION false d pl H1 base_name_ok
    (or_introl eq_refl) Hh ltac:(split; vm_compute; congruence) Hr) as (cmd & t & g & A & B & C & D).
  exists cmd, t, g. repeat (split; [assumption|]). intros a Ha. destruct (D a Ha) as (x & E & F & _).
  exists x. split; [exact E|]. rewrite F. cbn. repeat split.
Qed.

Theorem ping_handled pr rc o later h x :
  is_ping pr x -> WholeModel.handle rc (Some o) later h x = (Some [OpPlain (VInt32 0)], 0, []).
Proof.
  intros (_ & H). unfold WholeModel.handle, DispatchModel.dispatch.
  destruct pr; destruct H as (-> & H); [reflexivity..|]. rewrite H. vm_compute. reflexivity.
Qed.
