(* Property theorems about calls from one process to another, from end to end. The assumptions about the driver and
   about the memory of the processes are in WholeSpec.v, the steps are in WholeModel.v and in the models which it
   puts together. *)
From Verif Require Import Base UtfModel WriterModel ReaderModel CodecSpec CodecSafety ObjModel ObjReader
  KernelModel ObjSpec HidlSpec TxModel RpcModel RpcSpec WholeModel WholeSpec WholeProofs.
From Verif Require DispatchModel DispatchSpec DispatchProps DriverModel CmdModel CmdSpec ClientModel ClientSpec ClientProofs ClientProps HidlProps.
Import ClientModel(client, request, cl_dead, cl_ranges, client_new2, new_request2, append_ops, sync_reply2, if_iface, if_last).
Import ClientSpec(best_match, request_ops).
Import DispatchModel(lobj, lo_txproc, rs_reply, rs_stored, receiver).

(* A client of these interfaces, which isn't dead, and a code which one of them has *)
Definition can_call (qsort : list ClientModel.range -> list ClientModel.range) (pr : protocol)
  (infos : list ClientModel.iface_info) (rs : list ClientModel.range) (code : Z) : Prop :=
  ClientModel.qsort_contract ClientModel.sort_ranges qsort /\ client_new2 qsort pr infos = Ok rs /\
  Forall (fun x => exists s, if_iface x = Some s /\ iface_ok pr s) infos /\
  (exists x, In x infos /\ code <= if_last x) /\ has_header pr code /\ CmdSpec.is_u32 code.

Lemma call_request qsort pr infos rs code args :
  can_call qsort pr infos rs code ->
  exists y name hdr, best_match infos code y /\ if_iface y = Some name /\ iface_ok pr name /\
    new_iface pr (Some name) = Ok hdr /\
    append_ops (new_request2 {| cl_dead := false; cl_ranges := rs |} code) args =
      Some {| ClientModel.rq_header := hdr; ClientModel.rq_ops := args |}.
Proof.
  intros (H1 & H2 & H3 & H4 & H5 & H6).
  assert (Hne : infos <> []) by (destruct H4 as (x & Hx & _); destruct infos; [contradiction|discriminate]).
  destruct (ClientProps.C37_interface_of_code qsort pr infos rs false code H1 Hne H2 H4)
    as (y & hdr & Hb & En & _ & _ & Er & _).
  pose proof Hb as (Hin & _). rewrite Forall_forall in H3. destruct (H3 y Hin) as (name & Es & Hn).
  exists y, name, hdr. split; [exact Hb|]. split; [exact Es|]. split; [exact Hn|].
  split; [rewrite Es in En; exact En|]. rewrite Er. reflexivity.
Qed.

(* C65: a call which waits for a reply. The client makes a request for a code, appends the arguments, and makes the
   call. The handler of the object is called exactly once, with the same code, with the name of the interface which
   the client uses for this code, and the arguments which it reads are those which were appended. If it returns a
   reply, the client gets it together with the status 0 (whatever the handler has stored), and what it reads from
   the reply is what was appended there. *)
Theorem C65_call :
  forall (cm : cmode) qsort (pr : protocol) infos rs (code : Z) (args : list op) (handle : Z)
    (al : nat -> Z) (e : kenv) (d : wdata) (pl : place) (rc : receiver) (o later : lobj) (h : handler),
  let i := k_io e in
  let c := {| cl_dead := false; cl_ranges := rs |} in
  can_call qsort pr infos rs code -> CmdSpec.is_u32 handle ->
  lo_txproc o = true -> lo_txproc later = true ->
  exists y name q, best_match infos code y /\ if_iface y = Some name /\
  append_ops (new_request2 c code) args = Some q /\
  (ready e pr al (request_ops q) d pl -> ~ (exists qu, DispatchSpec.asks code (Some name) qu) ->
   exists cmd t g, CmdModel.command i (request_call handle code true d pl) = Ok cmd /\
   k_accept e cmd = Some (false, t, g, wd_offsets d) /\ tr_target t = handle /\
   forall a, arrives i g (wd_offsets d) a ->
   exists x, receive cm i pr a (BR_TRANSACTION i) (arriving i t a) = Ok (Some x) /\
     in_target x = ar_target a /\ in_pid x = ar_pid a /\ in_euid x = ar_euid a /\
     in_code x = code /\ in_flags x = 0 /\ in_iface x = Some name /\ in_data x = g /\
     reads cm e pr g (in_args x) args /\
     exists status, WholeModel.handle rc (Some o) later h x = (rs_reply (h x), status, [(code, 0)]) /\
     forall e2 al2 ops d2 pl2 sa, k_io e2 = i -> rs_reply (h x) = Some ops -> starts_well ops ->
     ready e2 pr al2 ops d2 pl2 ->
     exists resp cmd2 t2 g2, response x (rs_reply (h x), status) d2 pl2 sa = Some resp /\
     CmdModel.command i resp = Ok cmd2 /\
     k_accept e2 cmd2 = Some (true, t2, g2, wd_offsets d2) /\
     reads cm e2 pr g2 (reader_init 0 (blen (m_data g2)) (wd_offsets d2)) ops /\
     forall a2, arrives i g2 (wd_offsets d2) a2 ->
     exists an, reply_answer i a2 (BR_REPLY i) (arriving i t2 a2) = Some an /\
     sync_reply2 (Some c) code (Some q) an =
       (Some (match ops with [] => None | _ => Some (g2, wd_offsets d2) end), Some 0, Some (code, q))).
Proof.
  intros cm qsort pr infos rs code args handle al e d pl rc o later h i c Hc Hh Ho Hl.
  destruct (call_request qsort pr infos rs code args Hc) as (y & name & hdr & Hb & Es & Hn & En & Eq).
  destruct Hc as (H1 & H2 & H3 & H4 & H5 & H6).
  exists y, name. eexists. split; [exact Hb|]. split; [exact Es|]. split; [exact Eq|].
  unfold request_ops. cbn [ClientModel.rq_header ClientModel.rq_ops]. intros Hr Hq.
  destruct (request_arrives cm e pr al name args hdr handle code false d pl En Hn H5 Hh H6 Hr)
    as (cmd & t & g & Ec & Ea & Et & Hx). fold i in Ec, Hx. cbn [negb] in Ec.
  exists cmd, t, g. split; [exact Ec|]. split; [exact Ea|]. split; [exact Et|].
  intros a Ha. destruct (Hx a Ha) as (x & Ex & Ex2 & Hrd). exists x. split; [exact Ex|].
  assert (Q : in_target x = ar_target a /\ in_pid x = ar_pid a /\ in_euid x = ar_euid a /\
    in_code x = code /\ in_flags x = 0 /\ in_iface x = Some name /\ in_data x = g) by (rewrite Ex2; cbn; auto 10).
  destruct Q as (Q1 & Q2 & Q3 & Q4 & Q5 & Q6 & Q7).
  repeat (split; [assumption|]).
  unfold WholeModel.handle. rewrite Q4, Q5, Q6, (DispatchProps.C36_others_to_handler rc o later (Some name) code 0 (h x) Hq), Ho, Hl.
  cbn [andb]. eexists. split; [reflexivity|].
  intros e2 al2 ops d2 pl2 sa Hi2 Erep Hst Hr2.
  destruct (reply_arrives cm e2 pr al2 ops d2 pl2 Hr2 Hst) as (cmd2 & t2 & g2 & Ec2 & Ea2 & Hrd2 & Han).
  rewrite Hi2 in Ec2, Han.
  exists (reply_call d2 pl2), cmd2, t2, g2. split; [unfold response; rewrite Q5, Erep; reflexivity|].
  split; [exact Ec2|]. split; [exact Ea2|]. split; [exact Hrd2|].
  intros a2 Ha2. eexists. split; [exact (Han a2 Ha2)|].
  unfold sync_reply2. cbn [cl_dead c ClientModel.pick_request]. unfold ClientModel.ipc_sync_reply.
  cbn [ClientModel.an_status ClientModel.an_reply Z.eqb orb]. reflexivity.
Qed.
Print Assumptions C65_call.

(* C65: if the handler returns no reply, the client gets the status which it has stored, and no data. Three of the
   statuses are replaced. *)
Theorem C65_status :
  forall (rc : receiver) (o later : lobj) (h : handler) (x : incoming) (s : Z) d pl (e : kenv) (addr : Z)
    (c : client) (code : Z) (q : request),
  let i := k_io e in
  cl_dead c = false -> lo_txproc o = true -> lo_txproc later = true -> in_flags x = 0 ->
  ~ (exists qu, DispatchSpec.asks (in_code x) (in_iface x) qu) ->
  h x = {| rs_reply := None; rs_stored := Some s |} -> - 2 ^ 31 <= s < 2 ^ 31 ->
  holds (k_mem e) addr (le 4 s) -> CmdSpec.is_word i addr ->
  WholeModel.handle rc (Some o) later h x = (None, s, [(in_code x, 0)]) /\
  exists resp cmd t g, response x (None, s) d pl addr = Some resp /\ CmdModel.command i resp = Ok cmd /\
  k_accept e cmd = Some (true, t, g, []) /\
  forall a, arrives i g [] a ->
  exists an, reply_answer i a (BR_REPLY i) (arriving i t a) = Some an /\
  sync_reply2 (Some c) code (Some q) an =
    (if s =? 0 then Some None else None, Some (seen_status s), Some (code, q)).
Proof.
  intros rc o later h x s d pl e addr c code q i Hc Ho Hl Hf Hq Hh Hs Hm Hw. split.
  - unfold WholeModel.handle. rewrite (DispatchProps.C36_others_to_handler rc o later _ _ _ (h x) Hq), Ho, Hl, Hf, Hh.
    reflexivity.
  - destruct (status_arrives e addr s Hs Hm Hw) as (cmd & t & g & Ec & Ea & Han).
    exists (CmdModel.CReplyStatus addr), cmd, t, g.
    split; [unfold response; rewrite Hf; reflexivity|]. split; [exact Ec|]. split; [exact Ea|].
    intros a Ha. eexists. split; [exact (Han a Ha)|].
    unfold sync_reply2. rewrite Hc. cbn [ClientModel.pick_request]. unfold ClientModel.ipc_sync_reply.
    cbn [ClientModel.an_status ClientModel.an_reply]. rewrite orb_false_r.
    assert (E : (seen_status s =? 0) = (s =? 0)).
    { unfold seen_status. destruct (Z.eqb_spec s (-11)) as [->|]; [reflexivity|].
      destruct (Z.eqb_spec s 1) as [->|]; [reflexivity|]. destruct (Z.eqb_spec s 2) as [->|]; reflexivity. }
    rewrite E. reflexivity.
Qed.
Print Assumptions C65_status.

(* C65: a one-way call. The handler gets the same things and is told that the call is one-way; nothing is written in
   return, whatever it does. *)
Theorem C65_oneway :
  forall (cm : cmode) qsort (pr : protocol) infos rs (code : Z) (args : list op) (handle : Z)
    (al : nat -> Z) (e : kenv) (d : wdata) (pl : place) (rc : receiver) (o later : lobj) (h : handler),
  let i := k_io e in
  let c := {| cl_dead := false; cl_ranges := rs |} in
  can_call qsort pr infos rs code -> CmdSpec.is_u32 handle ->
  lo_txproc o = true -> lo_txproc later = true ->
  exists y name q, best_match infos code y /\ if_iface y = Some name /\
  append_ops (new_request2 c code) args = Some q /\
  (ready e pr al (request_ops q) d pl -> ~ (exists qu, DispatchSpec.asks code (Some name) qu) ->
   exists cmd t g, CmdModel.command i (request_call handle code false d pl) = Ok cmd /\
   k_accept e cmd = Some (false, t, g, wd_offsets d) /\ tr_target t = handle /\
   forall a, arrives i g (wd_offsets d) a ->
   exists x, receive cm i pr a (BR_TRANSACTION i) (arriving i t a) = Ok (Some x) /\
     in_target x = ar_target a /\ in_pid x = ar_pid a /\ in_euid x = ar_euid a /\
     in_code x = code /\ in_flags x = 1 /\ in_iface x = Some name /\ in_data x = g /\
     reads cm e pr g (in_args x) args /\
     exists status, WholeModel.handle rc (Some o) later h x = (rs_reply (h x), status, [(code, 1)]) /\
     forall r d2 pl2 sa, response x r d2 pl2 sa = None).
Proof.
  intros cm qsort pr infos rs code args handle al e d pl rc o later h i c Hc Hh Ho Hl.
  destruct (call_request qsort pr infos rs code args Hc) as (y & name & hdr & Hb & Es & Hn & En & Eq).
  destruct Hc as (H1 & H2 & H3 & H4 & H5 & H6).
  exists y, name. eexists. split; [exact Hb|]. split; [exact Es|]. split; [exact Eq|].
  unfold request_ops. cbn [ClientModel.rq_header ClientModel.rq_ops]. intros Hr Hq.
  destruct (request_arrives cm e pr al name args hdr handle code true d pl En Hn H5 Hh H6 Hr)
    as (cmd & t & g & Ec & Ea & Et & Hx). fold i in Ec, Hx. cbn [negb] in Ec.
  exists cmd, t, g. split; [exact Ec|]. split; [exact Ea|]. split; [exact Et|].
  intros a Ha. destruct (Hx a Ha) as (x & Ex & Ex2 & Hrd). exists x. split; [exact Ex|].
  assert (Q : in_target x = ar_target a /\ in_pid x = ar_pid a /\ in_euid x = ar_euid a /\
    in_code x = code /\ in_flags x = 1 /\ in_iface x = Some name /\ in_data x = g) by (rewrite Ex2; cbn; auto 10).
  destruct Q as (Q1 & Q2 & Q3 & Q4 & Q5 & Q6 & Q7).
  repeat (split; [assumption|]).
  unfold WholeModel.handle. rewrite Q4, Q5, Q6, (DispatchProps.C36_others_to_handler rc o later (Some name) code 1 (h x) Hq), Ho, Hl.
  cbn [andb]. eexists. split; [reflexivity|].
  intros r d2 pl2 sa. unfold response. rewrite Q5. reflexivity.
Qed.
Print Assumptions C65_oneway.

(* C65, refuted: that the client can tell what the handler has returned. A reply to which nothing was appended and no
   reply at all with the status 0 are the same to it. *)
Theorem C65_empty_reply_refuted :
  forall (e : kenv) (pr : protocol) (al : nat -> Z) (pl : place) (addr : Z) (c : client) (code : Z) (q : request),
  let i := k_io e in
  cl_dead c = false -> ready e pr al [] wd_empty pl -> holds (k_mem e) addr (le 4 0) -> CmdSpec.is_word i addr ->
  exists cmd1 t1 g1 cmd2 t2 g2,
    CmdModel.command i (reply_call wd_empty pl) = Ok cmd1 /\ k_accept e cmd1 = Some (true, t1, g1, []) /\
    CmdModel.command i (CmdModel.CReplyStatus addr) = Ok cmd2 /\ k_accept e cmd2 = Some (true, t2, g2, []) /\
    forall a1 a2, arrives i g1 [] a1 -> arrives i g2 [] a2 ->
    exists an1 an2, reply_answer i a1 (BR_REPLY i) (arriving i t1 a1) = Some an1 /\
      reply_answer i a2 (BR_REPLY i) (arriving i t2 a2) = Some an2 /\
      sync_reply2 (Some c) code (Some q) an1 = sync_reply2 (Some c) code (Some q) an2.
Proof.
  intros e pr al pl addr c code q i Hc Hr Hm Hw.
  destruct (reply_arrives Strict e pr al [] wd_empty pl Hr I) as (cmd1 & t1 & g1 & Ec1 & Ea1 & _ & H1).
  destruct (status_arrives e addr 0 ltac:(lia) Hm Hw) as (cmd2 & t2 & g2 & Ec2 & Ea2 & H2).
  exists cmd1, t1, g1, cmd2, t2, g2. split; [exact Ec1|]. split; [exact Ea1|]. split; [exact Ec2|]. split; [exact Ea2|].
  intros a1 a2 A1 A2. eexists _, _. split; [exact (H1 a1 A1)|]. split; [exact (H2 a2 A2)|]. reflexivity.
Qed.
Print Assumptions C65_empty_reply_refuted.

(* non-vacuity: a process calls another one with a number, an object and a string; it gets a number and a string
   back. Everything is in the memory of these processes. *)
Definition demo_infos : list ClientModel.iface_info := [{| ClientModel.if_iface := Some [97; 98]; ClientModel.if_last := 9 |}].
Definition demo_ranges : list ClientModel.range :=
  match client_new2 ClientProofs.put_all Hidl demo_infos with Ok rs => rs | Fault _ => [] end.
Definition demo_args : list op :=
  [OpPlain (VInt32 7); OpLocal (Some {| lo_ptr := 8192; lo_stability := 0 |}); OpHidlString (Some (1100, [65; 66]))].
Definition demo_request : list op := OpPlain (VRaw [97; 98; 0; 0]) :: demo_args.
Definition demo_reply : list op := [OpLocal (Some {| lo_ptr := 12288; lo_stability := 0 |}); OpHidlString (Some (1100, [65; 66]))].
Definition demo_place : place := {| pl_data := 65536; pl_offs := 131072 |}.
Definition demo_data (l : list op) : wdata :=
  match w_ops Io64 Hidl HidlProps.heap_at wd_empty l with Ok d => d | Fault _ => wd_empty end.
Definition demo_blocks (l : list op) : list (Z * bytes) :=
  (1100, [65; 66; 0]) :: wd_heap (demo_data l) ++
  [(65536, wd_bytes (demo_data l)); (131072, offsets_image Io64 (wd_offsets (demo_data l)))].
Definition demo_env (l : list op) : kenv :=
  {| k_io := Io64; k_sgbase := 262144; k_mem := HidlProps.block_mem (demo_blocks l); k_node := fun n => n / 4096;
     k_ref := fun h => Some (h + 1); k_own := fun _ => 0; k_fd := fun f => f + 10 |}.
Lemma demo_string l : string_ok Io64 (HidlProps.block_mem (demo_blocks l)) (Some (1100, [65; 66])).
Proof.
  cbn [string_ok]. split; [vm_compute; split; reflexivity|]. split; [repeat constructor; unfold is_byte; lia|].
  split; [cbn; lia|]. split; [vm_compute; reflexivity|reflexivity].
Qed.
Example demo_request_ready : ready (demo_env demo_request) Hidl HidlProps.heap_at demo_request (demo_data demo_request) demo_place.
Proof.
  unfold ready. split; [exact HidlProps.trip_addrs|]. split.
  { unfold demo_request, demo_args.
    apply Forall_cons. { cbn. split; [|reflexivity]. unfold all_bytes, is_byte. repeat (apply Forall_cons; [lia|]). apply Forall_nil. }
    apply Forall_cons. { cbn. unfold in_range. split; [lia|exact I]. }
    apply Forall_cons. { vm_compute. split; reflexivity. }
    apply Forall_cons. { exact (demo_string demo_request). }
    apply Forall_nil. }
  split; [repeat constructor|]. split; [vm_compute; reflexivity|]. split; [vm_compute; reflexivity|].
  split; [vm_compute; reflexivity|]. split; [vm_compute; reflexivity|].
  split; [vm_compute; repeat (apply Forall_cons; [reflexivity|]); apply Forall_nil|].
  split; [vm_compute; split; congruence|]. split; [vm_compute; split; congruence|].
  split; vm_compute; reflexivity.
Qed.
Example demo_reply_ready : ready (demo_env demo_reply) Hidl HidlProps.heap_at demo_reply (demo_data demo_reply) demo_place.
Proof.
  unfold ready. split; [exact HidlProps.trip_addrs|]. split.
  { unfold demo_reply.
    apply Forall_cons. { vm_compute. split; reflexivity. }
    apply Forall_cons. { exact (demo_string demo_reply). }
    apply Forall_nil. }
  split; [repeat constructor|]. split; [vm_compute; reflexivity|]. split; [vm_compute; reflexivity|].
  split; [vm_compute; reflexivity|]. split; [vm_compute; reflexivity|].
  split; [vm_compute; repeat (apply Forall_cons; [reflexivity|]); apply Forall_nil|].
  split; [vm_compute; split; congruence|]. split; [vm_compute; split; congruence|].
  split; vm_compute; reflexivity.
Qed.
Example demo_can_call : can_call ClientProofs.put_all Hidl demo_infos demo_ranges 5.
Proof.
  split; [exact ClientProps.sorting_exists|]. split; [vm_compute; reflexivity|]. split.
  { apply Forall_cons; [|apply Forall_nil]. exists [97; 98]. split; [reflexivity|].
    split; [repeat constructor; unfold is_byte; lia|]. cbn. intros [H|[H|[]]]; discriminate. }
  split; [eexists; split; [left; reflexivity|cbn; lia]|]. split; [left; reflexivity|split; vm_compute; congruence].
Qed.
Example demo_request_is :
  option_map request_ops (append_ops (new_request2 {| cl_dead := false; cl_ranges := demo_ranges |} 5) demo_args) = Some demo_request.
Proof. vm_compute. reflexivity. Qed.
(* ... what arrives *)
Definition demo_arrival (g : message) (offs : list Z) : arrival :=
  {| ar_mem := HidlProps.block_mem [(4096, m_data g); (8192, offsets_image Io64 offs); (m_sgbase g, m_sg g)];
     ar_target := 40960; ar_cookie := 0; ar_pid := 11; ar_euid := 22; ar_buffer := 4096; ar_offsets := 8192;
     ar_sg := (m_sgbase g, blen (m_sg g)) |}.
Definition demo_sent (l : list op) (c : CmdModel.call) : option (bool * trdata * message * list Z) :=
  match CmdModel.command Io64 c with Ok cmd => k_accept (demo_env l) cmd | Fault _ => None end.
Example demo_request_arrives :
  match demo_sent demo_request (request_call 3 5 true (demo_data demo_request) demo_place) with
  | Some (false, t, g, offs) => arrives Io64 g offs (demo_arrival g offs)
  | _ => False
  end.
Proof.
  assert (E : match demo_sent demo_request (request_call 3 5 true (demo_data demo_request) demo_place) with
    | Some (false, t, g, offs) =>
      let a := demo_arrival g offs in
      (if list_eq_dec Z.eq_dec (mread (ar_mem a) 4096 (blen (m_data g))) (m_data g) then true else false) &&
      (if list_eq_dec Z.eq_dec (mread (ar_mem a) 8192 (blen (offsets_image Io64 offs))) (offsets_image Io64 offs) then true else false) &&
      (if list_eq_dec Z.eq_dec (mread (ar_mem a) (m_sgbase g) (blen (m_sg g))) (m_sg g) then true else false) &&
      (4096 + blen (m_data g) <? 2 ^ (8 * psz Io64))
    | _ => false
    end = true) by (vm_compute; reflexivity).
  destruct (demo_sent _ _) as [[[[[] t] g] offs]|]; try discriminate.
  cbv zeta in E. apply andb_prop in E. destruct E as [E E4]. apply andb_prop in E. destruct E as [E E3].
  apply andb_prop in E. destruct E as [E1 E2]. rewrite Z.ltb_lt in E4.
  destruct (list_eq_dec Z.eq_dec _ (m_data g)) as [F1|]; [|discriminate].
  destruct (list_eq_dec Z.eq_dec _ (offsets_image Io64 offs)) as [F2|]; [|discriminate].
  destruct (list_eq_dec Z.eq_dec _ (m_sg g)) as [F3|]; [|discriminate].
  unfold arrives. split; [exact F1|]. split; [exact F2|]. split; [reflexivity|]. split; [exact F3|].
  split; [reflexivity|]. split; [exact E4|].
  repeat split; vm_compute; congruence.
Qed.
Example demo_run :
  match demo_sent demo_request (request_call 3 5 true (demo_data demo_request) demo_place) with
  | Some (false, t, g, offs) =>
    match receive Strict Io64 Hidl (demo_arrival g offs) (BR_TRANSACTION Io64) (arriving Io64 t (demo_arrival g offs)) with
    | Ok (Some x) =>
      match read_items Strict Io64 Hidl (in_data x) (in_args x) (map (rkind_of Io64) demo_args) with
      | Ok (items, _) => Some (tr_target t, in_code x, in_iface x, in_pid x, items)
      | Fault _ => None
      end
    | _ => None
    end
  | _ => None
  end = Some (3, 5, Some [97; 98], 11, [IPlain (RNum 7); IObject (Some 2); IString [65; 66]]).
Proof. vm_compute. reflexivity. Qed.
Example demo_run_back :
  match demo_sent demo_reply (reply_call (demo_data demo_reply) demo_place) with
  | Some (true, t, g, offs) =>
    match reply_answer Io64 (demo_arrival g offs) (BR_REPLY Io64) (arriving Io64 t (demo_arrival g offs)) with
    | Some an =>
      match ClientModel.an_reply an with
      | Some (g2, offs2) =>
        match read_items Strict Io64 Hidl g2 (reader_init 0 (blen (m_data g2)) offs2) (map (rkind_of Io64) demo_reply) with
        | Ok (items, _) => Some (ClientModel.an_status an, items)
        | Fault _ => None
        end
      | None => None
      end
    | None => None
    end
  | _ => None
  end = Some (0, [IObject (Some 3); IString [65; 66]]).
Proof. vm_compute. reflexivity. Qed.
(* a status: the handler's -1 stays what it is, its 2 doesn't *)
Example demo_status : seen_status (-1) = -1 /\ seen_status 2 = -14.
Proof. split; reflexivity. Qed.
