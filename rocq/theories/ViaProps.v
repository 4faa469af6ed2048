(* C70: calls which go through any number of proxies, from end to end. See ViaSpec.v for what is assumed and for the way
   from one process to the next, ViaModel.v and WholeModel.v for the steps. *)
From Verif Require Import Base UtfModel WriterModel ReaderModel CodecSpec CodecSafety ObjModel ObjReader
  KernelModel ObjSpec HidlSpec TxModel RpcModel RpcSpec WholeModel WholeSpec WholeProofs WholeProps ViaModel ViaSpec ViaProofs.
From Verif Require FwdSpec FwdProofs HidlProps.
From Verif Require DispatchModel DispatchSpec DispatchProps DriverModel CmdModel CmdSpec ClientModel ClientSpec ClientProofs.
Import ClientModel(client, request, cl_dead, cl_ranges, client_new2, new_request2, append_ops, sync_reply2, if_iface, if_last).
Import ClientSpec(best_match, request_ops).
Import DispatchModel(lobj, lo_txproc, rs_reply, rs_stored, receiver).

(* C70: the client makes a request for a code, appends the arguments, and makes the call, with or without waiting for a
   reply. The handle is that of a proxy, which stands for an object of another process, which may be a proxy too, and
   so on. Each of them gets the request and sends it on; none of the copies is refused; and the handler of the last
   object is called exactly once: with the same code, told the same about whether the call is one-way, with the name of
   the interface which the client uses for the code, and the arguments which it reads are those which were appended
   (objects and descriptors are what the processes in the middle have made of them). *)
Theorem C70_request :
  forall (cm : cmode) qsort (pr : protocol) infos rs (code : Z) (args : list op) (handle : Z) (oneway : bool)
    (al : nat -> Z) (e : kenv) (d : wdata) (pl : place) (r : list proxy) (rc : receiver) (o later : lobj) (h : handler),
  let i := k_io e in
  let c := {| cl_dead := false; cl_ranges := rs |} in
  can_call qsort pr infos rs code -> CmdSpec.is_u32 handle ->
  lo_txproc o = true -> lo_txproc later = true ->
  exists y name q, best_match infos code y /\ if_iface y = Some name /\
  append_ops (new_request2 c code) args = Some q /\
  (ready_for e pr al (request_ops q) d pl (request_hops r) -> Forall (fun p => CmdSpec.is_u32 (px_handle p)) r ->
   ~ (exists qu, DispatchSpec.asks code (Some name) qu) ->
   exists cmd t g, CmdModel.command i (request_call handle code (negb oneway) d pl) = Ok cmd /\
   k_accept e cmd = Some (false, t, g, wd_offsets d) /\ tr_target t = handle /\
   forall a, arrives i g (wd_offsets d) a ->
   exists x b, receive cm i pr a (BR_TRANSACTION i) (arriving i t a) = Ok (Some x) /\
     received_buffer i a (BR_TRANSACTION i) (arriving i t a) = b /\
     request_passes cm i pr r x b (fun last =>
       in_code last = code /\ in_flags last = (if oneway then 1 else 0) /\ in_iface last = Some name /\
       reads_after cm e pr (request_hops r) (in_data last) (in_args last) args /\
       exists status, WholeModel.handle rc (Some o) later h last =
         (rs_reply (h last), status, [(code, if oneway then 1 else 0)]))).
Proof.
  intros cm qsort pr infos rs code args handle oneway al e d pl r rc o later h i c Hc Hh Ho Hl.
  destruct (call_request qsort pr infos rs code args Hc) as (y & name & hdr & Hb & Es & Hn & En & Eq).
  destruct Hc as (H1 & H2 & H3 & H4 & H5 & H6).
  exists y, name. eexists. split; [exact Hb|]. split; [exact Es|]. split; [exact Eq|].
  unfold request_ops. cbn [ClientModel.rq_header ClientModel.rq_ops]. intros Hr Hha Hq.
  assert (Hst : starts_well (OpPlain (VRaw hdr) :: args)).
  { cbn [starts_well]. rewrite CodecProofs.append_value_eq. cbn [CodecProofs.chunk Datatypes.app].
    intros [= X]. exact (header_nonempty pr name hdr code Hn H5 En X). }
  destruct (first_travels e pr al _ d pl (request_hops r) Hr Hst) as (g & its & Hs & T & Hk & Hps & (e0 & ps & rest & ->)).
  destruct (travelling_head _ _ _ _ _ _ _ _ _ _ T) as (tail & Gd). cbn [CodecProofs.chunk] in Gd.
  assert (Hpl : in_memory e d pl) by (destruct Hr as (_ & _ & _ & _ & _ & Hpl & _); exact Hpl).
  destruct (request_sent cm e pr name hdr tail handle code oneway d g pl En Hn H5 Hh H6 Hs Hpl Gd)
    as (cmd & t & Ec & Ea & Et & Hx). fold i in Ec, Hx, T, Hk, Hps.
  exists cmd, t, g. split; [exact Ec|]. split; [exact Ea|]. split; [exact Et|].
  intros a Ha. destruct (Hx a Ha) as (Hbf & Hrx). eexists. eexists. split; [exact Hrx|]. split; [exact Hbf|].
  eapply request_through with (name := name) (hdr := hdr) (code := code) (oneway := oneway); try eassumption; try reflexivity.
  intros last g2 Y1 Y2 Y3 Y4 (vs & p1 & R1 & R2 & R3 & R4).
  split; [exact Y1|]. split; [exact Y2|]. split; [exact Y3|]. split.
  - unfold reads_after. fold i. subst g2. exists vs, p1. cbn [map] in Hk.
    assert (Hk2 : map (FwdProofs.it_kind i) rest = map (rkind_of i) args) by congruence.
    rewrite Hk2 in R1. split; [exact R1|]. split; [|split; assumption].
    assert (F : Forall2 (FwdProofs.it_passed i (request_hops r) (in_data last)) (FwdProofs.IOp e0 (OpPlain (VRaw hdr)) ps :: rest)
      (IPlain (expected (VRaw hdr)) :: vs)) by (constructor; [reflexivity|exact R2]).
    specialize (Hps _ _ F). inversion Hps; subst; assumption.
  - unfold WholeModel.handle. rewrite Y1, Y2, Y3,
      (DispatchProps.C36_others_to_handler rc o later (Some name) code (if oneway then 1 else 0) (h last) Hq), Ho, Hl.
    cbn [andb]. eexists. reflexivity.
Qed.
Print Assumptions C70_request.

(* C70: if the handler returns a reply, the client gets it with the status 0, after it has been sent on by all of the
   proxies, the last one first, and what it reads is what was appended. A reply without anything in it is no reply. *)
Theorem C70_reply :
  forall (cm : cmode) (pr : protocol) (al : nat -> Z) (e : kenv) (ops : list op) (d : wdata) (pl : place) (r : list proxy)
    (c : client) (code : Z) (q : request),
  let i := k_io e in
  cl_dead c = false -> ready_for e pr al ops d pl (reply_hops r) -> starts_well ops ->
  exists cmd t g, CmdModel.command i (reply_call d pl) = Ok cmd /\
  k_accept e cmd = Some (true, t, g, wd_offsets d) /\
  forall a, arrives i g (wd_offsets d) a ->
  exists an, reply_answer i a (BR_REPLY i) (arriving i t a) = Some an /\
  reply_passes i pr (rev r) an (fun last =>
    exists reply, sync_reply2 (Some c) code (Some q) last = (Some reply, Some 0, Some (code, q)) /\
    match ops with
    | [] => reply = None
    | _ => exists g2 offs2, reply = Some (g2, offs2) /\
           reads_after cm e pr (reply_hops r) g2 (reader_init 0 (blen (m_data g2)) offs2) ops
    end).
Proof.
  intros cm pr al e ops d pl r c code q i Hc Hr Hst.
  destruct (first_travels e pr al ops d pl (reply_hops r) Hr Hst) as (g & its & Hs & T & Hk & Hps & _).
  assert (Hpl : in_memory e d pl) by (destruct Hr as (_ & _ & _ & _ & _ & Hpl & _); exact Hpl).
  destruct (reply_sent e d g pl Hs Hpl) as (cmd & t & Ec & Ea & Hx). fold i in Ec, Hx, T, Hk, Hps.
  exists cmd, t, g. split; [exact Ec|]. split; [exact Ea|]. intros a Ha. eexists. split; [exact (Hx a Ha)|].
  assert (Hlen : blen (m_data g) = blen (wd_bytes d)) by (destruct Hs as (_ & _ & _ & _ & _ & H); exact H).
  destruct Hr as (R1 & R2 & _ & R4 & _ & _ & _ & _ & _ & R10).
  destruct ops as [|op0 ops].
  - cbn [w_ops] in R4. injection R4 as <-. rewrite Hlen. change (blen (wd_bytes wd_empty) =? 0) with true. cbv iota.
    apply status_through; [|lia|].
    + unfold reply_hops in R10. rewrite Forall_map in R10. eapply Forall_impl; [|exact R10]. cbn. intros p (H & _). exact H.
    + exists None. split; [|reflexivity]. unfold sync_reply2. rewrite Hc. cbn [ClientModel.pick_request].
      unfold ClientModel.ipc_sync_reply. cbn [ClientModel.an_status ClientModel.an_reply]. destruct (rev r); reflexivity.
  - assert (Hp : 0 < blen (m_data g))
      by (rewrite Hlen; apply (well_nonempty i pr al (k_mem e) (op0 :: ops) d R1 R2 Hst); [discriminate|exact R4]).
    destruct (Z.eqb_spec (blen (m_data g)) 0); [lia|].
    apply (reply_through cm i pr (k_mem e) (rev r) g (wd_offsets d) its _ T Hp).
    intros g2 offs2 Hp2 (vs & p1 & V1 & V2 & V3 & V4). exists (Some (g2, offs2)). split.
    + unfold sync_reply2. rewrite Hc. cbn [ClientModel.pick_request]. reflexivity.
    + exists g2, offs2. split; [reflexivity|]. exists vs, p1. fold i. rewrite Hk in V1. split; [exact V1|].
      split; [apply Hps; exact V2|]. split; assumption.
Qed.
Print Assumptions C70_reply.

(* C70: if the handler returns no reply, the client gets the status which it has stored, and no data. Positive statuses
   and -EAGAIN are replaced. *)
Theorem C70_status :
  forall (pr : protocol) (e : kenv) (addr s : Z) (r : list proxy) (c : client) (code : Z) (q : request),
  let i := k_io e in
  cl_dead c = false -> - 2 ^ 31 <= s < 2 ^ 31 -> holds (k_mem e) addr (le 4 s) -> CmdSpec.is_word i addr ->
  Forall (fun p => k_io (px_back p) = i) r ->
  exists cmd t g, CmdModel.command i (CmdModel.CReplyStatus addr) = Ok cmd /\
  k_accept e cmd = Some (true, t, g, []) /\
  forall a, arrives i g [] a ->
  exists an, reply_answer i a (BR_REPLY i) (arriving i t a) = Some an /\
  reply_passes i pr (rev r) an (fun last =>
    sync_reply2 (Some c) code (Some q) last =
      (if s =? 0 then Some None else None, Some (status_after r s), Some (code, q))).
Proof.
  intros pr e addr s r c code q i Hc Hs Hm Hw Hio.
  destruct (status_arrives e addr s Hs Hm Hw) as (cmd & t & g & Ec & Ea & Hx). fold i in Ec, Hx.
  exists cmd, t, g. split; [exact Ec|]. split; [exact Ea|]. intros a Ha. eexists. split; [exact (Hx a Ha)|].
  apply status_through; [apply Forall_rev; exact Hio|apply status_range; exact Hs|].
  assert (E : match rev r with [] => seen_status s | _ => next_status (seen_status s) end = status_after r s).
  { destruct r as [|p r]; [reflexivity|]. cbn [status_after]. destruct (rev (p :: r)) as [|p2 r2] eqn:Er.
    - apply (f_equal (@length proxy)) in Er. rewrite rev_length in Er. discriminate Er.
    - unfold next_status, seen_status. destruct (Z.eqb_spec s (-11)) as [->|]; [reflexivity|].
      destruct (Z.eqb_spec s 1) as [->|]; [reflexivity|]. destruct (Z.eqb_spec s 2) as [->|]; [reflexivity|]. cbn [orb].
      destruct (Z.ltb_spec 0 s); [reflexivity|]. destruct (Z.eqb_spec s (-11)); [lia|].
      destruct (Z.eqb_spec s 1); [lia|]. destruct (Z.eqb_spec s 2); [lia|]. reflexivity. }
  rewrite E. unfold sync_reply2. rewrite Hc. cbn [ClientModel.pick_request]. unfold ClientModel.ipc_sync_reply.
  cbn [ClientModel.an_status ClientModel.an_reply]. rewrite orb_false_r.
  assert (E2 : (status_after r s =? 0) = (s =? 0)).
  { destruct r as [|p r]; cbn [status_after].
    - unfold seen_status. destruct (Z.eqb_spec s (-11)) as [->|]; [reflexivity|].
      destruct (Z.eqb_spec s 1) as [->|]; [reflexivity|]. destruct (Z.eqb_spec s 2) as [->|]; reflexivity.
    - destruct (Z.eqb_spec s (-11)) as [->|]; [reflexivity|]. cbn [orb]. destruct (Z.ltb_spec 0 s); [|reflexivity].
      destruct (Z.eqb_spec s 0); [lia|reflexivity]. }
  rewrite E2. reflexivity.
Qed.
Print Assumptions C70_status.

(* ------------------------------------------------------------------ *)
(* non-vacuity: the call of WholeProps.v goes through two proxies, the first of which replaces the object which is among
   the arguments, and the second one the object which is in the reply *)
Definition via_env (base : Z) (g : message) (d : wdata) : kenv :=
  {| k_io := Io64; k_sgbase := base;
     k_mem := HidlProps.block_mem [(m_sgbase g, m_sg g); (65536, wd_bytes d); (131072, offsets_image Io64 (wd_offsets d))];
     k_node := fun n => n / 4096; k_ref := fun h => Some (h + 1); k_own := fun _ => 0; k_fd := fun f => f + 10 |}.
Definition via_copy (c : converter) (b : message * list Z) : wdata :=
  match append_contents Io64 Hidl c wd_empty (m_data (fst b)) (snd b) 0 with Ok d => d | Fault _ => wd_empty end.
Definition via_next (e : kenv) (d : wdata) : message * list Z :=
  match k_send e (wd_bytes d) (wd_offsets d) (wd_bufsize d) with Some g => (g, wd_offsets d) | None => (no_data, []) end.
(* the request ... *)
Definition via_first : message * list Z := via_next (demo_env demo_request) (demo_data demo_request).
Definition via_conv1 : converter := Some (fun h => if h =? 2 then Some {| lo_ptr := 20480; lo_stability := 0 |} else None).
Definition via_env1 : kenv := via_env 524288 (fst via_first) (via_copy via_conv1 via_first).
Definition via_second : message * list Z := via_next via_env1 (via_copy via_conv1 via_first).
Definition via_env2 : kenv := via_env 262144 (fst via_second) (via_copy None via_second).
(* ... and the reply, which gets to the second of the proxies first *)
Definition via_reply : message * list Z := via_next (demo_env demo_reply) (demo_data demo_reply).
Definition via_conv2 : converter := Some (fun h => if h =? 3 then Some {| lo_ptr := 28672; lo_stability := 0 |} else None).
Definition via_back2 : kenv := via_env 524288 (fst via_reply) (via_copy via_conv2 via_reply).
Definition via_reply2 : message * list Z := via_next via_back2 (via_copy via_conv2 via_reply).
Definition via_back1 : kenv := via_env 262144 (fst via_reply2) (via_copy None via_reply2).
Definition via_proxies : list proxy :=
  [{| px_out := via_env1; px_back := via_back1; px_other := Hidl; px_handle := 4; px_requests := via_conv1; px_replies := None |};
   {| px_out := via_env2; px_back := via_back2; px_other := Aidl; px_handle := 9; px_requests := None; px_replies := via_conv2 |}].

Lemma via_hop_ok base g d size c :
  0 < base -> base + align8 size < 2 ^ 64 -> (c = via_conv1 \/ c = via_conv2 \/ c = None) -> FwdSpec.hop_ok Io64 size (via_env base g d, c).
Proof.
  intros H1 H2 H3. split; [reflexivity|]. split; [exact H1|]. split; [exact H2|]. cbn [snd]. intros h l H.
  destruct H3 as [-> |[-> | ->]]; cbn [FwdSpec.replaced via_conv1 via_conv2] in H; [| |discriminate H];
    destruct (h =? _); try discriminate H; injection H as <-; vm_compute; split; reflexivity.
Qed.
Example via_request_ready :
  ready_for (demo_env demo_request) Hidl HidlProps.heap_at demo_request (demo_data demo_request) demo_place (request_hops via_proxies).
Proof.
  destruct demo_request_ready as (R1 & R2 & R3 & R4 & R5 & R6 & R7 & R8 & R9 & R10 & R11 & R12).
  split; [exact R1|]. split; [exact R2|]. split.
  { repeat (apply Forall_cons; [intros p Hp; try discriminate Hp; injection Hp as <-; exists 6; vm_compute; reflexivity|]). apply Forall_nil. }
  split; [exact R4|]. split; [exact R5|]. split; [split; [exact R6|split; [exact R7|split; [exact R9|exact R10]]]|].
  split; [exact R8|]. split; [exact R11|]. split; [vm_compute; reflexivity|].
  apply Forall_cons; [|apply Forall_cons; [|apply Forall_nil]]; apply via_hop_ok; auto; vm_compute; reflexivity.
Qed.
Example via_reply_ready :
  ready_for (demo_env demo_reply) Hidl HidlProps.heap_at demo_reply (demo_data demo_reply) demo_place (reply_hops via_proxies).
Proof.
  destruct demo_reply_ready as (R1 & R2 & R3 & R4 & R5 & R6 & R7 & R8 & R9 & R10 & R11 & R12).
  split; [exact R1|]. split; [exact R2|]. split.
  { repeat (apply Forall_cons; [intros p Hp; try discriminate Hp; injection Hp as <-; exists 8; vm_compute; reflexivity|]). apply Forall_nil. }
  split; [exact R4|]. split; [exact R5|]. split; [split; [exact R6|split; [exact R7|split; [exact R9|exact R10]]]|].
  split; [exact R8|]. split; [exact R11|]. split; [vm_compute; reflexivity|].
  apply Forall_cons; [|apply Forall_cons; [|apply Forall_nil]]; apply via_hop_ok; auto; vm_compute; reflexivity.
Qed.
(* What is assumed about the memory on the way is true of it *)
Example via_memory_ex :
  still_there via_env1 (Some via_first) /\ in_memory via_env1 (via_copy via_conv1 via_first) demo_place /\
  still_there via_env2 (Some via_second) /\ in_memory via_env2 (via_copy None via_second) demo_place /\
  still_there via_back2 (Some via_reply) /\ in_memory via_back2 (via_copy via_conv2 via_reply) demo_place /\
  still_there via_back1 (Some via_reply2) /\ in_memory via_back1 (via_copy None via_reply2) demo_place.
Proof.
  do 3 (split; [vm_compute; reflexivity|]; split; [split; [vm_compute; reflexivity|split; [vm_compute; reflexivity|split; split; vm_compute; congruence]]|]).
  split; [vm_compute; reflexivity|]. split; [vm_compute; reflexivity|split; [vm_compute; reflexivity|split; split; vm_compute; congruence]].
Qed.
(* What happens: the driver takes what the first proxy writes, what the second proxy writes, and the service reads the arguments;
   then the reply. 6 and 8 are the handles which stand for the replacements: 20480 / 4096 + 1, 28672 / 4096 + 1 *)
Definition via_sent (e : kenv) (c : CmdModel.call) : option (bool * trdata * message * list Z) :=
  match CmdModel.command Io64 c with Ok cmd => k_accept e cmd | Fault _ => None end.
Definition via_hop (p : proxy) (x : incoming) (b : option (message * list Z)) : option (Z * incoming * option (message * list Z)) :=
  match proxy_copies Strict Io64 Hidl p x b with
  | Ok (Some d) =>
    match via_sent (px_out p) (proxy_calls p x d demo_place) with
    | Some (false, t, g, offs) =>
      let a := demo_arrival g offs in
      match receive Strict Io64 Hidl a (BR_TRANSACTION Io64) (arriving Io64 t a) with
      | Ok (Some x2) => Some (tr_target t, x2, received_buffer Io64 a (BR_TRANSACTION Io64) (arriving Io64 t a))
      | _ => None
      end
    | _ => None
    end
  | _ => None
  end.
Example via_run :
  match via_sent (demo_env demo_request) (request_call 3 5 true (demo_data demo_request) demo_place) with
  | Some (false, t, g, offs) =>
    let a := demo_arrival g offs in
    match receive Strict Io64 Hidl a (BR_TRANSACTION Io64) (arriving Io64 t a),
          nth_error via_proxies 0, nth_error via_proxies 1 with
    | Ok (Some x), Some p1, Some p2 =>
      match via_hop p1 x (received_buffer Io64 a (BR_TRANSACTION Io64) (arriving Io64 t a)) with
      | Some (h1, x1, b1) =>
        match via_hop p2 x1 b1 with
        | Some (h2, x2, _) =>
          match read_items Strict Io64 Hidl (in_data x2) (in_args x2) (map (rkind_of Io64) demo_args) with
          | Ok (items, _) => Some (h1, h2, in_code x2, in_iface x2, items)
          | Fault _ => None
          end
        | None => None
        end
      | None => None
      end
    | _, _, _ => None
    end
  | _ => None
  end = Some (4, 9, 5, Some [97; 98], [IPlain (RNum 7); IObject (Some 6); IString [65; 66]]).
Proof. vm_compute. reflexivity. Qed.
Definition via_hop_back (p : proxy) (an : ClientModel.answer) : option ClientModel.answer :=
  match proxy_reply Io64 Hidl p an with
  | Ok fwd =>
    match via_sent (px_back p) (proxy_response fwd demo_place 0) with
    | Some (true, t, g, offs) => reply_answer Io64 (demo_arrival g offs) (BR_REPLY Io64) (arriving Io64 t (demo_arrival g offs))
    | _ => None
    end
  | Fault _ => None
  end.
Example via_run_back :
  match via_sent (demo_env demo_reply) (reply_call (demo_data demo_reply) demo_place),
        nth_error via_proxies 0, nth_error via_proxies 1 with
  | Some (true, t, g, offs), Some p1, Some p2 =>
    match reply_answer Io64 (demo_arrival g offs) (BR_REPLY Io64) (arriving Io64 t (demo_arrival g offs)) with
    | Some an =>
      match via_hop_back p2 an with
      | Some an2 =>
        match via_hop_back p1 an2 with
        | Some {| ClientModel.an_status := s; ClientModel.an_reply := Some (g2, offs2) |} =>
          match read_items Strict Io64 Hidl g2 (reader_init 0 (blen (m_data g2)) offs2) (map (rkind_of Io64) demo_reply) with
          | Ok (items, _) => Some (s, items)
          | Fault _ => None
          end
        | _ => None
        end
      | None => None
      end
    | None => None
    end
  | _, _, _ => None
  end = Some (0, [IObject (Some 8); IString [65; 66]]).
Proof. vm_compute. reflexivity. Qed.
(* a status: a positive one is seen by the client of the object, but not by the client of a proxy *)
Example via_status : status_after [] 7 = 7 /\ status_after via_proxies 7 = -14 /\ status_after via_proxies (-1) = -1.
Proof. repeat split; reflexivity. Qed.
