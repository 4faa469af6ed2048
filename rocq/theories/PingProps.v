(* Property theorems about pings. Pings as Android defines them are in PingSpec.v, the assumptions about the driver and
   about the memory of the processes in WholeSpec.v. *)
From Verif Require Import Base UtfModel WriterModel ReaderModel CodecSpec CodecSafety ObjModel ObjReader
  KernelModel ObjSpec HidlSpec TxModel RpcModel RpcSpec WholeModel WholeSpec WholeProofs PingModel PingSpec PingProofs.
From Verif Require DispatchModel DriverModel CmdModel CmdSpec ClientModel HidlProps WholeProps.
Import DispatchModel(lobj, receiver).

(* C77: a ping succeeds if there is an object behind the handle, in a process which uses this library. What arrives is
   a ping as Android defines it, for this handle. The object answers whatever its interfaces are, and whether it has a
   handler or has been dropped; the handler isn't called. The one who pings gets 0. *)
Theorem C77_ping_answered :
  forall (cm : cmode) (pr : protocol) (handle : Z) (al : nat -> Z) (e : kenv) (d : wdata) (pl : place),
  let i := k_io e in
  CmdSpec.is_u32 handle -> ready e pr al (ping_ops pr) d pl ->
  exists cmd t g, CmdModel.command i (ping_call pr handle d pl) = Ok cmd /\
  k_accept e cmd = Some (false, t, g, wd_offsets d) /\ tr_target t = handle /\
  forall a, arrives i g (wd_offsets d) a ->
  exists x, receive cm i pr a (BR_TRANSACTION i) (arriving i t a) = Ok (Some x) /\
    in_target x = ar_target a /\ is_ping pr x /\
    forall (rc : receiver) (o later : lobj) (h : handler), exists ops,
    WholeModel.handle rc (Some o) later h x = (Some ops, 0, []) /\
    forall e2 al2 d2 pl2 sa, k_io e2 = i -> ready e2 pr al2 ops d2 pl2 ->
    exists resp cmd2 t2 g2, response x (Some ops, 0) d2 pl2 sa = Some resp /\
    CmdModel.command i resp = Ok cmd2 /\ k_accept e2 cmd2 = Some (true, t2, g2, wd_offsets d2) /\
    forall a2, arrives i g2 (wd_offsets d2) a2 ->
    exists an, reply_answer i a2 (BR_REPLY i) (arriving i t2 a2) = Some an /\ ping_result an = 0.
Proof.
  intros cm pr handle al e d pl i Hh Hr.
  destruct (ping_arrives cm e pr al handle d pl Hh Hr) as (cmd & t & g & A & B & C & D). fold i in A, D.
  exists cmd, t, g. repeat (split; [assumption|]). intros a Ha. destruct (D a Ha) as (x & X1 & X2 & X3).
  exists x. repeat (split; [assumption|]). intros rc o later h. eexists.
  split; [exact (ping_handled pr rc o later h x X3)|]. intros e2 al2 d2 pl2 sa Hi Hr2.
  destruct (reply_arrives cm e2 pr al2 _ d2 pl2 Hr2 ltac:(cbn; discriminate)) as (cmd2 & t2 & g2 & A2 & B2 & _ & D2).
  rewrite Hi in A2, D2. exists (reply_call d2 pl2), cmd2, t2, g2.
  split; [unfold response; destruct X3 as (-> & _); reflexivity|]. repeat (split; [assumption|]).
  intros a2 Ha2. eexists. split; [exact (D2 a2 Ha2)|]. reflexivity.
Qed.
Print Assumptions C77_ping_answered.

(* C77: and it fails if there is no object: because the library of the receiver has none (then the result is -EBADMSG),
   because the receiver is dead, or because the driver couldn't deliver the ping. *)
Theorem C77_ping_fails :
  forall (pr : protocol) (rc : receiver) (later : lobj) (h : handler) (x : incoming) d pl (e : kenv) (addr : Z),
  let i := k_io e in
  is_ping pr x -> holds (k_mem e) addr (le 4 (-74)) -> CmdSpec.is_word i addr ->
  WholeModel.handle rc None later h x = (None, -74, []) /\
  (exists resp cmd t g, response x (None, -74) d pl addr = Some resp /\ CmdModel.command i resp = Ok cmd /\
   k_accept e cmd = Some (true, t, g, []) /\
   forall a, arrives i g [] a ->
   exists an, reply_answer i a (BR_REPLY i) (arriving i t a) = Some an /\ ping_result an = -74) /\
  (forall a payload, exists an1 an2,
   reply_answer i a 0x7205 payload = Some an1 /\ ping_result an1 = 2 /\   (* BR_DEAD_REPLY *)
   reply_answer i a 0x7211 payload = Some an2 /\ ping_result an2 = 1).    (* BR_FAILED_REPLY *)
Proof.
  intros pr rc later h x d pl e addr i Hx Hm Hw. split; [reflexivity|]. split.
  - destruct (status_arrives e addr (-74) ltac:(lia) Hm Hw) as (cmd & t & g & Ec & Ea & Han).
    exists (CmdModel.CReplyStatus addr), cmd, t, g.
    split; [unfold response; destruct Hx as (-> & _); reflexivity|]. split; [exact Ec|]. split; [exact Ea|].
    intros a Ha. eexists. split; [exact (Han a Ha)|]. reflexivity.
  - intros a payload. eexists _, _. unfold reply_answer. destruct i; repeat split; reflexivity.
Qed.
Print Assumptions C77_ping_fails.

(* non-vacuity: pings of two kinds and the answer are ready to be sent *)
Definition p_data (pr : protocol) (l : list op) : wdata :=
  match w_ops Io64 pr HidlProps.heap_at wd_empty l with Ok d => d | Fault _ => wd_empty end.
Definition p_env (pr : protocol) (l : list op) : kenv :=
  {| k_io := Io64; k_sgbase := 262144;
     k_mem := HidlProps.block_mem [(65536, wd_bytes (p_data pr l)); (131072, offsets_image Io64 (wd_offsets (p_data pr l)))];
     k_node := fun n => n / 4096; k_ref := fun h => Some (h + 1); k_own := fun _ => 0; k_fd := fun f => f + 10 |}.
Example C77_ready : forall pr l,
  In (pr, l) [(Hidl, ping_ops Hidl); (Aidl3, ping_ops Aidl3); (Hidl, [OpPlain (VInt32 0)])] ->
  ready (p_env pr l) pr HidlProps.heap_at l (p_data pr l) WholeProps.demo_place.
Proof.
  intros pr l H. unfold ready. split; [exact HidlProps.trip_addrs|]. split.
  { destruct H as [H|[H|[H|[]]]]; injection H as <- <-; [apply Forall_cons; [|apply Forall_nil]|apply Forall_nil|apply Forall_cons; [|apply Forall_nil]].
    - cbn [call_ok]. split; [|reflexivity]. exact (eq_ind_r (fun s => all_bytes s /\ ~ In 0 s) base_name_ok base_name_is).
    - cbn. unfold in_range. split; [lia|exact Logic.I]. }
  destruct H as [H|[H|[H|[]]]]; injection H as <- <-;
    (split; [repeat constructor|]; repeat (split; [vm_compute; first [reflexivity|apply Forall_nil|split; congruence]|]);
     vm_compute; reflexivity).
Qed.
Example C77_run :
  let sent := match CmdModel.command Io64 (ping_call Hidl 3 (p_data Hidl (ping_ops Hidl)) WholeProps.demo_place) with
              | Ok cmd => k_accept (p_env Hidl (ping_ops Hidl)) cmd | Fault _ => None end in
  match sent with
  | Some (false, t, g, offs) =>
    match receive Strict Io64 Hidl (WholeProps.demo_arrival g offs) (BR_TRANSACTION Io64) (arriving Io64 t (WholeProps.demo_arrival g offs)) with
    | Ok (Some x) => Some (tr_target t, in_code x, in_flags x, in_iface x)
    | _ => None
    end
  | _ => None
  end = Some (3, 0x0f504e47, 0, Some base_name).
Proof. vm_compute. reflexivity. Qed.
