(* Property theorems about the bytes of messages. The formats are in WireSpec.v, the
   modelled functions are in WriterModel.v, ObjModel.v, RpcModel.v and TxModel.v. *)
From Verif Require Import Base UtfModel WriterModel ReaderModel CodecSpec ObjModel ObjSpec RpcModel RpcSpec
  RpcProofs TxModel WireSpec WireProofs.

(* C76: whatever has been appended before, an append call adds exactly the bytes which Linux
   and Android define, and refers to exactly such memory. [al] gives the addresses which the
   allocator returns. *)
Theorem C76_layout :
  forall (i : io) (p : protocol) (al : nat -> Z) (d : wdata) (o : op) (b : bytes) (mem : list (Z * bytes)),
  (forall n, al n <> 0) ->
  made i p (fun n => al (wd_nalloc d + n)%nat) (Z.of_nat (length (wd_offsets d))) o b mem ->
  exists d', w_op i p al d o = Ok d' /\ wd_bytes d' = wd_bytes d ++ b /\ wd_heap d' = mem ++ wd_heap d.
Proof. exact layout. Qed.
Print Assumptions C76_layout.

(* non-vacuity: there is a layout for each kind of call *)
Example C76_layout_ex :
  let new n := 4096 * (1 + Z.of_nat n) in
  forall i p, Forall (fun o => exists b mem, made i p new 3 o b mem)
    [OpPlain (VString16 (Some [0x61; 0x20ac; 0x1f600])); OpPlain (VByteArray (Some [1; 2; 3; 4; 5]));
     OpPlain (VInt32 (-2)); OpLocal (Some {| lo_ptr := 4096; lo_stability := 12 |}); OpRemote (Some 7); OpRemote None; OpFd 3 4;
     OpBuffer 4096 24 (Some {| pa_index := 1; pa_offset := 8 |});
     OpFds 4 (Some {| fs_ptr := 8192; fs_version := 12; fs_fds := [5; 6]; fs_ints := [1] |}) None;
     OpHidlVec (Some [1; 2; 3; 4; 5; 6; 7; 8]) 2 4; OpHidlVec (Some [1]) 0 4; OpHidlString (Some (4096, [0x61]));
     OpHidlStringVec [Some (4096, [0x61]); None; Some (4104, [])]].
Proof.
  intros new i p.
  repeat apply Forall_cons; try apply Forall_nil; eexists _, _; cbn [made].
  - split; [|split; reflexivity]. split; [repeat constructor; unfold is_scalar; lia|cbn; intuition lia].
  - split; [|split; reflexivity]. repeat constructor; lia.
  - split; [|split; reflexivity]. split; lia.
  - split; reflexivity.
  - split; reflexivity.
  - split; reflexivity.
  - split; reflexivity.
  - split; [lia|]. split; reflexivity.
  - split; [cbn; lia|]. split; [lia|]. split; reflexivity.
  - do 4 (split; [cbn; lia|]). right. split; [lia|]. split; reflexivity.
  - do 4 (split; [cbn; lia|]). left. split; [lia|]. split; reflexivity.
  - split; [cbn; lia|]. split; reflexivity.
  - split; [cbn; lia|]. split; [repeat constructor; cbn; lia|]. split; reflexivity.
Qed.
(* ... and these are some of them *)
Example C76_layout_bytes :
  plain (VString16 (Some [0x61; 0x1f600])) =
    [3; 0; 0; 0; 0x61; 0; 0x3d; 0xd8; 0; 0xde; 0; 0] /\
  plain (VByteArray (Some [1; 2; 3; 4; 5])) = [5; 0; 0; 0; 1; 2; 3; 4; 5; 0xff; 0xff; 0xff] /\
  plain (VString8 [0x61; 0x62; 0x63; 0x64]) = [0x61; 0x62; 0x63; 0x64; 0; 0; 0; 0] /\
  plain (VInt32 (-2)) = [0xfe; 0xff; 0xff; 0xff] /\
  linux_bytes Io32 (Handle 7) = [0x85; 0x2a; 0x68; 0x73; 0; 1; 0; 0; 7; 0; 0; 0; 0; 0; 0; 0].
Proof. repeat split. Qed.

(* C76: a request for an interface begins with what Android expects *)
Theorem C76_header :
  forall (p : protocol) (s : list Z),
  match p with Hidl => all_bytes s | _ => Forall is_scalar s end -> ~ In 0 s ->
  new_iface p (Some (match p with Hidl => s | _ => utf8 s end)) = Ok (header p s).
Proof. intros p s H1 H2. apply headers. destruct p; cbn [iface_chars]; auto. Qed.
Print Assumptions C76_header.
Example C76_header_ex : new_iface Aidl3 (Some [0x61; 0x62]) =
  Ok [0; 0; 0x40; 0; 0xff; 0xff; 0xff; 0xff; 0x54; 0x53; 0x59; 0x53; 2; 0; 0; 0; 0x61; 0; 0x62; 0; 0; 0; 0; 0].
Proof. vm_compute. reflexivity. Qed.

(* ... and it's what the receiver finds in transactions up to code 0x5f000000, and in all of
   them in the case of hidl. Others have no header. *)
Theorem C76_header_expected :
  forall (m : cmode) (p : protocol) (s : list Z) (payload : bytes) (objs : list Z) (code : Z),
  match p with Hidl => all_bytes s | _ => Forall is_scalar s end -> ~ In 0 s ->
  blen (header p s ++ payload) < 2 ^ 31 ->
  let name := match p with Hidl => s | _ => utf8 s end in
  set_data p m (header p s ++ payload) objs code =
  Ok (if match p with Hidl => true | _ => code <=? 0x5f000000 end then (Some name, blen (header p s)) else (None, 0)).
Proof.
  intros m p s payload objs code H1 H2 Hl name.
  assert (Ha : has_header p code \/ ~ has_header p code /\ p <> Hidl).
  { unfold has_header. destruct (Z.le_decidable code INTERNAL_TRANSACTIONS); [auto|].
    destruct p; auto; right; (split; [|discriminate]); intros [Hh|Hh]; try discriminate; contradiction. }
  destruct Ha as [Ha|[Ha Hp]].
  - assert (Hi : iface_ok p name) by (destruct p; cbn [iface_ok]; subst name; eauto).
    destruct (header_roundtrip m p name payload objs code Hi Ha) as (hdr & E1 & _ & E2).
    assert (E : Ok hdr = Ok (header p s)) by (rewrite <- E1; apply C76_header; assumption).
    injection E as ->. destruct (E2 Hl) as [E3 _]. rewrite E3.
    destruct Ha as [->|Ha]; [reflexivity|]. destruct p; try reflexivity; destruct (Z.leb_spec code 0x5f000000) as [_|Hc]; try reflexivity;
      unfold INTERNAL_TRANSACTIONS, fourcc in Ha; lia.
  - rewrite internal_no_header by assumption. f_equal. assert (Hc : (code <=? 0x5f000000) = false).
    { apply Z.leb_gt. unfold has_header, INTERNAL_TRANSACTIONS, fourcc in Ha. lia. }
    rewrite Hc. destruct p; congruence.
Qed.
Print Assumptions C76_header_expected.
Example C76_header_expected_ex :
  set_data Aidl Strict (header Aidl [0x61] ++ [1; 2; 3; 4]) [] 0x5f000000 = Ok (Some [0x61], 12) /\
  set_data Aidl Strict (header Aidl [0x61] ++ [1; 2; 3; 4]) [] 0x5f000001 = Ok (None, 0).
Proof. vm_compute. split; reflexivity. Qed.

(* C76: the structure of a transaction, with the array of offsets of the objects. One-way calls
   have the flag 1, others have 16 (files are accepted in the reply), replies have none and
   statuses have 8. *)
Theorem C76_transaction :
  forall (i : io) (h code data size : Z) (flags : Z) (offs : list Z) (at_ bufs : Z),
  let t f := transaction i (h mod 2 ^ 32) code f size (Z.of_nat (length offs)) data (match offs with [] => 0 | _ => at_ end) in
  let f := if Z.odd flags then 1 else 16 in
  let total := word i ((bufs + 7) / 8 * 8) in
  encode_transaction i h code data size flags offs at_ = (t f, flat_map (word i) offs) /\
  encode_transaction_sg i h code data size flags offs at_ bufs = (t f ++ total, flat_map (word i) offs) /\
  encode_reply i h code data size offs at_ = (t 0, flat_map (word i) offs) /\
  encode_reply_sg i h code data size offs at_ bufs = (t 0 ++ total, flat_map (word i) offs) /\
  encode_status_reply i data = transaction i 0 0 8 4 0 data 0.
Proof.
  intros i h code data size flags offs at_ bufs t f total.
  unfold encode_transaction, encode_transaction_sg, encode_reply, encode_reply_sg. rewrite !fill_eq.
  assert (F : request_flags flags = f) by (unfold request_flags, f; rewrite Z.bit0_odd; reflexivity).
  assert (W : le (psize i) (align8 bufs) = total) by (unfold total; rewrite word_le; reflexivity).
  rewrite F, W. repeat split. unfold encode_status_reply. rewrite <- (image_eq i 0 0 8 4 0 data 0). reflexivity.
Qed.
Print Assumptions C76_transaction.
Example C76_transaction_ex :
  fst (encode_transaction_sg Io32 7 0x5f504e47 0x1000 4 1 [] 0 3) =
  [7; 0; 0; 0; 0; 0; 0; 0; 0x47; 0x4e; 0x50; 0x5f; 1; 0; 0; 0; 0; 0; 0; 0; 0; 0; 0; 0; 4; 0; 0; 0; 0; 0; 0; 0;
   0; 0x10; 0; 0; 0; 0; 0; 0; 8; 0; 0; 0].
Proof. vm_compute. reflexivity. Qed.
