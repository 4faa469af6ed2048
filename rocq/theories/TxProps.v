(* Property theorems about the structures which describe a transaction and about
   copies of received contents. The vocabulary is in TxSpec.v, the modelled
   functions are in TxModel.v. *)
From Verif Require Import Base UtfModel WriterModel ReaderModel CodecSpec ObjModel ObjReader
  KernelModel ObjSpec HidlSpec TxModel TxSpec TxProofs.

(* C13: whatever the structure and the array of offsets contain, the objects which
   the reader gets are either all of those in the array, and then they're in order,
   don't overlap and are inside of the data, or there are none and the array was
   bad. Excluded are offsets close to 2^64; the next theorem tells why. *)
Theorem C13_objects_validated_partial :
  forall (i : io) (m : memory) (b : bytes),
  byte_memory m -> all_bytes b ->
  let t := tr_parse i b in
  let offs := offsets_at i m (tr_offsets t) (Z.to_nat (u32 (tr_offsets_size t / psz i))) in
  Forall (fun o => o + flat_size i < 2 ^ 64) offs ->
  tr_buffer t + tr_data_size t < 2 ^ 64 ->
  Z.testbit (tr_flags t) 3 = false ->
  let tx := decode_transaction_data i m b in
  tx_size tx = tr_data_size t /\ tx_data tx = tr_buffer t /\
  (in_order (fun _ => flat_size i) 0 offs (tx_size tx) /\
   tx_objects tx = map (fun o => tr_buffer t + o) offs \/
   ~ in_order (fun _ => flat_size i) 0 offs (tx_size tx) /\ tx_objects tx = []) /\
  in_order (fun _ => flat_size i) (tx_data tx) (tx_objects tx) (tx_data tx + tx_size tx).
Proof. exact decoded_objects. Qed.
Print Assumptions C13_objects_validated_partial.

(* With 32-bit structures there's nothing to exclude *)
Theorem C13_objects_validated_32 :
  forall (m : memory) (b : bytes),
  byte_memory m -> all_bytes b ->
  let t := tr_parse Io32 b in
  let offs := offsets_at Io32 m (tr_offsets t) (Z.to_nat (u32 (tr_offsets_size t / 4))) in
  Z.testbit (tr_flags t) 3 = false ->
  let tx := decode_transaction_data Io32 m b in
  (in_order (fun _ => 16) 0 offs (tx_size tx) /\
   tx_objects tx = map (fun o => tr_buffer t + o) offs \/
   ~ in_order (fun _ => 16) 0 offs (tx_size tx) /\ tx_objects tx = []) /\
  in_order (fun _ => 16) (tx_data tx) (tx_objects tx) (tx_data tx + tx_size tx).
Proof. exact decoded_objects_32. Qed.
Print Assumptions C13_objects_validated_32.

(* C13, refuted: the offset 2^64 - 24 is accepted and the object is in front of
   the data *)
Definition wrap_tr : trdata :=
  {| tr_target := 0; tr_cookie := 0; tr_code := 1; tr_flags := 16; tr_pid := 0; tr_euid := 0;
     tr_data_size := 24; tr_offsets_size := 8; tr_buffer := 4096; tr_offsets := 8192 |}.
Definition wrap_mem : memory := fun a => nth (Z.to_nat (a - 8192)) (le 8 (2 ^ 64 - 24)) 0.
Theorem C13_objects_validated_refuted :
  let tx := decode_transaction_data Io64 wrap_mem (tr_image Io64 wrap_tr) in
  tx_data tx = 4096 /\ tx_size tx = 24 /\ tx_objects tx = [4096 - 24].
Proof. vm_compute. auto. Qed.
Print Assumptions C13_objects_validated_refuted.

Definition tr_mem (i : io) (offs : list Z) : memory :=
  fun a => nth (Z.to_nat (a - 8192)) (offsets_image i offs) 0.
Definition two_tr (i : io) : trdata :=
  {| tr_target := 0; tr_cookie := 0; tr_code := 1; tr_flags := 16; tr_pid := 0; tr_euid := 0;
     tr_data_size := 64; tr_offsets_size := 2 * psz i; tr_buffer := 4096; tr_offsets := 8192 |}.
Example C13_example_good : forall i,
  tx_objects (decode_transaction_data i (tr_mem i [4; 40]) (tr_image i (two_tr i))) = [4100; 4136].
Proof. intros []; vm_compute; reflexivity. Qed.
Example C13_example_bad : forall i,
  tx_objects (decode_transaction_data i (tr_mem i [4; 12]) (tr_image i (two_tr i))) = [].
Proof. intros []; vm_compute; reflexivity. Qed.
Example C13_example_guard : forall i,
  Forall (fun o => o + flat_size i < 2 ^ 64) (offsets_at i (tr_mem i [4; 12]) 8192 2).
Proof. intros []; repeat constructor. Qed.

(* C14: what is sent is what is received. The structure of the sender goes through
   [deliver], i.e. the driver replaces the addresses, the target and the sender. *)
Theorem C14_transaction_roundtrip :
  forall (i : io) (handle code payload payload_len flags : Z) (offsets : list Z) (offs_addr : Z),
  0 <= code < 2 ^ 32 -> 0 <= payload_len < 2 ^ 31 ->
  in_order (fun _ => flat_size i) 0 offsets payload_len ->
  forall sent, sent = encode_transaction i handle code payload payload_len flags offsets offs_addr \/
    (exists bs, sent = encode_transaction_sg i handle code payload payload_len flags offsets offs_addr bs) ->
  forall m target cookie pid euid buffer offs2,
  holds m offs2 (snd sent) -> 0 <= offs2 < 2 ^ (8 * psz i) ->
  0 <= buffer -> buffer + payload_len < 2 ^ (8 * psz i) ->
  0 <= pid < 2 ^ 32 -> 0 <= euid < 2 ^ 32 ->
  decode_transaction_data i m (deliver i (fst sent) target cookie pid euid buffer offs2) =
  {| tx_status := 0; tx_code := code;
     tx_flags := if Z.testbit flags 0 then TX_FLAG_ONEWAY else 0;
     tx_pid := pid; tx_euid := euid; tx_target := usz i target; tx_size := payload_len;
     tx_data := buffer; tx_objects := map (fun o => buffer + o) offsets |}.
Proof. exact sent_transaction. Qed.
Print Assumptions C14_transaction_roundtrip.

Theorem C14_reply_roundtrip :
  forall (i : io) (handle code payload payload_len : Z) (offsets : list Z) (offs_addr : Z),
  0 <= code < 2 ^ 32 -> 0 <= payload_len < 2 ^ 31 ->
  in_order (fun _ => flat_size i) 0 offsets payload_len ->
  forall sent, sent = encode_reply i handle code payload payload_len offsets offs_addr \/
    (exists bs, sent = encode_reply_sg i handle code payload payload_len offsets offs_addr bs) ->
  forall m target cookie pid euid buffer offs2,
  holds m offs2 (snd sent) -> 0 <= offs2 < 2 ^ (8 * psz i) ->
  0 <= buffer -> buffer + payload_len < 2 ^ (8 * psz i) ->
  0 <= pid < 2 ^ 32 -> 0 <= euid < 2 ^ 32 ->
  decode_transaction_data i m (deliver i (fst sent) target cookie pid euid buffer offs2) =
  {| tx_status := 0; tx_code := code; tx_flags := 0;
     tx_pid := pid; tx_euid := euid; tx_target := usz i target; tx_size := payload_len;
     tx_data := buffer; tx_objects := map (fun o => buffer + o) offsets |}.
Proof. exact sent_reply. Qed.
Print Assumptions C14_reply_roundtrip.

(* What the driver itself sees: the handle, the addresses and the sizes. It rejects
   the transaction if the flag is wrong or the size of the buffers is too small. *)
Theorem C14_what_the_driver_sees :
  forall (i : io) (handle code payload payload_len flags : Z) (offsets : list Z) (offs_addr bs : Z),
  0 <= handle < 2 ^ 32 -> 0 <= code < 2 ^ 32 -> 0 <= payload_len < 2 ^ 31 ->
  in_order (fun _ => flat_size i) 0 offsets payload_len ->
  0 <= payload < 2 ^ (8 * psz i) -> 0 <= offs_addr < 2 ^ (8 * psz i) ->
  0 <= bs -> bs + 8 <= 2 ^ (8 * psz i) ->
  let sent := encode_transaction_sg i handle code payload payload_len flags offsets offs_addr bs in
  blen (fst sent) = tr_size i + psz i /\
  tr_parse i (fst sent) =
    {| tr_target := handle; tr_cookie := 0; tr_code := code;
       tr_flags := if Z.testbit flags 0 then TF_ONE_WAY else TF_ACCEPT_FDS;
       tr_pid := 0; tr_euid := 0; tr_data_size := payload_len;
       tr_offsets_size := psz i * Z.of_nat (length offsets); tr_buffer := payload;
       tr_offsets := match offsets with [] => 0 | _ => offs_addr end |} /\
  kfield (fst sent) (tr_size i) (psz i) = align8 bs /\
  snd sent = flat_map (fun o => le (psize i) o) offsets.
Proof. exact driver_sees. Qed.
Print Assumptions C14_what_the_driver_sees.

Theorem C14_status_roundtrip :
  forall i m status addr target cookie pid euid buffer offs2,
  - 2 ^ 31 <= status < 2 ^ 31 -> holds m buffer (le 4 status) -> 0 <= buffer < 2 ^ (8 * psz i) ->
  let tx := decode_transaction_data i m
    (deliver i (encode_status_reply i addr) target cookie pid euid buffer offs2) in
  tx_status tx = status /\ tx_size tx = 0 /\ tx_objects tx = [] /\ tx_flags tx = 0.
Proof. exact sent_status. Qed.
Print Assumptions C14_status_roundtrip.

Example C14_example : forall i,
  let offsets := [4; 40] in
  let sent := encode_transaction_sg i 7 12345 4096 64 0 offsets 8192 24 in
  in_order (fun _ => flat_size i) 0 offsets 64 /\
  holds (tr_mem i offsets) 8192 (snd sent) /\
  tx_objects (decode_transaction_data i (tr_mem i offsets)
    (deliver i (fst sent) 5 6 100 200 65536 8192)) = [65540; 65576].
Proof. intros []; vm_compute; repeat split; discriminate. Qed.

(* C15: the copy has the same bytes as the original, except for remote objects
   which have been converted. Each of them is replaced by the local object. The
   offsets of the objects are shifted by the same number. The size of the buffers
   is sufficient for the copy, and it's exact if there are no arrays of descriptors
   (they take no space, but append_contents counts them). *)
Theorem C15_contents_copied :
  forall (i : io) (pr : protocol) (c : converter) (d : wdata) (data : bytes)
    (objs : list Z) (off : Z),
  contents_ok i pr data objs off ->
  exists T d1, append_contents i pr c d data objs off = Ok d1 /\
    wd_bytes d1 = wd_bytes d ++ T /\ blen T = blen data - off /\
    (forall j, off <= j < blen data -> ~ in_converted i pr c data objs j ->
       byte_at T (j - off) = byte_at data j) /\
    (forall o l, In o objs -> converts c data o l ->
       slice T (o - off) (flat_size i + flat_extra pr) = converted_image i pr l) /\
    let offs := map (fun o => blen (wd_bytes d) + (o - off)) objs in
    wd_offsets d1 = wd_offsets d ++ offs /\
    space_needed i (wd_bytes d1) offs <= wd_bufsize d1 - wd_bufsize d /\
    (has_fda data objs = false ->
     space_needed i (wd_bytes d1) offs = wd_bufsize d1 - wd_bufsize d).
Proof. exact contents_copy. Qed.
Print Assumptions C15_contents_copied.

(* Nothing is converted: the copy is identical *)
Theorem C15_contents_identical :
  forall (i : io) (pr : protocol) (d : wdata) (data : bytes) (objs : list Z) (off : Z),
  contents_ok i pr data objs off ->
  exists d1, append_contents i pr None d data objs off = Ok d1 /\
    wd_bytes d1 = wd_bytes d ++ skipn (Z.to_nat off) data /\
    wd_offsets d1 = wd_offsets d ++ map (fun o => blen (wd_bytes d) + (o - off)) objs.
Proof. exact contents_identical. Qed.
Print Assumptions C15_contents_identical.

(* set_contents forgets the old contents *)
Theorem C15_contents_replaced :
  forall (i : io) (pr : protocol) (d : wdata) (data : bytes) (objs : list Z),
  contents_ok i pr data objs 0 ->
  exists d1, set_contents i pr None d data objs = Ok d1 /\
    wd_bytes d1 = data /\ wd_offsets d1 = objs.
Proof. exact contents_replaced. Qed.
Print Assumptions C15_contents_replaced.

(* a message with plain data, a remote object, a buffer and an array of descriptors *)
Definition copy_data (i : io) : bytes :=
  [1; 2; 3; 4] ++ flat_image i TYPE_HANDLE 0 5 0 ++ [5; 6; 7; 8] ++
  ptr_image i 0 65536 12 0 0 ++ fda_image i 2 0 0 ++ [9; 9; 9; 9].
Definition copy_objs (i : io) : list Z :=
  [4; 8 + flat_size i; 8 + flat_size i + ptr_size i].
Definition copy_conv : converter :=
  Some (fun h => if h =? 5 then Some {| lo_ptr := 1024; lo_stability := 0 |} else None).
Definition copy_into : wdata := wd_set_bytes wd_empty [0; 0; 0; 0].
Example C15_example : forall i,
  contents_ok i Hidl (copy_data i) (copy_objs i) 4 /\
  has_fda (copy_data i) (copy_objs i) = true /\
  exists d1, append_contents i Hidl copy_conv copy_into (copy_data i) (copy_objs i) 4 = Ok d1 /\
    wd_offsets d1 = copy_objs i /\ wd_bufsize d1 = 24 /\
    space_needed i (wd_bytes d1) (wd_offsets d1) = 16 /\
    k_type (wd_bytes d1) 4 = TYPE_BINDER.
Proof.
  intros i. split; [|split].
  - split; [lia|]. split.
    + unfold all_bytes. apply Forall_forall. intros x Hx.
      assert (Hb : forallb (fun x => (0 <=? x) && (x <=? 255)) (copy_data i) = true)
        by (destruct i; vm_compute; reflexivity).
      rewrite forallb_forall in Hb. specialize (Hb x Hx).
      apply andb_prop in Hb. destruct Hb as [H1 H2]. unfold is_byte.
      apply Z.leb_le in H1, H2. lia.
    + destruct i; vm_compute; repeat split; discriminate.
  - destruct i; vm_compute; reflexivity.
  - destruct i; eexists; (split; [vm_compute; reflexivity|]); vm_compute; auto.
Qed.
