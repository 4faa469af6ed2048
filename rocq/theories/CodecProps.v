(* Property theorems about plain parcel data. The vocabulary is in CodecSpec.v;
   the modelled functions are in WriterModel.v, ReaderModel.v and UtfModel.v. *)
From Verif Require Import Base UtfModel WriterModel ReaderModel CodecSpec CodecSafety CodecProofs.

(* C01: any sequence of plain values is read back as written, and the reader
   ends exactly at the end of the data. *)
Theorem C01_parcel_roundtrip :
  forall (m : cmode) (vs : list value) (objs : list Z),
  Forall value_ok vs ->
  exists buf, append_values [] vs = Ok buf /\
    (blen buf < 2 ^ 31 ->
     read_kinds m buf (reader_init 0 (blen buf) objs) (map kind_of vs) =
       Ok (map expected vs,
           {| r_start := 0; r_end := blen buf; r_ptr := blen buf; r_objects := objs |})).
Proof. exact parcel_roundtrip_lemma. Qed.
Print Assumptions C01_parcel_roundtrip.

(* non-vacuity: a mixed sequence satisfying the hypotheses *)
Definition sample : list value :=
  [VBool true; VInt8 (-3); VString8 [65; 66; 67]; VInt16 (-2); VUint16 65535;
   VString16 (Some [0x41; 0x20ac; 0x1f600]); VString16 (Some []); VString16 None;
   VByteArray (Some [1; 2; 3; 4; 5]); VByteArray None; VInt64 (- 2 ^ 63); VDouble (2 ^ 62);
   VParcelable (Some [9; 8; 7]); VParcelable None; VRaw [1; 2]; VUtf16 (Some [0xd800; 1]);
   VNullableString8 (Some [0; 1; 0]); VInt32 (-1)].

Example sample_ok : Forall value_ok sample.
Proof.
  unfold sample; repeat apply Forall_cons; try apply Forall_nil;
    cbn [value_ok]; unfold in_range, all_bytes, is_byte, is_scalar; try lia;
    try (split; [repeat apply Forall_cons; try apply Forall_nil; lia | cbn; lia]);
    try (repeat apply Forall_cons; try apply Forall_nil; lia); try exact I.
Qed.

(* C02, refuted in general: a peer can make the reader leave the received data.
   (a) a byte array of 1 byte without padding moves the position past the end,
       after which a plain int32 read accesses memory outside of the data *)
Theorem C02_reader_in_bounds_refuted_byte_array :
  exists mem ks, all_bytes mem /\ blen mem = 5 /\
    read_kinds Strict mem (reader_init 0 (blen mem) []) ks = Fault OutOfBounds.
Proof.
  exists [1; 0; 0; 0; 7], [KByteArray; KInt32].
  split; [repeat apply Forall_cons; try apply Forall_nil; unfold is_byte; lia|].
  split; vm_compute; reflexivity.
Qed.
Print Assumptions C02_reader_in_bounds_refuted_byte_array.

(* (b) a string16 length of 2^31-1: signed overflow, and with wrap-around
       arithmetic an access 4 GB beyond the end *)
Theorem C02_reader_in_bounds_refuted_string16 :
  exists mem, all_bytes mem /\ blen mem = 8 /\
    read_kind Strict mem (reader_init 0 (blen mem) []) KString16 = Fault SignedOverflow /\
    read_kind Wrapv mem (reader_init 0 (blen mem) []) KString16 = Fault OutOfBounds.
Proof.
  exists [255; 255; 255; 127; 0; 0; 0; 0].
  split; [repeat apply Forall_cons; try apply Forall_nil; unfold is_byte; lia|].
  repeat split; vm_compute; reflexivity.
Qed.
Print Assumptions C02_reader_in_bounds_refuted_string16.

(* C02, positive part: as long as none of the calls is one of the bad ones
   (CodecSpec.bad_call), nothing is accessed outside of the data and the
   position stays inside, for arbitrary received bytes. *)
Theorem C02_reader_in_bounds_partial :
  forall (m : cmode) (mem : bytes) (off len : Z) (objs : list Z) (ks : list kind),
  0 <= off -> 0 <= len -> off + len <= blen mem -> blen mem < 2 ^ 31 -> all_bytes mem ->
  good_calls m mem (reader_init off len objs) ks ->
  exists rs p, read_kinds m mem (reader_init off len objs) ks = Ok (rs, p) /\
    inside mem p /\ r_start p = off /\ r_end p = off + len.
Proof. exact read_from_init. Qed.
Print Assumptions C02_reader_in_bounds_partial.

(* ... and the guard is exact: a bad call always faults or ends up beyond the
   end of the data *)
Theorem C02_guard_is_exact :
  forall (m : cmode) (mem : bytes) (p : reader) (k : kind),
  inside mem p -> blen mem < 2 ^ 31 -> bad_call m mem p k ->
  match read_kind m mem p k with
  | Ok (_, p1) => r_end p1 < r_ptr p1
  | Fault _ => True
  end.
Proof. exact bad_call_bad. Qed.
Print Assumptions C02_guard_is_exact.

(* non-vacuity: hostile data on which several reads are made safely *)
Example good_calls_sample :
  let mem := [255; 255; 255; 127; 0; 1; 0; 0; 2; 0; 0; 0; 65] in
  all_bytes mem /\
  good_calls Strict mem (reader_init 0 (blen mem) [])
    [KInt32; KString8; KByteArray; KUint64; KString16] /\
  exists rs p, read_kinds Strict mem (reader_init 0 (blen mem) [])
    [KInt32; KString8; KByteArray; KUint64; KString16] = Ok (rs, p) /\
    rs = [RNum (2 ^ 31 - 1); RText (Some []); RFail; RFail; RFail].
Proof.
  cbv zeta. split; [repeat apply Forall_cons; try apply Forall_nil; unfold is_byte; lia|].
  split.
  - cbn [good_calls]. unfold bad_call.
    repeat (split; [vm_compute; intuition congruence|];
            match goal with |- match ?x with _ => _ end => let y := eval vm_compute in x in
              change x with y end; cbv iota).
    exact I.
  - eexists _, _. split; vm_compute; reflexivity.
Qed.

(* C03: position accounting over every history of calls *)
Theorem C03_position_accounting :
  forall (m : cmode) (mem : bytes) (off len : Z) (objs : list Z) (ks : list kind)
         (rs : list result) (p : reader) (k : kind),
  0 <= off -> 0 <= len -> off + len <= blen mem -> blen mem < 2 ^ 31 -> all_bytes mem ->
  good_calls m mem (reader_init off len objs) ks ->
  read_kinds m mem (reader_init off len objs) ks = Ok (rs, p) ->
  ~ bad_call m mem p k ->
  r_bytes_read p + r_bytes_remaining p = len /\
  (r_at_end p = true <-> r_bytes_remaining p = 0) /\
  exists r p1, read_kind m mem p k = Ok (r, p1) /\
    r_bytes_read p1 + r_bytes_remaining p1 = len /\
    r_bytes_read p <= r_bytes_read p1 <= len /\
    (atomic_kind k -> r = RFail -> p1 = p).
Proof. exact accounting. Qed.
Print Assumptions C03_position_accounting.

Example accounting_sample :
  let mem := [7; 0; 0; 0; 2; 0] in
  exists p, good_calls Strict mem (reader_init 0 6 []) [KInt32] /\
    read_kinds Strict mem (reader_init 0 6 []) [KInt32] = Ok ([RNum 7], p) /\
    ~ bad_call Strict mem p KByteArray /\
    read_kind Strict mem p KByteArray = Ok (RFail, p).
Proof.
  cbv zeta. eexists. split; [vm_compute; intuition congruence|].
  split; [vm_compute; reflexivity|]. split; [vm_compute; intuition congruence|].
  vm_compute; reflexivity.
Qed.

(* C04: appending never changes what is already there, writes only initialised
   bytes, and keeps 4-byte alignment (unless the caller appends a raw block or
   parcelable of odd size). *)
Theorem C04_append_only_aligned :
  forall (buf : bytes) (vs : list value),
  Forall value_ok vs ->
  exists added, append_values buf vs = Ok (buf ++ added) /\ all_bytes added /\
    (Forall padded_value vs -> blen added mod 4 = 0).
Proof. exact append_only. Qed.
Print Assumptions C04_append_only_aligned.

Example append_only_sample :
  append_values [1; 2; 3; 4] [VString8 [65; 66; 67]; VBool true] =
    Ok ([1; 2; 3; 4] ++ [65; 66; 67; 0; 1; 0; 0; 0]).
Proof. vm_compute; reflexivity. Qed.

(* C05: overwrite_int32 inside and outside of the data *)
Theorem C05_overwrite_inside :
  forall (buf : bytes) (off v : Z),
  0 <= off -> off + 4 <= blen buf -> blen buf < 2 ^ 32 ->
  exists out, w_overwrite_int32 buf off v = Ok out /\
    blen out = blen buf /\ slice out off 4 = le 4 v /\
    (forall i, (Z.of_nat i < off \/ off + 4 <= Z.of_nat i) -> nth_error out i = nth_error buf i).
Proof. exact overwrite_inside. Qed.
Print Assumptions C05_overwrite_inside.

Theorem C05_overwrite_outside_partial :
  forall (buf : bytes) (off v : Z),
  0 <= off < 2 ^ 64 - 4 -> blen buf < off + 4 -> w_overwrite_int32 buf off v = Ok buf.
Proof. exact overwrite_outside. Qed.
Print Assumptions C05_overwrite_outside_partial.

(* the four largest offsets wrap around and are written through *)
Theorem C05_overwrite_refuted :
  forall (buf : bytes) (off v : Z),
  2 ^ 64 - 4 <= off < 2 ^ 64 -> off + 4 - 2 ^ 64 <= blen buf < 2 ^ 32 ->
  w_overwrite_int32 buf off v = Fault OutOfBounds.
Proof. exact overwrite_wraps. Qed.
Print Assumptions C05_overwrite_refuted.

Example overwrite_sample :
  w_overwrite_int32 [1; 2; 3; 4; 5; 6; 7; 8] 2 (-2) = Ok [1; 2; 254; 255; 255; 255; 7; 8] /\
  w_overwrite_int32 [1; 2; 3; 4] 1 0 = Ok [1; 2; 3; 4] /\
  w_overwrite_int32 [1; 2; 3; 4] (2 ^ 64 - 2) 0 = Fault OutOfBounds.
Proof. repeat split; vm_compute; reflexivity. Qed.

(* C06: Unicode text. Valid text is a special case of C01 (VString16); here for
   arbitrary bytes: exactly the longest valid UTF-8 prefix arrives. *)
Theorem C06_string16_any_bytes :
  forall (m : cmode) (s : bytes) (objs : list Z),
  all_bytes s ->
  exists buf, w_string16 [] (Some s) = Ok buf /\
    (blen buf < 2 ^ 31 ->
     exists p1, read_kind m buf (reader_init 0 (blen buf) objs) KString16 =
       Ok (RText (Some (utf8 (utf8_prefix s))), p1) /\ r_ptr p1 = blen buf).
Proof. exact string16_any. Qed.
Print Assumptions C06_string16_any_bytes.

(* ... where the longest valid prefix of valid text is the whole text, and it
   really is the longest one *)
Theorem C06_valid_text_is_kept :
  forall s : list Z, Forall is_scalar s -> ~ In 0 s -> utf8_prefix (utf8 s) = s.
Proof. exact UtfProofs.utf8_prefix_utf8. Qed.
Print Assumptions C06_valid_text_is_kept.

Theorem C06_longest_prefix :
  forall l : bytes, exists r : bytes, l = utf8 (utf8_prefix l) ++ r /\
    forall c r', is_scalar c -> c <> 0 -> r <> utf8_char c ++ r'.
Proof. exact UtfProofs.utf8_prefix_longest. Qed.
Print Assumptions C06_longest_prefix.

(* C53: text is read if the units before the first NUL are UTF-16 and then it's exact; what
   isn't UTF-16 is refused. The units are those which are read as such in the same place. *)
Theorem C53_received_text_exact :
  forall (m : cmode) (mem : bytes) (p : reader),
  all_bytes mem ->
  match read_kind m mem p KUtf16 with
  | Ok (RUnits (Some u), p1) =>
    exists t, read_kind m mem p KString16 = Ok (RText t, p1) /\
    (forall cs, well_formed16 u cs -> t = Some (utf8 cs)) /\
    ((forall cs, ~ well_formed16 u cs) -> t = None)
  | Ok (RUnits None, p1) => read_kind m mem p KString16 = Ok (RText None, p1)
  | x => read_kind m mem p KString16 = x
  end.
Proof. exact received_text. Qed.
Print Assumptions C53_received_text_exact.

Example received_text_sample :
  read_kind Strict (le 4 3 ++ units_bytes [65; 0xd83d; 0xde00; 0]) (reader_init 0 12 []) KString16 =
    Ok (RText (Some (utf8 [65; 0x1f600])), {| r_start := 0; r_end := 12; r_ptr := 12; r_objects := [] |}) /\
  read_kind Strict (le 4 3 ++ units_bytes [65; 0xde00; 66; 0]) (reader_init 0 12 []) KString16 =
    Ok (RText None, {| r_start := 0; r_end := 12; r_ptr := 12; r_objects := [] |}) /\
  well_formed16 [65; 0xd83d; 0xde00] [65; 0x1f600].
Proof.
  split; [vm_compute; reflexivity|]. split; [vm_compute; reflexivity|].
  split; [repeat constructor; unfold is_scalar; lia|]. split; [cbn; lia|]. exists []. split; [vm_compute; reflexivity|auto].
Qed.

Example string16_sample :
  utf8 [0x20ac; 0x1f600; 0x41] = [0xe2; 0x82; 0xac; 0xf0; 0x9f; 0x98; 0x80; 0x41] /\
  utf8_prefix [0x41; 0xe2; 0x82; 0xac; 0xed; 0xa0; 0x80; 0x41] = [0x41; 0x20ac].
Proof. split; vm_compute; reflexivity. Qed.
