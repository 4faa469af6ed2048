(* Property theorems about reading objects which come from a peer that can't be
   trusted. The vocabulary is in HidlSpec.v and SafeSpec.v; the modelled functions
   are in ObjReader.v, the driver is in KernelModel.v. *)
From Verif Require Import Base UtfModel WriterModel ReaderModel CodecSpec CodecSafety
  ObjModel ObjReader KernelModel ObjSpec HidlSpec SafeSpec SafeProofs ObjProps HidlProps.

(* C51: whatever the peer has put into its message, if the driver delivers it
   then no read call goes out of bounds, and the memory which is handed out is
   in the message. Excluded are strings which claim 2^32 - 1 bytes, and calls
   which are bad (see SafeSpec.v). *)
Theorem C51_objects_in_bounds_partial :
  forall (cm : cmode) (pr : protocol) (e : kenv) (data : bytes) (offs : list Z)
    (bufsize : Z) (g : message) (ks : list rkind),
  0 < k_sgbase e -> k_sgbase e + align8 bufsize < 2 ^ (8 * psz (k_io e)) -> 0 <= bufsize ->
  byte_memory (k_mem e) -> Forall (fun o => 0 <= o) offs -> all_bytes data ->
  blen data < 2 ^ 31 ->
  k_send e data offs bufsize = Some g ->
  no_huge_string g ->
  good_items cm (k_io e) pr g (reader_init 0 (blen data) offs) ks ->
  exists rs p, read_items cm (k_io e) pr g (reader_init 0 (blen data) offs) ks = Ok (rs, p) /\
    inside (m_data g) p /\ Forall2 (item_safe g) ks rs.
Proof. exact objects_safe. Qed.
Print Assumptions C51_objects_in_bounds_partial.

(* C51, refuted: the length 2^32 - 1 and an empty buffer *)
Definition huge_env (i : io) : kenv :=
  {| k_io := i; k_sgbase := 65536;
     k_mem := fun a => nth (Z.to_nat (a - 1024)) (le 8 2048 ++ le 8 (2 ^ 32 - 1)) 0;
     k_node := fun n => n; k_ref := fun h => Some h; k_own := fun _ => 0; k_fd := fun f => f |}.
Theorem C51_objects_in_bounds_refuted_string :
  forall i cm pr, exists g,
    let data := le 4 0 ++ ptr_image i 0 1024 16 0 0 ++ ptr_image i 1 2048 0 0 0 in
    let offs := [4; 4 + ptr_size i] in
    k_send (huge_env i) data offs 16 = Some g /\
    read_items cm i pr g (reader_init 0 (blen data) offs) [RKPlain KInt32; RKString]
      = Fault OutOfBounds.
Proof. intros i cm pr. destruct i, cm; eexists; (split; [vm_compute; reflexivity|]); vm_compute; reflexivity. Qed.
Print Assumptions C51_objects_in_bounds_refuted_string.

(* C51, refuted: with the aidl3 protocol, an object without the four extra bytes
   at the end of the data leaves the reader behind the end, and the number of
   bytes which it believes to remain is close to 2^64 *)
Theorem C51_objects_in_bounds_refuted_aidl3 :
  forall i cm, exists g,
    let data := le 4 0 ++ flat_image i TYPE_HANDLE 0 5 0 in
    k_send (sample_env i) data [4] 0 = Some g /\
    read_items cm i Aidl3 g (reader_init 0 (blen data) [4]) [RKPlain KInt32; RKObject; RKPlain KInt32]
      = Fault OutOfBounds.
Proof. intros i cm. destruct i, cm; eexists; (split; [vm_compute; reflexivity|]); vm_compute; reflexivity. Qed.
Print Assumptions C51_objects_in_bounds_refuted_aidl3.

(* C12: a NULL object which is listed in the offsets is read successfully, as
   NULL, and the reader goes on behind it. Missing: the writer doesn't list it,
   see the refutation in ObjProps.v. *)
Theorem C12_listed_null_partial :
  forall (i : io) (pr : protocol) (g : message) (p : reader) (pre suf : bytes) (f c : Z)
    (os : list Z),
  m_data g = pre ++ flat_image i TYPE_BINDER f 0 c ++ suf ->
  inside (m_data g) p -> r_end p = blen (m_data g) -> blen (m_data g) < 2 ^ 31 ->
  r_ptr p = blen pre -> r_objects p = r_ptr p :: os -> flat_extra pr <= blen suf ->
  exists p1, rd_nullable_object i pr g p = Ok (Some None, p1) /\
    r_ptr p1 = r_ptr p + flat_size i + flat_extra pr /\ r_objects p1 = os.
Proof. exact null_object_read. Qed.
Print Assumptions C12_listed_null_partial.

(* ------------------------------------------------------------------ *)
(* non-vacuity: a message from a peer with a vector, a string, a wrong
   structure, a NULL object and some wrong calls *)
Definition peer_mem : memory := fun a =>
  nth (Z.to_nat (a - 1024)) (le 8 2048 ++ le 8 3 ++ le 8 3072 ++ le 8 3 ++ [7; 7; 7]) 0.
Definition peer_env : kenv :=
  {| k_io := Io64; k_sgbase := 65536; k_mem := peer_mem;
     k_node := fun n => n; k_ref := fun h => Some h; k_own := fun _ => 0; k_fd := fun f => f |}.
Definition peer_data : bytes :=
  le 4 0 ++ ptr_image Io64 0 1024 16 0 0 ++ ptr_image Io64 1 2048 12 0 0 ++
  ptr_image Io64 0 1040 16 0 0 ++ ptr_image Io64 1 3072 3 2 0 ++
  ptr_image Io64 0 1056 3 0 0 ++ flat_image Io64 TYPE_HANDLE 0 3 0 ++ le 4 5.
Definition peer_offs : list Z := [4; 44; 84; 124; 164; 204].
Definition peer_kinds : list rkind :=
  [RKPlain KInt32; RKString; RKVec; RKStruct 3 0; RKFd; RKObject; RKPlain KInt32; RKObject;
   RKPlain KInt64].
Example peer_bytes : byte_memory peer_mem.
Proof.
  intros a. unfold peer_mem.
  match goal with |- is_byte (nth _ ?l _) => assert (H : forallb (fun x => (0 <=? x) && (x <? 256)) l = true)
    by (vm_compute; reflexivity); set (l0 := l) in *; clearbody l0 end.
  destruct (Nat.lt_ge_cases (Z.to_nat (a - 1024)) (length l0)) as [Hl|Hl].
  - rewrite forallb_forall in H. specialize (H _ (nth_In l0 0 Hl)). unfold is_byte. lia.
  - rewrite nth_overflow by exact Hl. unfold is_byte. lia.
Qed.
Definition peer_run : option (list ritem * Z) :=
  match k_send peer_env peer_data peer_offs 64 with
  | Some g =>
    match read_items Strict Io64 Hidl g (reader_init 0 (blen peer_data) peer_offs) peer_kinds with
    | Ok (rs, p) => Some (rs, r_ptr p)
    | Fault _ => None
    end
  | None => None
  end.
Example peer_result : peer_run =
  Some ([IPlain (RNum 0); IFail; IVec [0; 0; 0] 3 1; IStruct 65592; IFail; IObject (Some 3);
         IPlain (RNum 5); IFail; IPlain RFail], 232).
Proof. vm_compute. reflexivity. Qed.
Definition peer_message : message :=
  match k_send peer_env peer_data peer_offs 64 with
  | Some g => g
  | None => {| m_data := []; m_sgbase := 0; m_sg := [] |}
  end.
Example peer_no_huge : no_huge_string peer_message.
Proof.
  intros a Ha E.
  assert (H : forallb (fun j => match tload32 peer_message (65536 + Z.of_nat j + 8) with
                                | Ok v => negb (v =? 2 ^ 32 - 1) | Fault _ => true end) (seq 0 64) = true)
    by (vm_compute; reflexivity).
  rewrite forallb_forall in H.
  assert (Hb : m_sgbase peer_message = 65536 /\ blen (m_sg peer_message) = 64) by (vm_compute; split; reflexivity).
  unfold in_message in Ha. destruct Hb as [B1 B2]. rewrite B1, B2 in Ha.
  specialize (H (Z.to_nat (a - 65536))).
  replace (65536 + Z.of_nat (Z.to_nat (a - 65536)) + 8) with (a + 8) in H by lia.
  rewrite E in H. rewrite Z.eqb_refl in H. cbn [negb] in H.
  assert (false = true) by (apply H; apply in_seq; lia). discriminate.
Qed.
Example peer_good :
  good_items Strict Io64 Hidl peer_message (reader_init 0 (blen peer_data) peer_offs) peer_kinds.
Proof.
  vm_compute. repeat split; intros H; repeat match goal with H : _ /\ _ |- _ => destruct H end;
    try contradiction; try discriminate; try congruence.
Qed.
