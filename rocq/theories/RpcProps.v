(* Property theorems about RPC headers. The vocabulary is in RpcSpec.v, the modelled
   functions are in RpcModel.v. *)
From Verif Require Import Base UtfModel WriterModel ReaderModel CodecSpec ObjModel RpcModel
  RpcSpec RpcProofs.

(* C16: the receiver gets the interface name which the request was created with,
   and reads the arguments from the first byte behind the header. *)
Theorem C16_header_roundtrip :
  forall (m : cmode) (pr : protocol) (iface payload : bytes) (objs : list Z) (txcode : Z),
  iface_ok pr iface -> has_header pr txcode ->
  exists hdr, new_iface pr (Some iface) = Ok hdr /\ blen hdr mod 4 = 0 /\
    (blen (hdr ++ payload) < 2 ^ 31 ->
     set_data pr m (hdr ++ payload) objs txcode = Ok (Some iface, blen hdr) /\
     args_reader (hdr ++ payload) objs (blen hdr) =
       {| r_start := blen hdr; r_ptr := blen hdr; r_end := blen hdr + blen payload; r_objects := objs |}).
Proof. exact header_roundtrip. Qed.
Print Assumptions C16_header_roundtrip.

(* The data of internal transactions is all payload *)
Theorem C16_internal_transactions :
  forall (m : cmode) (pr : protocol) (mem : bytes) (objs : list Z) (txcode : Z),
  ~ has_header pr txcode -> set_data pr m mem objs txcode = Ok (None, 0).
Proof. exact internal_no_header. Qed.
Print Assumptions C16_internal_transactions.

(* A request which is created without an interface name has no header: what is appended
   to it is all there is, and the receiver of an internal transaction reads it from the first byte *)
Theorem C16_no_interface :
  forall (m : cmode) (pr : protocol) (payload : bytes) (objs : list Z) (txcode : Z),
  exists hdr, new_iface pr None = Ok hdr /\ hdr ++ payload = payload /\
    (~ has_header pr txcode -> set_data pr m (hdr ++ payload) objs txcode = Ok (None, blen hdr)).
Proof.
  intros m pr payload objs txcode. exists []. split; [reflexivity|]. split; [reflexivity|].
  intros H. exact (internal_no_header m pr payload objs txcode H).
Qed.
Print Assumptions C16_no_interface.

(* Whatever has been received, the reader of the arguments is inside of it. The
   exception is the length of the name which overflows, see C02. *)
Theorem C16_arguments_inside_partial :
  forall (m : cmode) (pr : protocol) (mem : bytes) (objs : list Z) (txcode : Z),
  all_bytes mem -> blen mem < 2 ^ 31 -> name_length_ok pr mem ->
  exists iface h, set_data pr m mem objs txcode = Ok (iface, h) /\
    0 <= h <= blen mem /\ (iface = None -> h = 0) /\ inside mem (args_reader mem objs h).
Proof. exact header_inside. Qed.
Print Assumptions C16_arguments_inside_partial.

(* The missing case: a header of 8 bytes makes the library read out of bounds *)
Theorem C16_arguments_inside_refuted :
  set_data Aidl Wrapv (le 4 BINDER_RPC_FLAGS ++ le 4 (2 ^ 31 - 2)) [] 1 = Fault OutOfBounds.
Proof. vm_compute. reflexivity. Qed.
Print Assumptions C16_arguments_inside_refuted.

(* a name with a non-ASCII character *)
Definition sample_iface : bytes := utf8 [0x61; 0x2e; 0x49; 0x20ac].
Example C16_example : forall pr, iface_ok pr sample_iface /\ has_header pr 1 /\
  exists hdr, new_iface pr (Some sample_iface) = Ok hdr /\
    set_data pr Strict (hdr ++ [1; 2; 3]) [] 1 = Ok (Some sample_iface, blen hdr).
Proof.
  intros pr. split; [|split].
  - assert (H : Forall is_scalar [0x61; 0x2e; 0x49; 0x20ac] /\ ~ In 0 [0x61; 0x2e; 0x49; 0x20ac]).
    { split; [|cbn; intuition discriminate].
      repeat (apply Forall_cons; [unfold is_scalar; lia|]); apply Forall_nil. }
    destruct pr; cbn [iface_ok]; try (exists [0x61; 0x2e; 0x49; 0x20ac]; split; [apply H|]; split; [apply H|reflexivity]).
    split; [|vm_compute; intuition discriminate].
    unfold all_bytes, sample_iface. vm_compute utf8.
    repeat (apply Forall_cons; [unfold is_byte; lia|]); apply Forall_nil.
  - right. vm_compute. discriminate.
  - destruct pr; eexists; (split; [vm_compute; reflexivity|]); vm_compute; reflexivity.
Qed.
Example C16_example_internal : ~ has_header Aidl3 (fourcc 0x5f 0x50 0x4e 0x47).
Proof. intros [H|H]; [discriminate|]. vm_compute in H. apply H. reflexivity. Qed.
Example C16_example_short : name_length_ok Aidl3 [1; 2; 3].
Proof. intros _ H. vm_compute in H. exfalso. apply H. reflexivity. Qed.
