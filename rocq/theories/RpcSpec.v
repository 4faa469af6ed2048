(* Vocabulary of the properties about RPC headers *)
From Verif Require Import Base UtfModel WriterModel ReaderModel ObjModel RpcModel.

(* The interface names which a protocol can carry: Unicode text (without NUL) is
   sent as UTF-16, and hidl sends the bytes as they are *)
Definition iface_ok (pr : protocol) (iface : bytes) : Prop :=
  match pr with
  | Hidl => all_bytes iface /\ ~ In 0 iface
  | _ => exists s, Forall is_scalar s /\ ~ In 0 s /\ iface = utf8 s
  end.

(* Transactions whose data begins with a header *)
Definition has_header (pr : protocol) (txcode : Z) : Prop :=
  pr = Hidl \/ txcode <= INTERNAL_TRANSACTIONS.

(* The length field of the interface name isn't one of those which overflow (see
   bad_call in CodecSpec.v) *)
Definition name_length_ok (pr : protocol) (mem : bytes) : Prop :=
  let off := 4 * Z.of_nat (header_ints pr) in
  pr <> Hidl -> off + 4 <= blen mem -> sgn 32 (unle (slice mem off 4)) < 2 ^ 30 - 2.
