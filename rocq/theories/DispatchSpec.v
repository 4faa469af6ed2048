(* Vocabulary of the property about transactions which the library answers itself *)
From Verif Require Import Base UtfModel WriterModel ReaderModel CodecSpec ObjModel ObjReader
  KernelModel ObjSpec HidlSpec DispatchModel.

(* The queries *)
Inductive query := QPing | QInterface | QHidlPing | QHidlDescriptor | QHidlChain.

(* "_PNG", "_NTF", and the same in the style of HIDL, where the query belongs to the base
   interface: android.hidl.base@1.0::IBase *)
Definition asks (code : Z) (iface : option bytes) (q : query) : Prop :=
  match q with
  | QPing => code = 0x5f504e47
  | QInterface => code = 0x5f4e5446
  | QHidlPing => code = 0x0f504e47 /\ iface = Some hidl_base_interface
  | QHidlDescriptor => code = 0x0f445343 /\ iface = Some hidl_base_interface
  | QHidlChain => code = 0x0f43484e /\ iface = Some hidl_base_interface
  end.

(* The interfaces which an object has: the given ones, and the base interface at the end *)
Definition object_interfaces (given : list (list Z)) (all : list (list Z)) : Prop :=
  (exists r, given = r ++ [hidl_base_interface]) /\ all = given \/
  ~ (exists r, given = r ++ [hidl_base_interface]) /\ all = given ++ [hidl_base_interface].

(* What the caller reads from the reply... *)
Definition query_kinds (q : query) : list rkind :=
  match q with
  | QPing | QHidlPing => [RKPlain KInt32]
  | QInterface => [RKPlain KString16]
  | QHidlDescriptor => [RKPlain KInt32; RKString]
  | QHidlChain => [RKPlain KInt32; RKStrings]
  end.

(* ... and gets, if these are the interfaces of the object *)
Definition query_items (q : query) (all : list (list Z)) : list ritem :=
  let first := utf8 (hd [] all) in
  match q with
  | QPing | QHidlPing => [IPlain (RNum 0)]
  | QInterface => [IPlain (RText (Some first))]
  | QHidlDescriptor => [IPlain (RNum 0); IString first]
  | QHidlChain => [IPlain (RNum 0); IStrings (map utf8 all)]
  end.

(* Names of interfaces, in memory *)
Definition iname_ok (i : io) (m : memory) (n : iname) : Prop :=
  Forall is_scalar (in_text n) /\ ~ In 0 (in_text n) /\
  string_ok i m (Some (in_addr n, utf8 (in_text n))).
