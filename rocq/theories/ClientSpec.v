(* Vocabulary of the properties about clients and service managers *)
From Coq Require Import String.
From Verif Require Import Base UtfModel WriterModel ReaderModel CodecSpec ObjModel ObjReader
  ObjSpec HidlSpec RpcModel ClientModel.

(* Among the interfaces, the one with the smallest last code which is not below
   the code *)
Definition best_match (infos : list iface_info) (code : Z) (x : iface_info) : Prop :=
  In x infos /\ code <= if_last x /\
  forall y, In y infos -> code <= if_last y -> if_last x <= if_last y.

(* The request which is made for a code without any arguments *)
Definition default_request (c : client) (code : Z) : option request :=
  pick_request c code None.

(* The peer names services one by one: these names for the indices from 0 on, and
   after the last one it refuses or answers without text *)
Definition text_reply (m : cmode) (a : answer) (t : option bytes) : Prop :=
  exists r, fst (ipc_sync_reply a) = Some r /\ reply_string16 m r = Ok t.
Definition no_reply (a : answer) : Prop := fst (ipc_sync_reply a) = None.
Definition names_services (m : cmode) (peer : nat -> answer) (names : list bytes) : Prop :=
  (forall n s, nth_error names n = Some s -> text_reply m (peer n) (Some s)) /\
  (no_reply (peer (length names)) \/ text_reply m (peer (length names)) None).

(* An answer with this data and no objects *)
Definition data_answer (b : bytes) : answer :=
  {| an_status := 0; an_reply := Some ({| m_data := b; m_sgbase := 0; m_sg := [] |}, []) |}.

(* What a service manager reads from a registration, after the header: the name,
   the object, whether isolated processes may use it and (since Android 9) the
   dump priority *)
Definition registration_kinds (k : smkind) (n : smname) : list rkind :=
  match n with NText _ => RKPlain KString16 | NString _ _ => RKString end :: RKObject ::
  match k with
  | SmHidl => []
  | SmAidl => [RKPlain KInt32]
  | _ => [RKPlain KInt32; RKPlain KInt32]
  end.

(* ... and what it should get *)
Definition registration_items (k : smkind) (n : smname) (handle : Z) : list ritem :=
  match n with NText s => IPlain (RText (Some (utf8 s))) | NString _ t => IString t end ::
  IObject (Some handle) ::
  match k with
  | SmHidl => []
  | SmAidl => [IPlain (RNum 0)]
  | _ => [IPlain (RNum 0); IPlain (RNum 8)]
  end.

(* aidl service managers use text, hidl ones use strings *)
Definition name_kind_ok (k : smkind) (n : smname) : Prop :=
  match k, n with
  | SmHidl, NString _ _ => True
  | SmHidl, NText _ => False
  | _, NText _ => True
  | _, NString _ _ => False
  end.

(* The calls which build the whole request *)
Definition request_ops (q : request) : list op := OpPlain (VRaw (rq_header q)) :: rq_ops q.

(* The methods of the service managers of Android in the order of declaration (IServiceManager
   of frameworks/native and of system/libhidl), which is where their numbers come from *)
Definition aidl_methods : list string := ["getService"; "checkService"; "addService"; "listServices"]%string.
Definition hidl_methods : list string := ["get"; "add"; "getTransport"; "list"]%string.
Fixpoint number (name : string) (l : list string) : Z :=
  match l with
  | [] => 0
  | x :: r => if String.eqb x name then 1 else 1 + number name r
  end.
Definition register_number (k : smkind) : Z :=
  match k with SmHidl => number "add" hidl_methods | _ => number "addService" aidl_methods end.
Definition lookup_number (k : smkind) : Z :=
  match k with SmHidl => number "get" hidl_methods | _ => number "checkService" aidl_methods end.
Definition list_number (k : smkind) : Z :=
  match k with SmHidl => number "list" hidl_methods | _ => number "listServices" aidl_methods end.

(* The arguments of listServices: the index until Android 8, the index and the mask of dump
   priorities (all four of them) in Android 9 and 10, the mask since Android 11 *)
Definition all_priorities : Z := 1 + 2 + 4 + 8.
Definition list_arguments (k : smkind) (index : nat) : list op :=
  match k with
  | SmAidl => [OpPlain (VInt32 (Z.of_nat index))]
  | SmAidl2 => [OpPlain (VInt32 (Z.of_nat index)); OpPlain (VInt32 all_priorities)]
  | SmAidl3 | SmAidl4 => [OpPlain (VInt32 all_priorities)]
  | SmHidl => []
  end.

(* What the reply to a lookup consists of: an object until Android 10; a status and an
   object since then, and in hidl *)
Definition lookup_kinds (k : smkind) : list rkind :=
  match k with
  | SmAidl | SmAidl2 => [RKObject]
  | _ => [RKPlain KInt32; RKObject]
  end.
