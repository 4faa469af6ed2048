(* Model of what a local object does with a transaction: the transaction functions of
   src/gbinder_local_object.c, and the part of gbinder_driver_handle_transaction which
   chooses among them. *)
From Verif Require Import Base UtfModel WriterModel ReaderModel CodecSpec ObjModel ObjReader ObjSpec
  RpcModel.
From Coq Require Import String Ascii.
Local Open Scope Z_scope.
Local Open Scope list_scope.

Definition EBADMSG : Z := 74.

(* src/gbinder_types_p.h:57-68 *)
Definition PING_TRANSACTION : Z := fourcc 0x5f 0x50 0x4e 0x47.
Definition INTERFACE_TRANSACTION : Z := fourcc 0x5f 0x4e 0x54 0x46.
Definition HIDL_PING_TRANSACTION : Z := fourcc 0x0f 0x50 0x4e 0x47.
Definition HIDL_DESCRIPTOR_CHAIN_TRANSACTION : Z := fourcc 0x0f 0x43 0x48 0x4e.
Definition HIDL_GET_DESCRIPTOR_TRANSACTION : Z := fourcc 0x0f 0x44 0x53 0x43.

(* src/gbinder_local_object.c:83 hidl_base_interface *)
Definition chars (s : string) : list Z := map (fun c => Z.of_nat (nat_of_ascii c)) (list_ascii_of_string s).
Definition hidl_base_interface : list Z := chars "android.hidl.base@1.0::IBase".

(* The name of an interface: a string in memory. Characters of the text, and the address
   of its UTF-8 form. *)
Record iname := { in_addr : Z; in_text : list Z }.

(* struct gbinder_local_object_priv, src/gbinder_local_object.c:48-52: the interfaces, and
   whether there is a handler *)
Record lobj := { lo_ifaces : list iname; lo_txproc : bool }.

Definition same_text (a b : list Z) : bool := if list_eq_dec Z.eq_dec a b then true else false.

(* gutil_strv_last of libglibutil *)
Fixpoint strv_last (l : list iname) : option iname :=
  match l with
  | [] => None
  | [x] => Some x
  | _ :: r => strv_last r
  end.

(* src/gbinder_local_object.c:413-448 gbinder_local_object_init_base. The addresses are
   those of the copies. *)
Definition init_base (ifaces : list iname) (base_addr : Z) (txproc : bool) : lobj :=
  let append_base :=
    match strv_last ifaces with
    | Some x => negb (same_text (in_text x) hidl_base_interface)
    | None => true
    end in
  {| lo_ifaces := if append_base
                  then ifaces ++ [{| in_addr := base_addr; in_text := hidl_base_interface |}]
                  else ifaces;
     lo_txproc := txproc |}.

(* src/gbinder_local_object.c:269-279 gbinder_local_object_default_drop *)
Definition object_drop (o : lobj) : lobj := {| lo_ifaces := lo_ifaces o; lo_txproc := false |}.

(* GBINDER_LOCAL_TRANSACTION_SUPPORT *)
Inductive support := NOT_SUPPORTED | SUPPORTED | LOOPER.

(* src/gbinder_local_object.c:99-121 gbinder_local_object_default_can_handle_transaction.
   iface is NULL or bytes *)
Definition can_handle (o : lobj) (iface : option bytes) (code : Z) : support :=
  let default := if lo_txproc o then SUPPORTED else NOT_SUPPORTED in
  if (code =? PING_TRANSACTION) || (code =? INTERFACE_TRANSACTION) then LOOPER
  else if (code =? HIDL_PING_TRANSACTION) || (code =? HIDL_GET_DESCRIPTOR_TRANSACTION) ||
          (code =? HIDL_DESCRIPTOR_CHAIN_TRANSACTION) then
    match iface with
    | Some s => if same_text s (utf8 hidl_base_interface) then LOOPER else default
    | None => default
    end
  else default.

(* A reply is what has been appended to it; NULL is None *)
Definition reply := option (list op).

Definition iname_cstr (n : iname) : cstring := Some (in_addr n, utf8 (in_text n)).

(* src/gbinder_local_object.c:233-267 gbinder_local_object_default_handle_looper_transaction,
   and the handlers: src/gbinder_local_object.c:142-155 gbinder_local_object_ping_transaction,
   157-171 gbinder_local_object_interface_transaction,
   173-188 gbinder_local_object_hidl_ping_transaction,
   190-209 gbinder_local_object_hidl_get_descriptor_transaction,
   211-231 gbinder_local_object_hidl_descriptor_chain_transaction *)
Definition handle_looper (o : lobj) (code : Z) : reply * Z :=
  let first := nth_error (lo_ifaces o) 0 in
  let ok := OpPlain (VInt32 0) in
  if code =? PING_TRANSACTION then (Some [ok], 0)
  else if code =? INTERFACE_TRANSACTION then
    (Some [OpPlain (VString16 (option_map in_text first))], 0)
  else if code =? HIDL_PING_TRANSACTION then (Some [ok], 0)
  else if code =? HIDL_GET_DESCRIPTOR_TRANSACTION then
    (Some [ok; OpHidlString (match first with Some n => iname_cstr n | None => None end)], 0)
  else if code =? HIDL_DESCRIPTOR_CHAIN_TRANSACTION then
    (Some [ok; OpHidlStringVec (map iname_cstr (lo_ifaces o))], 0)
  else (None, - EBADMSG).

(* A call of the handler: the code and the flags *)
Definition call := (Z * Z)%type.

(* What a handler does: the reply which it returns, and what it stores in *status (None if
   it stores nothing) *)
Record result := { rs_reply : reply; rs_stored : option Z }.

(* src/gbinder_local_object.c:123-140 gbinder_local_object_default_handle_transaction,
   with the value which *status has before *)
Definition handle_transaction (o : lobj) (code flags : Z) (answer : result) (status : Z)
  : reply * Z * list call :=
  if lo_txproc o then
    ((rs_reply answer, match rs_stored answer with Some s => s | None => status end), [(code, flags)])
  else ((None, - EBADMSG), []).

(* Who receives the transaction: another thread, which passes it to the main thread
   (src/gbinder_ipc.c:477-552 gbinder_ipc_looper_tx_handle), or the main thread itself, which
   gets it while it's waiting for a reply *)
Inductive receiver := OtherThread | MainThread.

(* src/gbinder_driver.c:515-597 gbinder_driver_handle_transaction: the switch. [o] is the
   object when the transaction arrives (NULL is None), [later] is what has become of it when
   the main thread gets to it. The handler doesn't block the request; how the answer gets to
   the driver from another thread is modelled in BlockModel.v. *)
Definition dispatch (rc : receiver) (o : option lobj) (later : lobj) (iface : option bytes)
  (code flags : Z) (answer : result) : reply * Z * list call :=
  match o with
  | None => ((None, - EBADMSG), [])
  | Some obj =>
    match can_handle obj iface code with
    | LOOPER => (handle_looper obj code, [])
    | SUPPORTED =>
      handle_transaction later code flags answer
        (match rc with OtherThread => 0 | MainThread => - EBADMSG end)
    | NOT_SUPPORTED => ((None, - EBADMSG), [])
    end
  end.
