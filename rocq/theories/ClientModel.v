(* Model of src/gbinder_client.c and of the synchronous calls of the service
   managers (src/gbinder_servicemanager_aidl.c, src/gbinder_servicemanager_aidl3.c
   and src/gbinder_servicemanager_hidl.c).
   The peer is arbitrary: what the driver returns for a transaction is a
   parameter. Strings are lists of bytes without the terminating NUL. *)
From Verif Require Import Base UtfModel WriterModel ReaderModel CodecSpec ObjModel ObjReader
  ObjSpec RpcModel.
From Coq Require Import Sorted.
From Coq Require Permutation.

Definition UINT_MAX : Z := 2 ^ 32 - 1.
Definition EINVAL : Z := 22.
Definition EFAULT : Z := 14.
Definition ESTALE : Z := 116.

(* GBinderClientIfaceInfo, include/gbinder_client.h:41-44 *)
Record iface_info := { if_iface : option bytes; if_last : Z }.

(* GBinderClientIfaceRange, src/gbinder_client.c:48-53. The basic request is its
   data: the header *)
Record range := { rg_iface : option bytes; rg_header : option bytes; rg_basic : bytes;
                  rg_last : Z }.

(* src/gbinder_client.c:76-92 gbinder_client_find_range *)
Fixpoint find_range (ranges : list range) (code : Z) : option range :=
  match ranges with
  | [] => None
  | r :: rest => if code <=? rg_last r then Some r else find_range rest code
  end.

(* src/gbinder_client.c:101-115 gbinder_client_init_range *)
Definition init_range (pr : protocol) (info : iface_info) : res range :=
  let* hdr := new_iface pr (if_iface info) in
  Ok {| rg_iface := if_iface info; rg_header := Some hdr; rg_basic := hdr;
        rg_last := if_last info |}.

Fixpoint init_ranges (pr : protocol) (infos : list iface_info) : res (list range) :=
  match infos with
  | [] => Ok []
  | x :: rest =>
    let* r := init_range pr x in
    let* rs := init_ranges pr rest in
    Ok (r :: rs)
  end.

(* src/gbinder_client.c:117-128 gbinder_client_sort_ranges *)
Definition sort_ranges (r1 r2 : range) : Z :=
  if rg_last r1 <? rg_last r2 then -1 else if rg_last r2 <? rg_last r1 then 1 else 0.

(* qsort of the C library: some order of the elements which agrees with the
   comparison; the order of equal elements isn't specified *)
Definition qsort_contract {A} (cmp : A -> A -> Z) (qsort : list A -> list A) : Prop :=
  forall l, Permutation.Permutation l (qsort l) /\
    StronglySorted (fun a b => cmp a b <= 0) (qsort l).

(* src/gbinder_client.c:256-291 gbinder_client_new2. The number of interfaces
   fits into guint. *)
Definition client_new2 (qsort : list range -> list range) (pr : protocol)
  (infos : list iface_info) : res (list range) :=
  match infos with
  | _ :: _ => let* rs := init_ranges pr infos in Ok (qsort rs)
  | [] => Ok [{| rg_iface := None; rg_header := None; rg_basic := []; rg_last := UINT_MAX |}]
  end.

(* src/gbinder_client.c:293-303 gbinder_client_new *)
Definition client_new (qsort : list range -> list range) (pr : protocol) (iface : option bytes)
  : res (list range) :=
  client_new2 qsort pr [{| if_iface := iface; if_last := UINT_MAX |}].

(* A client: whether its object is known to be dead, and the ranges *)
Record client := { cl_dead : bool; cl_ranges : list range }.

(* src/gbinder_client.c:339-353 gbinder_client_interface2 *)
Definition interface2 (c : client) (code : Z) : option bytes :=
  match find_range (cl_ranges c) code with Some r => rg_iface r | None => None end.

(* src/gbinder_client.c:355-369 gbinder_client_rpc_header *)
Definition rpc_header (c : client) (code : Z) : option bytes :=
  match find_range (cl_ranges c) code with Some r => rg_header r | None => None end.

(* A request: the header, and what has been appended *)
Record request := { rq_header : bytes; rq_ops : list op }.

Definition with_header (h : option bytes) : request :=
  {| rq_header := match h with Some b => b | None => [] end; rq_ops := [] |}.

(* src/gbinder_client.c:371-383 gbinder_client_new_request: the header of the
   first range (there always is one) *)
Definition new_request (c : client) : option request :=
  match cl_ranges c with r :: _ => Some (with_header (rg_header r)) | [] => None end.

(* src/gbinder_client.c:385-403 gbinder_client_new_request2 *)
Definition new_request2 (c : client) (code : Z) : option request :=
  match find_range (cl_ranges c) code with
  | Some r => Some (with_header (rg_header r))
  | None => None
  end.

(* What gbinder_driver_transact returns: the status, and the data of the reply,
   None if it's empty *)
Record answer := { an_status : Z; an_reply : option (message * list Z) }.

(* A reply which the caller has got. There may be no data in it. *)
Definition reply := option (message * list Z).

(* src/gbinder_ipc.c:1795-1821 gbinder_ipc_transact_sync_reply, and
   1728-1760 gbinder_ipc_transact_sync_reply_worker, which differs in the handling
   of other transactions in the meantime. The reply and the value of *status.
   gbinder_remote_reply_is_empty: src/gbinder_remote_reply.c:107-112 *)
Definition ipc_sync_reply (a : answer) : option reply * Z :=
  (if (an_status a =? 0) || (match an_reply a with Some _ => true | None => false end)
   then Some (an_reply a) else None, an_status a).

(* The request of a call: the given one, or the empty one of the range *)
Definition pick_request (c : client) (code : Z) (req : option request) : option request :=
  match req with
  | Some q => Some q
  | None =>
    match find_range (cl_ranges c) code with
    | Some r => Some {| rq_header := rg_basic r; rq_ops := [] |}
    | None => None
    end
  end.

(* A call of the driver: the code and the request *)
Definition sent := (Z * request)%type.

(* src/gbinder_client.c:185-217 gbinder_client_transact_sync_reply2. The reply, the
   value stored in *status (None if nothing is stored), and the transaction which
   was made *)
Definition sync_reply2 (c : option client) (code : Z) (req : option request) (a : answer)
  : option reply * option Z * option sent :=
  match c with
  | Some c =>
    if cl_dead c then (None, None, None)
    else
      match pick_request c code req with
      | Some q => let (r, st) := ipc_sync_reply a in (r, Some st, Some (code, q))
      | None => (None, None, None)
      end
  | None => (None, None, None)
  end.

(* src/gbinder_client.c:219-250 gbinder_client_transact_sync_oneway2, with
   src/gbinder_ipc.c:1823-1839 gbinder_ipc_transact_sync_oneway *)
Definition sync_oneway2 (c : option client) (code : Z) (req : option request) (a : answer)
  : Z * option sent :=
  match c with
  | Some c =>
    if cl_dead c then (- ESTALE, None)
    else
      match pick_request c code req with
      | Some q => (an_status a, Some (code, q))
      | None => (- EINVAL, None)
      end
  | None => (- EINVAL, None)
  end.

(* ------------------------------------------------------------------ *)
(* Calls of the service managers *)

(* The implementations; aidl2, aidl3 and aidl4 are derived from aidl *)
Inductive smkind := SmAidl | SmAidl2 | SmAidl3 | SmAidl4 | SmHidl.

(* What is appended to a new request *)
Definition append_ops (q : option request) (l : list op) : option request :=
  match q with
  | Some q => Some {| rq_header := rq_header q; rq_ops := rq_ops q ++ l |}
  | None => None
  end.

(* src/gbinder_servicemanager_aidl.h:58-66 *)
Definition CHECK_SERVICE_TRANSACTION : Z := 2.
Definition ADD_SERVICE_TRANSACTION : Z := 3.
Definition LIST_SERVICES_TRANSACTION : Z := 4.
Definition DUMP_FLAG_PRIORITY_DEFAULT : Z := 8.
Definition DUMP_FLAG_PRIORITY_ALL : Z := 15.
(* src/gbinder_servicemanager_hidl.c:74-83 *)
Definition HIDL_GET_TRANSACTION : Z := 1.
Definition HIDL_ADD_TRANSACTION : Z := 2.
Definition HIDL_LIST_TRANSACTION : Z := 4.
(* GBINDER_STABILITY_SYSTEM, include/gbinder_types.h; BINDER_WIRE_FORMAT_VERSION,
   src/gbinder_servicemanager_aidl4.c:53 *)
Definition AIDL4_STABILITY : Z := fourcc 0x0c 0 0 1.

(* The arguments of the call which registers a service. A service name is Unicode
   text for aidl, and a C string at some address for hidl.
   src/gbinder_servicemanager_aidl.c:145-158 gbinder_servicemanager_aidl_add_service_req,
   src/gbinder_servicemanager_aidl2.c:63-76 gbinder_servicemanager_aidl2_add_service_req,
   src/gbinder_servicemanager_aidl3.c:122-135 gbinder_servicemanager_aidl3_add_service_req,
   src/gbinder_servicemanager_aidl4.c:56-88 gbinder_servicemanager_aidl4_add_service_req,
   src/gbinder_servicemanager_hidl.c:232-254 gbinder_servicemanager_hidl_add_service *)
Inductive smname := NText (s : list Z) | NString (addr : Z) (t : bytes).

Definition name_op (n : smname) : op :=
  match n with
  | NText s => OpPlain (VString16 (Some s))
  | NString a t => OpHidlString (Some (a, t))
  end.

Definition add_service_args (k : smkind) (n : smname) (obj : option local) : list op :=
  match k with
  | SmAidl => [name_op n; OpLocal obj; OpPlain (VInt32 0)]
  | SmAidl2 | SmAidl3 =>
    [name_op n; OpLocal obj; OpPlain (VInt32 0); OpPlain (VInt32 DUMP_FLAG_PRIORITY_DEFAULT)]
  | SmAidl4 =>
    [name_op n; OpLocal obj; OpPlain (VInt32 AIDL4_STABILITY); OpPlain (VInt32 0);
     OpPlain (VInt32 DUMP_FLAG_PRIORITY_DEFAULT)]
  | SmHidl => [name_op n; OpLocal obj]
  end.

Definition add_service_code (k : smkind) : Z :=
  match k with SmHidl => HIDL_ADD_TRANSACTION | _ => ADD_SERVICE_TRANSACTION end.

(* src/gbinder_servicemanager_aidl.c:214-232 gbinder_servicemanager_aidl_add_service,
   src/gbinder_servicemanager_hidl.c:232-254 gbinder_servicemanager_hidl_add_service.
   The variable status isn't initialized: None is its indeterminate value. *)
Definition sm_add_service (k : smkind) (c : client) (n : smname) (obj : option local) (a : answer)
  : option Z * option sent :=
  let req := append_ops (new_request c) (add_service_args k n obj) in
  let '(_, stored, tx) := sync_reply2 (Some c) (add_service_code k) req a in
  (stored, tx).

(* src/gbinder_servicemanager.c:895-908 gbinder_servicemanager_add_service_sync. The
   arguments are given, or NULL *)
Definition sm_add_service_sync (k : smkind) (c : option client) (n : option smname)
  (obj : option local) (a : answer) : option Z * option sent :=
  match c, n, obj with
  | Some c, Some n, Some o => sm_add_service k c n (Some o) a
  | _, _, _ => (Some (- EINVAL), None)
  end.

(* strchr(fqinstance, '/'), src/gbinder_servicemanager_hidl.c:191-200: the part before
   and the part after *)
Fixpoint split_slash (s : bytes) : option (bytes * bytes) :=
  match s with
  | [] => None
  | c :: r =>
    if c =? 0x2f then Some ([], r)
    else match split_slash r with Some (a, b) => Some (c :: a, b) | None => None end
  end.

(* The arguments of the call which looks a service up. The names have been given as
   characters for aidl, and as bytes for hidl; fq and inst are the addresses of the
   two strings.
   src/gbinder_servicemanager_aidl.c:192-212 gbinder_servicemanager_aidl_get_service,
   src/gbinder_servicemanager_aidl3.c:53-77 gbinder_servicemanager_aidl3_get_service,
   src/gbinder_servicemanager_hidl.c:184-230 gbinder_servicemanager_hidl_get_service *)
Definition get_service_args (n : smname) (inst : Z) : option (list op) :=
  match n with
  | NText s => Some [OpPlain (VString16 (Some s))]
  | NString fq t =>
    match split_slash t with
    | Some (a, b) => Some [OpHidlString (Some (fq, a)); OpHidlString (Some (inst, b))]
    | None => None
    end
  end.

Definition get_service_code (k : smkind) : Z :=
  match k with SmHidl => HIDL_GET_TRANSACTION | _ => CHECK_SERVICE_TRANSACTION end.

(* ... the object is what is read from the reply, after the status if there is one *)
Definition reply_object (k : smkind) (i : io) (pr : protocol) (r : option reply)
  : res (option Z) :=
  match r with
  | Some (Some (g, objs)) =>
    let p := reader_init 0 (blen (m_data g)) objs in
    let* p1 := match k with
               | SmAidl | SmAidl2 => Ok p
               | _ => let* (_, p1) := rd_int32 (m_data g) p in Ok p1
               end in
    let* (o, _) := rd_nullable_object i pr g p1 in
    Ok (match o with Some h => h | None => None end)
  | _ => Ok None
  end.

(* The object, the value stored in *status and the transaction which was made *)
Definition sm_get_service (k : smkind) (i : io) (pr : protocol) (c : client) (n : smname)
  (inst : Z) (a : answer) : res (option Z * option Z * option sent) :=
  match get_service_args n inst with
  | Some args =>
    let '(r, stored, tx) :=
      sync_reply2 (Some c) (get_service_code k) (append_ops (new_request c) args) a in
    let* o := reply_object k i pr r in
    Ok (o, stored, tx)
  | None => Ok (None, Some (- EINVAL), None)
  end.

(* ------------------------------------------------------------------ *)
(* Lists of services. The result is the array of strings up to the first NULL,
   which is where its user stops; [None] stands for NULL in the array. *)
Fixpoint visible (l : list (option bytes)) : list bytes :=
  match l with
  | Some s :: r => s :: visible r
  | _ => []
  end.

(* src/gbinder_servicemanager_aidl.c:131-143 gbinder_servicemanager_aidl_list_services_req,
   src/gbinder_servicemanager_aidl2.c:50-61 gbinder_servicemanager_aidl2_list_services_req *)
Definition list_args (k : smkind) (index : Z) : list op :=
  match k with
  | SmAidl2 => [OpPlain (VInt32 index); OpPlain (VInt32 DUMP_FLAG_PRIORITY_ALL)]
  | _ => [OpPlain (VInt32 index)]
  end.

(* gbinder_remote_reply_read_string16, src/gbinder_remote_reply.c: NULL on failure *)
Definition reply_string16 (m : cmode) (r : reply) : res (option bytes) :=
  match r with
  | Some (g, objs) =>
    let* (s, _) := rd_string16 m (m_data g) (reader_init 0 (blen (m_data g)) objs) in Ok s
  | None => Ok None
  end.

(* src/gbinder_servicemanager_aidl.c:160-190 gbinder_servicemanager_aidl_list. The answer
   to call number n of the driver is [peer n]. The loop may be endless: None if it
   takes more than [fuel] calls. *)
Fixpoint aidl_list (m : cmode) (k : smkind) (c : client) (peer : nat -> answer) (fuel : nat)
  (got : list bytes) : res (option (list bytes * list sent)) :=
  match fuel with
  | O => Ok None
  | S f =>
    let req := append_ops (new_request c) (list_args k (blen got)) in
    let '(r, _, tx) := sync_reply2 (Some c) LIST_SERVICES_TRANSACTION req (peer (length got)) in
    let txs := match tx with Some t => [t] | None => [] end in
    match r with
    | Some rep =>
      let* s := reply_string16 m rep in
      match s with
      | Some name =>
        let* rest := aidl_list m k c peer f (got ++ [name]) in
        Ok (match rest with Some (l, ts) => Some (l, txs ++ ts) | None => None end)
      | None => Ok (Some (got, txs))
      end
    | None => Ok (Some (got, txs))
    end
  end.

(* The loop of src/gbinder_servicemanager_aidl3.c:107-110 *)
Fixpoint read_names (m : cmode) (mem : bytes) (p : reader) (n : nat) : res (list (option bytes)) :=
  match n with
  | O => Ok []
  | S n1 =>
    let* (s, p1) := rd_string16 m mem p in
    let* r := read_names m mem p1 n1 in
    Ok (s :: r)
  end.

(* src/gbinder_servicemanager_aidl3.c:79-119 gbinder_servicemanager_aidl3_list: what is
   done with the reply; the whole array *)
Definition aidl3_list_reply (m : cmode) (r : option reply) : res (list (option bytes)) :=
  match r with
  | Some (Some (g, objs)) =>
    let mem := m_data g in
    let* (_, p1) := rd_int32 mem (reader_init 0 (blen mem) objs) in
    let* (count, p2) := rd_int32 mem p1 in
    match count with
    | Some n => read_names m mem p2 (Z.to_nat n)
    | None => Ok []
    end
  | _ => Ok []
  end.

Definition aidl3_list (m : cmode) (c : client) (a : answer)
  : res (list (option bytes) * option sent) :=
  let req := append_ops (new_request c) [OpPlain (VInt32 DUMP_FLAG_PRIORITY_ALL)] in
  let '(r, _, tx) := sync_reply2 (Some c) LIST_SERVICES_TRANSACTION req a in
  let* l := aidl3_list_reply m r in
  Ok (l, tx).

(* src/gbinder_servicemanager_hidl.c:154-182 gbinder_servicemanager_hidl_list; None is
   NULL *)
Definition hidl_list (i : io) (c : client) (a : answer)
  : res (option (list bytes) * option sent) :=
  let '(r, _, tx) := sync_reply2 (Some c) HIDL_LIST_TRANSACTION (new_request c) a in
  match r with
  | Some (Some (g, objs)) =>
    let* (_, p1) := rd_int32 (m_data g) (reader_init 0 (blen (m_data g)) objs) in
    let* (l, _) := rd_hidl_string_vec i g p1 in
    Ok (l, tx)
  | _ => Ok (None, tx)
  end.
