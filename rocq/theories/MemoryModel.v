(* Model of the memory to which requests and replies point: the functions of
   src/gbinder_writer.c which append buffer objects or allocate memory,
   src/gbinder_cleanup.c, src/gbinder_buffer.c, the reference counts of
   src/gbinder_local_request.c and src/gbinder_local_reply.c, and transactions of
   src/gbinder_ipc.c. A buffer object is a pointer: the memory is read when the message
   is sent, which may be much later than when the object was appended. What is in the
   message besides the buffer objects, and how they are related to each other, isn't
   included. Memory, messages, received data, buffers and transactions are numbered in
   the order of creation, and are None after they are freed. *)
From Verif Require Import Base CleanupModel.

(* What is in memory: bytes, or descriptors of strings, vectors and queues. The pointers
   in the descriptors aren't included, the driver replaces them. *)
Inductive data :=
| Bytes (l : list Z)
| StringDesc (len : nat)
| VecDesc (count : nat)
| StringDescs (lens : list (option nat))
| QueueDesc (count : nat).

(* Memory of the library, memory to which the application has a pointer, the buffers in
   received data, and the empty string at src/gbinder_writer.c:983 *)
Inductive ptr := Lib (b : nat) | Area (n : nat) | Arrived (c i : nat) | Empty.

(* A buffer object, src/gbinder_writer.c:893-916 *)
Record object := { o_ptr : option ptr; o_size : nat }.

(* GBinderCleanupItem, src/gbinder_cleanup.c:35-38: g_free of either kind of memory, and
   gbinder_buffer_contents_unref *)
Inductive thing := FreeLib (b : nat) | FreeArea (n : nat) | UnrefCont (c : nat).

(* GBinderLocalRequest and GBinderLocalReply, src/gbinder_local_request.c:44-48 and
   src/gbinder_local_reply.c:42-47. m_app: how many of the references are those of the
   application. The second reference which a reply keeps to its contents isn't included. *)
Record note := { m_refs : nat; m_app : nat; m_items : list thing; m_objs : list object }.

(* GBinderBufferContents, src/gbinder_buffer.c:39-45: the memory of the buffer objects
   in it *)
Record parcel := { k_refs : Z; k_data : list data }.

(* What the driver gets to see: nothing, data, or what happens to be there after the
   memory was freed *)
Inductive seen := Null | Data (d : data) | Junk.

(* heap: memory of the library, with the message for which it was allocated; areas: memory
   which the application has allocated itself (None) or with gbinder_writer_malloc (the
   message); pending: messages of transactions which aren't sent yet *)
Record state := {
  heap : list (option (nat * data));
  areas : list (option (option nat * list Z));
  notes : list (option note);
  parcels : list (option parcel);
  buffers : list (option nat);
  pending : list (option nat);
  sent : list (nat * list seen)
}.

Definition init : state :=
  {| heap := []; areas := []; notes := []; parcels := []; buffers := []; pending := []; sent := [] |}.

Definition set_heap s x := {| heap := x; areas := areas s; notes := notes s; parcels := parcels s; buffers := buffers s; pending := pending s; sent := sent s |}.
Definition set_areas s x := {| heap := heap s; areas := x; notes := notes s; parcels := parcels s; buffers := buffers s; pending := pending s; sent := sent s |}.
Definition set_notes s x := {| heap := heap s; areas := areas s; notes := x; parcels := parcels s; buffers := buffers s; pending := pending s; sent := sent s |}.
Definition set_parcels s x := {| heap := heap s; areas := areas s; notes := notes s; parcels := x; buffers := buffers s; pending := pending s; sent := sent s |}.
Definition set_buffers s x := {| heap := heap s; areas := areas s; notes := notes s; parcels := parcels s; buffers := x; pending := pending s; sent := sent s |}.
Definition set_pending s x := {| heap := heap s; areas := areas s; notes := notes s; parcels := parcels s; buffers := buffers s; pending := x; sent := sent s |}.
Definition set_sent s x := {| heap := heap s; areas := areas s; notes := notes s; parcels := parcels s; buffers := buffers s; pending := pending s; sent := x |}.

(* Misuse: the application uses what it doesn't have. Crash: the library does. *)
Inductive out := Done (s : state) | Misuse | Crash.

(* strlen: None if there's no terminator *)
Fixpoint strlen (l : list Z) : option nat :=
  match l with
  | [] => None
  | c :: r => if c =? 0 then Some 0%nat else option_map S (strlen r)
  end.

(* g_malloc by the library for a message *)
Definition alloc (s : state) (m : nat) (d : data) : nat * state :=
  (length (heap s), set_heap s (heap s ++ [Some (m, d)])).

(* src/gbinder_cleanup.c:89-106 gbinder_cleanup_add, and
   src/gbinder_writer.c:893-916 gbinder_writer_data_append_buffer_object *)
Definition push (s : state) (m : nat) (its : list thing) (os : list object) : out :=
  match at_ (notes s) m with
  | Some x =>
    if Nat.eqb (m_app x) 0 then Misuse
    else Done (set_notes s (set_at (notes s) m (Some
      {| m_refs := m_refs x; m_app := m_app x; m_items := m_items x ++ its; m_objs := m_objs x ++ os |})))
  | None => Misuse
  end.

Definition obj (p : ptr) (size : nat) : object := {| o_ptr := Some p; o_size := size |}.
Definition null : object := {| o_ptr := None; o_size := 0 |}.

Definition area (s : state) (n : nat) : option (list Z) :=
  match at_ (areas s) n with Some (_, l) => Some l | None => None end.

(* src/gbinder_buffer.c:103-113 gbinder_buffer_contents_unref and 77-90
   gbinder_buffer_contents_free *)
Definition unref_parcel (s : state) (c : nat) : option state :=
  match at_ (parcels s) c with
  | Some k =>
    if k_refs k - 1 =? 0 then Some (set_parcels s (set_at (parcels s) c None))
    else Some (set_parcels s (set_at (parcels s) c (Some {| k_refs := k_refs k - 1; k_data := k_data k |})))
  | None => None
  end.

(* src/gbinder_buffer.c:92-101 gbinder_buffer_contents_ref *)
Definition ref_parcel (s : state) (c : nat) : option state :=
  match at_ (parcels s) c with
  | Some k => Some (set_parcels s (set_at (parcels s) c (Some {| k_refs := k_refs k + 1; k_data := k_data k |})))
  | None => None
  end.

(* src/gbinder_cleanup.c:52-59 gbinder_cleanup_destroy_func. None: freed twice. *)
Definition tidy (s : state) (i : thing) : option state :=
  match i with
  | FreeLib b => match at_ (heap s) b with Some _ => Some (set_heap s (set_at (heap s) b None)) | None => None end
  | FreeArea n => match at_ (areas s) n with Some _ => Some (set_areas s (set_at (areas s) n None)) | None => None end
  | UnrefCont c => unref_parcel s c
  end.

Fixpoint tidy_all (s : state) (l : list thing) : option state :=
  match l with
  | [] => Some s
  | i :: r => match tidy s i with Some s1 => tidy_all s1 r | None => None end
  end.

(* src/gbinder_local_request.c:179-189 gbinder_local_request_unref and 155-166
   gbinder_local_request_free; src/gbinder_local_reply.c:140-150 and 115-127.
   app: whether it's the application which releases its reference *)
Definition unref (s : state) (m : nat) (app : bool) : out :=
  match at_ (notes s) m with
  | Some x =>
    if app && Nat.eqb (m_app x) 0 then Misuse else
    if Nat.eqb (Nat.pred (m_refs x)) 0 then
      match tidy_all (set_notes s (set_at (notes s) m None)) (m_items x) with
      | Some s1 => Done s1
      | None => Crash
      end
    else Done (set_notes s (set_at (notes s) m (Some
      {| m_refs := Nat.pred (m_refs x); m_app := if app then Nat.pred (m_app x) else m_app x;
         m_items := m_items x; m_objs := m_objs x |})))
  | None => if app then Misuse else Crash
  end.

(* What the driver copies (binder_alloc_copy_user_to_buffer of Linux) *)
Definition fetch (d : data) (size : nat) : seen :=
  match d with
  | Bytes l => if (size <=? length l)%nat then Data (Bytes (firstn size l)) else Junk
  | _ => Data d
  end.

Definition look (s : state) (o : object) : seen :=
  match o_ptr o with
  | None => Null
  | Some (Lib b) => match at_ (heap s) b with Some (_, d) => fetch d (o_size o) | None => Junk end
  | Some (Area n) => match area s n with Some l => fetch (Bytes l) (o_size o) | None => Junk end
  | Some (Arrived c i) =>
    match at_ (parcels s) c with
    | Some k => match nth_error (k_data k) i with Some d => Data d | None => Junk end
    | None => Junk
    end
  | Some Empty => fetch (Bytes [0]) (o_size o)
  end.

(* The message is sent *)
Definition send (s : state) (m : nat) : option state :=
  match at_ (notes s) m with
  | Some x => Some (set_sent s (sent s ++ [(m, map (look s) (m_objs x))]))
  | None => None
  end.

(* Strings: of each the memory and the length *)
Fixpoint strings (s : state) (l : list (option nat)) : option (list (option (nat * nat))) :=
  match l with
  | [] => Some []
  | None :: r => option_map (cons None) (strings s r)
  | Some n :: r =>
    match area s n with
    | Some t => match strlen t with Some len => option_map (cons (Some (n, len))) (strings s r) | None => None end
    | None => None
    end
  end.

Inductive op :=
| New (l : list Z)
| Write (n : nat) (l : list Z)
| Free (n : nat)
| MNew
| MRef (m : nat)
| MUnref (m : nat)
| Str (m : nat) (p : option nat)
| StrCopy (m : nat) (p : option nat)
| Vec (m : nat) (p : option nat) (count elemsize : nat)
| StrVec (m : nat) (ps : list (option nat))
| Buf (m : nat) (p : option nat) (size : nat)
| StructVec (m : nat) (p : option nat) (count elemsize : nat)
| Malloc (m size : nat)
| Memdup (m n size : nat)
| Queue (m grantors fds : nat)
| Receive (l : list data)
| Drop (b : nat)
| Copy (m b skip : nat)
| Replace (m b : nat)
| Send (m : nat)
| Begin (m : nat)
| End (t : nat).

(* The buffer objects in received data *)
Definition arrived (c : nat) (l : list data) : list object :=
  map (fun i => obj (Arrived c i) 0) (seq 0 (length l)).

(* src/gbinder_writer.c:89-161 gbinder_writer_data_append_contents: objects are copied as
   they are, from some position on *)
Definition copy (s : state) (m b skip : nat) : out :=
  match at_ (buffers s) b with
  | Some c =>
    match at_ (parcels s) c with
    | Some k =>
      match ref_parcel s c with
      | Some s1 => push s1 m [UnrefCont c] (skipn skip (arrived c (k_data k)))
      | None => Crash
      end
    | None => Crash
    end
  | None => Misuse
  end.

Definition step (s : state) (o : op) : out :=
  match o with
  (* The application allocates, changes and frees its own memory; it may write to the
     memory which gbinder_writer_malloc returns too *)
  | New l => Done (set_areas s (areas s ++ [Some (None, l)]))
  | Write n l =>
    match at_ (areas s) n with
    | Some (w, old) => if Nat.eqb (length l) (length old) then Done (set_areas s (set_at (areas s) n (Some (w, l)))) else Misuse
    | None => Misuse
    end
  | Free n =>
    match at_ (areas s) n with
    | Some (None, _) => Done (set_areas s (set_at (areas s) n None))
    | _ => Misuse
    end
  (* src/gbinder_local_request.c:74-109 gbinder_local_request_new,
     src/gbinder_local_reply.c:73-98 gbinder_local_reply_new *)
  | MNew => Done (set_notes s (notes s ++ [Some {| m_refs := 1; m_app := 1; m_items := []; m_objs := [] |}]))
  (* src/gbinder_local_request.c:168-177, src/gbinder_local_reply.c:129-138 *)
  | MRef m =>
    match at_ (notes s) m with
    | Some x =>
      if Nat.eqb (m_app x) 0 then Misuse
      else Done (set_notes s (set_at (notes s) m (Some
        {| m_refs := S (m_refs x); m_app := S (m_app x); m_items := m_items x; m_objs := m_objs x |})))
    | None => Misuse
    end
  | MUnref m => unref s m true
  (* src/gbinder_writer.c:963-973 gbinder_writer_append_hidl_string, 1032-1061
     gbinder_writer_data_append_hidl_string *)
  | Str m None => let '(b, s1) := alloc s m (StringDesc 0) in push s1 m [FreeLib b] [obj (Lib b) 0; null]
  | Str m (Some n) =>
    match area s n with
    | Some l =>
      match strlen l with
      | Some len => let '(b, s1) := alloc s m (StringDesc len) in push s1 m [FreeLib b] [obj (Lib b) 0; obj (Area n) (S len)]
      | None => Misuse
      end
    | None => Misuse
    end
  (* src/gbinder_writer.c:975-988 gbinder_writer_append_hidl_string_copy, with
     gbinder_writer_strdup at 1356-1362 *)
  | StrCopy m None => let '(b, s1) := alloc s m (StringDesc 0) in push s1 m [FreeLib b] [obj (Lib b) 0; null]
  | StrCopy m (Some n) =>
    match area s n with
    | Some l =>
      match strlen l with
      | Some O => let '(b, s1) := alloc s m (StringDesc 0) in push s1 m [FreeLib b] [obj (Lib b) 0; obj Empty 1]
      | Some len =>
        let '(t, s1) := alloc s m (Bytes (firstn (S len) l)) in
        let '(b, s2) := alloc s1 m (StringDesc len) in
        push s2 m [FreeLib t; FreeLib b] [obj (Lib b) 0; obj (Lib t) (S len)]
      | None => Misuse
      end
    | None => Misuse
    end
  (* src/gbinder_writer.c:990-1016 gbinder_writer_data_append_hidl_vec, 1018-1030
     gbinder_writer_append_hidl_vec. Sizes which don't fit into 32 bits aren't included;
     the elements of a non-empty vector aren't NULL. *)
  | Vec m p count elemsize =>
    let total := (count * elemsize)%nat in
    match p with
    | None =>
      if Nat.eqb total 0 then let '(b, s1) := alloc s m (VecDesc 0) in push s1 m [FreeLib b] [obj (Lib b) 0; null]
      else Misuse
    | Some n =>
      match area s n with
      | Some l =>
        if Nat.eqb total 0 then let '(b, s1) := alloc s m (VecDesc 0) in push s1 m [FreeLib b] [obj (Lib b) 0; null]
        else if (total <=? length l)%nat then
          let '(t, s1) := alloc s m (Bytes (firstn total l)) in
          let '(b, s2) := alloc s1 m (VecDesc count) in
          push s2 m [FreeLib t; FreeLib b] [obj (Lib b) 0; obj (Lib t) total]
        else Misuse
      | None => Misuse
      end
    end
  (* src/gbinder_writer.c:1063-1074 gbinder_writer_append_hidl_string_vec, 1076-1150
     gbinder_writer_data_append_hidl_string_vec *)
  | StrVec m ps =>
    match strings s ps with
    | Some [] => let '(b, s1) := alloc s m (VecDesc 0) in push s1 m [FreeLib b] [obj (Lib b) 0; null]
    | Some l =>
      let '(t, s1) := alloc s m (StringDescs (map (option_map snd) l)) in
      let '(b, s2) := alloc s1 m (VecDesc (length l)) in
      push s2 m [FreeLib t; FreeLib b]
        (obj (Lib b) 0 :: obj (Lib t) 0 ::
         map (fun x => match x with Some (n, len) => obj (Area n) (S len) | None => null end) l)
    | None => Misuse
    end
  (* src/gbinder_writer.c:735-748 gbinder_writer_append_buffer_object_with_parent, 750-762
     gbinder_writer_append_buffer_object, and each buffer of 799-817
     gbinder_writer_append_struct *)
  | Buf m None size => if Nat.eqb size 0 then push s m [] [null] else Misuse
  | Buf m (Some n) size =>
    match area s n with
    | Some l => if (size <=? length l)%nat then push s m [] [obj (Area n) size] else Misuse
    | None => Misuse
    end
  (* src/gbinder_writer.c:824-850 gbinder_writer_append_struct_vec and 852-878
     gbinder_writer_field_hidl_vec_write_buf, for elements without pointers *)
  | StructVec m p count elemsize =>
    let '(b, s1) := alloc s m (VecDesc count) in
    match p with
    | None => if Nat.eqb (count * elemsize) 0 then push s1 m [FreeLib b] [obj (Lib b) 0; null] else Misuse
    | Some n =>
      match area s n with
      | Some l =>
        if (count * elemsize <=? length l)%nat then push s1 m [FreeLib b] [obj (Lib b) 0; obj (Area n) (count * elemsize)]
        else Misuse
      | None => Misuse
      end
    end
  (* src/gbinder_writer.c:1340-1346 gbinder_writer_malloc, 1348-1354
     gbinder_writer_malloc0, 1321-1338 gbinder_writer_alloc *)
  | Malloc m size => push (set_areas s (areas s ++ [Some (Some m, repeat 0 size)])) m [FreeArea (length (areas s))] []
  (* src/gbinder_writer.c:1364-1379 gbinder_writer_memdup *)
  | Memdup m n size =>
    match area s n with
    | Some l =>
      if (size <=? length l)%nat then
        push (set_areas s (areas s ++ [Some (Some m, firstn size l)])) m [FreeArea (length (areas s))] []
      else Misuse
    | None => Misuse
    end
  (* src/gbinder_writer.c:1285-1295 gbinder_writer_append_fmq_descriptor, 1240-1283
     gbinder_writer_data_append_fmq_descriptor, 712-733 gbinder_writer_data_append_fds. The
     memory is that of the queue, which the application may free. The grantors aren't
     elements but bytes here. *)
  | Queue m grantors fds =>
    match area s grantors, area s fds with
    | Some g, Some f =>
      let '(bf, s1) := alloc s m (Bytes f) in
      match g with
      | [] =>
        let '(bd, s2) := alloc s1 m (QueueDesc 0) in
        push s2 m [FreeLib bf; FreeLib bd] [obj (Lib bd) 0; null; obj (Lib bf) (length f)]
      | _ =>
        let '(bg, s2) := alloc s1 m (Bytes g) in
        let '(bd, s3) := alloc s2 m (QueueDesc (length g)) in
        push s3 m [FreeLib bf; FreeLib bg; FreeLib bd] [obj (Lib bd) 0; obj (Lib bg) (length g); obj (Lib bf) (length f)]
      end
    | _, _ => Misuse
    end
  (* src/gbinder_buffer.c:188-198 gbinder_buffer_new and 176-186 gbinder_buffer_free *)
  | Receive l =>
    Done (set_buffers (set_parcels s (parcels s ++ [Some {| k_refs := 1; k_data := l |}])) (buffers s ++ [Some (length (parcels s))]))
  | Drop b =>
    match at_ (buffers s) b with
    | Some c => match unref_parcel (set_buffers s (set_at (buffers s) b None)) c with Some s1 => Done s1 | None => Crash end
    | None => Misuse
    end
  | Copy m b skip => copy s m b skip
  (* src/gbinder_writer.c:76-87 gbinder_writer_data_set_contents *)
  | Replace m b =>
    match at_ (notes s) m with
    | Some x =>
      match tidy_all (set_notes s (set_at (notes s) m (Some
               {| m_refs := m_refs x; m_app := m_app x; m_items := []; m_objs := [] |}))) (m_items x) with
      | Some s1 => copy s1 m b 0
      | None => Crash
      end
    | None => Misuse
    end
  (* A synchronous transaction, or the reply to one *)
  | Send m =>
    match at_ (notes s) m with
    | Some x => if Nat.eqb (m_app x) 0 then Misuse else match send s m with Some s1 => Done s1 | None => Crash end
    | None => Misuse
    end
  (* src/gbinder_ipc.c:1966-1990 gbinder_ipc_transact with 1605-1633
     gbinder_ipc_tx_internal_new: a transaction which will be sent by another thread *)
  | Begin m =>
    match at_ (notes s) m with
    | Some x =>
      if Nat.eqb (m_app x) 0 then Misuse
      else Done (set_pending (set_notes s (set_at (notes s) m (Some
        {| m_refs := S (m_refs x); m_app := m_app x; m_items := m_items x; m_objs := m_objs x |}))) (pending s ++ [Some m]))
    | None => Misuse
    end
  (* src/gbinder_ipc.c:1588-1603 gbinder_ipc_tx_internal_exec, 1559-1573
     gbinder_ipc_tx_internal_free *)
  | End t =>
    match at_ (pending s) t with
    | Some m =>
      match send s m with
      | Some s1 => unref (set_pending s1 (set_at (pending s1) t None)) m false
      | None => Crash
      end
    | None => Misuse
    end
  end.

Fixpoint run (s : state) (h : list op) : out :=
  match h with
  | [] => Done s
  | o :: r => match step s o with Done s1 => run s1 r | x => x end
  end.
