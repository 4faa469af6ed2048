(* Vocabulary of the properties about objects and HIDL values which travel
   through the driver: what the sender appends, what the receiver calls, what it
   should get *)
From Verif Require Import Base UtfModel WriterModel ReaderModel CodecSpec CodecSafety
  ObjModel ObjReader KernelModel ObjSpec.

(* The block of memory at this address has these contents *)
Definition holds (m : memory) (a : Z) (c : bytes) : Prop := mread m a (blen c) = c.

(* An address of the sender *)
Definition is_addr (i : io) (a : Z) : Prop := 0 < a < 2 ^ (8 * psz i).

(* A C string in memory *)
Definition string_ok (i : io) (m : memory) (s : cstring) : Prop :=
  match s with
  | Some (a, t) => is_addr i a /\ all_bytes t /\ ~ In 0 t /\ blen t + 1 < 2 ^ 32 /\
                   holds m a (t ++ [0])
  | None => False
  end.

(* Types of structures: fields are in order, don't overlap and are inside *)
Definition field_size (i : io) (f : wfield) : Z :=
  match f with FPointer _ => psz i | _ => 16 end.

Fixpoint type_ok (i : io) (t : wtype) : Prop :=
  match t with
  | WType size fields =>
    0 <= size < 2 ^ 31 /\
    (fix go (from : Z) (fs : list (Z * wfield)) : Prop :=
       match fs with
       | [] => True
       | (off, f) :: r =>
         from <= off /\ off + field_size i f <= size /\
         match f with
         | FPointer ft => type_ok i ft
         | FVec None => True
         | FVec (Some et) => type_ok i et
         | FString => True
         end /\
         go (off + field_size i f) r
       end) 0 fields
  end.

(* The structure at this address is complete: pointers are valid, there are as
   many elements as a vector says and the total size of a vector is below 2^31 *)
Fixpoint struct_ok (i : io) (m : memory) (t : wtype) (obj : Z) {struct t} : Prop :=
  match t with
  | WType _ fields =>
    (fix go (fs : list (Z * wfield)) : Prop :=
       match fs with
       | [] => True
       | (foff, f) :: r =>
         let p := mread_ptr i m (obj + foff) in
         let n := mread32 m (obj + foff + 8) in
         match f with
         | FPointer ft => is_addr i p \/ wt_size ft = 0
         | FVec None => True
         | FVec (Some et) =>
           n * wt_size et < 2 ^ 31 /\ (n * wt_size et = 0 \/ is_addr i p) /\
           (forall k, 0 <= k < n -> struct_ok i m et (p + k * wt_size et))
         | FString => p = 0 \/ is_addr i p /\ n + 1 < 2 ^ 32
         end /\ go r
       end) fields
  end.

(* Memory contains bytes *)
Definition byte_memory (m : memory) : Prop := forall a, is_byte (m a).

(* The append calls of the round trip *)
Definition call_ok (i : io) (pr : protocol) (m : memory) (o : op) : Prop :=
  match o with
  | OpPlain v => value_ok v /\ padded_value v
  | OpLocal (Some o) => is_addr i (lo_ptr o)
  | OpRemote (Some h) => 0 <= h < 2 ^ 32 /\ pr <> Aidl3
  | OpFd fd dupfd => in_range (- 2 ^ 31) (2 ^ 31) fd /\ in_range (- 2 ^ 31) (2 ^ 31) dupfd
  | OpHidlString s => string_ok i m s
  | OpHidlVec (Some b) count elemsize =>
    0 <= count /\ 0 < elemsize /\ count * elemsize < 2 ^ 32 /\ blen b = count * elemsize /\
    all_bytes b
  | OpHidlVec None count elemsize => count = 0
  | OpHidlStringVec l => Forall (string_ok i m) l /\ 16 * blen l < 2 ^ 32
  | OpStruct m1 ptr t None =>
    m1 = m /\ byte_memory m /\ is_addr i ptr /\ type_ok i t /\ struct_ok i m t ptr
  | OpStructVec m1 ptr count t =>
    m1 = m /\ byte_memory m /\ 0 <= count < 2 ^ 32 /\ type_ok i t /\
    0 < wt_size t /\ count * wt_size t < 2 ^ 31 /\ (count = 0 \/ is_addr i ptr) /\
    0 <= ptr < 2 ^ (8 * psz i) /\
    (forall k, 0 <= k < count -> struct_ok i m t (ptr + k * wt_size t))
  | _ => False
  end.

(* ------------------------------------------------------------------ *)
(* Links between buffers, as they are in the sender: a nested buffer names an
   earlier buffer which has its address in the place where the driver is going
   to put the new address *)
Definition link_ok (i : io) (m : memory) (b : bytes) (offs : list Z) (k : nat) (o : Z)
  : Prop :=
  let c := k_ptr i b o in
  exists po, nth_error offs (Z.to_nat (kp_parent c)) = Some po /\
    (Z.to_nat (kp_parent c) < k)%nat /\ k_type b po = TYPE_PTR /\
    let p := k_ptr i b po in
    0 <= kp_poff c /\ kp_poff c + psz i <= kp_length p /\
    mread m (kp_buffer p + kp_poff c) (psz i) = le (psize i) (kp_buffer c).

Definition linked (i : io) (m : memory) (b : bytes) (offs : list Z) : Prop :=
  forall k o, nth_error offs k = Some o -> k_type b o = TYPE_PTR ->
    kp_has_parent (k_ptr i b o) = true -> link_ok i m b offs k o.

(* ------------------------------------------------------------------ *)
(* The read calls *)
Inductive rkind : Type :=
| RKPlain (k : kind)
| RKObject                          (* gbinder_reader_read_nullable_object *)
| RKFd                              (* gbinder_reader_read_fd *)
| RKString                          (* gbinder_reader_read_hidl_string *)
| RKVec                             (* gbinder_reader_read_hidl_vec *)
| RKStrings                         (* gbinder_reader_read_hidl_string_vec *)
| RKStruct (size : Z) (nested : nat)  (* gbinder_reader_read_hidl_struct1, then skip_buffer
                                       for each of the nested buffers *)
| RKStructVec (nested : nat).         (* gbinder_reader_read_hidl_vec, then the same *)

Inductive ritem : Type :=
| IFail
| IPlain (r : result)
| IObject (handle : option Z)
| IFd (fd : Z)
| IString (s : bytes)
| IVec (contents : bytes) (count elemsize : Z)
| IStrings (l : list bytes)
| IStruct (addr : Z)
| IStructVec (addr count elemsize : Z).

Definition wrapi {A} (f : A -> ritem) (x : rd A) : res (ritem * reader) :=
  match x with
  | Ok (Some a, p) => Ok (f a, p)
  | Ok (None, p) => Ok (IFail, p)
  | Fault e => Fault e
  end.

(* gbinder_reader_skip_buffer, n times *)
Fixpoint rd_skip (i : io) (g : message) (p : reader) (n : nat) : rd unit :=
  match n with
  | O => ok tt p
  | S n1 =>
    let* (o, p1) := rd_buffer_object i g p in
    match o with Some _ => rd_skip i g p1 n1 | None => fail p1 end
  end.

Definition read_item (cm : cmode) (i : io) (pr : protocol) (g : message) (p : reader)
  (k : rkind) : res (ritem * reader) :=
  match k with
  | RKPlain k => let* (r, p1) := read_kind cm (m_data g) p k in Ok (IPlain r, p1)
  | RKObject => wrapi IObject (rd_nullable_object i pr g p)
  | RKFd => wrapi IFd (rd_fd i g p)
  | RKString => wrapi IString (rd_hidl_string i g p)
  | RKVec =>
    let* (v, p1) := rd_hidl_vec i g p in
    match v with
    | Some (a, count, elemsize) =>
      (* the caller looks at the elements *)
      let* b := tload g a (count * elemsize) in Ok (IVec b count elemsize, p1)
    | None => Ok (IFail, p1)
    end
  | RKStrings => wrapi IStrings (rd_hidl_string_vec i g p)
  | RKStruct size nested =>
    let* (v, p1) := rd_hidl_struct i g p size in
    match v with
    | Some a =>
      let* (s, p2) := rd_skip i g p1 nested in
      Ok (match s with Some _ => IStruct a | None => IFail end, p2)
    | None => Ok (IFail, p1)
    end
  | RKStructVec nested =>
    let* (v, p1) := rd_hidl_vec i g p in
    match v with
    | Some (a, count, elemsize) =>
      let* (s, p2) := rd_skip i g p1 nested in
      Ok (match s with Some _ => IStructVec a count elemsize | None => IFail end, p2)
    | None => Ok (IFail, p1)
    end
  end.

Fixpoint read_items (cm : cmode) (i : io) (pr : protocol) (g : message) (p : reader)
  (ks : list rkind) : res (list ritem * reader) :=
  match ks with
  | [] => Ok ([], p)
  | k :: r =>
    let* (x, p1) := read_item cm i pr g p k in
    let* (xs, p2) := read_items cm i pr g p1 r in
    Ok (x :: xs, p2)
  end.

(* The read call for each append call *)
Definition rkind_of (i : io) (o : op) : rkind :=
  match o with
  | OpPlain v => RKPlain (kind_of v)
  | OpLocal _ | OpRemote _ => RKObject
  | OpFd _ _ => RKFd
  | OpHidlString _ => RKString
  | OpHidlVec _ _ _ => RKVec
  | OpHidlStringVec _ => RKStrings
  | OpStruct m ptr t _ => RKStruct (wt_size t) (length (op_wants i o) - 1)
  | OpStructVec m ptr count t => RKStructVec (length (op_wants i o) - 2)
  | _ => RKObject
  end.

(* The memory of the receiver, as far as it is in the message *)
Definition gmem (g : message) : memory :=
  fun a => nth (Z.to_nat (a - m_sgbase g)) (m_sg g) uninit.

(* All of these addresses are in the message *)
Definition in_message (g : message) (a n : Z) : Prop :=
  m_sgbase g <= a /\ 0 <= n /\ a + n <= m_sgbase g + blen (m_sg g).

(* Byte number j belongs to a pointer *)
Definition in_slot (i : io) (fields : list (Z * wfield)) (j : Z) : Prop :=
  exists off f, In (off, f) fields /\ off <= j < off + psz i.

(* The structure at [a] of the sender and the one at [b] of the receiver are
   the same: all bytes except pointers are equal, and pointers lead to the same
   things, which are inside of the message *)
Fixpoint same_struct (i : io) (m : memory) (g : message) (t : wtype) (a b : Z) {struct t}
  : Prop :=
  match t with
  | WType size fields =>
    in_message g b size /\
    (forall j, 0 <= j < size -> ~ in_slot i fields j -> gmem g (b + j) = m (a + j)) /\
    (fix go (fs : list (Z * wfield)) : Prop :=
       match fs with
       | [] => True
       | (foff, f) :: r =>
         let pa := mread_ptr i m (a + foff) in
         let pb := mread_ptr i (gmem g) (b + foff) in
         let n := mread32 m (a + foff + 8) in
         match f with
         | FPointer ft =>
           in_message g pb (wt_size ft) /\
           mread (gmem g) pb (wt_size ft) = mread m pa (wt_size ft)
         | FVec None => in_message g pb 0
         | FVec (Some et) =>
           forall k, 0 <= k < n ->
             same_struct i m g et (pa + k * wt_size et) (pb + k * wt_size et)
         | FString =>
           if pa =? 0 then in_message g pb 0
           else in_message g pb (n + 1) /\ mread (gmem g) pb (n + 1) = mread m pa (n + 1)
         end /\ go r
       end) fields
  end.

Definition cstr_text (s : cstring) : bytes :=
  match s with Some (_, t) => t | None => [] end.

(* The driver has a handle of the receiver for the remote object, i.e. it isn't
   receiver's own object *)
Definition foreign (e : kenv) (o : op) : Prop :=
  match o with OpRemote (Some h) => k_ref e h <> None | _ => True end.

(* What the receiver should get *)
Definition got (i : io) (e : kenv) (g : message) (o : op) (r : ritem) : Prop :=
  match o with
  | OpPlain v => r = IPlain (expected v)
  | OpLocal (Some o) => r = IObject (Some (u32 (k_node e (lo_ptr o))))
  | OpRemote (Some h) =>
    match k_ref e h with
    | Some h2 => r = IObject (Some (u32 h2))
    | None => False          (* an object coming home, see C11 *)
    end
  | OpFd fd dupfd => r = IFd (sgn 32 (k_fd e (if dupfd <? 0 then fd else dupfd)))
  | OpHidlString (Some (_, t)) => r = IString t
  | OpHidlVec (Some b) count elemsize =>
    r = if count =? 0 then IVec [] 0 0 else IVec b count elemsize
  | OpHidlVec None _ _ => r = IVec [] 0 0
  | OpHidlStringVec l => r = IStrings (map cstr_text l)
  | OpStruct m ptr t _ => exists b, r = IStruct b /\ same_struct i m g t ptr b
  | OpStructVec m ptr count t =>
    exists b elemsize, r = IStructVec b count elemsize /\
      (count = 0 \/ elemsize = wt_size t) /\
      forall k, 0 <= k < count -> same_struct i m g t (ptr + k * wt_size t) (b + k * wt_size t)
  | _ => False
  end.

(* The message begins with plain data, or with an object or a descriptor. The driver
   refuses nested buffers while the last buffer is at offset 0, which doesn't happen in
   practice since such messages begin with a header or a status *)
Definition starts_well (l : list op) : Prop :=
  match l with
  | [] => True
  | OpPlain v :: _ => append_value [] v <> Ok []
  | OpLocal _ :: _ | OpRemote _ :: _ | OpFd _ _ :: _ => True
  | _ => False
  end.
(* ... with plain data *)
Definition starts_plain (l : list op) : Prop :=
  exists v r, l = OpPlain v :: r /\ append_value [] v <> Ok [].

(* ------------------------------------------------------------------ *)
(* The descriptors of a native handle. The last two objects of the message are
   the buffer with the native handle and the array of descriptors; the latter
   names the former by its number and the place of the descriptors in it *)
Definition fds_found (i : io) (f : fds) (b : bytes) (offs : list Z) : Prop :=
  exists before o1 o2 at_,
    offs = before ++ [o1; o2] /\
    k_type b o1 = TYPE_PTR /\ kp_buffer (k_ptr i b o1) = fs_ptr f /\
    kp_length (k_ptr i b o1) = blen (fds_image f) /\
    k_type b o2 = TYPE_FDA /\
    kfield b (o2 + 8) (psz i) = blen (fs_fds f) /\
    kfield b (o2 + 8 + psz i) (psz i) = blen before /\
    kfield b (o2 + 8 + 2 * psz i) (psz i) = at_ /\
    at_ + 4 * blen (fs_fds f) <= kp_length (k_ptr i b o1) /\
    slice (fds_image f) at_ (4 * blen (fs_fds f)) = ints_image (fs_fds f).

(* Messages which begin with a HIDL string or vector *)
Definition starts_hidl (l : list op) : Prop :=
  match l with
  | OpHidlString _ :: _ | OpHidlStringVec _ :: _ | OpHidlVec _ _ _ :: _ | OpStructVec _ _ _ _ :: _ => True
  | _ => False
  end.
