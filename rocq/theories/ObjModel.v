(* Model of the part of src/gbinder_writer.c that appends objects (binders,
   file descriptors, buffers and HIDL types), and of the object encoders in
   src/gbinder_io.c, for both layouts of the kernel structures.
   Simplifications: the length of the output array and the number of offsets
   stay below 2^31 (GByteArray and GUtilIntArray count with 32 bits); the size
   of pointers in memory is the size of binder_uintptr_t, i.e. a 32-bit kernel
   interface is used by 32-bit processes. The encoders clear the structure and
   then assign its fields, here the complete image is stored at once. *)
From Verif Require Import Base UtfModel WriterModel.

(* The two instances of src/gbinder_io.c, see src/gbinder_io_32.c:33-41 and
   src/gbinder_io_64.c:33-39 *)
Inductive io : Set := Io32 | Io64.

(* sizeof(binder_uintptr_t) == sizeof(binder_size_t) *)
Definition psize (i : io) : nat := match i with Io32 => 4%nat | Io64 => 8%nat end.
Definition psz (i : io) : Z := match i with Io32 => 4 | Io64 => 8 end.

(* src/gbinder_rpc_protocol.c:265-270 the list of protocols *)
Inductive protocol : Set := Aidl | Aidl2 | Aidl3 | Hidl.

(* flat_binder_object_extra, src/gbinder_rpc_protocol.c:230-238 *)
Definition flat_extra (p : protocol) : Z :=
  match p with Aidl3 => 4 | _ => 0 end.

(* src/binder.h:23-33 *)
Definition pack_chars (c1 c2 c3 c4 : Z) : Z :=
  c1 * 2 ^ 24 + c2 * 2 ^ 16 + c3 * 2 ^ 8 + c4.
Definition TYPE_BINDER := pack_chars 115 98 42 0x85.
Definition TYPE_WEAK_BINDER := pack_chars 119 98 42 0x85.
Definition TYPE_HANDLE := pack_chars 115 104 42 0x85.
Definition TYPE_WEAK_HANDLE := pack_chars 119 104 42 0x85.
Definition TYPE_FD := pack_chars 102 100 42 0x85.
Definition TYPE_FDA := pack_chars 102 100 97 0x85.
Definition TYPE_PTR := pack_chars 112 116 42 0x85.

(* src/gbinder_io.h:145 and 154 *)
Definition MAX_BINDER_OBJECT_SIZE : Z := 28.
Definition MAX_BUFFER_OBJECT_SIZE : Z := 40.

(* ------------------------------------------------------------------ *)
(* Kernel structures *)

(* src/binder.h:48-65 struct flat_binder_object and struct binder_fd_object
   have the same layout. The 32-bit members of the union (handle, fd) are the
   low half of the field, the rest of it is zero after memset. *)
Definition flat_image (i : io) (type flags obj cookie : Z) : bytes :=
  le 4 type ++ le 4 flags ++ le (psize i) obj ++ le (psize i) cookie.
Definition flat_size (i : io) : Z := 8 + 2 * psz i.

(* src/binder.h:66-73 struct binder_buffer_object *)
Definition ptr_image (i : io) (flags buffer length parent parent_offset : Z) : bytes :=
  le 4 TYPE_PTR ++ le 4 flags ++ le (psize i) buffer ++ le (psize i) length ++
  le (psize i) parent ++ le (psize i) parent_offset.
Definition ptr_size (i : io) : Z := 8 + 4 * psz i.

(* src/binder.h:77-83 struct binder_fd_array_object *)
Definition fda_image (i : io) (num_fds parent parent_offset : Z) : bytes :=
  le 4 TYPE_FDA ++ le 4 0 ++ le (psize i) num_fds ++ le (psize i) parent ++
  le (psize i) parent_offset.
Definition fda_size (i : io) : Z := 8 + 3 * psz i.

(* ------------------------------------------------------------------ *)
(* Encoders. They store at [off] inside of [buf] and return the number of
   bytes written. *)

(* What the encoder uses of a GBinderLocalObject: its address and stability *)
Record local := { lo_ptr : Z; lo_stability : Z }.

(* src/gbinder_io.c:168-189 encode_local_object and
   src/gbinder_rpc_protocol.c:216-227
   gbinder_rpc_protocol_aidl3_finish_flatten_binder *)
Definition encode_local_object (i : io) (p : protocol) (buf : bytes) (off : Z)
  (obj : option local) : res (bytes * Z) :=
  let* buf1 := store buf off
    match obj with
    | Some o => flat_image i TYPE_BINDER (0x7f + 0x100) (lo_ptr o) 0
    | None => flat_image i TYPE_BINDER 0 0 0
    end in
  let* buf2 :=
    match p with
    | Aidl3 => store buf1 (off + flat_size i)
                 (le 4 (match obj with Some o => lo_stability o | None => 0 end))
    | _ => if flat_extra p =? 0 then Ok buf1
           else store buf1 (off + flat_size i) (zrepeat 0 (flat_extra p))
    end in
  Ok (buf2, flat_size i + flat_extra p).

(* src/gbinder_io.c:191-209 encode_remote_object; the object is its handle *)
Definition encode_remote_object (i : io) (buf : bytes) (off : Z) (obj : option Z)
  : res (bytes * Z) :=
  let* buf1 := store buf off
    match obj with
    | Some handle => flat_image i TYPE_HANDLE 0x100 (u32 handle) 0
    | None => flat_image i TYPE_BINDER 0 0 0
    end in
  Ok (buf1, flat_size i).

(* src/gbinder_io.c:211-224 encode_fd_object *)
Definition encode_fd_object (i : io) (buf : bytes) (off : Z) (fd : Z)
  : res (bytes * Z) :=
  let* buf1 := store buf off (flat_image i TYPE_FD (0x7f + 0x100) (u32 fd) 0) in
  Ok (buf1, flat_size i).

(* include/gbinder_writer.h:53-56 struct gbinder_parent: two guint32 *)
Record parent := { pa_index : Z; pa_offset : Z }.

(* src/gbinder_io.c:226-241 encode_fda_object *)
Definition encode_fda_object (i : io) (buf : bytes) (off num_fds : Z) (pa : parent)
  : res (bytes * Z) :=
  let* buf1 := store buf off (fda_image i num_fds (pa_index pa) (pa_offset pa)) in
  Ok (buf1, fda_size i).

(* src/gbinder_io.c:243-264 encode_buffer_object *)
Definition encode_buffer_object (i : io) (buf : bytes) (off : Z) (data size : Z)
  (pa : option parent) : res (bytes * Z) :=
  let* buf1 := store buf off
    match pa with
    | Some p => ptr_image i 1 data size (pa_index p) (pa_offset p)
    | None => ptr_image i 0 data size 0 0
    end in
  Ok (buf1, ptr_size i).

(* ------------------------------------------------------------------ *)
(* Writer data, src/gbinder_writer_p.h GBinderWriterData. [wd_heap] lists the
   blocks of memory which the cleanup list keeps (address and contents), newest
   first; [wd_nalloc] counts the calls of the allocator. The other things which
   the cleanup list keeps are modelled elsewhere. *)
Record wdata := {
  wd_bytes : bytes;
  wd_offsets : list Z;
  wd_bufsize : Z;
  wd_heap : list (Z * bytes);
  wd_nalloc : nat
}.

Definition wd_empty : wdata :=
  {| wd_bytes := []; wd_offsets := []; wd_bufsize := 0; wd_heap := [];
     wd_nalloc := 0 |}.

Definition wd_set_bytes (d : wdata) (b : bytes) : wdata :=
  {| wd_bytes := b; wd_offsets := wd_offsets d; wd_bufsize := wd_bufsize d;
     wd_heap := wd_heap d; wd_nalloc := wd_nalloc d |}.

(* src/gbinder_writer.c:163-174 gbinder_writer_data_record_offset *)
Definition record_offset (d : wdata) (off : Z) : wdata :=
  {| wd_bytes := wd_bytes d; wd_offsets := wd_offsets d ++ [off];
     wd_bufsize := wd_bufsize d; wd_heap := wd_heap d; wd_nalloc := wd_nalloc d |}.

Definition add_bufsize (d : wdata) (n : Z) : wdata :=
  {| wd_bytes := wd_bytes d; wd_offsets := wd_offsets d;
     wd_bufsize := wd_bufsize d + n; wd_heap := wd_heap d; wd_nalloc := wd_nalloc d |}.

(* A block of memory with the given contents is allocated, filled and added
   to the cleanup list. [al] gives the addresses returned by the allocator. *)
Definition heap_add (al : nat -> Z) (d : wdata) (contents : bytes) : wdata :=
  {| wd_bytes := wd_bytes d; wd_offsets := wd_offsets d; wd_bufsize := wd_bufsize d;
     wd_heap := (al (wd_nalloc d), contents) :: wd_heap d;
     wd_nalloc := S (wd_nalloc d) |}.

(* Plain data *)
Definition wd_plain (d : wdata) (f : bytes -> res bytes) : res wdata :=
  let* b := f (wd_bytes d) in Ok (wd_set_bytes d b).

(* src/gbinder_writer.c:1164-1184 gbinder_writer_data_append_local_object *)
Definition w_local_object (i : io) (p : protocol) (d : wdata) (obj : option local)
  : res wdata :=
  let offset := blen (wd_bytes d) in
  let buf := set_size (wd_bytes d) (offset + MAX_BINDER_OBJECT_SIZE) in
  let* (buf1, n) := encode_local_object i p buf offset obj in
  let d1 := wd_set_bytes d (set_size buf1 (offset + n)) in
  Ok (match obj with Some _ => record_offset d1 offset | None => d1 end).

(* src/gbinder_writer.c:1299-1319 gbinder_writer_data_append_remote_object *)
Definition w_remote_object (i : io) (d : wdata) (obj : option Z) : res wdata :=
  let offset := blen (wd_bytes d) in
  let buf := set_size (wd_bytes d) (offset + MAX_BINDER_OBJECT_SIZE) in
  let* (buf1, n) := encode_remote_object i buf offset obj in
  let d1 := wd_set_bytes d (set_size buf1 (offset + n)) in
  Ok (match obj with Some _ => record_offset d1 offset | None => d1 end).

(* src/gbinder_writer.c:650-677 gbinder_writer_data_append_fd; [dupfd] is the
   result of fcntl(fd, F_DUPFD_CLOEXEC, 0) *)
Definition w_fd (i : io) (d : wdata) (fd dupfd : Z) : res wdata :=
  let offset := blen (wd_bytes d) in
  let buf := set_size (wd_bytes d) (offset + MAX_BINDER_OBJECT_SIZE) in
  let* (buf1, written) :=
    if dupfd <? 0 then encode_fd_object i buf offset fd
    else encode_fd_object i buf offset dupfd in
  Ok (record_offset (wd_set_bytes d (set_size buf1 (offset + written))) offset).

(* Conversion to gsize (binder_size_t) *)
Definition usz (i : io) (v : Z) : Z := v mod 2 ^ (8 * psz i).

(* src/gbinder_writer.c:893-916 gbinder_writer_data_append_buffer_object. The
   sum of the sizes does not overflow gsize. *)
Definition w_buffer_object (i : io) (d : wdata) (ptr size : Z) (pa : option parent)
  : res (Z * wdata) :=
  let size := usz i size in
  let index := blen (wd_offsets d) in
  let offset := blen (wd_bytes d) in
  let buf := set_size (wd_bytes d) (offset + MAX_BUFFER_OBJECT_SIZE) in
  let* (buf1, n) := encode_buffer_object i buf offset ptr size pa in
  let d1 := record_offset (wd_set_bytes d (set_size buf1 (offset + n))) offset in
  Ok (index, add_bufsize d1 (align8 size)).

(* src/gbinder_writer.c:691-710 gbinder_writer_data_append_fda_object. The
   array happens to own [slack] more bytes than the 28 which were reserved;
   they keep what is written there when the size is fixed afterwards. *)
Definition w_fda_object (i : io) (slack : Z) (d : wdata) (num_fds : Z) (pa : parent)
  : res wdata :=
  let offset := blen (wd_bytes d) in
  let buf := set_size (wd_bytes d) (offset + MAX_BINDER_OBJECT_SIZE + slack) in
  let* (buf1, written) := encode_fda_object i buf offset num_fds pa in
  Ok (record_offset (wd_set_bytes d (set_size buf1 (offset + written))) offset).

(* include/gbinder_types.h:109-119 GBinderFds, followed by the descriptors and
   integers. [fs_ptr] is its address. *)
Record fds := { fs_ptr : Z; fs_version : Z; fs_fds : list Z; fs_ints : list Z }.

Definition ints_image (l : list Z) : bytes := concat (map (le 4) l).
Definition fds_image (f : fds) : bytes :=
  le 4 (fs_version f) ++ le 4 (blen (fs_fds f)) ++ le 4 (blen (fs_ints f)) ++
  ints_image (fs_fds f) ++ ints_image (fs_ints f).

(* src/gbinder_writer.c:712-733 gbinder_writer_data_append_fds *)
Definition w_fds (i : io) (slack : Z) (d : wdata) (f : option fds) (pa : option parent)
  : res wdata :=
  match f with
  | Some f =>
    let fds_total := 12 + 4 * (blen (fs_fds f) + blen (fs_ints f)) in
    let* d1 := wd_plain d (fun b => w_int64 b fds_total) in
    let* (index, d2) := w_buffer_object i d1 (fs_ptr f) fds_total pa in
    w_fda_object i slack d2 (blen (fs_fds f)) {| pa_index := index; pa_offset := 12 |}
  | None => wd_plain d (fun b => w_int64 b 0)
  end.

(* ------------------------------------------------------------------ *)
(* HIDL types *)

(* include/gbinder_types.h:82-107 GBinderHidlVec and GBinderHidlString have the
   same layout: an 8 byte union with the pointer, count or length, the
   ownership flag and padding *)
Definition hidl_image (ptr count owns : Z) : bytes :=
  le 8 ptr ++ le 4 count ++ le 1 owns ++ zrepeat 0 3.

(* gutil_memdup of libglibutil: NULL for NULL or no data *)
Definition memdup_ptr (al : nat -> Z) (d : wdata) (base : option bytes) (total : Z)
  : res (Z * wdata) :=
  match base with
  | Some b =>
    if total =? 0 then Ok (0, d)
    else let* contents := load b 0 total in
         Ok (al (wd_nalloc d), heap_add al d contents)
  | None => Ok (0, d)
  end.

(* src/gbinder_writer.c:990-1016 gbinder_writer_data_append_hidl_vec. [base] is
   the caller's array (NULL or its contents); count and elemsize are guint, and
   so is their product. *)
Definition w_hidl_vec (i : io) (al : nat -> Z) (d : wdata) (base : option bytes)
  (count elemsize : Z) : res wdata :=
  let total := u32 (count * elemsize) in
  let* (buf, d1) := memdup_ptr al d base total in
  let vec := al (wd_nalloc d1) in
  let d2 := heap_add al d1
    (if buf =? 0 then hidl_image 0 0 1 else hidl_image buf count 1) in
  let* (index, d3) := w_buffer_object i d2 vec 16 None in
  let* (_, d4) := w_buffer_object i d3 buf total
    (Some {| pa_index := index; pa_offset := 0 |}) in
  Ok d4.

(* A C string argument: its address and the characters before the NUL; None is
   the NULL pointer *)
Definition cstring := option (Z * bytes).
Definition cstr_ptr (s : cstring) : Z := match s with Some (a, _) => a | None => 0 end.
Definition cstr_len (s : cstring) : Z := match s with Some (_, t) => blen t | None => 0 end.

(* src/gbinder_writer.c:1032-1061 gbinder_writer_data_append_hidl_string *)
Definition w_hidl_string (i : io) (al : nat -> Z) (d : wdata) (str : cstring)
  : res wdata :=
  let hidl_string := al (wd_nalloc d) in
  let d1 := heap_add al d (hidl_image (cstr_ptr str) (cstr_len str) 1) in
  let* (index, d2) := w_buffer_object i d1 hidl_string 16 None in
  let* (_, d3) :=
    match str with
    | Some (a, s) => w_buffer_object i d2 a (blen s + 1)
                       (Some {| pa_index := index; pa_offset := 0 |})
    | None => w_buffer_object i d2 0 0 (Some {| pa_index := index; pa_offset := 0 |})
    end in
  Ok d3.

(* The loop of src/gbinder_writer.c:1128-1146; [off] is str_parent.offset
   (guint32) *)
Fixpoint w_string_bufs (i : io) (d : wdata) (index off : Z) (strv : list cstring)
  : res wdata :=
  match strv with
  | [] => Ok d
  | s :: r =>
    let pa := Some {| pa_index := index; pa_offset := off |} in
    let* (_, d1) :=
      match s with
      | Some (a, t) => w_buffer_object i d a (u32 (blen t + 1)) pa
      | None => w_buffer_object i d 0 0 pa
      end in
    w_string_bufs i d1 index (u32 (off + 16)) r
  end.

Definition string_desc (s : cstring) : bytes :=
  match s with
  | Some (a, t) => hidl_image a (blen t) 1
  | None => hidl_image 0 0 0
  end.

(* src/gbinder_writer.c:1076-1150 gbinder_writer_data_append_hidl_string_vec;
   the strings which precede the NULL pointer if the count is negative. The
   counter of the loops is an int, the number of strings is below 2^31. *)
Definition w_hidl_string_vec (i : io) (al : nat -> Z) (d : wdata) (strv : list cstring)
  : res wdata :=
  let count := blen strv in
  let have := 0 <? count in
  let strings := if have then al (wd_nalloc d) else 0 in
  let d1 := if have then heap_add al d (concat (map string_desc strv)) else d in
  let vec := al (wd_nalloc d1) in
  let d2 := heap_add al d1 (hidl_image strings count 1) in
  let* (index, d3) := w_buffer_object i d2 vec 16 None in
  let pa := Some {| pa_index := index; pa_offset := 0 |} in
  if have then
    let index2 := blen (wd_offsets d3) in
    let* (_, d4) := w_buffer_object i d3 strings (16 * count) pa in
    w_string_bufs i d4 index2 0 strv
  else
    let* (_, d4) := w_buffer_object i d3 0 0 pa in Ok d4.

(* ------------------------------------------------------------------ *)
(* Structures described by GBinderWriterType,
   include/gbinder_writer.h:94-107. A field is its offset in the structure and
   the way it is written: no write_buf callback (pointer to the field's type),
   gbinder_writer_field_hidl_vec_write_buf or
   gbinder_writer_field_hidl_string_write_buf. *)
Inductive wtype : Type := WType (size : Z) (fields : list (Z * wfield))
with wfield : Type :=
| FPointer (t : wtype)
| FVec (elem : option wtype)
| FString.

Definition wt_size (t : wtype) : Z := match t with WType s _ => s end.
Definition wt_fields (t : wtype) : list (Z * wfield) := match t with WType _ f => f end.

(* The memory of the process: one byte per address *)
Definition memory := Z -> Z.
Definition mread (m : memory) (a n : Z) : bytes :=
  map (fun k => m (a + Z.of_nat k)) (seq 0 (Z.to_nat n)).
Definition mread_ptr (i : io) (m : memory) (a : Z) : Z := unle (mread m a (psz i)).
Definition mread32 (m : memory) (a : Z) : Z := unle (mread m a 4).

(* The loop over the elements of a vector, src/gbinder_writer.c:869-873 *)
Fixpoint w_elems (f : wdata -> Z -> Z -> res wdata) (d : wdata) (n : nat)
  (elemsize k : Z) (buf : Z) : res wdata :=
  match n with
  | O => Ok d
  | S n1 =>
    let offset := u32 (elemsize * k) in
    let* d1 := f d (buf + offset) offset in
    w_elems f d1 n1 elemsize (k + 1) buf
  end.

(* src/gbinder_writer.c:764-789 gbinder_writer_append_fields and the two
   callbacks at 852-891. [obj] is the address of the structure, [index] and
   [offset] are the parent. The sum and the products in the offset are guint32,
   see struct gbinder_parent. The length of a string is guint32. *)
Fixpoint w_fields (i : io) (m : memory) (t : wtype) (d : wdata)
  (obj index offset : Z) {struct t} : res wdata :=
  match t with
  | WType _ fields =>
    (fix go (fs : list (Z * wfield)) (d : wdata) {struct fs} : res wdata :=
       match fs with
       | [] => Ok d
       | (foff, f) :: r =>
         let field_ptr := obj + foff in
         let pa := Some {| pa_index := index; pa_offset := u32 (offset + foff) |} in
         let* d1 :=
           match f with
           | FPointer ft =>
             let* (_, d1) := w_buffer_object i d (mread_ptr i m field_ptr) (wt_size ft) pa in
             Ok d1
           | FVec elem =>
             let buf := mread_ptr i m field_ptr in
             let count := mread32 m (field_ptr + 8) in
             match elem with
             | Some et =>
               let* (index2, d1) := w_buffer_object i d buf (count * wt_size et) pa in
               w_elems (fun d1 a off => w_fields i m et d1 a index2 off)
                 d1 (Z.to_nat count) (wt_size et) 0 buf
             | None =>
               let* (_, d1) := w_buffer_object i d buf 0 pa in Ok d1
             end
           | FString =>
             let s := mread_ptr i m field_ptr in
             let len := mread32 m (field_ptr + 8) in
             let* (_, d1) := w_buffer_object i d s
               (if s =? 0 then 0 else u32 (len + 1)) pa in
             Ok d1
           end in
         go r d1
       end) fields d
  end.

(* src/gbinder_writer.c:798-817 gbinder_writer_append_struct with a type *)
Definition w_struct (i : io) (m : memory) (d : wdata) (ptr : Z) (t : wtype)
  (pa : option parent) : res wdata :=
  let* (index, d1) := w_buffer_object i d ptr (wt_size t) pa in
  w_fields i m t d1 ptr index 0.

(* src/gbinder_writer.c:824-850 gbinder_writer_append_struct_vec. The pointer
   and the count which the code stores in the new GBinderHidlVec and reads back
   are used directly. *)
Definition w_struct_vec (i : io) (al : nat -> Z) (m : memory) (d : wdata)
  (ptr count : Z) (t : wtype) : res wdata :=
  let vec := al (wd_nalloc d) in
  let d1 := heap_add al d (hidl_image ptr count 1) in
  let* (index, d2) := w_buffer_object i d1 vec 16 None in
  let* (index2, d3) := w_buffer_object i d2 ptr (count * wt_size t)
    (Some {| pa_index := index; pa_offset := 0 |}) in
  w_elems (fun d a off => w_fields i m t d a index2 off)
    d3 (Z.to_nat count) (wt_size t) 0 ptr.
