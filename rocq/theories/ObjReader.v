(* Model of the part of src/gbinder_reader.c that reads objects, and of the
   object decoders in src/gbinder_io.c.
   A received transaction consists of the data, in which reader pointers are
   offsets, and of the scatter-gather area where the driver has placed the
   buffers, at address [m_sgbase] of the receiving process. Reading through
   a pointer found in the data is a [tload], which faults outside of the area.
   LP64 is assumed for gsize arithmetic. *)
From Verif Require Import Base UtfModel WriterModel ReaderModel ObjModel.

Record message := {
  m_data : bytes;
  m_sgbase : Z;
  m_sg : bytes
}.

Definition tload (g : message) (addr n : Z) : res bytes :=
  load (m_sg g) (addr - m_sgbase g) n.

(* The reader moves past an object: p->ptr += eaten; p->objects++ *)
Definition r_eat (p : reader) (eaten : Z) : reader :=
  {| r_start := r_start p; r_end := r_end p; r_ptr := r_ptr p + eaten;
     r_objects := tl (r_objects p) |}.

(* src/gbinder_reader.c:298-309 gbinder_reader_can_read_object: the array of
   objects is NULL-terminated *)
Definition can_read_object (p : reader) : bool :=
  match r_objects p with
  | o :: _ => r_ptr p =? o
  | [] => false
  end.

Definition field32 (g : message) (off : Z) : res Z :=
  let* b := load (m_data g) off 4 in Ok (unle b).
Definition fieldp (i : io) (g : message) (off : Z) : res Z :=
  let* b := load (m_data g) off (psz i) in Ok (unle b).

(* src/gbinder_io.c:589-610 decode_fd_object: the descriptor and the number of
   bytes eaten *)
Definition decode_fd_object (i : io) (g : message) (off size : Z) : res (Z * Z) :=
  if flat_size i <=? size then
    let* type := field32 g off in
    if type =? TYPE_FD then
      let* fd := field32 g (off + 8) in Ok (sgn 32 fd, flat_size i)
    else Ok (-1, 0)
  else Ok (-1, 0).

(* src/gbinder_io.c:525-563 decode_binder_object: NULL or the handle of the
   object, and the number of bytes eaten. The registry always has or creates
   the object for the handle. *)
Definition decode_binder_object (i : io) (pr : protocol) (g : message) (off size : Z)
  : res (option Z * Z) :=
  if flat_size i <=? size then
    let* type := field32 g off in
    if type =? TYPE_HANDLE then
      let* handle := field32 g (off + 8) in
      Ok (Some handle, flat_size i + flat_extra pr)
    else if type =? TYPE_BINDER then
      let* binder := fieldp i g (off + 8) in
      if binder =? 0 then Ok (None, flat_size i + flat_extra pr) else Ok (None, 0)
    else Ok (None, 0)
  else Ok (None, 0).

(* GBinderIoBufferObject, src/gbinder_io.h *)
Record bufobj := { bo_data : Z; bo_size : Z; bo_parent_offset : Z; bo_has_parent : bool }.

(* src/gbinder_io.c:565-587 decode_buffer_object *)
Definition decode_buffer_object (i : io) (g : message) (offset : Z)
  : res (option bufobj * Z) :=
  let size := if offset <? blen (m_data g) then blen (m_data g) - offset else 0 in
  if ptr_size i <=? size then
    let* type := field32 g offset in
    if type =? TYPE_PTR then
      let* flags := field32 g (offset + 4) in
      let* buffer := fieldp i g (offset + 8) in
      let* length := fieldp i g (offset + 8 + psz i) in
      let* poff := fieldp i g (offset + 8 + 3 * psz i) in
      Ok (Some {| bo_data := buffer; bo_size := length; bo_parent_offset := poff;
                  bo_has_parent := Z.testbit flags 0 |}, ptr_size i)
    else Ok (None, 0)
  else Ok (None, 0).

(* src/gbinder_reader.c:842-849 gbinder_reader_bytes_remaining (gsize) *)
Definition r_remaining (p : reader) : Z := u64 (r_end p - r_ptr p).

(* src/gbinder_reader.c:311-331 gbinder_reader_read_fd: -1 is None *)
Definition rd_fd (i : io) (g : message) (p : reader) : rd Z :=
  if can_read_object p then
    let* (fd, eaten) := decode_fd_object i g (r_ptr p) (r_remaining p) in
    if eaten =? 0 then fail p else ok fd (r_eat p eaten)
  else fail p.

(* src/gbinder_reader.c:350-371 gbinder_reader_read_nullable_object: None is
   FALSE *)
Definition rd_nullable_object (i : io) (pr : protocol) (g : message) (p : reader)
  : rd (option Z) :=
  if can_read_object p then
    let* (obj, eaten) := decode_binder_object i pr g (r_ptr p) (r_remaining p) in
    if eaten =? 0 then fail p else ok obj (r_eat p eaten)
  else fail p.

(* src/gbinder_reader.c:383-405 gbinder_reader_read_buffer_object *)
Definition rd_buffer_object (i : io) (g : message) (p : reader) : rd bufobj :=
  if can_read_object p then
    let* (obj, eaten) := decode_buffer_object i g (r_ptr p) in
    match obj with
    | Some b => ok b (r_eat p eaten)
    | None => fail p
    end
  else fail p.

(* src/gbinder_reader.c:407-421 gbinder_reader_read_buffer: the contents of the
   new buffer *)
Definition rd_buffer (i : io) (g : message) (p : reader) : rd bytes :=
  let* (o, p1) := rd_buffer_object i g p in
  match o with
  | Some b => let* d := tload g (bo_data b) (bo_size b) in ok d p1
  | None => fail p1
  end.

(* src/gbinder_reader.c:464-476 gbinder_reader_read_hidl_struct1: the address of
   the structure. The reader has moved even if NULL is returned. *)
Definition rd_hidl_struct (i : io) (g : message) (p : reader) (size : Z) : rd Z :=
  let* (o, p1) := rd_buffer_object i g p in
  match o with
  | Some b => if bo_size b =? size then ok (bo_data b) p1 else fail p1
  | None => fail p1
  end.

(* The pointer, count/length stored in a GBinderHidlVec/GBinderHidlString *)
Definition tload_ptr (i : io) (g : message) (a : Z) : res Z :=
  let* b := tload g a (psz i) in Ok (unle b).
Definition tload32 (g : message) (a : Z) : res Z :=
  let* b := tload g a 4 in Ok (unle b).

(* src/gbinder_reader.c:478-516 gbinder_reader_read_hidl_vec: address of the
   data, number of elements and their size; None is NULL *)
Definition rd_hidl_vec (i : io) (g : message) (p : reader) : rd (Z * Z * Z) :=
  let* (o1, p1) := rd_buffer_object i g p in
  match o1 with
  | Some b1 =>
    if negb (bo_data b1 =? 0) && (bo_size b1 =? 16) then
      let* next := tload_ptr i g (bo_data b1) in
      let* count := tload32 g (bo_data b1 + 8) in
      if negb (next =? 0) then
        let* (o2, p2) := rd_buffer_object i g p1 in
        match o2 with
        | Some b2 =>
          if (bo_data b2 =? next) &&
             (((count =? 0) && (bo_size b2 =? 0)) ||
              (negb (count =? 0) && negb (bo_size b2 =? 0) &&
               (bo_size b2 mod count =? 0)))
          then ok (bo_data b2, count,
                   if count =? 0 then 0 else bo_size b2 / count) p2
          else fail p2
        | None => fail p2
        end
      else if count =? 0 then ok (bo_data b1, 0, 0) p1
      else fail p1
    else fail p1
  | None => fail p1
  end.

(* The text of a C string of which n bytes are known to precede a NUL *)
Fixpoint c_text (l : bytes) : bytes :=
  match l with
  | [] => []
  | b :: r => if b =? 0 then [] else b :: c_text r
  end.

(* The checks at src/gbinder_reader.c:539-544 and 592-597: [str] is the address
   of the GBinderHidlString, [b] the buffer with its data. str->len + 1 is
   guint32. *)
Definition check_string (i : io) (g : message) (str : Z) (b : bufobj)
  (expected_offset : Z) : res (option bytes) :=
  if bo_has_parent b && (bo_parent_offset b =? expected_offset) then
    let* s := tload_ptr i g str in
    let* len := tload32 g (str + 8) in
    if (bo_data b =? s) && (bo_size b =? u32 (len + 1)) then
      let* z := tload g (s + len) 1 in
      if unle z =? 0 then
        let* t := tload g s len in Ok (Some (c_text t))
      else Ok None
    else Ok None
  else Ok None.

(* src/gbinder_reader.c:529-550 gbinder_reader_read_hidl_string_c and 552-557
   gbinder_reader_read_hidl_string: the text *)
Definition rd_hidl_string (i : io) (g : message) (p : reader) : rd bytes :=
  let* (o1, p1) := rd_buffer_object i g p in
  match o1 with
  | Some b1 =>
    if negb (bo_data b1 =? 0) && (bo_size b1 =? 16) then
      let* (o2, p2) := rd_buffer_object i g p1 in
      match o2 with
      | Some b2 =>
        let* t := check_string i g (bo_data b1) b2 0 in
        Ok (t, p2)
      | None => fail p2
      end
    else fail p1
  | None => fail p1
  end.

(* The loop of src/gbinder_reader.c:586-606 *)
Fixpoint rd_strings (i : io) (g : message) (p : reader) (strings : Z) (k : Z) (n : nat)
  : rd (list bytes) :=
  match n with
  | O => ok [] p
  | S n1 =>
    let* (o, p1) := rd_buffer_object i g p in
    match o with
    | Some b =>
      let* t := check_string i g (strings + 16 * k) b (16 * k) in
      match t with
      | Some s =>
        let* (r, p2) := rd_strings i g p1 strings (k + 1) n1 in
        match r with
        | Some l => ok (s :: l) p2
        | None => fail p2
        end
      | None => fail p1
      end
    | None => fail p1
    end
  end.

(* src/gbinder_reader.c:559-618 gbinder_reader_read_hidl_string_vec *)
Definition rd_hidl_string_vec (i : io) (g : message) (p : reader) : rd (list bytes) :=
  let* (o1, p1) := rd_buffer_object i g p in
  match o1 with
  | Some b1 =>
    if negb (bo_data b1 =? 0) && (bo_size b1 =? 16) then
      let* next := tload_ptr i g (bo_data b1) in
      let* n := tload32 g (bo_data b1 + 8) in
      if (next =? 0) && (n =? 0) then ok [] p1
      else
        let* (o2, p2) := rd_buffer_object i g p1 in
        match o2 with
        | Some b2 =>
          if (bo_parent_offset b2 =? 0) && bo_has_parent b2 &&
             (bo_data b2 =? next) && (bo_size b2 =? 16 * n)
          then rd_strings i g p2 (bo_data b2) 0 (Z.to_nat n)
          else fail p2
        | None => fail p2
        end
    else fail p1
  | None => fail p1
  end.
