(* Model of the plain data part of src/gbinder_reader.c.
   [mem] is the memory block of the received buffer; pointers are offsets into
   it. Every access goes through [load], which faults outside of the block.
   LP64 is assumed: gsize and pointers have 64 bits, pointer arithmetic itself
   does not wrap. Output parameters are modelled as always requested. *)
From Verif Require Import Base UtfModel.

(* src/gbinder_reader.c:44-50 GBinderReaderPriv (the objects array holds the
   offsets of the objects which have not been read yet) *)
Record reader := {
  r_start : Z;
  r_end : Z;
  r_ptr : Z;
  r_objects : list Z
}.

Definition r_set_ptr (p : reader) (v : Z) : reader :=
  {| r_start := r_start p; r_end := r_end p; r_ptr := v; r_objects := r_objects p |}.

(* src/gbinder_reader.c:59-85 gbinder_reader_init *)
Definition reader_init (offset len : Z) (objects : list Z) : reader :=
  {| r_start := offset; r_end := offset + len; r_ptr := offset; r_objects := objects |}.

(* src/gbinder_reader.c:87-94 gbinder_reader_at_end *)
Definition r_at_end (p : reader) : bool := r_end p <=? r_ptr p.

(* src/gbinder_reader.c:96-104 gbinder_reader_can_read: the pointer difference
   (signed) is converted to gsize for the comparison *)
Definition can_read (p : reader) (len : Z) : bool :=
  u64 len <=? u64 (r_end p - r_ptr p).

Definition rd (A : Type) := res (option A * reader).
Definition ok {A} (a : A) (p : reader) : rd A := Ok (Some a, p).
Definition fail {A} (p : reader) : rd A := Ok (None, p).

(* src/gbinder_reader.c:106-120 gbinder_reader_read_byte *)
Definition rd_byte (mem : bytes) (p : reader) : rd Z :=
  if r_ptr p <? r_end p then
    let* b := load mem (r_ptr p) 1 in
    ok (unle b) (r_set_ptr p (r_ptr p + 1))
  else fail p.

(* src/gbinder_reader.c:158-175 gbinder_reader_read_uint8: only the first of
   the four bytes is accessed *)
Definition rd_uint8 (mem : bytes) (p : reader) : rd Z :=
  if can_read p 4 then
    let* b := load mem (r_ptr p) 1 in
    ok (unle b) (r_set_ptr p (r_ptr p + 4))
  else fail p.

(* src/gbinder_reader.c:185-202 gbinder_reader_read_uint16 *)
Definition rd_uint16 (mem : bytes) (p : reader) : rd Z :=
  if can_read p 4 then
    let* b := load mem (r_ptr p) 2 in
    ok (unle b) (r_set_ptr p (r_ptr p + 4))
  else fail p.

(* src/gbinder_reader.c:212-230 gbinder_reader_read_uint32 *)
Definition rd_uint32 (mem : bytes) (p : reader) : rd Z :=
  if can_read p 4 then
    let* b := load mem (r_ptr p) 4 in
    ok (unle b) (r_set_ptr p (r_ptr p + 4))
  else fail p.

(* src/gbinder_reader.c:240-258 gbinder_reader_read_uint64 *)
Definition rd_uint64 (mem : bytes) (p : reader) : rd Z :=
  if can_read p 8 then
    let* b := load mem (r_ptr p) 8 in
    ok (unle b) (r_set_ptr p (r_ptr p + 8))
  else fail p.

(* Reinterpretation of the result by the signed variants *)
Definition rd_map {A B} (f : A -> B) (x : rd A) : rd B :=
  match x with
  | Ok (Some a, p) => Ok (Some (f a), p)
  | Ok (None, p) => Ok (None, p)
  | Fault e => Fault e
  end.

(* src/gbinder_reader.c:150-156, 177-183, 204-210, 232-238 *)
Definition rd_int8 mem p : rd Z := rd_map (sgn 8) (rd_uint8 mem p).
Definition rd_int16 mem p : rd Z := rd_map (sgn 16) (rd_uint16 mem p).
Definition rd_int32 mem p : rd Z := rd_map (sgn 32) (rd_uint32 mem p).
Definition rd_int64 mem p : rd Z := rd_map (sgn 64) (rd_uint64 mem p).

(* src/gbinder_reader.c:122-148 gbinder_reader_read_bool *)
Definition rd_bool (mem : bytes) (p : reader) : rd bool :=
  rd_map (fun v => negb (v =? 0)) (rd_uint32 mem p).

(* src/gbinder_reader.c:260-277 and 279-296: bit patterns *)
Definition rd_float (mem : bytes) (p : reader) : rd Z := rd_uint32 mem p.
Definition rd_double (mem : bytes) (p : reader) : rd Z := rd_uint64 mem p.

(* src/gbinder_reader.c:433-462 gbinder_reader_read_parcelable: the payload *)
Definition rd_parcelable (mem : bytes) (p : reader) : rd bytes :=
  let* (nn, p1) := rd_uint32 mem p in
  match nn with
  | Some non_null =>
    if non_null =? 0 then fail p1 else
    let* (ps, p2) := rd_uint32 mem p1 in
    match ps with
    | Some payload_size =>
      if 4 <=? payload_size then
        let payload_size := payload_size - 4 in
        if r_ptr p2 + payload_size <=? r_end p2 then
          let* d := load mem (r_ptr p2) payload_size in
          ok d (r_set_ptr p2 (r_ptr p2 + payload_size))
        else fail p2
      else fail p2
    | None => fail p2
    end
  | None => fail p1
  end.

(* The scan for the terminating NUL, src/gbinder_reader.c:628-629; [n] is the
   number of bytes left before the end. Result: offset of the NUL, or None *)
Fixpoint scan_nul (mem : bytes) (ptr : Z) (n : nat) : res (option Z) :=
  match n with
  | O => Ok None
  | S k =>
    let* b := load mem ptr 1 in
    if unle b =? 0 then Ok (Some ptr) else scan_nul mem (ptr + 1) k
  end.

(* src/gbinder_reader.c:621-643 gbinder_reader_read_string8: the text *)
Definition rd_string8 (mem : bytes) (p : reader) : rd bytes :=
  let* f := scan_nul mem (r_ptr p) (Z.to_nat (r_end p - r_ptr p)) in
  match f with
  | Some ptr =>
    let len := ptr - r_ptr p in
    let size := align4 (len + 1) in
    if r_ptr p + size <=? r_end p then
      let* s := load mem (r_ptr p) len in
      ok s (r_set_ptr p (r_ptr p + size))
    else fail p
  | None => fail p
  end.

(* src/gbinder_reader.c:646-683 gbinder_reader_read_nullable_string8. [len + 1]
   and the addition inside of G_ALIGN4 are gint32 operations, padded_len is
   guint32. Result: NULL or the len bytes of the string *)
Definition rd_nullable_string8 (m : cmode) (mem : bytes) (p : reader)
  : rd (option bytes) :=
  if r_ptr p + 4 <=? r_end p then
    let* lb := load mem (r_ptr p) 4 in
    let len := sgn 32 (unle lb) in
    if len =? -1 then ok None (r_set_ptr p (r_ptr p + 4))
    else if 0 <=? len then
      let* l1 := sarith32 m (len + 1) in
      let* l2 := sarith32 m (l1 + 3) in
      let padded_len := u32 (l2 / 4 * 4) in
      if r_ptr p + padded_len + 4 <=? r_end p then
        let* z := load mem (r_ptr p + 4 + len) 1 in
        if unle z =? 0 then
          let* s := load mem (r_ptr p + 4) len in
          ok (Some s) (r_set_ptr p (r_ptr p + padded_len + 4))
        else fail p
      else fail p
    else fail p
  else fail p.

(* src/gbinder_reader.c:705-747 gbinder_reader_read_nullable_string16_utf16.
   [(len + 1)*2] and the addition inside of G_ALIGN4 are gint32 operations,
   padded_len is guint32. Result: NULL or the len 16-bit units. *)
Definition rd_nullable_utf16 (m : cmode) (mem : bytes) (p : reader)
  : rd (option (list Z)) :=
  if r_ptr p + 4 <=? r_end p then
    let* lb := load mem (r_ptr p) 4 in
    let len := sgn 32 (unle lb) in
    if len =? -1 then ok None (r_set_ptr p (r_ptr p + 4))
    else if 0 <=? len then
      let* l1 := sarith32 m (len + 1) in
      let* l2 := sarith32 m (l1 * 2) in
      let* l3 := sarith32 m (l2 + 3) in
      let padded_len := u32 (l3 / 4 * 4) in
      if r_ptr p + padded_len + 4 <=? r_end p then
        let* z := load mem (r_ptr p + 4 + 2 * len) 2 in
        if unle z =? 0 then
          let* s := load mem (r_ptr p + 4) (2 * len) in
          ok (Some (bytes_units s)) (r_set_ptr p (r_ptr p + padded_len + 4))
        else fail p
      else fail p
    else fail p
  else fail p.

(* src/gbinder_reader.c:685-703 gbinder_reader_read_nullable_string16 and
   764-774 gbinder_reader_read_string16: UTF-8 or NULL. Text which is not
   valid UTF-16 yields NULL. *)
Definition rd_nullable_string16 (m : cmode) (mem : bytes) (p : reader)
  : rd (option bytes) :=
  rd_map (fun o => match o with
                   | Some u => match utf16_decode u with
                               | Some s => Some (utf8 s)
                               | None => None
                               end
                   | None => None
                   end)
         (rd_nullable_utf16 m mem p).

(* src/gbinder_reader.c:781-808 gbinder_reader_read_byte_array. [sizeof(gint32) +
   len] is a gsize sum. Result: the len bytes. *)
Definition rd_byte_array (mem : bytes) (p : reader) : rd bytes :=
  if can_read p 4 then
    let* lb := load mem (r_ptr p) 4 in
    let l := sgn 32 (unle lb) in
    if l <=? 0 then ok [] (r_set_ptr p (r_ptr p + 4))
    else if can_read p (4 + l) then
      let* d := load mem (r_ptr p + 4) l in
      ok d (r_set_ptr p (r_ptr p + 4 + align4 l))
    else fail p
  else fail p.

(* src/gbinder_reader.c:833-840 gbinder_reader_bytes_read *)
Definition r_bytes_read (p : reader) : Z := u64 (r_ptr p - r_start p).

(* src/gbinder_reader.c:842-849 gbinder_reader_bytes_remaining *)
Definition r_bytes_remaining (p : reader) : Z := u64 (r_end p - r_ptr p).
