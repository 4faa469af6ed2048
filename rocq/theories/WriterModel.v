(* Model of the part of src/gbinder_writer.c that appends plain data.
   The output buffer (GByteArray) is a list of bytes; every store is checked
   against the current size of the array, so that a store beyond the reserved
   space is the outcome [Fault OutOfBounds].
   Simplifications: GByteArray's 32-bit length counter is not modelled (GLib
   aborts the process when it overflows); self/data are non-NULL (all the
   functions do nothing otherwise). *)
From Verif Require Import Base UtfModel.

(* g_byte_array_set_size: the new bytes are not initialised *)
Definition set_size (buf : bytes) (n : Z) : bytes :=
  if n <=? blen buf then ztake n buf
  else buf ++ zrepeat uninit (n - blen buf).

(* memcpy/memset/assignment through a pointer into the array *)
Definition store (buf : bytes) (off : Z) (src : bytes) : res bytes :=
  if (0 <=? off) && (off + blen src <=? blen buf) then Ok (poke buf off src)
  else Fault OutOfBounds.

(* src/gbinder_writer.c:215-230 gbinder_writer_data_append_padded *)
Definition w_padded (buf data : bytes) : res bytes :=
  let buf1 := set_size buf (blen buf + 4) in
  let ptr := blen buf1 - 4 in
  let* buf2 := store buf1 ptr data in
  store buf2 (ptr + blen data) (zrepeat 0 (4 - blen data)).

(* src/gbinder_writer.c:245-252 gbinder_writer_data_append_bool *)
Definition w_bool (buf : bytes) (value : Z) : res bytes :=
  w_padded buf [if value =? 0 then 0 else 1].

(* src/gbinder_writer.c:254-264 gbinder_writer_append_int8 *)
Definition w_int8 (buf : bytes) (value : Z) : res bytes := w_padded buf (le 1 value).

(* src/gbinder_writer.c:266-276 gbinder_writer_append_int16 *)
Definition w_int16 (buf : bytes) (value : Z) : res bytes := w_padded buf (le 2 value).

(* src/gbinder_writer.c:290-301 gbinder_writer_data_append_int32; the same code
   shape is used for float at 361-371 *)
Definition w_int32 (buf : bytes) (value : Z) : res bytes :=
  let buf1 := set_size buf (blen buf + 4) in
  store buf1 (blen buf1 - 4) (le 4 value).

(* src/gbinder_writer.c:335-346 gbinder_writer_data_append_int64; the same code
   shape is used for double at 385-395 *)
Definition w_int64 (buf : bytes) (value : Z) : res bytes :=
  let buf1 := set_size buf (blen buf + 8) in
  store buf1 (blen buf1 - 8) (le 8 value).

(* src/gbinder_writer.c:361-371, 385-395: the argument is the bit pattern *)
Definition w_float (buf : bytes) (bits : Z) : res bytes := w_int32 buf bits.
Definition w_double (buf : bytes) (bits : Z) : res bytes := w_int64 buf bits.

(* src/gbinder_writer.c:303-321 gbinder_writer_overwrite_int32. The comparison
   is done in gsize (64 bits), [offset + sizeof(gint32)] wraps around. *)
Definition w_overwrite_int32 (buf : bytes) (offset value : Z) : res bytes :=
  if u64 (offset + 4) <=? blen buf then store buf offset (le 4 value)
  else Ok buf.

(* src/gbinder_writer.c:427-449 gbinder_writer_data_append_string8_len;
   None is the NULL pointer. [str] is the array the pointer refers to, [len]
   bytes of it are used (a too short array is an out of bounds read). *)
Definition w_string8_len (buf : bytes) (str : option bytes) (len : Z) : res bytes :=
  match str with
  | None => Ok buf
  | Some s =>
    let old_size := blen buf in
    let padded_len := align4 (len + 1) in
    let buf1 := set_size buf (old_size + padded_len) in
    let* buf2 := store buf1 (old_size + (padded_len / 4 - 1) * 4) (le 4 0) in
    let* src := load s 0 len in
    store buf2 old_size src
  end.

(* src/gbinder_writer.c:419-425 gbinder_writer_data_append_string8 and 397-403
   gbinder_writer_append_string8: [s] is the text before the terminating NUL
   (so strlen(str) is its length) *)
Definition w_string8 (buf : bytes) (s : option bytes) : res bytes :=
  w_string8_len buf s (match s with Some t => blen t | None => 0 end).

(* src/gbinder_writer.c:480-487 gbinder_writer_data_append_string16_null *)
Definition w_string16_null (buf : bytes) : res bytes := w_int32 buf (-1).

(* src/gbinder_writer.c:489-502 gbinder_writer_data_append_string16_empty *)
Definition w_string16_empty (buf : bytes) : res bytes :=
  let old_size := blen buf in
  let buf1 := set_size buf (old_size + 8) in
  let* buf2 := store buf1 old_size (le 2 0) in
  let* buf3 := store buf2 (old_size + 2) (le 2 0) in
  let* buf4 := store buf3 (old_size + 4) (le 2 0) in
  store buf4 (old_size + 6) (le 2 0xffff).

(* src/gbinder_writer.c:504-564 gbinder_writer_data_append_string16_len.
   [utf8s] are the num_bytes bytes the pointer refers to. The conversion of
   validated text (g_utf8_to_utf16) cannot fail. *)
Definition w_string16 (buf : bytes) (utf8s : option bytes) : res bytes :=
  let chars := match utf8s with Some s => utf8_prefix s | None => [] end in
  let num_bytes := blen (utf8 chars) in
  if 0 <? num_bytes then
    let old_size := blen buf in
    let u := utf16 chars in
    let len := blen u in
    let padded_len := align4 ((len + 1) * 2) in
    let buf1 := set_size buf (old_size + padded_len + 4) in
    let* buf2 := store buf1 (old_size + 4) (units_bytes u) in
    let* buf3 := store buf2 old_size (le 4 len) in
    if len * 2 <? padded_len then
      store buf3 (old_size + 4 + 2 * len) (zrepeat 0 (padded_len - len * 2))
    else Ok buf3
  else match utf8s with
       | Some _ => w_string16_empty buf
       | None => w_string16_null buf
       end.

(* src/gbinder_writer.c:566-610 gbinder_writer_data_append_string16_utf16 with
   a non-negative length; [u] are the length units the pointer refers to *)
Definition w_utf16 (buf : bytes) (u : option (list Z)) : res bytes :=
  let length := match u with Some l => blen l | None => 0 end in
  match u with
  | Some l =>
    if 0 <? length then
      let old_size := blen buf in
      let padded_size := align4 ((length + 1) * 2) in
      let buf1 := set_size buf (old_size + padded_size + 4) in
      let* buf2 := store buf1 old_size (le 4 length) in
      let* buf3 := store buf2 (old_size + 4) (units_bytes l) in
      store buf3 (old_size + 4 + 2 * length) (zrepeat 0 (padded_size - 2 * length))
    else w_string16_empty buf
  | None => w_string16_null buf
  end.

(* src/gbinder_writer.c:624-635 gbinder_writer_append_bytes *)
Definition w_bytes (buf src : bytes) : res bytes := Ok (buf ++ src).

(* src/gbinder_writer.c:940-961 gbinder_writer_data_append_parcelable; the size
   is a gsize which append_int32 truncates to 32 bits *)
Definition w_parcelable (buf : bytes) (p : option bytes) : res bytes :=
  match p with
  | Some d =>
    let* buf1 := w_int32 buf 1 in
    let* buf2 := w_int32 buf1 (blen d + 4) in
    Ok (buf2 ++ d)
  | None => w_int32 buf 0
  end.

(* src/gbinder_writer.c:1198-1236 gbinder_writer_append_byte_array; the length
   argument is the length of the array (GASSERT(len >= 0)) *)
Definition w_byte_array (buf : bytes) (a : option bytes) : res bytes :=
  let len := match a with Some d => blen d | None => 0 end in
  let padded_len := align4 len in
  let buf1 := set_size buf (blen buf + 4 + padded_len) in
  let ptr := blen buf1 - 4 - padded_len in
  match a with
  | Some d =>
    if 0 <? len then
      let* buf2 := store buf1 ptr (le 4 len) in
      let* buf3 := store buf2 (ptr + 4) d in
      if len <? padded_len then
        store buf3 (ptr + 4 + len) (zrepeat 0xff (padded_len - len))
      else Ok buf3
    else store buf1 ptr (le 4 (-1))
  | None => store buf1 ptr (le 4 (-1))
  end.
