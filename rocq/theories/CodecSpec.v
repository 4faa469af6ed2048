(* What a user of the parcel API appends and what they expect to read back.
   This is the vocabulary of the property statements; it says nothing about
   layout, padding or positions. *)
From Verif Require Import Base UtfModel WriterModel ReaderModel.

(* One plain item of a parcel, as the caller of gbinder_writer_append_xxx
   sees it *)
Inductive value : Type :=
| VBool (b : bool)
| VInt8 (v : Z) | VUint8 (v : Z)
| VInt16 (v : Z) | VUint16 (v : Z)
| VInt32 (v : Z) | VUint32 (v : Z)
| VInt64 (v : Z) | VUint64 (v : Z)
| VFloat (bits : Z) | VDouble (bits : Z)
| VString8 (s : bytes)                 (* C string, no NUL inside *)
| VString16 (s : option (list Z))      (* NULL or Unicode text *)
| VUtf16 (u : option (list Z))         (* NULL or 16-bit units *)
| VParcelable (p : option bytes)
| VByteArray (a : option bytes)
| VRaw (l : bytes)                     (* append_bytes *)
| VNullableString8 (s : option bytes). (* length + append_string8_len *)

Definition in_range (lo hi v : Z) : Prop := lo <= v < hi.

(* The values which the C types of the arguments can express *)
Definition value_ok (v : value) : Prop :=
  match v with
  | VBool _ => True
  | VInt8 v => in_range (- 2 ^ 7) (2 ^ 7) v
  | VUint8 v => in_range 0 (2 ^ 8) v
  | VInt16 v => in_range (- 2 ^ 15) (2 ^ 15) v
  | VUint16 v => in_range 0 (2 ^ 16) v
  | VInt32 v => in_range (- 2 ^ 31) (2 ^ 31) v
  | VUint32 v => in_range 0 (2 ^ 32) v
  | VInt64 v => in_range (- 2 ^ 63) (2 ^ 63) v
  | VUint64 v => in_range 0 (2 ^ 64) v
  | VFloat v => in_range 0 (2 ^ 32) v
  | VDouble v => in_range 0 (2 ^ 64) v
  | VString8 s => all_bytes s /\ ~ In 0 s
  | VString16 (Some s) => Forall is_scalar s /\ ~ In 0 s
  | VString16 None => True
  | VUtf16 (Some u) => Forall (in_range 0 (2 ^ 16)) u
  | VUtf16 None => True
  | VParcelable (Some d) => all_bytes d
  | VParcelable None => True
  | VByteArray (Some d) => all_bytes d
  | VByteArray None => True
  | VRaw l => all_bytes l
  | VNullableString8 (Some s) => all_bytes s
  | VNullableString8 None => True
  end.

(* Which append call is made *)
Definition append_value (buf : bytes) (v : value) : res bytes :=
  match v with
  | VBool b => w_bool buf (if b then 1 else 0)
  | VInt8 v | VUint8 v => w_int8 buf v
  | VInt16 v | VUint16 v => w_int16 buf v
  | VInt32 v | VUint32 v => w_int32 buf v
  | VInt64 v | VUint64 v => w_int64 buf v
  | VFloat v => w_float buf v
  | VDouble v => w_double buf v
  | VString8 s => w_string8 buf (Some s)
  | VString16 s => w_string16 buf (option_map utf8 s)
  | VUtf16 u => w_utf16 buf u
  | VParcelable p => w_parcelable buf p
  | VByteArray a => w_byte_array buf a
  | VRaw l => w_bytes buf l
  | VNullableString8 None => w_int32 buf (-1)
  | VNullableString8 (Some s) =>
    let* buf1 := w_int32 buf (blen s) in w_string8_len buf1 (Some s) (blen s)
  end.

Fixpoint append_values (buf : bytes) (vs : list value) : res bytes :=
  match vs with
  | [] => Ok buf
  | v :: r => let* buf1 := append_value buf v in append_values buf1 r
  end.

(* The read calls *)
Inductive kind : Type :=
| KBool | KInt8 | KUint8 | KInt16 | KUint16 | KInt32 | KUint32 | KInt64 | KUint64
| KFloat | KDouble | KString8 | KString16 | KUtf16 | KParcelable | KByteArray
| KRaw (n : nat)             (* n calls of gbinder_reader_read_byte *)
| KNullableString8.

(* The results which the caller sees *)
Inductive result : Type :=
| RFail
| RBool (b : bool)
| RNum (v : Z)
| RText (s : option bytes)        (* NULL or bytes/UTF-8 *)
| RUnits (u : option (list Z))    (* NULL or 16-bit units *)
| RBytes (b : bytes).

Definition wrap {A} (f : A -> result) (x : rd A) : res (result * reader) :=
  match x with
  | Ok (Some a, p) => Ok (f a, p)
  | Ok (None, p) => Ok (RFail, p)
  | Fault e => Fault e
  end.

Fixpoint rd_raw (mem : bytes) (p : reader) (n : nat) : rd bytes :=
  match n with
  | O => ok [] p
  | S k =>
    match rd_byte mem p with
    | Ok (Some b, p1) =>
      match rd_raw mem p1 k with
      | Ok (Some l, p2) => Ok (Some (b :: l), p2)
      | other => other
      end
    | Ok (None, p1) => Ok (None, p1)
    | Fault e => Fault e
    end
  end.

Definition read_kind (m : cmode) (mem : bytes) (p : reader) (k : kind)
  : res (result * reader) :=
  match k with
  | KBool => wrap RBool (rd_bool mem p)
  | KInt8 => wrap RNum (rd_int8 mem p)
  | KUint8 => wrap RNum (rd_uint8 mem p)
  | KInt16 => wrap RNum (rd_int16 mem p)
  | KUint16 => wrap RNum (rd_uint16 mem p)
  | KInt32 => wrap RNum (rd_int32 mem p)
  | KUint32 => wrap RNum (rd_uint32 mem p)
  | KInt64 => wrap RNum (rd_int64 mem p)
  | KUint64 => wrap RNum (rd_uint64 mem p)
  | KFloat => wrap RNum (rd_float mem p)
  | KDouble => wrap RNum (rd_double mem p)
  | KString8 => wrap (fun s => RText (Some s)) (rd_string8 mem p)
  | KString16 => wrap RText (rd_nullable_string16 m mem p)
  | KUtf16 => wrap RUnits (rd_nullable_utf16 m mem p)
  | KParcelable => wrap RBytes (rd_parcelable mem p)
  | KByteArray => wrap RBytes (rd_byte_array mem p)
  | KRaw n => wrap RBytes (rd_raw mem p n)
  | KNullableString8 => wrap RText (rd_nullable_string8 m mem p)
  end.

Fixpoint read_kinds (m : cmode) (mem : bytes) (p : reader) (ks : list kind)
  : res (list result * reader) :=
  match ks with
  | [] => Ok ([], p)
  | k :: r =>
    let* (x, p1) := read_kind m mem p k in
    let* (xs, p2) := read_kinds m mem p1 r in
    Ok (x :: xs, p2)
  end.

(* The read call matching an append call, and the result it should give *)
Definition kind_of (v : value) : kind :=
  match v with
  | VBool _ => KBool | VInt8 _ => KInt8 | VUint8 _ => KUint8
  | VInt16 _ => KInt16 | VUint16 _ => KUint16
  | VInt32 _ => KInt32 | VUint32 _ => KUint32
  | VInt64 _ => KInt64 | VUint64 _ => KUint64
  | VFloat _ => KFloat | VDouble _ => KDouble
  | VString8 _ => KString8 | VString16 _ => KString16 | VUtf16 _ => KUtf16
  | VParcelable _ => KParcelable | VByteArray _ => KByteArray
  | VRaw l => KRaw (length l)
  | VNullableString8 _ => KNullableString8
  end.

Definition expected (v : value) : result :=
  match v with
  | VBool b => RBool b
  | VInt8 v | VUint8 v | VInt16 v | VUint16 v | VInt32 v | VUint32 v
  | VInt64 v | VUint64 v | VFloat v | VDouble v => RNum v
  | VString8 s => RText (Some s)
  | VString16 s => RText (option_map utf8 s)
  | VUtf16 u => RUnits u
  | VParcelable (Some d) => RBytes d
  | VParcelable None => RFail            (* NULL pointer *)
  | VByteArray (Some d) => RBytes d
  | VByteArray None => RBytes []         (* NULL and empty are the same *)
  | VRaw l => RBytes l
  | VNullableString8 s => RText s
  end.

(* ------------------------------------------------------------------ *)
(* Safety of the reader *)

(* The reader is inside of the data it was given *)
Definition inside (mem : bytes) (p : reader) : Prop :=
  0 <= r_start p /\ r_start p <= r_ptr p /\ r_ptr p <= r_end p /\ r_end p <= blen mem.

(* The 32-bit length field at the read position *)
Definition len_field (mem : bytes) (p : reader) : Z :=
  sgn 32 (unle (slice mem (r_ptr p) 4)).

(* The calls which leave the received data: a byte array whose padding is cut
   off, and strings whose length field overflows 32-bit arithmetic (which
   lengths do that depends on how the compiler treats signed overflow). *)
Definition bad_call (m : cmode) (mem : bytes) (p : reader) (k : kind) : Prop :=
  r_ptr p + 4 <= r_end p /\
  match k with
  | KByteArray =>
    0 < len_field mem p /\
    r_ptr p + 4 + len_field mem p <= r_end p < r_ptr p + 4 + align4 (len_field mem p)
  | KString16 | KUtf16 =>
    match m with
    | Strict => 2 ^ 30 - 2 <= len_field mem p
    | Wrapv => 2 ^ 31 - 2 <= len_field mem p
    end
  | KNullableString8 =>
    match m with
    | Strict => 2 ^ 31 - 4 <= len_field mem p
    | Wrapv => False
    end
  | _ => False
  end.

(* A sequence of calls none of which is a bad one (in the state in which it is
   made) *)
Fixpoint good_calls (m : cmode) (mem : bytes) (p : reader) (ks : list kind) : Prop :=
  match ks with
  | [] => True
  | k :: r =>
    ~ bad_call m mem p k /\
    match read_kind m mem p k with
    | Ok (_, p1) => good_calls m mem p1 r
    | Fault _ => True
    end
  end.

(* The units start with the characters in UTF-16, and that's all of them or a NUL follows *)
Definition well_formed16 (units : list Z) (chars : list Z) : Prop :=
  Forall is_scalar chars /\ ~ In 0 chars /\
  exists rest, units = utf16 chars ++ rest /\ (rest = [] \/ exists r, rest = 0 :: r).
