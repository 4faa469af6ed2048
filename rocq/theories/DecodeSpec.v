(* How plain data is laid out in a message, whoever has made it. This is a description of the bytes; it says
   nothing about readers and positions. *)
From Verif Require Import Base UtfModel ReaderModel CodecSpec.

(* The number which is stored in the lower bits, as two's complement *)
Definition signed (bits stored v : Z) : Prop :=
  - 2 ^ (bits - 1) <= v < 2 ^ (bits - 1) /\ (stored - v) mod 2 ^ bits = 0.
Definition some_bit (b : bytes) : Prop := exists x, In x b /\ x <> 0.
(* Four bytes -1 *)
Definition minus_one : bytes := [255; 255; 255; 255].
(* Rounded up to whole words, with up to three bytes of anything *)
Definition padded (b pad : bytes) : Prop := blen b mod 4 = 0 /\ blen pad < 4.

(* These bytes are such an item with this value. Numbers are little-endian ([unle]), all lengths are words *)
Definition layout (k : kind) (b : bytes) (r : result) : Prop :=
  match k with
  | KBool => blen b = 4 /\ exists t, r = RBool t /\ (t = true <-> some_bit b)
  | KUint8 => exists x pad, b = x :: pad /\ blen b = 4 /\ r = RNum x
  | KInt8 => exists x pad v, b = x :: pad /\ blen b = 4 /\ signed 8 x v /\ r = RNum v
  | KUint16 => exists x y pad, b = x :: y :: pad /\ blen b = 4 /\ r = RNum (x + 256 * y)
  | KInt16 => exists x y pad v, b = x :: y :: pad /\ blen b = 4 /\ signed 16 (x + 256 * y) v /\ r = RNum v
  | KUint32 | KFloat => blen b = 4 /\ r = RNum (unle b)
  | KInt32 => exists v, blen b = 4 /\ signed 32 (unle b) v /\ r = RNum v
  | KUint64 | KDouble => blen b = 8 /\ r = RNum (unle b)
  | KInt64 => exists v, blen b = 8 /\ signed 64 (unle b) v /\ r = RNum v
  (* text without NUL, then NUL *)
  | KString8 => exists s pad, b = s ++ 0 :: pad /\ padded b pad /\ ~ In 0 s /\ r = RText (Some s)
  (* length, any bytes, NUL *)
  | KNullableString8 =>
    (b = minus_one /\ r = RText None) \/
    exists s pad, b = le 4 (blen s) ++ s ++ 0 :: pad /\ padded b pad /\ blen s < 2 ^ 31 /\ r = RText (Some s)
  (* number of units, the units, NUL *)
  | KUtf16 =>
    (b = minus_one /\ r = RUnits None) \/
    exists u pad, b = le 4 (blen u) ++ units_bytes u ++ 0 :: 0 :: pad /\ padded b pad /\ blen u < 2 ^ 31 /\
      Forall (in_range 0 (2 ^ 16)) u /\ r = RUnits (Some u)
  (* ... which are UTF-16. NULL if they aren't *)
  | KString16 =>
    (b = minus_one /\ r = RText None) \/
    exists u pad, b = le 4 (blen u) ++ units_bytes u ++ 0 :: 0 :: pad /\ padded b pad /\ blen u < 2 ^ 31 /\
      Forall (in_range 0 (2 ^ 16)) u /\
      ((exists cs, well_formed16 u cs /\ r = RText (Some (utf8 cs))) \/
       ((forall cs, ~ well_formed16 u cs) /\ r = RText None))
  (* something other than zero, the size which includes the word with the size, the contents *)
  | KParcelable =>
    exists a d, b = a ++ le 4 (blen d + 4) ++ d /\ blen a = 4 /\ some_bit a /\ blen d + 4 < 2 ^ 32 /\ r = RBytes d
  (* zero or a negative number; or the size and the contents *)
  | KByteArray =>
    (exists v, blen b = 4 /\ signed 32 (unle b) v /\ v <= 0 /\ r = RBytes []) \/
    exists d pad, b = le 4 (blen d) ++ d ++ pad /\ padded b pad /\ 0 < blen d < 2 ^ 31 /\ r = RBytes d
  | KRaw n => length b = n /\ r = RBytes b
  end.

(* The bytes which haven't been read *)
Definition unread (mem : bytes) (p : reader) : bytes := slice mem (r_ptr p) (r_end p - r_ptr p).
(* Such an item comes next *)
Definition next_is (mem : bytes) (p : reader) (k : kind) (b : bytes) (r : result) : Prop :=
  layout k b r /\ exists rest, unread mem p = b ++ rest.

(* Several items, one after another *)
Inductive layouts : list kind -> bytes -> list result -> Prop :=
| NoItems : layouts [] [] []
| NextItem : forall k b r ks bs rs, layout k b r -> layouts ks bs rs -> layouts (k :: ks) (b ++ bs) (r :: rs).
