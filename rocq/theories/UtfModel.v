(* Model of the GLib functions which libgbinder uses for UTF-8/UTF-16
   conversion: g_utf8_validate, g_utf8_strlen, g_utf8_to_utf16 (called from
   src/gbinder_writer.c:509-538) and g_utf16_to_utf8 (called from
   src/gbinder_reader.c:691-692). GLib's sources are not part of /repo; the
   functions are modelled after GLib's documentation. *)
From Verif Require Import Base.

(* Unicode scalar values: what GLib's UNICODE_VALID accepts *)
Definition is_scalar (c : Z) : Prop :=
  0 <= c < 0xd800 \/ 0xe000 <= c < 0x110000.
Definition is_scalarb (c : Z) : bool :=
  ((0 <=? c) && (c <? 0xd800)) || ((0xe000 <=? c) && (c <? 0x110000)).

(* UTF-8 encoding of one character (RFC 3629, g_unichar_to_utf8) *)
Definition utf8_char (c : Z) : bytes :=
  if c <? 0x80 then [c]
  else if c <? 0x800 then [0xc0 + c / 64; 0x80 + c mod 64]
  else if c <? 0x10000 then
    [0xe0 + c / 4096; 0x80 + c / 64 mod 64; 0x80 + c mod 64]
  else
    [0xf0 + c / 262144; 0x80 + c / 4096 mod 64; 0x80 + c / 64 mod 64; 0x80 + c mod 64].

Definition utf8 (s : list Z) : bytes := flat_map utf8_char s.

Definition is_cont (b : Z) : bool := (0x80 <=? b) && (b <? 0xc0).

(* g_utf8_validate(str, len, &end) with an explicit length: the characters of
   the longest valid prefix. A NUL byte counts as invalid, overlong forms,
   surrogates and values above 0x10ffff are rejected. *)
Fixpoint utf8_prefix (l : bytes) : list Z :=
  match l with
  | [] => []
  | b0 :: r0 =>
    if (b0 <=? 0) then []
    else if b0 <? 0x80 then b0 :: utf8_prefix r0
    else if (0xc2 <=? b0) && (b0 <? 0xe0) then
      match r0 with
      | b1 :: r1 =>
        if is_cont b1 then ((b0 - 0xc0) * 64 + (b1 - 0x80)) :: utf8_prefix r1
        else []
      | _ => []
      end
    else if (0xe0 <=? b0) && (b0 <? 0xf0) then
      match r0 with
      | b1 :: b2 :: r2 =>
        let c := (b0 - 0xe0) * 4096 + (b1 - 0x80) * 64 + (b2 - 0x80) in
        if is_cont b1 && is_cont b2 && (0x800 <=? c) && is_scalarb c
        then c :: utf8_prefix r2 else []
      | _ => []
      end
    else if (0xf0 <=? b0) && (b0 <? 0xf5) then
      match r0 with
      | b1 :: b2 :: b3 :: r3 =>
        let c := (b0 - 0xf0) * 262144 + (b1 - 0x80) * 4096 +
                 (b2 - 0x80) * 64 + (b3 - 0x80) in
        if is_cont b1 && is_cont b2 && is_cont b3 && (0x10000 <=? c) && is_scalarb c
        then c :: utf8_prefix r3 else []
      | _ => []
      end
    else []
  end.

(* UTF-16 encoding of one character *)
Definition utf16_char (c : Z) : list Z :=
  if c <? 0x10000 then [c]
  else [0xd800 + (c - 0x10000) / 1024; 0xdc00 + (c - 0x10000) mod 1024].

(* g_utf8_to_utf16 applied to already validated characters *)
Definition utf16 (s : list Z) : list Z := flat_map utf16_char s.

Definition is_low (u : Z) : bool := (0xdc00 <=? u) && (u <? 0xe000).
Definition is_high (u : Z) : bool := (0xd800 <=? u) && (u <? 0xdc00).

(* g_utf16_to_utf8(str, len, NULL, NULL, NULL) up to the final UTF-8 encoding:
   conversion stops at a NUL unit, an unpaired surrogate makes it fail. *)
Fixpoint utf16_decode (l : list Z) : option (list Z) :=
  match l with
  | [] => Some []
  | u :: r =>
    if u =? 0 then Some []
    else if is_low u then None
    else if is_high u then
      match r with
      | v :: r' =>
        if is_low v then
          match utf16_decode r' with
          | Some s => Some (0x10000 + (u - 0xd800) * 1024 + (v - 0xdc00) :: s)
          | None => None
          end
        else None
      | [] => None
      end
    else
      match utf16_decode r with
      | Some s => Some (u :: s)
      | None => None
      end
  end.

(* 16-bit units in memory *)
Definition units_bytes (l : list Z) : bytes := flat_map (le 2) l.

Fixpoint bytes_units (l : bytes) : list Z :=
  match l with
  | a :: b :: r => unle [a; b] :: bytes_units r
  | _ => []
  end.
