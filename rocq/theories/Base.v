(* Common vocabulary of all the models: bytes, little-endian numbers, C integer
   ranges, and the outcome type in which undefined behaviour is a value of its
   own.  Nothing here models a particular function of libgbinder, except where
   a comment cites one. *)
From Coq Require Export List ZArith Lia Bool.
From Coq Require Export ZifyBool ZifyNat.
Export ListNotations.
Open Scope Z_scope.

Ltac Zify.zify_post_hook ::= Z.div_mod_to_equations.

(* ------------------------------------------------------------------ *)
(* Bytes. A byte of memory is a Z. Values 0..255 are initialised memory; the
   value [uninit] marks memory which was allocated but never written
   (g_byte_array_set_size and g_malloc don't clear it). *)

Definition byte := Z.
Definition bytes := list Z.
Definition uninit : Z := -1.
Definition is_byte (b : Z) : Prop := 0 <= b < 256.
Definition all_bytes (l : bytes) : Prop := Forall is_byte l.

Definition blen {A} (l : list A) : Z := Z.of_nat (length l).

Definition ztake {A} (n : Z) (l : list A) : list A := firstn (Z.to_nat n) l.
Definition zdrop {A} (n : Z) (l : list A) : list A := skipn (Z.to_nat n) l.

(* [slice l off n]: n elements starting at off *)
Definition slice {A} (l : list A) (off n : Z) : list A := ztake n (zdrop off l).

Definition zrepeat {A} (x : A) (n : Z) : list A := repeat x (Z.to_nat n).

(* Overwrites part of a buffer, i.e. memcpy(buf + off, src, len) for a
   destination range which lies inside the buffer. *)
Definition poke {A} (buf : list A) (off : Z) (src : list A) : list A :=
  ztake off buf ++ src ++ zdrop (off + blen src) buf.

(* Little-endian encoding of the low n bytes of v (all platforms supported by
   binder HALs are little-endian; the library itself uses native order). *)
Fixpoint le (n : nat) (v : Z) : bytes :=
  match n with
  | O => []
  | S k => (v mod 256) :: le k (v / 256)
  end.

Fixpoint unle (l : bytes) : Z :=
  match l with
  | [] => 0
  | b :: r => b + 256 * unle r
  end.

(* ------------------------------------------------------------------ *)
(* C integers *)

Definition u8 (v : Z) : Z := v mod 2 ^ 8.
Definition u16 (v : Z) : Z := v mod 2 ^ 16.
Definition u32 (v : Z) : Z := v mod 2 ^ 32.
Definition u64 (v : Z) : Z := v mod 2 ^ 64.

(* Reinterpretation of an n-bit pattern as two's complement *)
Definition sgn (bits : Z) (v : Z) : Z :=
  if v mod 2 ^ bits <? 2 ^ (bits - 1) then v mod 2 ^ bits
  else v mod 2 ^ bits - 2 ^ bits.

Definition int32_max : Z := 2 ^ 31 - 1.

(* G_ALIGN4/G_ALIGN8 of libglibutil's gutil_macros.h: round up. *)
Definition align4 (v : Z) : Z := (v + 3) / 4 * 4.
Definition align8 (v : Z) : Z := (v + 7) / 8 * 8.

(* ------------------------------------------------------------------ *)
(* Outcomes *)

Inductive fault : Set :=
| OutOfBounds      (* access outside the memory block *)
| SignedOverflow   (* signed integer overflow, undefined in C *)
| NullDeref        (* NULL pointer dereference *)
| DivByZero
| UseAfterFree
| ReadUninit.      (* use of an uninitialised variable *)

Inductive res (A : Type) : Type :=
| Ok (a : A)
| Fault (f : fault).
Arguments Ok {A} a.
Arguments Fault {A} f.

Definition bind {A B} (x : res A) (f : A -> res B) : res B :=
  match x with Ok a => f a | Fault e => Fault e end.

Declare Scope res_scope.
Notation "'let*' x ':=' a 'in' b" := (bind a (fun x => b))
  (at level 200, x pattern, a at level 100, b at level 200,
   right associativity) : res_scope.
Open Scope res_scope.

(* Load of n bytes from a memory block *)
Definition load (mem : bytes) (off n : Z) : res bytes :=
  if (0 <=? off) && (off + n <=? blen mem) then Ok (slice mem off n)
  else Fault OutOfBounds.

(* Two ways to compile signed arithmetic: strictly conforming (overflow is
   undefined behaviour) and -fwrapv style two's complement wrap-around. *)
Inductive cmode : Set := Strict | Wrapv.

Definition sarith32 (m : cmode) (v : Z) : res Z :=
  if (- 2 ^ 31 <=? v) && (v <=? int32_max) then Ok v
  else match m with Strict => Fault SignedOverflow | Wrapv => Ok (sgn 32 v) end.
