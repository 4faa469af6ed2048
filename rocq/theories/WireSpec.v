(* The formats which Linux (include/uapi/linux/android/binder.h) and Android (Parcel,
   IServiceManager, hidl_string and hidl_vec) expect, written down as bytes and without
   using anything of the library. What the application asks for is in CodecSpec.v (plain
   values) and ObjSpec.v (objects). *)
From Verif Require Import Base CodecSpec ObjModel ObjSpec.

(* Numbers are little-endian *)
Fixpoint little (n : nat) (v : Z) : bytes :=
  match n with O => [] | S k => v mod 256 :: little k (v / 256) end.

(* Data is padded to a multiple of four bytes *)
Definition padded (with_ : Z) (l : bytes) : bytes :=
  l ++ repeat with_ (Z.to_nat ((- Z.of_nat (length l)) mod 4)).

(* UTF-16 *)
Definition units (s : list Z) : list Z :=
  flat_map (fun c =>
    if c <? 0x10000 then [c] else [0xd800 + (c - 0x10000) / 0x400; 0xdc00 + (c - 0x10000) mod 0x400]) s.

(* The number of units, the units, a terminator. The padding of an empty string isn't zero. *)
Definition text16 (u : list Z) : bytes :=
  match u with
  | [] => [0; 0; 0; 0; 0; 0; 0xff; 0xff]
  | _ => little 4 (Z.of_nat (length u)) ++ padded 0 (flat_map (little 2) (u ++ [0]))
  end.

Definition minus_one : bytes := [0xff; 0xff; 0xff; 0xff].

Definition plain (v : value) : bytes :=
  match v with
  | VBool b => [if b then 1 else 0; 0; 0; 0]
  | VInt8 v | VUint8 v => [v mod 0x100; 0; 0; 0]
  | VInt16 v | VUint16 v => [v mod 0x100; v / 0x100 mod 0x100; 0; 0]
  | VInt32 v | VUint32 v | VFloat v => little 4 v
  | VInt64 v | VUint64 v | VDouble v => little 8 v
  | VString8 s => padded 0 (s ++ [0])
  | VString16 None | VUtf16 None | VNullableString8 None => minus_one
  | VString16 (Some s) => text16 (units s)
  | VUtf16 (Some u) => text16 u
  | VParcelable None => [0; 0; 0; 0]
  | VParcelable (Some d) => [1; 0; 0; 0] ++ little 4 (4 + Z.of_nat (length d)) ++ d
  | VByteArray None | VByteArray (Some []) => minus_one
  | VByteArray (Some d) => little 4 (Z.of_nat (length d)) ++ padded 0xff d
  | VRaw l => l
  | VNullableString8 (Some s) => little 4 (Z.of_nat (length s)) ++ padded 0 (s ++ [0])
  end.

(* The objects of Linux. The type is in the first four bytes: "sb*", "sh*", "fd*", "ptr" and
   "fda" and 0x85, the last one first. *)
Definition word (i : io) (v : Z) : bytes := match i with Io32 => little 4 v | Io64 => little 8 v end.

Inductive linux :=
| Binder (address : Z)                                   (* an object of this process *)
| Handle (number : Z)
| File (number : Z)
| NoObject
| Buffer (address size : Z) (place : option (Z * Z))     (* and the buffer with the pointer to it, and where in it *)
| Files (count buffer offset : Z).

Definition linux_bytes (i : io) (o : linux) : bytes :=
  match o with
  | Binder a => [0x85; 0x2a; 0x62; 0x73; 0x7f; 0x01; 0; 0] ++ word i a ++ word i 0
  | Handle n => [0x85; 0x2a; 0x68; 0x73; 0; 0x01; 0; 0] ++ word i (n mod 2 ^ 32) ++ word i 0
  | File n => [0x85; 0x2a; 0x64; 0x66; 0x7f; 0x01; 0; 0] ++ word i (n mod 2 ^ 32) ++ word i 0
  | NoObject => [0x85; 0x2a; 0x62; 0x73; 0; 0; 0; 0] ++ word i 0 ++ word i 0
  | Buffer a n None => [0x85; 0x2a; 0x74; 0x70; 0; 0; 0; 0] ++ word i a ++ word i n ++ word i 0 ++ word i 0
  | Buffer a n (Some (k, off)) =>
    [0x85; 0x2a; 0x74; 0x70; 1; 0; 0; 0] ++ word i a ++ word i n ++ word i k ++ word i off
  | Files n k off => [0x85; 0x61; 0x64; 0x66; 0; 0; 0; 0] ++ word i n ++ word i k ++ word i off
  end.

(* android::Stability follows objects since Android 11 *)
Definition stability (p : protocol) (v : Z) : bytes := match p with Aidl3 => little 4 v | _ => [] end.

(* hidl_string and hidl_vec in memory: the address, the length, who owns it *)
Definition hidl (address length_ owns : Z) : bytes := little 8 address ++ little 4 length_ ++ [owns; 0; 0; 0].

Definition place_of (pa : option parent) : option (Z * Z) := option_map (fun p => (pa_index p, pa_offset p)) pa.

(* Names in a vector: 16 bytes for each *)
Definition one_string (s : cstring) : bytes :=
  match s with Some (a, t) => hidl a (Z.of_nat (length t)) 1 | None => hidl 0 0 0 end.
Fixpoint string_buffers (i : io) (k : Z) (n : nat) (l : list cstring) : bytes :=
  match l with
  | [] => []
  | s :: r =>
    linux_bytes i (match s with
                   | Some (a, t) => Buffer a (Z.of_nat (length t) + 1) (Some (k, 16 * Z.of_nat n))
                   | None => Buffer 0 0 (Some (k, 16 * Z.of_nat n)) end) ++
    string_buffers i k (S n) r
  end.

(* What an append call makes: the bytes which are added to the message, and new memory
   which it refers to. There are k objects before. [new 0] and [new 1] are the addresses of the
   memory. *)
Definition made (i : io) (p : protocol) (new : nat -> Z) (k : Z) (o : op) (b : bytes) (mem : list (Z * bytes)) : Prop :=
  match o with
  | OpPlain v => value_ok v /\ b = plain v /\ mem = []
  | OpLocal (Some x) => b = linux_bytes i (Binder (lo_ptr x)) ++ stability p (lo_stability x) /\ mem = []
  | OpLocal None => b = linux_bytes i NoObject ++ stability p 0 /\ mem = []
  | OpRemote (Some h) => b = linux_bytes i (Handle h) /\ mem = []
  | OpRemote None => b = linux_bytes i NoObject /\ mem = []
  | OpFd fd dup => b = linux_bytes i (File (if dup <? 0 then fd else dup)) /\ mem = []
  | OpBuffer a size pa => 0 <= size < 2 ^ 32 /\ b = linux_bytes i (Buffer a size (place_of pa)) /\ mem = []
  | OpFds slack (Some f) pa =>
    let total := 12 + 4 * Z.of_nat (length (fs_fds f) + length (fs_ints f)) in
    total < 2 ^ 32 /\ 4 <= slack /\
    b = little 8 total ++ linux_bytes i (Buffer (fs_ptr f) total (place_of pa)) ++
        linux_bytes i (Files (Z.of_nat (length (fs_fds f))) k 12) /\ mem = []
  | OpFds slack None pa => b = [0; 0; 0; 0; 0; 0; 0; 0] /\ mem = []
  | OpHidlVec (Some data) count elemsize =>
    let total := count * elemsize in
    0 <= count /\ 0 <= elemsize /\ total < 2 ^ 32 /\ total <= Z.of_nat (length data) /\
    (total = 0 /\ mem = [(new 0%nat, hidl 0 0 1)] /\
       b = linux_bytes i (Buffer (new 0%nat) 16 None) ++ linux_bytes i (Buffer 0 0 (Some (k, 0))) \/
     total <> 0 /\ mem = [(new 1%nat, hidl (new 0%nat) count 1); (new 0%nat, firstn (Z.to_nat total) data)] /\
       b = linux_bytes i (Buffer (new 1%nat) 16 None) ++ linux_bytes i (Buffer (new 0%nat) total (Some (k, 0))))
  | OpHidlVec None count elemsize =>
    count * elemsize = 0 /\ mem = [(new 0%nat, hidl 0 0 1)] /\
    b = linux_bytes i (Buffer (new 0%nat) 16 None) ++ linux_bytes i (Buffer 0 0 (Some (k, 0)))
  | OpHidlString (Some (a, t)) =>
    Z.of_nat (length t) + 1 < 2 ^ 32 /\ mem = [(new 0%nat, hidl a (Z.of_nat (length t)) 1)] /\
    b = linux_bytes i (Buffer (new 0%nat) 16 None) ++ linux_bytes i (Buffer a (Z.of_nat (length t) + 1) (Some (k, 0)))
  | OpHidlString None =>
    mem = [(new 0%nat, hidl 0 0 1)] /\
    b = linux_bytes i (Buffer (new 0%nat) 16 None) ++ linux_bytes i (Buffer 0 0 (Some (k, 0)))
  | OpHidlStringVec [] =>
    mem = [(new 0%nat, hidl 0 0 1)] /\
    b = linux_bytes i (Buffer (new 0%nat) 16 None) ++ linux_bytes i (Buffer 0 0 (Some (k, 0)))
  | OpHidlStringVec l =>
    16 * Z.of_nat (length l) < 2 ^ 32 /\
    Forall (fun s => match s with Some (_, t) => Z.of_nat (length t) + 1 < 2 ^ 32 | None => True end) l /\
    mem = [(new 1%nat, hidl (new 0%nat) (Z.of_nat (length l)) 1); (new 0%nat, flat_map one_string l)] /\
    b = linux_bytes i (Buffer (new 1%nat) 16 None) ++
        linux_bytes i (Buffer (new 0%nat) (16 * Z.of_nat (length l)) (Some (k, 0))) ++
        string_buffers i (k + 1) 0 l
  | OpStruct _ _ _ _ | OpStructVec _ _ _ _ => False    (* see C52 *)
  end.

(* How requests begin: the strict mode policy, since Android 9 the work source, since Android
   11 "SYST", then the name of the interface; hidl has nothing but the name *)
Definition header (p : protocol) (s : list Z) : bytes :=
  match p with
  | Aidl => [0; 0; 0x40; 0] ++ text16 (units s)
  | Aidl2 => [0; 0; 0x40; 0] ++ minus_one ++ text16 (units s)
  | Aidl3 => [0; 0; 0x40; 0] ++ minus_one ++ [0x54; 0x53; 0x59; 0x53] ++ text16 (units s)
  | Hidl => padded 0 (s ++ [0])
  end.

(* struct binder_transaction_data, as it is passed to the driver *)
Definition transaction (i : io) (target code flags size nobjs data offsets : Z) : bytes :=
  word i target ++ word i 0 ++ little 4 code ++ little 4 flags ++ little 4 0 ++ little 4 0 ++
  word i size ++ word i (nobjs * (match i with Io32 => 4 | Io64 => 8 end)) ++ word i data ++ word i offsets.
