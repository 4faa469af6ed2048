(* What is expected of messages which point to memory: they behave as if memory were never
   freed. What the library copies has the value which it had when it was appended; what it
   doesn't copy has the value which it has when the message is sent. *)
From Verif Require Import Base CleanupModel MemoryModel.

(* A piece of a message: nothing, a value, or that many bytes of memory of the application *)
Inductive piece := Nothing | Value (d : data) | Bytes_of (n size : nat).

(* Memory of the application, the pieces of each message, what was received in each buffer,
   the messages of transactions, and what is sent *)
Record ideal := {
  mem : nat -> list Z;
  mems : nat;
  packed : nat -> list piece;
  packs : nat;
  got : list (list data);
  waiting : list nat;
  told : list (nat * list seen)
}.

Definition nothing : ideal :=
  {| mem := fun _ => []; mems := 0; packed := fun _ => []; packs := 0; got := []; waiting := []; told := [] |}.

Definition fset {A} (f : nat -> A) (k : nat) (x : A) : nat -> A := fun j => if Nat.eqb j k then x else f j.

Definition set_mem i n x := {| mem := fset (mem i) n x; mems := mems i; packed := packed i; packs := packs i; got := got i; waiting := waiting i; told := told i |}.
Definition add_mem i x := {| mem := fset (mem i) (mems i) x; mems := S (mems i); packed := packed i; packs := packs i; got := got i; waiting := waiting i; told := told i |}.
Definition set_packed i m x := {| mem := mem i; mems := mems i; packed := fset (packed i) m x; packs := packs i; got := got i; waiting := waiting i; told := told i |}.
Definition add i m x := set_packed i m (packed i m ++ x).

Definition is (i : ideal) (p : piece) : seen :=
  match p with
  | Nothing => Null
  | Value d => Data d
  | Bytes_of n size => Data (Bytes (firstn size (mem i n)))
  end.

Definition tell i m := {| mem := mem i; mems := mems i; packed := packed i; packs := packs i; got := got i; waiting := waiting i; told := told i ++ [(m, map (is i) (packed i m))] |}.

(* The length of the string in this memory *)
Definition size_of (i : ideal) (n : nat) : nat := match strlen (mem i n) with Some len => len | None => 0 end.

Definition received (i : ideal) (b : nat) : list piece := map Value (nth b (got i) []).

Definition ideally (i : ideal) (o : op) : ideal :=
  match o with
  | New l => add_mem i l
  | Write n l => set_mem i n l
  | MNew => {| mem := mem i; mems := mems i; packed := fset (packed i) (packs i) []; packs := S (packs i); got := got i; waiting := waiting i; told := told i |}
  | Free _ | MRef _ | MUnref _ | Drop _ => i
  (* Not copied *)
  | Str m None => add i m [Value (StringDesc 0); Nothing]
  | Str m (Some n) => add i m [Value (StringDesc (size_of i n)); Bytes_of n (size_of i n + 1)]
  (* Copied *)
  | StrCopy m None => add i m [Value (StringDesc 0); Nothing]
  | StrCopy m (Some n) => add i m [Value (StringDesc (size_of i n)); Value (Bytes (firstn (size_of i n + 1) (mem i n)))]
  (* Copied *)
  | Vec m p count elemsize =>
    match p with
    | Some n =>
      if Nat.eqb (count * elemsize) 0 then add i m [Value (VecDesc 0); Nothing]
      else add i m [Value (VecDesc count); Value (Bytes (firstn (count * elemsize) (mem i n)))]
    | None => add i m [Value (VecDesc 0); Nothing]
    end
  (* Not copied *)
  | StrVec m [] => add i m [Value (VecDesc 0); Nothing]
  | StrVec m ps =>
    add i m (Value (VecDesc (length ps)) :: Value (StringDescs (map (option_map (size_of i)) ps)) ::
             map (fun p => match p with Some n => Bytes_of n (size_of i n + 1) | None => Nothing end) ps)
  (* Not copied *)
  | Buf m None _ => add i m [Nothing]
  | Buf m (Some n) size => add i m [Bytes_of n size]
  | StructVec m None count _ => add i m [Value (VecDesc count); Nothing]
  | StructVec m (Some n) count elemsize => add i m [Value (VecDesc count); Bytes_of n (count * elemsize)]
  (* Memory for the application *)
  | Malloc _ size => add_mem i (repeat 0 size)
  | Memdup _ n size => add_mem i (firstn size (mem i n))
  (* Copied *)
  | Queue m g f =>
    add i m [Value (QueueDesc (length (mem i g)));
             match mem i g with [] => Nothing | l => Value (Bytes l) end; Value (Bytes (mem i f))]
  | Receive l => {| mem := mem i; mems := mems i; packed := packed i; packs := packs i; got := got i ++ [l]; waiting := waiting i; told := told i |}
  | Copy m b skip => add i m (skipn skip (received i b))
  | Replace m b => set_packed i m (received i b)
  | Send m => tell i m
  | Begin m => {| mem := mem i; mems := mems i; packed := packed i; packs := packs i; got := got i; waiting := waiting i ++ [m]; told := told i |}
  | End t => tell i (nth t (waiting i) 0%nat)
  end.

Definition expected (h : list op) : ideal := fold_left ideally h nothing.

(* A message which isn't freed points to this memory *)
Definition points (s : state) (m n : nat) : Prop :=
  exists x, at_ (notes s) m = Some x /\ exists o, In o (m_objs x) /\ o_ptr o = Some (Area n).

(* This memory was allocated by the application, or with gbinder_writer_malloc for this
   message *)
Definition usable (s : state) (m n : nat) : Prop :=
  forall w l, at_ (areas s) n = Some (w, l) -> w = None \/ w = Some m.

(* The application doesn't free memory to which a message points, and memory which was
   allocated for a message isn't appended (without copying) to another one *)
Definition careful (s : state) (o : op) : Prop :=
  match o with
  | Free n => forall m, ~ points s m n
  | Str m (Some n) | Buf m (Some n) _ | StructVec m (Some n) _ _ => usable s m n
  | StrVec m ps => forall n, In (Some n) ps -> usable s m n
  | _ => True
  end.

Fixpoint carefully (s : state) (h : list op) : Prop :=
  match h with
  | [] => True
  | o :: r => careful s o /\ match step s o with Done s1 => carefully s1 r | _ => True end
  end.

(* There are neither messages nor buffers *)
Definition idle (s : state) : Prop :=
  (forall m, at_ (notes s) m = None) /\ (forall b, at_ (buffers s) b = None).

(* What a call copies to a message, and which message *)
Definition copied (i : ideal) (o : op) : option (nat * list seen) :=
  match o with
  | StrCopy m (Some n) =>
    match strlen (mem i n) with
    | Some len => Some (m, [Data (StringDesc len); Data (Bytes (firstn (len + 1) (mem i n)))])
    | None => None
    end
  | Vec m (Some n) count elemsize =>
    if Nat.eqb (count * elemsize) 0 then None
    else Some (m, [Data (VecDesc count); Data (Bytes (firstn (count * elemsize) (mem i n)))])
  | Queue m g f =>
    match mem i g with
    | [] => None
    | l => Some (m, [Data (QueueDesc (length l)); Data (Bytes l); Data (Bytes (mem i f))])
    end
  | _ => None
  end.
