(* Model of service manager instances: how gbinder_servicemanager_new2 and its relatives find
   or create them and how they go away, src/gbinder_servicemanager.c.

   Every thread may create and release managers. A release by the last reference takes three
   steps, in which other threads may come between: it's found that this is the last one, then
   gbinder_servicemanager_dispose is called, which locks the class, then g_object_unref checks
   the number of references again and frees the object.

   What GLib does is a part of the model: the structure of a derived class starts as a copy of
   its parent's (type_class_init_Wm of gtype.c copies it), including the pointer to the table;
   classes of static types are never freed; g_object_unref doesn't call dispose again if the
   object was referenced and released meanwhile.

   Simplifications: presence and watches are in WatchModel; the choice of the kind for a device
   is in RpcModel (C17), here it's a part of the request; protocols are numbers. *)
From Verif Require Import Base.

Definition name := list Z.
Fixpoint name_eqb (a b : name) : bool :=
  match a, b with
  | [], [] => true
  | x :: r, y :: t => (x =? y) && name_eqb r t
  | _, _ => false
  end.

(* src/gbinder_servicemanager.c:80-86 gbinder_servicemanager_types *)
Inductive kind := Aidl | Aidl2 | Aidl3 | Aidl4 | Hidl.
Definition kind_eqb (a b : kind) : bool :=
  match a, b with
  | Aidl, Aidl | Aidl2, Aidl2 | Aidl3, Aidl3 | Aidl4, Aidl4 | Hidl, Hidl => true
  | _, _ => false
  end.
(* src/gbinder_servicemanager_aidl2.c:43-45, src/gbinder_servicemanager_aidl3.c:47-49,
   src/gbinder_servicemanager_aidl4.c:47-49 *)
Definition parent (k : kind) : option kind :=
  match k with Aidl2 | Aidl3 | Aidl4 => Some Aidl | Aidl | Hidl => None end.

(* What is configured: the protocol for a device, and protocols known by name
   (src/gbinder_rpc_protocol.c); see RpcModel *)
Record config := Config { for_device : name -> Z; by_name : name -> option Z }.

(* GBINDER_DEFAULT_BINDER: "/dev/binder" *)
Definition DEFAULT_BINDER : name := [47; 100; 101; 118; 47; 98; 105; 110; 100; 101; 114].

(* src/gbinder_ipc.c:1850-1899 gbinder_ipc_new: the device and the protocol which are used *)
Definition ipc_dev (dev : name) : name := match dev with [] => DEFAULT_BINDER | _ => dev end.
Definition ipc_protocol (cfg : config) (dev : name) (rpc : option name) : Z :=
  match match rpc with Some n => by_name cfg n | None => None end with
  | Some p => p
  | None => for_device cfg (ipc_dev dev)
  end.

(* GBinderServiceManagerClass: src/gbinder_servicemanager_p.h:56-59. No class structure if it
   wasn't used yet; the table is a pointer. *)
Record class := Class { c_table : option nat }.

(* The release by the last reference: not going on, before dispose has locked the class, and
   after it, when it has left the object in the table or removed it *)
Inductive phase := Idle | Begun | Left_ | Removed.
(* GBinderServiceManager *)
Record inst := Inst {
  i_kind : kind;
  i_dev : name;                  (* self->dev *)
  i_proto : Z;                   (* of its client *)
  i_refs : Z;                    (* object->ref_count *)
  i_phase : phase;
  i_freed : bool;
  i_held : Z                     (* ghost: references which the application has *)
}.

Record state := State {
  class_of : kind -> option class;
  tables : list (option (list (name * nat)));   (* the hash tables, None if freed *)
  insts : list inst;
  returned : option nat                          (* what the last gbinder_servicemanager_new2 has returned *)
}.

Inductive out := Misuse | Crash | Ok (s : state).
Definition bind (m : out) (f : state -> out) : out := match m with Ok s => f s | x => x end.
Definition init : state := State (fun _ => None) [] [] None.

Fixpoint replace_nth {A} (l : list A) (i : nat) (x : A) : list A :=
  match l, i with
  | [], _ => []
  | _ :: r, O => x :: r
  | y :: r, S j => y :: replace_nth r j x
  end.
Definition set_class (s : state) (k : kind) (c : class) : state :=
  State (fun j => if kind_eqb j k then Some c else class_of s j) (tables s) (insts s) (returned s).
Definition set_tables (s : state) (l : list (option (list (name * nat)))) : state :=
  State (class_of s) l (insts s) (returned s).
Definition set_insts (s : state) (l : list inst) : state := State (class_of s) (tables s) l (returned s).
Definition return_ (s : state) (r : option nat) : state := State (class_of s) (tables s) (insts s) r.

(* One more or one less reference of the application *)
Definition add_ref (x : inst) (n : Z) : inst :=
  Inst (i_kind x) (i_dev x) (i_proto x) (i_refs x + n) (i_phase x) (i_freed x) (i_held x + n).
Definition with_phase (x : inst) (p : phase) : inst :=
  Inst (i_kind x) (i_dev x) (i_proto x) (i_refs x) p (i_freed x) (i_held x).

Definition lookup (l : list (name * nat)) (d : name) : option nat :=
  match find (fun e => name_eqb (fst e) d) l with Some e => Some (snd e) | None => None end.
Definition remove (l : list (name * nat)) (d : name) : list (name * nat) :=
  filter (fun e => negb (name_eqb (fst e) d)) l.

(* src/gbinder_servicemanager.c:146-161 gbinder_servicemanager_class_ref, and what
   g_type_class_ref does when a class is used for the first time: its structure is the one of
   the parent, or zeros *)
Definition class_ref (s : state) (k : kind) : state :=
  match class_of s k with
  | Some _ => s
  | None =>
    match parent k with
    | None => set_class s k (Class None)
    | Some p =>
      let s1 := match class_of s p with Some _ => s | None => set_class s p (Class None) end in
      set_class s1 k (match class_of s1 p with Some c => c | None => Class None end)
    end
  end.

(* src/gbinder_servicemanager.c:518-583 gbinder_servicemanager_new_with_type, called by
   src/gbinder_servicemanager.c:626-675 gbinder_servicemanager_new2. [opens] tells whether the
   device can be opened. Following a pointer to a freed table or manager is a crash. *)
Definition create (cfg : config) (s : state) (k : kind) (dev : name) (rpc : option name) (t : nat) : out :=
  match nth_error (tables s) t with
  | Some (Some l) =>
    let i := length (insts s) in
    let x := Inst k (ipc_dev dev) (ipc_protocol cfg dev rpc) 1 Idle false 1 in
    Ok (return_ (set_insts (set_tables s (replace_nth (tables s) t (Some ((dev, i) :: remove l dev))))
                           (insts s ++ [x])) (Some i))
  | _ => Crash
  end.
Definition new_with_type (cfg : config) (s0 : state) (k : kind) (dev : name) (rpc : option name) (opens : bool) : out :=
  let s := class_ref s0 k in
  if negb opens then Ok (return_ s None)
  else
    match class_of s k with
    | None => Crash
    | Some (Class None) =>
      let t := length (tables s) in
      create cfg (set_class (set_tables s (tables s ++ [Some []])) k (Class (Some t))) k dev rpc t
    | Some (Class (Some t)) =>
      match nth_error (tables s) t with
      | Some (Some l) =>
        match lookup l dev with
        | Some i =>
          match nth_error (insts s) i with
          | Some x =>
            if i_freed x then Crash
            else Ok (return_ (set_insts s (replace_nth (insts s) i (add_ref x 1))) (Some i))
          | None => Crash
          end
        | None => create cfg s k dev rpc t
        end
      | _ => Crash
      end
    end.

Definition with_inst (s : state) (i : nat) (f : inst -> out) : out :=
  match nth_error (insts s) i with Some x => f x | None => Misuse end.
Definition set_inst (s : state) (i : nat) (x : inst) : state := set_insts s (replace_nth (insts s) i x).

(* gbinder_servicemanager_ref: src/gbinder_servicemanager.c:706-714 *)
Definition ref_move (s : state) (i : nat) : out :=
  with_inst s i (fun x => if i_held x <=? 0 then Misuse else Ok (set_inst s i (add_ref x 1))).

(* gbinder_servicemanager_unref (src/gbinder_servicemanager.c:716-723), the first part of
   g_object_unref *)
Definition unref_begin (s : state) (i : nat) : out :=
  with_inst s i (fun x =>
    if i_held x <=? 0 then Misuse
    else if 1 <? i_refs x then Ok (set_inst s i (add_ref x (-1)))
    else Ok (set_inst s i (Inst (i_kind x) (i_dev x) (i_proto x) (i_refs x) Begun (i_freed x) (i_held x - 1)))).

(* src/gbinder_servicemanager.c:1070-1108 gbinder_servicemanager_dispose, under the lock of the
   class of the object *)
Definition dispose (s : state) (i : nat) : out :=
  with_inst s i (fun x =>
    match i_phase x with
    | Begun =>
      match class_of s (i_kind x) with
      | None => Crash
      | Some (Class None) => Ok (set_inst s i (with_phase x Left_))
      | Some (Class (Some t)) =>
        if i_refs x <=? 1 then
          match nth_error (tables s) t with
          | Some (Some l) =>
            match remove l (i_dev x) with
            | [] => Ok (set_inst (set_class (set_tables s (replace_nth (tables s) t None)) (i_kind x) (Class None))
                                 i (with_phase x Removed))
            | l2 => Ok (set_inst (set_tables s (replace_nth (tables s) t (Some l2))) i (with_phase x Removed))
            end
          | _ => Crash
          end
        else Ok (set_inst s i (with_phase x Left_))
      end
    | _ => Misuse
    end).

(* The last part of g_object_unref *)
Definition unref_end (s : state) (i : nat) : out :=
  with_inst s i (fun x =>
    match i_phase x with
    | Left_ | Removed =>
      if 1 <? i_refs x then Ok (set_inst s i (Inst (i_kind x) (i_dev x) (i_proto x) (i_refs x - 1) Idle (i_freed x) (i_held x)))
      else Ok (set_inst s i (Inst (i_kind x) (i_dev x) (i_proto x) 0 Idle true (i_held x)))
    | _ => Misuse
    end).

Inductive move :=
| MNew (k : kind) (dev : name) (rpc : option name) (opens : bool)
| MRef (i : nat)
| MUnref (i : nat)              (* begins *)
| MDispose (i : nat)
| MUnrefEnd (i : nat).
Definition step (cfg : config) (s : state) (mv : move) : out :=
  match mv with
  | MNew k dev rpc opens => new_with_type cfg s k dev rpc opens
  | MRef i => ref_move s i
  | MUnref i => unref_begin s i
  | MDispose i => dispose s i
  | MUnrefEnd i => unref_end s i
  end.
Fixpoint run (cfg : config) (s : state) (l : list move) : out :=
  match l with
  | [] => Ok s
  | mv :: r => bind (step cfg s mv) (fun s1 => run cfg s1 r)
  end.
