(* Vocabulary of the properties of the object writer: the append calls, and
   what the driver should find in the data for each of them. *)
From Verif Require Import Base UtfModel WriterModel ReaderModel CodecSpec ObjModel
  ObjReader KernelModel.

(* One append call *)
Inductive op : Type :=
| OpPlain (v : value)                           (* plain data *)
| OpLocal (o : option local)                    (* append_local_object *)
| OpRemote (handle : option Z)                  (* append_remote_object *)
| OpFd (fd dupfd : Z)                           (* append_fd *)
| OpBuffer (ptr size : Z) (pa : option parent)  (* append_buffer_object(_with_parent) *)
| OpFds (slack : Z) (f : option fds) (pa : option parent)
| OpHidlVec (base : option bytes) (count elemsize : Z)
| OpHidlString (s : cstring)
| OpHidlStringVec (l : list cstring)
| OpStruct (m : memory) (ptr : Z) (t : wtype) (pa : option parent)
| OpStructVec (m : memory) (ptr count : Z) (t : wtype).

Definition w_op (i : io) (pr : protocol) (al : nat -> Z) (d : wdata) (o : op)
  : res wdata :=
  match o with
  | OpPlain v => wd_plain d (fun b => append_value b v)
  | OpLocal o => w_local_object i pr d o
  | OpRemote h => w_remote_object i d h
  | OpFd fd dupfd => w_fd i d fd dupfd
  | OpBuffer ptr size pa => let* (_, d1) := w_buffer_object i d ptr size pa in Ok d1
  | OpFds slack f pa => w_fds i slack d f pa
  | OpHidlVec base count elemsize => w_hidl_vec i al d base count elemsize
  | OpHidlString s => w_hidl_string i al d s
  | OpHidlStringVec l => w_hidl_string_vec i al d l
  | OpStruct m ptr t pa => w_struct i m d ptr t pa
  | OpStructVec m ptr count t => w_struct_vec i al m d ptr count t
  end.

Fixpoint w_ops (i : io) (pr : protocol) (al : nat -> Z) (d : wdata) (l : list op)
  : res wdata :=
  match l with
  | [] => Ok d
  | o :: r => let* d1 := w_op i pr al d o in w_ops i pr al d1 r
  end.

(* ------------------------------------------------------------------ *)
(* What the driver should find at an offset *)
Inductive want : Type :=
| WBinder (ptr : Z)        (* node of this process *)
| WHandle (handle : Z)     (* reference to a remote object *)
| WFd (fd : Z)
| WBuffer (size : Z)       (* buffer of that size *)
| WFda (num_fds : Z).

Definition want_type (w : want) : Z :=
  match w with
  | WBinder _ => TYPE_BINDER | WHandle _ => TYPE_HANDLE | WFd _ => TYPE_FD
  | WBuffer _ => TYPE_PTR | WFda _ => TYPE_FDA
  end.

Definition finds (i : io) (b : bytes) (off : Z) (w : want) : Prop :=
  k_type b off = want_type w /\
  match w with
  | WBinder ptr => kfield b (off + 8) (psz i) = usz i ptr
  | WHandle h => kfield b (off + 8) 4 = u32 h
  | WFd fd => kfield b (off + 8) 4 = u32 fd
  | WBuffer size => kfield b (off + 8 + psz i) (psz i) = usz i size
  | WFda n => kfield b (off + 8) (psz i) = usz i n
  end.

(* The listed offsets are exactly the places of the wanted objects: in order,
   complete, not overlapping and inside of the data *)
Fixpoint objects_at (i : io) (b : bytes) (from : Z) (offs : list Z) (ws : list want)
  : Prop :=
  match offs, ws with
  | [], [] => True
  | o :: os, w :: r =>
    from <= o /\ finds i b o w /\
    o + k_object_size i (want_type w) <= blen b /\
    objects_at i b (o + k_object_size i (want_type w)) os r
  | _, _ => False
  end.

(* The objects each append call stands for. Every buffer field of a structure
   counts, for every element of a vector. *)
Fixpoint fields_wants (i : io) (m : memory) (t : wtype) (obj : Z) {struct t} : list want :=
  match t with
  | WType _ fields =>
    (fix go (fs : list (Z * wfield)) : list want :=
       match fs with
       | [] => []
       | (foff, f) :: r =>
         match f with
         | FPointer ft => [WBuffer (wt_size ft)]
         | FVec None => [WBuffer 0]
         | FVec (Some et) =>
           let buf := mread_ptr i m (obj + foff) in
           let count := mread32 m (obj + foff + 8) in
           WBuffer (count * wt_size et) ::
           flat_map (fun k => fields_wants i m et (buf + u32 (wt_size et * Z.of_nat k)))
             (seq 0 (Z.to_nat count))
         | FString =>
           [WBuffer (if mread_ptr i m (obj + foff) =? 0 then 0
                     else u32 (mread32 m (obj + foff + 8) + 1))]
         end ++ go r
       end) fields
  end.

Definition cstr_size (s : cstring) : Z :=
  match s with Some (_, t) => u32 (blen t + 1) | None => 0 end.

Definition op_wants (i : io) (o : op) : list want :=
  match o with
  | OpPlain _ => []
  | OpLocal (Some o) => [WBinder (lo_ptr o)]
  | OpLocal None => []
  | OpRemote (Some h) => [WHandle h]
  | OpRemote None => []
  | OpFd fd dupfd => [WFd (if dupfd <? 0 then fd else dupfd)]
  | OpBuffer _ size _ => [WBuffer size]
  | OpFds _ (Some f) _ =>
    [WBuffer (blen (fds_image f)); WFda (blen (fs_fds f))]
  | OpFds _ None _ => []
  | OpHidlVec base count elemsize => [WBuffer 16; WBuffer (u32 (count * elemsize))]
  | OpHidlString s => [WBuffer 16;
      WBuffer (match s with Some (_, t) => blen t + 1 | None => 0 end)]
  | OpHidlStringVec [] => [WBuffer 16; WBuffer 0]
  | OpHidlStringVec l =>
    WBuffer 16 :: WBuffer (16 * blen l) :: map (fun s => WBuffer (cstr_size s)) l
  | OpStruct m ptr t _ => WBuffer (wt_size t) :: fields_wants i m t ptr
  | OpStructVec m ptr count t =>
    WBuffer 16 :: WBuffer (count * wt_size t) ::
    flat_map (fun k => fields_wants i m t (ptr + u32 (wt_size t * Z.of_nat k)))
      (seq 0 (Z.to_nat count))
  end.

(* ------------------------------------------------------------------ *)
(* Space needed by the buffers: the driver places each of them at a multiple
   of eight bytes *)
Definition buffer_space (i : io) (b : bytes) (off : Z) : Z :=
  if k_type b off =? TYPE_PTR then align8 (kp_length (k_ptr i b off)) else 0.

Fixpoint zsum (l : list Z) : Z := match l with [] => 0 | x :: r => x + zsum r end.

Definition space_needed (i : io) (b : bytes) (offs : list Z) : Z :=
  zsum (map (buffer_space i b) offs).

(* Calls which hand over enough memory: the array passed as a vector has all of
   its elements; descriptors (fds) are only passed when the output array has
   room for the kernel structure *)
Definition op_ok (i : io) (o : op) : Prop :=
  match o with
  | OpHidlVec (Some b) count elemsize => u32 (count * elemsize) <= blen b
  | OpFds slack (Some _) _ => 0 <= slack /\ fda_size i <= MAX_BINDER_OBJECT_SIZE + slack
  | _ => True
  end.
