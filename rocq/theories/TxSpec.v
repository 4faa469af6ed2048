(* Vocabulary of the properties about transaction structures and copies *)
From Verif Require Import Base UtfModel WriterModel ReaderModel CodecSpec ObjModel ObjReader
  KernelModel ObjSpec HidlSpec TxModel.

(* Objects are in order, don't overlap and are inside of the data *)
Fixpoint in_order (size_of : Z -> Z) (from : Z) (offs : list Z) (limit : Z) : Prop :=
  match offs with
  | [] => from <= limit
  | o :: r => from <= o /\ in_order size_of (o + size_of o) r limit
  end.

(* What the driver makes of the structure: it gives the receiver its own
   addresses and tells who the sender is; it may change the target *)
Definition deliver (i : io) (sent : bytes) (target cookie pid euid buffer offsets : Z) : bytes :=
  let t := tr_parse i sent in
  tr_image i {| tr_target := target; tr_cookie := cookie; tr_code := tr_code t;
    tr_flags := tr_flags t; tr_pid := pid; tr_euid := euid;
    tr_data_size := tr_data_size t; tr_offsets_size := tr_offsets_size t;
    tr_buffer := buffer; tr_offsets := offsets |}.

(* Well-formed contents: every object is complete *)
Definition contents_ok (i : io) (pr : protocol) (data : bytes) (objs : list Z) (off : Z) : Prop :=
  0 <= off /\ all_bytes data /\
  in_order (fun o => Z.max 4 (object_size i pr (k_type data o))) off objs (blen data).

(* The object at this place is converted to that local object *)
Definition converts (c : converter) (data : bytes) (o : Z) (l : local) : Prop :=
  exists f, c = Some f /\ k_type data o = TYPE_HANDLE /\ f (kfield data (o + 8) 4) = Some l.

(* The image of a local object *)
Definition converted_image (i : io) (pr : protocol) (l : local) : bytes :=
  flat_image i TYPE_BINDER 0x17f (lo_ptr l) 0 ++
  match pr with Aidl3 => le 4 (lo_stability l) | _ => [] end.

(* Does byte number j of the data belong to a converted object? *)
Definition in_converted (i : io) (pr : protocol) (c : converter) (data : bytes)
  (objs : list Z) (j : Z) : Prop :=
  exists o l, In o objs /\ converts c data o l /\ o <= j < o + flat_size i + flat_extra pr.

(* Descriptors: the array refers to numbers inside of a buffer and takes no
   space of its own *)
Definition has_fda (data : bytes) (objs : list Z) : bool :=
  existsb (fun o => k_type data o =? TYPE_FDA) objs.

Definition byte_at (l : bytes) (j : Z) : Z := nth (Z.to_nat j) l uninit.
