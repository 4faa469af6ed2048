(* Vocabulary of the property that reading objects is safe: which calls are bad
   and which addresses may be handed out *)
From Verif Require Import Base UtfModel WriterModel ReaderModel CodecSpec CodecSafety
  ObjModel ObjReader KernelModel ObjSpec HidlSpec.

(* There is no string header whose length is 2^32 - 1 *)
Definition no_huge_string (g : message) : Prop :=
  forall a, in_message g a 16 -> tload32 g (a + 8) <> Ok (2 ^ 32 - 1).

(* A bad call: a plain one as in CodecSpec.bad_call, or an object which is shorter
   than what the protocol expects at the very end of the data *)
Definition bad_item (cm : cmode) (i : io) (pr : protocol) (g : message) (p : reader)
  (k : rkind) : Prop :=
  match k with
  | RKPlain k => bad_call cm (m_data g) p k
  | RKObject => can_read_object p = true /\
                r_ptr p + flat_size i <= r_end p < r_ptr p + flat_size i + flat_extra pr
  | _ => False
  end.

Fixpoint good_items (cm : cmode) (i : io) (pr : protocol) (g : message) (p : reader)
  (ks : list rkind) : Prop :=
  match ks with
  | [] => True
  | k :: r =>
    ~ bad_item cm i pr g p k /\
    match read_item cm i pr g p k with
    | Ok (_, p1) => good_items cm i pr g p1 r
    | Fault _ => True
    end
  end.

(* The memory handed out to the caller is in the message *)
Definition item_safe (g : message) (k : rkind) (r : ritem) : Prop :=
  match k, r with
  | RKStruct size _, IStruct a => in_message g a size
  | _, IStructVec a count elemsize => in_message g a (count * elemsize)
  | _, _ => True
  end.
