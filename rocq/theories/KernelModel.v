(* The binder driver, as far as it transforms the data of a transaction on its
   way to the receiver. This is the environment of the library, not code in
   /repo: it follows binder_transaction(), binder_get_object(),
   binder_validate_ptr(), binder_validate_fixup() and binder_fixup_parent() of
   the Linux driver (drivers/android/binder.c), including the checks which make
   the driver reject a transaction. Simplifications: reference counting, death
   and security checks are left out; the tables which map nodes to handles and
   descriptors to descriptors of the receiver are parameters. *)
From Verif Require Import Base WriterModel ObjModel ObjReader.

Record kenv := {
  k_io : io;
  k_sgbase : Z;               (* address of the buffers in the receiver *)
  k_mem : memory;             (* memory of the sender *)
  k_node : Z -> Z;            (* receiver's handle for a node of the sender *)
  k_ref : Z -> option Z;      (* sender's handle: Some h - receiver's handle
                                 for it; None - it is receiver's own node *)
  k_own : Z -> Z;             (* address of that own node *)
  k_fd : Z -> Z               (* descriptor number in the receiver *)
}.

(* Fields of the structures in the data *)
Definition kfield (b : bytes) (off n : Z) : Z := unle (slice b off n).
Definition k_type (b : bytes) (off : Z) : Z := kfield b off 4.

Record kptr := {
  kp_flags : Z; kp_buffer : Z; kp_length : Z; kp_parent : Z; kp_poff : Z }.
Definition k_ptr (i : io) (b : bytes) (off : Z) : kptr :=
  {| kp_flags := kfield b (off + 4) 4;
     kp_buffer := kfield b (off + 8) (psz i);
     kp_length := kfield b (off + 8 + psz i) (psz i);
     kp_parent := kfield b (off + 8 + 2 * psz i) (psz i);
     kp_poff := kfield b (off + 8 + 3 * psz i) (psz i) |}.
Definition kp_has_parent (o : kptr) : bool := Z.testbit (kp_flags o) 0.

Definition k_object_size (i : io) (type : Z) : Z :=
  if (type =? TYPE_BINDER) || (type =? TYPE_WEAK_BINDER) ||
     (type =? TYPE_HANDLE) || (type =? TYPE_WEAK_HANDLE) || (type =? TYPE_FD)
  then flat_size i
  else if type =? TYPE_PTR then ptr_size i
  else if type =? TYPE_FDA then fda_size i
  else 0.

(* binder_get_object: the size of the object, 0 if there is no valid one *)
Definition k_get_object (i : io) (b : bytes) (off : Z) : Z :=
  if (0 <=? off) && (off + 4 <=? blen b) && (off mod 4 =? 0) then
    let size := k_object_size i (k_type b off) in
    if off + size <=? blen b then size else 0
  else 0.

Record kstate := {
  ks_data : bytes;            (* the copy of the data, objects translated *)
  ks_sg : bytes;              (* the buffers copied so far *)
  ks_min : Z;                 (* off_min *)
  ks_last : Z;                (* last_fixup_obj_off *)
  ks_last_min : Z             (* last_fixup_min_off *)
}.

(* binder_validate_ptr *)
Definition k_validate_ptr (b : bytes) (offsets : list Z) (index num_valid : Z)
  : option Z :=
  if index <? num_valid then
    match nth_error offsets (Z.to_nat index) with
    | Some off => if k_type b off =? TYPE_PTR then Some off else None
    | None => None
    end
  else None.

(* The loop of binder_validate_fixup. A parent precedes its child, so that the
   number of steps is limited by the number of objects. *)
Fixpoint k_fixup_loop (fuel : nat) (i : io) (b : bytes) (offsets : list Z)
  (last last_min target fixup : Z) : bool :=
  if last =? target then last_min <=? fixup
  else
    match fuel with
    | O => false
    | S f =>
      let o := k_ptr i b last in
      if kp_has_parent o then
        match nth_error offsets (Z.to_nat (kp_parent o)) with
        | Some last2 =>
          k_fixup_loop f i b offsets last2 (kp_poff o + psz i) target fixup
        | None => false
        end
      else false
    end.

(* binder_validate_fixup *)
Definition k_validate_fixup (i : io) (s : kstate) (offsets : list Z)
  (target fixup : Z) : bool :=
  if ks_last s =? 0 then false
  else k_fixup_loop (length offsets) i (ks_data s) offsets
         (ks_last s) (ks_last_min s) target fixup.

Definition k_pad8 (l : bytes) : bytes := l ++ zrepeat uninit (align8 (blen l) - blen l).

(* BINDER_TYPE_PTR of binder_transaction, with binder_fixup_parent *)
Definition k_do_ptr (e : kenv) (offsets : list Z) (bufsize : Z) (index off : Z)
  (s : kstate) : option kstate :=
  let i := k_io e in
  let o := k_ptr i (ks_data s) off in
  if align8 bufsize - blen (ks_sg s) <? kp_length o then None
  else if (kp_buffer o =? 0) && negb (kp_length o =? 0) then None
  else
    let addr := k_sgbase e + blen (ks_sg s) in
    let sg1 := ks_sg s ++ k_pad8 (mread (k_mem e) (kp_buffer o) (kp_length o)) in
    let data1 := poke (ks_data s) (off + 8) (le (psize i) addr) in
    let done sg := Some {| ks_data := data1; ks_sg := sg; ks_min := ks_min s;
                           ks_last := off; ks_last_min := 0 |} in
    if kp_has_parent o then
      match k_validate_ptr (ks_data s) offsets (kp_parent o) index with
      | Some poff =>
        let po := k_ptr i (ks_data s) poff in
        if negb (k_validate_fixup i s offsets poff (kp_poff o)) then None
        else if kp_length po <? kp_poff o + psz i then None
        else done (poke sg1 (kp_buffer po - k_sgbase e + kp_poff o)
                     (le (psize i) addr))
      | None => None
      end
    else done sg1.

(* BINDER_TYPE_FDA of binder_transaction, with binder_translate_fd_array *)
Fixpoint k_map_fds (e : kenv) (sg : bytes) (pos : Z) (n : nat) : bytes :=
  match n with
  | O => sg
  | S n1 =>
    k_map_fds e (poke sg pos (le 4 (k_fd e (sgn 32 (kfield sg pos 4))))) (pos + 4) n1
  end.

Definition k_do_fda (e : kenv) (offsets : list Z) (index off : Z) (s : kstate)
  : option kstate :=
  let i := k_io e in
  let num_fds := kfield (ks_data s) (off + 8) (psz i) in
  let pidx := kfield (ks_data s) (off + 8 + psz i) (psz i) in
  let fix_off := kfield (ks_data s) (off + 8 + 2 * psz i) (psz i) in
  match k_validate_ptr (ks_data s) offsets pidx index with
  | Some poff =>
    let po := k_ptr i (ks_data s) poff in
    if negb (k_validate_fixup i s offsets poff fix_off) then None
    else if kp_length po <? fix_off + 4 * num_fds then None
    else
      Some {| ks_data := ks_data s;
              ks_sg := k_map_fds e (ks_sg s) (kp_buffer po - k_sgbase e + fix_off)
                         (Z.to_nat num_fds);
              ks_min := ks_min s;
              ks_last := poff;
              ks_last_min := fix_off + 4 * num_fds |}
  | None => None
  end.

(* The flat objects: binder_translate_binder, binder_translate_handle and
   binder_translate_fd *)
Definition k_do_flat (e : kenv) (off : Z) (s : kstate) : kstate :=
  let i := k_io e in
  let b := ks_data s in
  let t := k_type b off in
  let flags := kfield b (off + 4) 4 in
  let image :=
    if (t =? TYPE_BINDER) || (t =? TYPE_WEAK_BINDER) then
      flat_image i (if t =? TYPE_BINDER then TYPE_HANDLE else TYPE_WEAK_HANDLE)
        flags (u32 (k_node e (kfield b (off + 8) (psz i)))) 0
    else if (t =? TYPE_HANDLE) || (t =? TYPE_WEAK_HANDLE) then
      let h := kfield b (off + 8) 4 in
      match k_ref e h with
      | Some h2 => flat_image i t flags (u32 h2) 0
      | None => flat_image i (if t =? TYPE_HANDLE then TYPE_BINDER else TYPE_WEAK_BINDER)
                  flags (k_own e h) 0
      end
    else
      flat_image i t flags (u32 (k_fd e (sgn 32 (kfield b (off + 8) 4)))) 0 in
  {| ks_data := poke b off image; ks_sg := ks_sg s; ks_min := ks_min s;
     ks_last := ks_last s; ks_last_min := ks_last_min s |}.

(* One iteration of the loop over the objects in binder_transaction *)
Definition k_step (e : kenv) (offsets : list Z) (bufsize : Z) (index off : Z)
  (s : kstate) : option kstate :=
  let size := k_get_object (k_io e) (ks_data s) off in
  if (size =? 0) || (off <? ks_min s) then None
  else
    let s1 := {| ks_data := ks_data s; ks_sg := ks_sg s; ks_min := off + size;
                 ks_last := ks_last s; ks_last_min := ks_last_min s |} in
    let t := k_type (ks_data s) off in
    if t =? TYPE_PTR then k_do_ptr e offsets bufsize index off s1
    else if t =? TYPE_FDA then k_do_fda e offsets index off s1
    else Some (k_do_flat e off s1).

Fixpoint k_run (e : kenv) (offsets : list Z) (bufsize : Z) (index : Z) (rest : list Z)
  (s : kstate) : option kstate :=
  match rest with
  | [] => Some s
  | off :: r =>
    match k_step e offsets bufsize index off s with
    | Some s1 => k_run e offsets bufsize (index + 1) r s1
    | None => None
    end
  end.

(* What the receiver gets; None if the driver rejects the transaction *)
Definition k_send (e : kenv) (data : bytes) (offsets : list Z) (bufsize : Z)
  : option message :=
  match k_run e offsets bufsize 0 offsets
          {| ks_data := data; ks_sg := []; ks_min := 0; ks_last := 0; ks_last_min := 0 |}
  with
  | Some s => Some {| m_data := ks_data s; m_sgbase := k_sgbase e; m_sg := ks_sg s |}
  | None => None
  end.
