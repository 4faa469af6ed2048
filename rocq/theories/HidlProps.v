(* Property theorems about objects and HIDL values in whole messages. The
   vocabulary is in ObjSpec.v and HidlSpec.v; the modelled functions are in
   ObjModel.v and ObjReader.v, the driver is in KernelModel.v. *)
From Verif Require Import Base UtfModel WriterModel ReaderModel CodecSpec CodecSafety
  ObjModel ObjReader KernelModel ObjSpec HidlSpec HidlTrip HidlLinks FdsProofs ObjProps.

(* C09: every nested buffer names an earlier buffer, and the place inside of that
   buffer which holds the address of the nested one. *)
Theorem C09_parent_links :
  forall (i : io) (pr : protocol) (al : nat -> Z) (m : memory) (l : list op),
  (forall n, is_addr i (al n)) -> Forall (call_ok i pr m) l ->
  exists d, w_ops i pr al wd_empty l = Ok d /\
    (blen (wd_bytes d) < 2 ^ 31 ->
     Forall (fun b => holds m (fst b) (snd b)) (wd_heap d) ->
     linked i m (wd_bytes d) (wd_offsets d)).
Proof. exact ops_linked. Qed.
Print Assumptions C09_parent_links.

(* C09, for the array of descriptors which goes with a native handle: it names
   the buffer with the handle, the number of descriptors and the place in the
   handle where exactly these descriptors are. Any calls may come before. *)
Theorem C09_descriptors_found :
  forall (i : io) (pr : protocol) (al : nat -> Z) (l : list op) (slack : Z) (f : fds)
    (pa : option parent),
  Forall (op_ok i) (l ++ [OpFds slack (Some f) pa]) ->
  blen (fds_image f) < 2 ^ 32 -> 0 <= fs_ptr f < 2 ^ (8 * psz i) ->
  exists d, w_ops i pr al wd_empty (l ++ [OpFds slack (Some f) pa]) = Ok d /\
    (blen (wd_offsets d) < 2 ^ 31 -> fds_found i f (wd_bytes d) (wd_offsets d)).
Proof. exact descriptors_found. Qed.
Print Assumptions C09_descriptors_found.

(* non-vacuity: after calls of every kind *)
Example descriptors_case :
  match w_ops Io64 Aidl no_heap wd_empty sample_ops with
  | Ok d => length (wd_offsets d) = 26%nat
  | Fault _ => False
  end /\ exists l, sample_ops = l ++ [OpFds 4 (Some one_fd) None].
Proof.
  split; [vm_compute; reflexivity|].
  exists (removelast sample_ops). vm_compute. reflexivity.
Qed.

(* C10: whatever is appended is accepted by the driver, and the matching read
   calls of the receiver succeed, return what was appended and consume all of
   the data and all of the objects. Missing: messages which begin with a HIDL string or vector, for which it is false
   (C10_begins_with_buffer_refuted below). *)
Theorem C10_message_roundtrip_partial :
  forall (cm : cmode) (pr : protocol) (al : nat -> Z) (e : kenv) (l : list op),
  let i := k_io e in
  (forall n, is_addr i (al n)) ->
  Forall (call_ok i pr (k_mem e)) l -> Forall (foreign e) l -> starts_well l ->
  exists d, w_ops i pr al wd_empty l = Ok d /\
    (blen (wd_bytes d) < 2 ^ 31 ->
     Forall (fun b => holds (k_mem e) (fst b) (snd b)) (wd_heap d) ->
     0 < k_sgbase e -> k_sgbase e + align8 (wd_bufsize d) < 2 ^ (8 * psz i) ->
     exists g rs p, k_send e (wd_bytes d) (wd_offsets d) (wd_bufsize d) = Some g /\
       read_items cm i pr g (reader_init 0 (blen (m_data g)) (wd_offsets d)) (map (rkind_of i) l)
         = Ok (rs, p) /\
       Forall2 (got i e g) l rs /\ r_ptr p = blen (m_data g) /\ r_objects p = [] /\
       blen (m_data g) = blen (wd_bytes d)).
Proof. exact trip. Qed.
Print Assumptions C10_message_roundtrip_partial.

(* C11: references to objects and descriptors arrive as the receiver's handles
   and descriptors of the same things. Excluded are remote objects with the aidl3
   protocol and objects of the receiver (see the refutations in ObjProps.v) and
   NULL (see C12). *)
Definition is_reference (o : op) : bool :=
  match o with OpPlain _ | OpLocal _ | OpRemote _ | OpFd _ _ => true | _ => false end.
Theorem C11_object_roundtrip_partial :
  forall (cm : cmode) (pr : protocol) (al : nat -> Z) (e : kenv) (l : list op),
  let i := k_io e in
  Forall (fun o => is_reference o = true) l ->
  (forall n, is_addr i (al n)) ->
  Forall (call_ok i pr (k_mem e)) l -> Forall (foreign e) l -> starts_well l ->
  exists d, w_ops i pr al wd_empty l = Ok d /\
    (blen (wd_bytes d) < 2 ^ 31 ->
     Forall (fun b => holds (k_mem e) (fst b) (snd b)) (wd_heap d) ->
     0 < k_sgbase e -> k_sgbase e + align8 (wd_bufsize d) < 2 ^ (8 * psz i) ->
     exists g rs p, k_send e (wd_bytes d) (wd_offsets d) (wd_bufsize d) = Some g /\
       read_items cm i pr g (reader_init 0 (blen (m_data g)) (wd_offsets d)) (map (rkind_of i) l)
         = Ok (rs, p) /\
       Forall2 (got i e g) l rs /\ r_ptr p = blen (m_data g) /\ r_objects p = [] /\
       blen (m_data g) = blen (wd_bytes d)).
Proof. exact (fun cm pr al e l _ => trip cm pr al e l). Qed.
Print Assumptions C11_object_roundtrip_partial.

(* C52: a structure with pointers, vectors and strings of any depth arrives as a
   deep copy, wherever it is in the message *)
Theorem C52_structure_deep_copy :
  forall (cm : cmode) (pr : protocol) (al : nat -> Z) (e : kenv) (l : list op) (k : nat)
    (t : wtype) (ptr : Z),
  let i := k_io e in
  nth_error l k = Some (OpStruct (k_mem e) ptr t None) ->
  (forall n, is_addr i (al n)) ->
  Forall (call_ok i pr (k_mem e)) l -> Forall (foreign e) l -> starts_well l ->
  exists d, w_ops i pr al wd_empty l = Ok d /\
    (blen (wd_bytes d) < 2 ^ 31 ->
     Forall (fun b => holds (k_mem e) (fst b) (snd b)) (wd_heap d) ->
     0 < k_sgbase e -> k_sgbase e + align8 (wd_bufsize d) < 2 ^ (8 * psz i) ->
     exists g rs p b, k_send e (wd_bytes d) (wd_offsets d) (wd_bufsize d) = Some g /\
       read_items cm i pr g (reader_init 0 (blen (m_data g)) (wd_offsets d)) (map (rkind_of i) l)
         = Ok (rs, p) /\
       nth_error rs k = Some (IStruct b) /\ same_struct i (k_mem e) g t ptr b).
Proof. exact struct_trip. Qed.
Print Assumptions C52_structure_deep_copy.

(* ------------------------------------------------------------------ *)
(* non-vacuity: a message with everything in it *)
Definition block_mem (l : list (Z * bytes)) : memory := fun a =>
  match find (fun b => (fst b <=? a) && (a <? fst b + blen (snd b))) l with
  | Some (start, c) => nth (Z.to_nat (a - start)) c 0
  | None => 0
  end.
Definition user_blocks : list (Z * bytes) :=
  [(1024, le 8 1100 ++ le 8 2 ++ le 8 1200 ++ le 8 2 ++ le 8 9 ++ le 8 1300);
   (1100, [65; 66; 0]);
   (1200, le 8 0 ++ le 8 0 ++ le 8 1100 ++ le 8 2);
   (1300, [1; 2; 3; 4; 5; 6; 7; 8])].
Definition trip_ops (m : memory) : list op :=
  [OpPlain (VInt32 7); OpLocal (Some {| lo_ptr := 4096; lo_stability := 12 |});
   OpRemote (Some 5); OpFd 1 2; OpHidlVec (Some [1; 2; 3; 4]) 2 2;
   OpHidlString (Some (1100, [65; 66])); OpPlain (VInt32 8);
   OpHidlStringVec [Some (1100, [65; 66]); Some (1101, [66])];
   OpStruct m 1024 sample_type None; OpStructVec m 1024 1 sample_type].
Definition heap_at (n : nat) : Z := 8192 + 64 * (Z.of_nat n mod 1024).
(* the blocks which are allocated by the writer don't depend on the memory of
   other blocks *)
Definition trip_heap : list (Z * bytes) :=
  match w_ops Io64 Hidl heap_at wd_empty (trip_ops (block_mem user_blocks)) with
  | Ok d => wd_heap d
  | Fault _ => []
  end.
Definition trip_mem : memory := block_mem (user_blocks ++ trip_heap).
Definition trip_env : kenv :=
  {| k_io := Io64; k_sgbase := 65536; k_mem := trip_mem; k_node := fun n => n / 4096;
     k_ref := fun h => Some (h + 1); k_own := fun _ => 0; k_fd := fun f => f + 10 |}.

Example trip_mem_bytes : byte_memory trip_mem.
Proof.
  intros a. unfold trip_mem, block_mem.
  assert (H : forallb (fun b => forallb (fun x => (0 <=? x) && (x <? 256)) (snd b))
                (user_blocks ++ trip_heap) = true) by (vm_compute; reflexivity).
  destruct (find _ _) as [[s c]|] eqn:E; [|unfold is_byte; lia].
  apply find_some in E. destruct E as [E _]. rewrite forallb_forall in H. specialize (H _ E).
  rewrite forallb_forall in H. cbn [snd] in H.
  destruct (Nat.lt_ge_cases (Z.to_nat (a - s)) (length c)) as [Hl|Hl].
  - specialize (H _ (nth_In c 0 Hl)). unfold is_byte. lia.
  - rewrite nth_overflow by exact Hl. unfold is_byte. lia.
Qed.
Example trip_struct : struct_ok Io64 trip_mem sample_type 1024.
Proof.
  assert (E1 : mread_ptr Io64 trip_mem 1024 = 1100) by (vm_compute; reflexivity).
  assert (E2 : mread32 trip_mem 1032 = 2) by (vm_compute; reflexivity).
  assert (E3 : mread_ptr Io64 trip_mem 1040 = 1200) by (vm_compute; reflexivity).
  assert (E4 : mread32 trip_mem 1048 = 2) by (vm_compute; reflexivity).
  assert (E5 : mread_ptr Io64 trip_mem 1064 = 1300) by (vm_compute; reflexivity).
  assert (E6 : mread_ptr Io64 trip_mem 1200 = 0) by (vm_compute; reflexivity).
  assert (E7 : mread_ptr Io64 trip_mem 1216 = 1100) by (vm_compute; reflexivity).
  assert (E8 : mread32 trip_mem 1224 = 2) by (vm_compute; reflexivity).
  cbn [struct_ok sample_type Z.add Pos.add Pos.succ Pos.add_carry wt_size]. unfold is_addr.
  rewrite E1, E2, E3, E4, E5. change (2 ^ (8 * psz Io64)) with (2 ^ 64).
  split; [lia|]. split; [|split; [lia|exact I]].
  split; [lia|]. split; [lia|]. intros k Hk.
  assert (H : k = 0 \/ k = 1) by lia. destruct H as [-> | ->]; cbn [Z.mul Pos.mul Z.add Pos.add Pos.succ Pos.add_carry].
  - rewrite E6. split; [left; reflexivity|exact I].
  - rewrite E7, E8. split; [lia|exact I].
Qed.
Example trip_calls : Forall (call_ok Io64 Hidl trip_mem) (trip_ops trip_mem).
Proof.
  pose proof trip_mem_bytes. pose proof trip_struct as Hs.
  assert (Ht : type_ok Io64 sample_type) by (cbn; repeat split; lia).
  assert (S1 : string_ok Io64 trip_mem (Some (1100, [65; 66]))).
  { cbn [string_ok]. split; [vm_compute; split; reflexivity|]. split; [repeat constructor; unfold is_byte; lia|].
    split; [cbn; lia|]. split; [vm_compute; reflexivity|vm_compute; reflexivity]. }
  assert (S2 : string_ok Io64 trip_mem (Some (1101, [66]))).
  { cbn [string_ok]. split; [vm_compute; split; reflexivity|]. split; [repeat constructor; unfold is_byte; lia|].
    split; [cbn; lia|]. split; [vm_compute; reflexivity|vm_compute; reflexivity]. }
  unfold trip_ops.
  apply Forall_cons. { cbn. unfold in_range. split; [lia|]. exact I. }
  apply Forall_cons. { vm_compute. split; reflexivity. }
  apply Forall_cons. { cbn. split; [lia|discriminate]. }
  apply Forall_cons. { cbn [call_ok]. unfold in_range. lia. }
  apply Forall_cons. { cbn [call_ok]. split; [lia|]. split; [lia|]. split; [lia|]. split; [reflexivity|].
    repeat constructor; unfold is_byte; lia. }
  apply Forall_cons. { exact S1. }
  apply Forall_cons. { cbn. unfold in_range. split; [lia|]. exact I. }
  apply Forall_cons. { cbn [call_ok]. split; [apply Forall_cons; [exact S1|apply Forall_cons; [exact S2|apply Forall_nil]]|vm_compute; reflexivity]. }
  apply Forall_cons. { cbn [call_ok]. split; [reflexivity|]. split; [assumption|].
    split; [vm_compute; split; reflexivity|]. split; assumption. }
  apply Forall_cons; [|constructor].
  cbn [call_ok]. split; [reflexivity|]. split; [assumption|]. split; [lia|]. split; [assumption|].
  split; [reflexivity|]. split; [reflexivity|]. split; [right; vm_compute; split; reflexivity|].
  split; [vm_compute; split; [discriminate|reflexivity]|].
  intros k Hk. assert (k = 0) by lia. subst k. exact Hs.
Qed.
Example trip_foreign : Forall (foreign trip_env) (trip_ops trip_mem).
Proof. repeat constructor; discriminate. Qed.
Example trip_starts : starts_well (trip_ops trip_mem).
Proof. vm_compute. discriminate. Qed.
(* ... and messages which begin with an object *)
Example trip_starts_object : starts_well [OpLocal (Some {| lo_ptr := 4096; lo_stability := 0 |}); OpHidlString None].
Proof. exact I. Qed.
Example trip_addrs : forall n, is_addr Io64 (heap_at n).
Proof.
  intros n. unfold is_addr, heap_at. change (2 ^ (8 * psz Io64)) with (2 ^ 64).
  pose proof (Z.mod_pos_bound (Z.of_nat n) 1024). lia.
Qed.
Example trip_rest : exists d, w_ops Io64 Hidl heap_at wd_empty (trip_ops trip_mem) = Ok d /\
  blen (wd_bytes d) < 2 ^ 31 /\ length (wd_heap d) = 6%nat /\
  Forall (fun b => holds trip_mem (fst b) (snd b)) (wd_heap d) /\
  k_sgbase trip_env + align8 (wd_bufsize d) < 2 ^ 64.
Proof.
  eexists. split; [vm_compute; reflexivity|]. cbn [wd_bytes wd_heap wd_bufsize].
  split; [vm_compute; reflexivity|]. split; [reflexivity|].
  split; [repeat (apply Forall_cons; [vm_compute; reflexivity|]); apply Forall_nil|].
  vm_compute. reflexivity.
Qed.

(* C10, refuted for messages which begin with a HIDL string or vector, like a reply without a status: the driver
   refuses every one of them *)
Theorem C10_begins_with_buffer_refuted :
  forall (pr : protocol) (al : nat -> Z) (e : kenv) (l : list op) (d : wdata),
  let i := k_io e in
  (forall n, is_addr i (al n)) -> Forall (call_ok i pr (k_mem e)) l -> starts_hidl l ->
  w_ops i pr al wd_empty l = Ok d -> k_send e (wd_bytes d) (wd_offsets d) (wd_bufsize d) = None.
Proof. exact begins_with_buffer. Qed.
Print Assumptions C10_begins_with_buffer_refuted.
Example C10_begins_with_buffer_ex :
  call_ok Io64 Hidl trip_mem (OpHidlString (Some (1100, [65; 66]))) /\
  starts_hidl [OpHidlString (Some (1100, [65; 66]))] /\
  match w_ops Io64 Hidl heap_at wd_empty [OpHidlString (Some (1100, [65; 66]))] with
  | Ok d => length (wd_offsets d) = 2%nat
  | Fault _ => False
  end.
Proof.
  split; [|split; [exact I|vm_compute; reflexivity]].
  cbn [call_ok string_ok]. split; [vm_compute; split; reflexivity|]. split; [repeat constructor; unfold is_byte; lia|].
  split; [cbn; lia|]. split; [vm_compute; reflexivity|reflexivity].
Qed.
