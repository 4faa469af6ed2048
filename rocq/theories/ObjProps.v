(* Property theorems about objects in the data. The vocabulary is in ObjSpec.v
   and HidlSpec.v; the modelled functions are in ObjModel.v and ObjReader.v, the
   driver is in KernelModel.v. *)
From Verif Require Import Base UtfModel WriterModel ReaderModel CodecSpec CodecSafety
  ObjModel ObjReader KernelModel ObjSpec HidlSpec ObjProofs ObjInvariant.

(* C07: after any sequence of append calls the list of offsets names exactly the
   objects which were appended: all of them, in order, each with its contents,
   inside of the data and not overlapping. *)
Theorem C07_offsets_exact :
  forall (i : io) (pr : protocol) (al : nat -> Z) (l : list op),
  Forall (op_ok i) l ->
  exists d, w_ops i pr al wd_empty l = Ok d /\
    objects_at i (wd_bytes d) 0 (wd_offsets d) (flat_map (op_wants i) l).
Proof.
  exact (fun i pr al l H => let (d, p) := ops_objects i pr al l H in
    ex_intro _ d (conj (proj1 p) (proj1 (proj2 p)))).
Qed.
Print Assumptions C07_offsets_exact.

(* C08: the size of the scatter-gather area which is announced to the driver is
   exactly the space taken by the listed buffers, each at a multiple of 8. *)
Theorem C08_buffers_size_exact :
  forall (i : io) (pr : protocol) (al : nat -> Z) (l : list op),
  Forall (op_ok i) l ->
  exists d, w_ops i pr al wd_empty l = Ok d /\
    wd_bufsize d = space_needed i (wd_bytes d) (wd_offsets d).
Proof.
  exact (fun i pr al l H => let (d, p) := ops_objects i pr al l H in
    ex_intro _ d (conj (proj1 p) (proj2 (proj2 p)))).
Qed.
Print Assumptions C08_buffers_size_exact.

(* C46: the writer stays inside of the memory it owns, for calls which satisfy
   [op_ok]: all of them except those which append descriptors when the array of
   bytes has no spare room. *)
Theorem C46_writer_in_bounds_partial :
  forall (i : io) (pr : protocol) (al : nat -> Z) (l : list op),
  Forall (op_ok i) l -> exists d, w_ops i pr al wd_empty l = Ok d.
Proof.
  exact (fun i pr al l H => let (d, p) := ops_objects i pr al l H in
    ex_intro _ d (proj1 p)).
Qed.
Print Assumptions C46_writer_in_bounds_partial.

(* C46, refuted in general: 28 bytes are reserved for the array of descriptors,
   while the 64-bit structure takes 32 *)
Definition no_heap (n : nat) : Z := 4096 + 64 * Z.of_nat n.
Definition one_fd : fds := {| fs_ptr := 4096; fs_version := 12; fs_fds := [3]; fs_ints := [] |}.
Theorem C46_writer_in_bounds_refuted :
  w_ops Io64 Aidl no_heap wd_empty [OpFds 0 (Some one_fd) None] = Fault OutOfBounds.
Proof. vm_compute. reflexivity. Qed.
Print Assumptions C46_writer_in_bounds_refuted.

(* non-vacuity: calls of every kind *)
Definition sample_type : wtype :=
  WType 48 [(0, FString); (16, FVec (Some (WType 16 [(0, FString)]))); (40, FPointer (WType 8 []))].
Definition sample_mem : memory := fun a =>
  nth (Z.to_nat a) (le 8 200 ++ le 8 2 ++ le 8 300 ++ le 8 2) 0.
Definition sample_ops : list op :=
  [OpPlain (VInt32 7); OpLocal (Some {| lo_ptr := 4096; lo_stability := 12 |}); OpLocal None;
   OpRemote (Some 5); OpFd 1 2; OpHidlVec (Some [1; 2; 3; 4]) 2 2;
   OpHidlString (Some (8192, [65; 66])); OpHidlStringVec [Some (8192, [65]); None];
   OpStruct sample_mem 0 sample_type None; OpStructVec sample_mem 0 1 sample_type;
   OpFds 4 (Some one_fd) None].
Example sample_ops_ok : Forall (op_ok Io64) sample_ops.
Proof.
  unfold sample_ops, op_ok.
  repeat (apply Forall_cons; [first [exact I|vm_compute; discriminate|vm_compute; split; discriminate]|]).
  apply Forall_nil.
Qed.
Example sample_ops_many :
  length (flat_map (op_wants Io64) sample_ops) = 26%nat.
Proof. vm_compute. reflexivity. Qed.

(* C11, refuted for the aidl3 protocol: a reference to a remote object followed
   by the numbers 7 and 8 is received as that object followed by 8. *)
Definition sample_env (i : io) : kenv :=
  {| k_io := i; k_sgbase := 65536; k_mem := fun _ => 0; k_node := fun n => n / 4096;
     k_ref := fun h => Some (h + 1); k_own := fun _ => 0; k_fd := fun f => f + 10 |}.
Theorem C11_remote_object_refuted_aidl3 :
  forall i, exists d g p,
    w_ops i Aidl3 no_heap wd_empty
      [OpPlain (VInt32 1); OpRemote (Some 5); OpPlain (VInt32 7); OpPlain (VInt32 8)] = Ok d /\
    k_send (sample_env i) (wd_bytes d) (wd_offsets d) (wd_bufsize d) = Some g /\
    read_items Strict i Aidl3 g (reader_init 0 (blen (wd_bytes d)) (wd_offsets d))
      [RKPlain KInt32; RKObject; RKPlain KInt32] =
    Ok ([IPlain (RNum 1); IObject (Some 6); IPlain (RNum 8)], p).
Proof. intros []; eexists _, _, _; repeat split; vm_compute; reflexivity. Qed.
Print Assumptions C11_remote_object_refuted_aidl3.

(* C11, refuted: an object which comes back to the process that owns it can't be
   read, not even skipped *)
Theorem C11_own_object_refuted :
  forall i pr, exists d g p e,
    w_ops i pr no_heap wd_empty [OpPlain (VInt32 1); OpRemote (Some 5); OpPlain (VInt32 7)] = Ok d /\
    k_send e (wd_bytes d) (wd_offsets d) (wd_bufsize d) = Some g /\
    read_items Strict i pr g (reader_init 0 (blen (wd_bytes d)) (wd_offsets d))
      [RKPlain KInt32; RKObject; RKObject] = Ok ([IPlain (RNum 1); IFail; IFail], p).
Proof.
  intros i pr.
  set (e := {| k_io := i; k_sgbase := 65536; k_mem := fun _ => 0; k_node := fun n => n;
     k_ref := fun _ => None; k_own := fun _ => 4096; k_fd := fun f => f |}).
  destruct i, pr; eexists _, _, _, e; repeat split; vm_compute; reflexivity.
Qed.
Print Assumptions C11_own_object_refuted.

(* C12, refuted: a NULL object which was appended can't be read back, whether it
   was appended as a local or as a remote one, and in any protocol: the reader
   reports a failure and stays in front of it. *)
Theorem C12_null_object_refuted :
  forall i pr o, o = OpLocal None \/ o = OpRemote None ->
  exists d g p,
    w_ops i pr no_heap wd_empty [OpPlain (VInt32 1); o; OpPlain (VInt32 7)] = Ok d /\
    k_send (sample_env i) (wd_bytes d) (wd_offsets d) (wd_bufsize d) = Some g /\
    read_items Strict i pr g (reader_init 0 (blen (wd_bytes d)) (wd_offsets d))
      [RKPlain KInt32; RKObject] = Ok ([IPlain (RNum 1); IFail], p) /\ r_ptr p = 4.
Proof.
  intros i pr o [-> | ->]; destruct i, pr; eexists _, _, _; repeat split; vm_compute; reflexivity.
Qed.
Print Assumptions C12_null_object_refuted.
