(* Property theorems about message queues which are sent to another process. The
   vocabulary is in FmqSendSpec.v; the modelled functions are in FmqModel.v and
   FmqSendModel.v, the driver is in KernelModel.v. *)
From Verif Require Import Base UtfModel WriterModel ReaderModel CodecSpec CodecSafety
  ObjModel ObjReader KernelModel ObjSpec HidlSpec FmqModel FmqSendModel FmqSendSpec FmqSendProofs
  ObjProps HidlProps.

(* C62: whatever is appended before and after it, a queue arrives: the receiver who
   has read what precedes gets the address of a descriptor which describes the same
   queue, with descriptors of the receiver. What precedes and what follows arrives
   as if the queue weren't there. [slack] is the number of bytes which the buffer
   of the writer has beyond what it has reserved for the array of descriptors, see
   C09. *)
Theorem C62_queue_arrives :
  forall (cm : cmode) (pr : protocol) (al : nat -> Z) (slack : Z) (e : kenv) (l1 : list op)
    (bits page item_size num_items : Z) (k : qkind) (event_flag : bool) (fd : option Z)
    (buffer_size shmem_fd : Z) (c : created) (l2 : list op),
  let i := k_io e in
  let q := fmq_desc c (fmq_type k) shmem_fd fd in
  (bits = 32 \/ bits = 64) ->
  fmq_new bits page item_size num_items k event_flag
    (match fd with Some _ => true | None => false end) buffer_size = Some c ->
  in_range (- 2 ^ 31) (2 ^ 31) shmem_fd ->
  match fd with Some f => in_range (- 2 ^ 31) (2 ^ 31) f | None => True end ->
  (forall n, is_addr i (al n)) -> 0 <= slack -> fda_size i <= MAX_BINDER_OBJECT_SIZE + slack ->
  Forall (call_ok i pr (k_mem e)) l1 -> Forall (foreign e) l1 -> starts_plain l1 ->
  Forall (call_ok i pr (k_mem e)) l2 -> Forall (foreign e) l2 ->
  exists d1 d2 d,
    w_ops i pr al wd_empty l1 = Ok d1 /\ w_fmq i al slack d1 q = Ok d2 /\
    w_ops i pr al d2 l2 = Ok d /\
    (blen (wd_bytes d) < 2 ^ 31 ->
     Forall (fun b => holds (k_mem e) (fst b) (snd b)) (wd_heap d) ->
     0 < k_sgbase e -> k_sgbase e + align8 (wd_bufsize d) < 2 ^ (8 * psz i) ->
     exists g rs1 p1 a p2 rs2 p3,
       k_send e (wd_bytes d) (wd_offsets d) (wd_bufsize d) = Some g /\
       read_items cm i pr g (reader_init 0 (blen (m_data g)) (wd_offsets d))
         (map (rkind_of i) l1) = Ok (rs1, p1) /\
       Forall2 (got i e g) l1 rs1 /\
       rd_hidl_struct i g p1 32 = Ok (Some a, p2) /\
       same_queue e g q a /\
       read_items cm i pr g
         {| r_start := 0; r_end := blen (m_data g); r_ptr := blen (wd_bytes d2);
            r_objects := skipn (length (wd_offsets d2)) (wd_offsets d) |}
         (map (rkind_of i) l2) = Ok (rs2, p3) /\
       Forall2 (got i e g) l2 rs2).
Proof.
  exact (fun cm pr al slack e l1 bits page item num k ev fd bs sfd c l2 Hb Hn H1 H2 Ha S0 S1 C1 F1 P C2 F2 =>
    queue_trip cm pr al slack e l1 _ l2 Ha C1 F1 P
      (new_queue_ok bits page item num k ev fd bs c sfd Hb Hn H1 H2) S0 S1 C2 F2).
Qed.
Print Assumptions C62_queue_arrives.

(* C62, for descriptors of any queue: any number of grantors, descriptors and
   integers in the native handle *)
Theorem C62_any_queue_arrives :
  forall (cm : cmode) (pr : protocol) (al : nat -> Z) (slack : Z) (e : kenv) (l1 : list op)
    (q : mqdesc) (l2 : list op),
  let i := k_io e in
  (forall n, is_addr i (al n)) ->
  Forall (call_ok i pr (k_mem e)) l1 -> Forall (foreign e) l1 -> starts_plain l1 ->
  mq_ok q -> 0 <= slack -> fda_size i <= MAX_BINDER_OBJECT_SIZE + slack ->
  Forall (call_ok i pr (k_mem e)) l2 -> Forall (foreign e) l2 ->
  exists d1 d2 d,
    w_ops i pr al wd_empty l1 = Ok d1 /\ w_fmq i al slack d1 q = Ok d2 /\
    w_ops i pr al d2 l2 = Ok d /\
    (blen (wd_bytes d) < 2 ^ 31 ->
     Forall (fun b => holds (k_mem e) (fst b) (snd b)) (wd_heap d) ->
     0 < k_sgbase e -> k_sgbase e + align8 (wd_bufsize d) < 2 ^ (8 * psz i) ->
     exists g rs1 p1 a p2 rs2 p3,
       k_send e (wd_bytes d) (wd_offsets d) (wd_bufsize d) = Some g /\
       read_items cm i pr g (reader_init 0 (blen (m_data g)) (wd_offsets d))
         (map (rkind_of i) l1) = Ok (rs1, p1) /\
       Forall2 (got i e g) l1 rs1 /\
       rd_hidl_struct i g p1 32 = Ok (Some a, p2) /\
       same_queue e g q a /\
       read_items cm i pr g
         {| r_start := 0; r_end := blen (m_data g); r_ptr := blen (wd_bytes d2);
            r_objects := skipn (length (wd_offsets d2)) (wd_offsets d) |}
         (map (rkind_of i) l2) = Ok (rs2, p3) /\
       Forall2 (got i e g) l2 rs2).
Proof. exact queue_trip. Qed.
Print Assumptions C62_any_queue_arrives.

(* C62: but whatever describes a queue which has been created by gbinder_fmq_new has
   a native handle of a wrong version, which native_handle_close() and
   native_handle_clone() of the receiver refuse *)
Theorem C62_handle_version_refuted :
  forall (bits page item_size num_items : Z) (k : qkind) (event_flag : bool) (fd : option Z)
    (buffer_size shmem_fd : Z) (c : created) (e : kenv) (g : message) (a : Z),
  fmq_new bits page item_size num_items k event_flag
    (match fd with Some _ => true | None => false end) buffer_size = Some c ->
  same_queue e g (fmq_desc c (fmq_type k) shmem_fd fd) a ->
  ~ handle_at g (number g (a + 16) (psz (k_io e))) HANDLE_VERSION
      (map (k_fd e) (mq_fds (fmq_desc c (fmq_type k) shmem_fd fd))) [].
Proof.
  intros bits page item num k ev fd bs sfd c e g a _ (_ & _ & _ & _ & _ & _ & _ & (V & _)) (W & _).
  rewrite V in W. unfold HANDLE_VERSION, fmq_desc in W. cbn [mq_version] in W.
  destruct fd; vm_compute in W; discriminate.
Qed.
Print Assumptions C62_handle_version_refuted.

(* ------------------------------------------------------------------ *)
(* non-vacuity: a queue between other things, the buffer belongs to the user *)
Definition send_created : created :=
  {| c_queue := {| gbits := 64; kind := Unsync; quantum := 24; extent := 24000 |};
     c_grantors := [{| fd_index := 0; g_offset := 0; g_extent := 8 |};
                    {| fd_index := 0; g_offset := 8; g_extent := 8 |};
                    {| fd_index := 1; g_offset := 0; g_extent := 24000 |};
                    {| fd_index := 0; g_offset := 16; g_extent := 4 |}];
     c_shmem := 4096 |}.
Definition send_queue : mqdesc := fmq_desc send_created (fmq_type Unsync) 7 (Some 8).
Definition send_before : list op := [OpPlain (VInt32 7); OpHidlVec (Some [1; 2; 3; 4]) 2 2].
Definition send_after : list op := [OpFd 1 2; OpHidlString (Some (1100, [65; 66]))].
Definition send_at (n : nat) : Z := 8192 + 128 * (Z.of_nat n mod 1024).
Definition send_heap : list (Z * bytes) :=
  match w_ops Io64 Hidl send_at wd_empty send_before with
  | Ok d1 => match w_fmq Io64 send_at 4 d1 send_queue with
             | Ok d2 => match w_ops Io64 Hidl send_at d2 send_after with
                        | Ok d => wd_heap d
                        | Fault _ => []
                        end
             | Fault _ => []
             end
  | Fault _ => []
  end.
Definition send_env : kenv :=
  {| k_io := Io64; k_sgbase := 65536; k_mem := block_mem (user_blocks ++ send_heap);
     k_node := fun n => n / 4096; k_ref := fun h => Some (h + 1); k_own := fun _ => 0;
     k_fd := fun f => f + 10 |}.

Example send_new : fmq_new 64 4096 24 1000 Unsync true true 24000 = Some send_created.
Proof. vm_compute. reflexivity. Qed.
Example send_ok : mq_ok send_queue.
Proof.
  apply (new_queue_ok 64 4096 24 1000 Unsync true (Some 8) 24000); [right; reflexivity|exact send_new| |];
    unfold in_range; lia.
Qed.
Example send_addrs : forall n, is_addr Io64 (send_at n).
Proof.
  intros n. unfold is_addr, send_at. change (2 ^ (8 * psz Io64)) with (2 ^ 64).
  pose proof (Z.mod_pos_bound (Z.of_nat n) 1024). lia.
Qed.
Example send_calls_before : Forall (call_ok Io64 Hidl (k_mem send_env)) send_before.
Proof.
  apply Forall_cons. { cbn. unfold in_range. split; [lia|]. exact I. }
  apply Forall_cons; [|apply Forall_nil]. cbn [call_ok]. split; [lia|]. split; [lia|]. split; [lia|].
  split; [reflexivity|]. repeat constructor; unfold is_byte; lia.
Qed.
Example send_calls_after : Forall (call_ok Io64 Hidl (k_mem send_env)) send_after.
Proof.
  apply Forall_cons. { cbn [call_ok]. unfold in_range. lia. }
  apply Forall_cons; [|apply Forall_nil]. cbn [call_ok string_ok].
  split; [vm_compute; split; reflexivity|]. split; [repeat constructor; unfold is_byte; lia|].
  split; [cbn; lia|]. split; [vm_compute; reflexivity|vm_compute; reflexivity].
Qed.
Example send_foreign : Forall (foreign send_env) (send_before ++ send_after).
Proof. repeat constructor. Qed.
Example send_starts : starts_plain send_before.
Proof. eexists _, _. split; [reflexivity|]. vm_compute. discriminate. Qed.
Example send_rest : exists d1 d2 d,
  w_ops Io64 Hidl send_at wd_empty send_before = Ok d1 /\
  w_fmq Io64 send_at 4 d1 send_queue = Ok d2 /\ w_ops Io64 Hidl send_at d2 send_after = Ok d /\
  blen (wd_bytes d) < 2 ^ 31 /\ length (wd_heap d) = 6%nat /\ length (wd_offsets d) = 9%nat /\
  Forall (fun b => holds (k_mem send_env) (fst b) (snd b)) (wd_heap d) /\
  k_sgbase send_env + align8 (wd_bufsize d) < 2 ^ 64.
Proof.
  eexists _, _, _. split; [vm_compute; reflexivity|]. split; [vm_compute; reflexivity|].
  split; [vm_compute; reflexivity|]. cbn [wd_bytes wd_heap wd_bufsize wd_offsets].
  split; [vm_compute; reflexivity|]. split; [reflexivity|]. split; [reflexivity|].
  split; [repeat (apply Forall_cons; [vm_compute; reflexivity|]); apply Forall_nil|].
  vm_compute. reflexivity.
Qed.
