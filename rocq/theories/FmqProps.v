(* C19-C22: message queues *)
From Verif Require Import Base FmqModel FmqSpec FmqSystem FmqUnsync FmqLayout.

(* ------------------------------------------------------------------ *)
(* C19. Whatever is done with a synchronized queue, its answers are those of a FIFO *)
Theorem C19_fifo : forall q ops mem,
  queue_ok q Sync -> blen mem = extent q -> Forall (op_ok q) ops -> volume ops < 2 ^ 64 ->
  exists h s' l', run_ops q ops (fmq_initial mem) = Ok (h, s') /\ map fst h = ops /\ fifo_history q 0 [] h l'.
Proof. intros q ops mem Hq. exact (one_thread q Hq ops mem). Qed.
Print Assumptions C19_fifo.

Definition q8 : queue := {| gbits := 64; kind := Sync; quantum := 2; extent := 8 |}.
Example C19_wraps :
  let ops := [Write 3 [1;2;3;4;5;6]; Read 2; Write 3 [7;8;9;10;11;12]; Write 1 [13;14]; AvailableToReadContiguous;
              ZeroCopyRead 2; Read 3; Read 2; AvailableToWrite] in
  queue_ok q8 Sync /\ Forall (op_ok q8) ops /\ volume ops < 2 ^ 64 /\
  match run_ops q8 ops (fmq_initial (repeat 0 8)) with
  | Ok (h, _) => map snd h = [Written true; Got (Some [1;2;3;4]); Written true; Written false; Count 2;
                              Got (Some [5;6;7;8]); Got None; Got (Some [9;10;11;12]); Count 4]
  | Fault _ => False
  end.
Proof.
  cbv zeta. split; [unfold queue_ok; cbn [gbits kind quantum extent]; split; [right; reflexivity|]; repeat split; try reflexivity; lia|]. split; [|split; [reflexivity|vm_compute; reflexivity]].
  repeat (apply Forall_cons; [cbn; unfold blen; cbn; lia|]). apply Forall_nil.
Qed.

(* ------------------------------------------------------------------ *)
(* C20. One writer and one reader, in any interleaving of their accesses to the shared
   memory *)
Theorem C20_single_reader_single_writer : forall q wops rops mem schedule,
  queue_ok q Sync -> blen mem = extent q -> Forall (op_ok q) wops -> Forall writer_op wops ->
  Forall (op_ok q) rops -> Forall reader_op rops -> volume wops < 2 ^ 64 ->
  let y := run_system q schedule
    {| writer := thread_init wops; reader := thread_init rops; memory := fmq_initial mem |} in
  ~ faulty (writer y) /\ ~ faulty (reader y) /\
  Forall (writer_record_ok q) (done (writer y)) /\ Forall (reader_record_ok q) (done (reader y)) /\
  (exists rest, wops = map e_op (done (writer y)) ++ rest) /\
  (exists rest, rops = map e_op (done (reader y)) ++ rest) /\
  exists log, (log = accepted_by (writer y) \/ log = accepted_by (writer y) ++ current_data (writer y)) /\
    wp (memory y) = blen log /\ 0 <= rp (memory y) <= wp (memory y) /\ wp (memory y) - rp (memory y) <= extent q /\
    (exists rest, log = returned_by (reader y) ++ rest) /\
    (current (reader y) = None -> rp (memory y) = blen (returned_by (reader y))) /\
    unread_intact q (memory y) log.
Proof. intros q wops rops mem schedule Hq. exact (two_threads q Hq wops rops mem schedule). Qed.
Print Assumptions C20_single_reader_single_writer.

(* the reader is in the middle of its second read while the ring is being filled *)
Example C20_interleaved :
  let wops := [Write 3 [1;2;3;4;5;6]; Write 2 [7;8;9;10]; Write 1 [11;12]] in
  let rops := [Read 1; Read 2; Read 2] in
  let schedule := repeat true 26 ++ repeat false 15 ++ concat (repeat [true; false; false] 40) in
  let y := run_system q8 schedule
    {| writer := thread_init wops; reader := thread_init rops; memory := fmq_initial (repeat 0 8) |} in
  Forall (op_ok q8) wops /\ Forall writer_op wops /\ Forall (op_ok q8) rops /\ Forall reader_op rops /\
  map e_answer (done (writer y)) = [Written true; Written false; Written true] /\
  map e_answer (done (reader y)) = [Got (Some [1;2]); Got (Some [3;4;5;6]); Got None].
Proof.
  cbv zeta.
  split; [repeat (apply Forall_cons; [cbn; unfold blen; cbn; lia|]); apply Forall_nil|].
  split; [repeat (apply Forall_cons; [exact I|]); apply Forall_nil|].
  split; [repeat (apply Forall_cons; [cbn; unfold blen; cbn; lia|]); apply Forall_nil|].
  split; [repeat (apply Forall_cons; [exact I|]); apply Forall_nil|].
  split; vm_compute; reflexivity.
Qed.

(* ------------------------------------------------------------------ *)
(* C21. The full claim fails twice. A party which reads too gives the wrong place to
   what it writes, and other readers get stale bytes, without ever being overrun. *)
Theorem C21_write_after_read_refuted :
  exists q ops mem schedule,
    queue_ok q Unsync /\ blen mem = extent q /\ (forall i, Forall (op_ok q) (ops i)) /\
    let y := run_parties q schedule (uinit ops mem) in
    Forall only_reads (ops 1%nat) /\
    (forall e, In e (done (fst (parties y 0%nat)) ++ done (fst (parties y 1%nat))) ->
       e_answer e <> Written false /\ e_answer e <> Got None) /\
    (forall e, In e (done (fst (parties y 1%nat))) -> e_wp1 e - e_rp0 e <= extent q) /\
    blen (returned_by (fst (parties y 1%nat))) = blen (accepted_by (fst (parties y 0%nat))) /\
    returned_by (fst (parties y 1%nat)) <> accepted_by (fst (parties y 0%nat)).
Proof.
  exists {| gbits := 64; kind := Unsync; quantum := 1; extent := 4 |},
    (fun i => match i with
     | O => [Write 2 [1;2]; Read 2; Write 4 [3;4;5;6]; Write 1 [7]]
     | 1%nat => [Read 2; Read 4; Read 1] | _ => [] end), [0;0;0;0],
    (repeat 0 10 ++ repeat 1 11 ++ repeat 0 23 ++ repeat 1 13 ++ repeat 0 9 ++ repeat 1 10)%nat.
  split; [unfold queue_ok; cbn [gbits kind quantum extent]; split; [right; reflexivity|]; repeat split; try reflexivity; lia|]. split; [reflexivity|].
  split.
  { intros [|[|i]]; repeat (apply Forall_cons; [cbn; unfold blen; cbn; lia|]); apply Forall_nil. }
  cbv zeta. split; [repeat (apply Forall_cons; [exact I|]); apply Forall_nil|].
  split.
  { vm_compute. intros e H.
    repeat (destruct H as [<-|H]; [split; discriminate|]). destruct H. }
  split.
  { vm_compute. intros e H. repeat (destruct H as [<-|H]; [discriminate|]). destruct H. }
  split; [vm_compute; reflexivity|]. vm_compute. discriminate.
Qed.
Print Assumptions C21_write_after_read_refuted.

(* A read which is overtaken by the writer while it's copying succeeds, with a mixture of
   old and new data *)
Theorem C21_torn_read_refuted :
  exists q ops mem schedule,
    queue_ok q Unsync /\ blen mem = extent q /\ (forall i, Forall (op_ok q) (ops i)) /\
    Forall only_writes (ops 0%nat) /\ (forall i, Forall only_reads (ops (S i))) /\
    let y := run_parties q schedule (uinit ops mem) in
    exists d, returned_by (fst (parties y 1%nat)) = d /\ d <> [] /\
      forall i, slice (accepted_by (fst (parties y 0%nat))) i (blen d) <> d.
Proof.
  exists {| gbits := 64; kind := Unsync; quantum := 1; extent := 2 |},
    (fun i => match i with
     | O => [Write 2 [1;2]; Write 2 [3;4]]
     | 1%nat => [Read 2] | _ => [] end), [0;0],
    (repeat 0 10 ++ repeat 1 6 ++ repeat 0 10 ++ repeat 1 5)%nat.
  split; [unfold queue_ok; cbn [gbits kind quantum extent]; split; [right; reflexivity|]; repeat split; try reflexivity; lia|]. split; [reflexivity|].
  split.
  { intros [|[|i]]; repeat (apply Forall_cons; [cbn; unfold blen; cbn; lia|]); apply Forall_nil. }
  split; [repeat (apply Forall_cons; [exact I|]); apply Forall_nil|].
  split; [intros [|i]; repeat (apply Forall_cons; [exact I|]); apply Forall_nil|].
  cbv zeta. exists [1;4]. split; [vm_compute; reflexivity|]. split; [discriminate|].
  intros i. match goal with |- slice ?a _ _ <> _ => replace a with [1;2;3;4] by (vm_compute; reflexivity) end.
  unfold slice, zdrop. destruct (Z.to_nat i) as [|[|[|[|[|n]]]]]; cbn; discriminate.
Qed.
Print Assumptions C21_torn_read_refuted.

(* What remains true: if the writer never reads and doesn't write more than [m] bytes at
   once, all its writes up to the capacity succeed, nobody accesses memory outside the
   ring, a reader which is far enough from being overrun gets exactly the next bytes of
   the stream, each byte is always from the right place of the ring, and a reader which
   has been overrun resumes at the writer's position. *)
Theorem C21_unsync_partial : forall q m ops mem schedule,
  queue_ok q Unsync -> 0 <= m -> blen mem = extent q -> (forall i, Forall (op_ok q) (ops i)) ->
  Forall only_writes (ops 0%nat) -> (forall i, Forall only_reads (ops (S i))) ->
  Forall (fun o => blen (op_data o) <= m) (ops 0%nat) -> volume (ops 0%nat) < 2 ^ gbits q ->
  let y := run_parties q schedule (uinit ops mem) in
  (forall i, ~ faulty (fst (parties y i))) /\
  Forall (unsync_write_ok q) (done (fst (parties y 0%nat))) /\
  exists stream,
    (exists rest, stream ++ rest = accepted_by (fst (parties y 0%nat)) ++ current_data (fst (parties y 0%nat))) /\
    (exists rest, stream = accepted_by (fst (parties y 0%nat)) ++ rest) /\
    forall i, Forall (unsync_read_ok q m stream) (done (fst (parties y (S i)))) /\
      exists rest, ops (S i) = map e_op (done (fst (parties y (S i)))) ++ rest.
Proof. intros q m ops mem schedule Hq Hm. exact (unsync_queue q Hq m Hm ops mem schedule). Qed.
Print Assumptions C21_unsync_partial.

Definition u8 : queue := {| gbits := 64; kind := Unsync; quantum := 2; extent := 8 |}.
Example C21_two_readers :
  let ops i := match i with
    | O => [Write 2 [1;2;3;4]; Write 1 [5;6]; Write 2 [7;8;9;10]; Write 5 [0;0;0;0;0;0;0;0;0;0]]
    | 1%nat => [Read 2; Read 1; Read 1]
    | 2%nat => [Read 1; Read 1]
    | _ => [] end in
  let y := run_parties u8 (repeat 0 22 ++ repeat 1 40 ++ repeat 0 40 ++ repeat 1 40 ++ repeat 2 40)%nat (uinit ops (repeat 0 8)) in
  queue_ok u8 Unsync /\ (forall i, Forall (op_ok u8) (ops i)) /\ volume (ops 0%nat) < 2 ^ 64 /\
  map e_answer (done (fst (parties y 0%nat))) = [Written true; Written true; Written true; Written false] /\
  map e_answer (done (fst (parties y 1%nat))) = [Got (Some [1;2;3;4]); Got (Some [5;6]); Got None] /\
  map e_answer (done (fst (parties y 2%nat))) = [Got None; Got None].
Proof.
  cbv zeta. split; [unfold queue_ok; cbn [gbits kind quantum extent]; split; [right; reflexivity|]; repeat split; try reflexivity; lia|].
  split. { intros [|[|[|i]]]; repeat (apply Forall_cons; [cbn; unfold blen; cbn; lia|]); apply Forall_nil. }
  split; [reflexivity|]. split; [|split]; vm_compute; reflexivity.
Qed.

(* ------------------------------------------------------------------ *)
(* C22. Sizes of 4 gigabytes and more are accepted but don't work: the event flag may be
   in the middle of the ring *)
Theorem C22_overlap_refuted :
  exists item_size num_items c g h,
    fmq_new 64 4096 item_size num_items Sync true false 0 = Some c /\
    nth_error (c_grantors c) 2 = Some g /\ nth_error (c_grantors c) 3 = Some h /\ ~ disjoint g h.
Proof.
  exists 1, (2 ^ 32). eexists. eexists. eexists.
  split; [vm_compute; reflexivity|]. split; [vm_compute; reflexivity|]. split; [vm_compute; reflexivity|].
  unfold disjoint. cbn [fd_index g_offset g_extent]. lia.
Qed.
Print Assumptions C22_overlap_refuted.

(* the ring may be larger than the memory *)
Theorem C22_outside_refuted :
  exists item_size num_items c g,
    fmq_new 64 4096 item_size num_items Sync false false 0 = Some c /\
    nth_error (c_grantors c) 2 = Some g /\ c_shmem c < g_offset g + g_extent g.
Proof.
  exists 1, (2 ^ 64 - 1). eexists. eexists.
  split; [vm_compute; reflexivity|]. split; [vm_compute; reflexivity|]. vm_compute. reflexivity.
Qed.
Print Assumptions C22_outside_refuted.

(* and the size of the items is truncated to zero, which crashes the first operation *)
Theorem C22_division_by_zero_refuted :
  exists item_size num_items c,
    fmq_new 64 4096 item_size num_items Sync false false 0 = Some c /\
    forall mem, prun (run_op (c_queue c) AvailableToRead) (fmq_initial mem) = Fault DivByZero.
Proof.
  exists (2 ^ 32), 1. eexists. split; [vm_compute; reflexivity|]. intros mem. vm_compute. reflexivity.
Qed.
Print Assumptions C22_division_by_zero_refuted.

(* Up to nearly 4 gigabytes the layout is right, and what comes out is a queue for which
   the theorems above hold *)
Theorem C22_layout_partial : forall bits page item_size num_items k (event_flag fd : bool) buffer_size c,
  (bits = 32 \/ bits = 64) -> 0 < page -> num_items * item_size + 27 + page <= 2 ^ 32 ->
  fmq_new bits page item_size num_items k event_flag fd buffer_size = Some c ->
  queue_ok (c_queue c) k /\ quantum (c_queue c) = item_size /\ extent (c_queue c) = num_items * item_size /\
  layout_ok (num_items * item_size) (c_shmem c) buffer_size event_flag fd (c_grantors c) /\
  Forall (mapping_ok page) (c_grantors c).
Proof. exact layout. Qed.
Print Assumptions C22_layout_partial.

(* requests which make sense are accepted, those which don't are rejected *)
Theorem C22_accepted : forall bits page item_size num_items k (event_flag fd : bool) buffer_size,
  (bits = 32 \/ bits = 64) -> 0 <= item_size < 2 ^ bits -> 0 <= num_items < 2 ^ bits -> 0 <= buffer_size < 2 ^ bits ->
  (exists c, fmq_new bits page item_size num_items k event_flag fd buffer_size = Some c) <->
  0 < item_size /\ 0 < num_items /\ num_items * item_size < 2 ^ bits /\
  (fd = true -> num_items * item_size <= buffer_size).
Proof. exact accepted_sizes. Qed.
Print Assumptions C22_accepted.

Example C22_example :
  fmq_new 64 4096 24 1000 Unsync true false 0 =
  Some {| c_queue := {| gbits := 64; kind := Unsync; quantum := 24; extent := 24000 |};
          c_grantors := [{| fd_index := 0; g_offset := 0; g_extent := 8 |};
                         {| fd_index := 0; g_offset := 8; g_extent := 8 |};
                         {| fd_index := 0; g_offset := 16; g_extent := 24000 |};
                         {| fd_index := 0; g_offset := 24016; g_extent := 4 |}];
          c_shmem := 24576 |}.
Proof. vm_compute. reflexivity. Qed.
