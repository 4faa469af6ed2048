(* Appending the descriptor of a message queue *)
From Verif Require Import Base WriterModel ObjModel FmqModel.

(* src/gbinder_fmq_p.h:57-62 GBinderFmqGrantorDescriptor: flags, fd_index, offset,
   4 bytes of padding and extent. The array comes from g_new0 and nothing ever
   sets flags. *)
Definition grantor_image (g : grantor) : bytes :=
  le 4 0 ++ le 4 (fd_index g) ++ le 4 (g_offset g) ++ zrepeat 0 4 ++ le 8 (g_extent g).
Definition grantors_image (l : list grantor) : bytes := concat (map grantor_image l).

(* src/gbinder_fmq_p.h:70-78 GBinderMQDescriptor: the vector of grantors, the
   pointer to the native handle, quantum and flags *)
Definition mq_image (grantors count fds quantum flags : Z) : bytes :=
  hidl_image grantors count 1 ++ le 8 fds ++ le 4 quantum ++ le 4 flags.

(* The descriptor of a queue, see src/gbinder_fmq_p.h:70-78. The pointers in it
   are represented by what they point to. *)
Record mqdesc := {
  mq_grantors : list grantor;
  mq_version : Z;               (* of the native handle *)
  mq_fds : list Z;
  mq_ints : list Z;
  mq_quantum : Z;
  mq_flags : Z
}.

(* include/gbinder_fmq.h:41-44 GBINDER_FMQ_TYPE *)
Definition fmq_type (k : qkind) : Z := match k with Sync => 1 | Unsync => 2 end.

(* src/gbinder_fmq.c:293-323 of gbinder_fmq_new: the native handle and the
   descriptor. [type] is GBINDER_FMQ_TYPE, fd is None for -1. *)
Definition fmq_desc (c : created) (type shmem_fd : Z) (fd : option Z) : mqdesc :=
  let fds := shmem_fd :: match fd with Some f => [f] | None => [] end in
  {| mq_grantors := c_grantors c;
     mq_version := 12 + 4 * blen fds;
     mq_fds := fds;
     mq_ints := [];
     mq_quantum := quantum (c_queue c);
     mq_flags := type |}.

(* src/gbinder_writer.c:1240-1283 gbinder_writer_data_append_fmq_descriptor. The
   copies are allocated in this order: descriptor, grantors, native handle. They
   are modelled with the contents which they have when the function returns. If
   there are no grantors then gutil_memdup returns NULL and the copy keeps the
   pointer of the original; such queues don't exist, and zero stands for that
   pointer. *)
Definition w_fmq (i : io) (al : nat -> Z) (slack : Z) (d : wdata) (q : mqdesc) : res wdata :=
  let mqdesc := al (wd_nalloc d) in
  let vec_total := 24 * blen (mq_grantors q) in
  let vec_buf := if vec_total =? 0 then 0 else al (S (wd_nalloc d)) in
  let fds := if vec_total =? 0 then al (S (wd_nalloc d)) else al (S (S (wd_nalloc d))) in
  let d1 := heap_add al d
    (mq_image vec_buf (blen (mq_grantors q)) fds (mq_quantum q) (mq_flags q)) in
  let d2 := if vec_total =? 0 then d1 else heap_add al d1 (grantors_image (mq_grantors q)) in
  let handle := {| fs_ptr := fds; fs_version := mq_version q;
                   fs_fds := mq_fds q; fs_ints := mq_ints q |} in
  let d3 := heap_add al d2 (fds_image handle) in
  let* (index, d4) := w_buffer_object i d3 mqdesc 32 None in
  let* (_, d5) := w_buffer_object i d4 vec_buf vec_total
    (Some {| pa_index := index; pa_offset := 0 |}) in
  w_fds i slack d5 (Some handle) (Some {| pa_index := index; pa_offset := 16 |}).
