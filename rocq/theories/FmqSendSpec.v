(* What the receiver of a message queue should find *)
From Verif Require Import Base WriterModel CodecSpec ObjModel ObjReader KernelModel HidlSpec
  FmqModel FmqSendModel.

(* A number of n bytes in the memory of the receiver *)
Definition number (g : message) (a n : Z) : Z := unle (mread (gmem g) a n).

(* There is this grantor: GrantorDescriptor of Android's MQDescriptor.h *)
Definition grantor_at (g : message) (a : Z) (x : grantor) : Prop :=
  number g a 4 = 0 /\ number g (a + 4) 4 = fd_index x /\
  number g (a + 8) 4 = g_offset x /\ number g (a + 16) 8 = g_extent x.

(* There is a native handle with these descriptors and numbers, version is the
   first field: native_handle_t of Android's native_handle.h *)
Definition handle_at (g : message) (a version : Z) (fds ints : list Z) : Prop :=
  number g a 4 = version /\ number g (a + 4) 4 = blen fds /\ number g (a + 8) 4 = blen ints /\
  (forall k f, nth_error fds k = Some f -> number g (a + 12 + 4 * Z.of_nat k) 4 = u32 f) /\
  (forall k f, nth_error ints k = Some f ->
     number g (a + 12 + 4 * blen fds + 4 * Z.of_nat k) 4 = u32 f).

(* The descriptor at [a] describes the same queue: the grantors are the same, and
   descriptors are those which the receiver has got for descriptors of the
   sender. Everything is inside of the message. *)
Definition same_queue (e : kenv) (g : message) (q : mqdesc) (a : Z) : Prop :=
  let i := k_io e in
  let grantors := number g a (psz i) in
  let handle := number g (a + 16) (psz i) in
  in_message g a 32 /\
  number g (a + 8) 4 = blen (mq_grantors q) /\
  number g (a + 24) 4 = mq_quantum q /\ number g (a + 28) 4 = mq_flags q /\
  in_message g grantors (24 * blen (mq_grantors q)) /\
  (forall k x, nth_error (mq_grantors q) k = Some x ->
     grantor_at g (grantors + 24 * Z.of_nat k) x) /\
  in_message g handle (12 + 4 * (blen (mq_fds q) + blen (mq_ints q))) /\
  handle_at g handle (mq_version q) (map (k_fd e) (mq_fds q)) (mq_ints q).

(* sizeof(native_handle_t). That's what native_handle_close() and others expect
   in the version field, and what GBINDER_HIDL_FDS_VERSION is *)
Definition HANDLE_VERSION : Z := 12.

(* Numbers fit into their fields *)
Definition u32_ok (v : Z) : Prop := 0 <= v < 2 ^ 32.
Definition mq_ok (q : mqdesc) : Prop :=
  mq_grantors q <> [] /\ blen (mq_grantors q) < 2 ^ 16 /\
  Forall (fun x => u32_ok (fd_index x) /\ u32_ok (g_offset x) /\ 0 <= g_extent x < 2 ^ 64)
    (mq_grantors q) /\
  u32_ok (mq_version q) /\ u32_ok (mq_quantum q) /\ u32_ok (mq_flags q) /\
  blen (mq_fds q) + blen (mq_ints q) < 2 ^ 16 /\
  Forall (in_range (- 2 ^ 31) (2 ^ 31)) (mq_fds q).
