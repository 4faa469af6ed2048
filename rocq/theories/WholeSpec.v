(* What is assumed about the sender and about the driver when a message goes from one process to another *)
From Verif Require Import Base UtfModel WriterModel ReaderModel CodecSpec CodecSafety ObjModel ObjReader
  KernelModel ObjSpec HidlSpec TxModel RpcModel WholeModel.
From Verif Require CmdSpec.

(* A message which can be sent: these calls have made it, and it is in the memory of the sender together with
   everything that it refers to. The address of the buffers in the receiver isn't too high *)
Definition ready (e : kenv) (pr : protocol) (al : nat -> Z) (l : list op) (d : wdata) (pl : place) : Prop :=
  let i := k_io e in
  (forall n, is_addr i (al n)) /\ Forall (call_ok i pr (k_mem e)) l /\ Forall (foreign e) l /\
  w_ops i pr al wd_empty l = Ok d /\ blen (wd_bytes d) < 2 ^ 31 /\
  holds (k_mem e) (pl_data pl) (wd_bytes d) /\
  holds (k_mem e) (pl_offs pl) (offsets_image i (wd_offsets d)) /\
  Forall (fun b => holds (k_mem e) (fst b) (snd b)) (wd_heap d) /\
  CmdSpec.is_word i (pl_data pl) /\ CmdSpec.is_word i (pl_offs pl) /\
  0 < k_sgbase e /\ k_sgbase e + align8 (wd_bufsize d) + 7 < 2 ^ (8 * psz i).

(* The driver has put the message, the offsets of its objects and the buffers into the memory of the receiver.
   No address is NULL, and all of them are addresses *)
Definition arrives (i : io) (g : message) (offs : list Z) (a : arrival) : Prop :=
  holds (ar_mem a) (ar_buffer a) (m_data g) /\
  holds (ar_mem a) (ar_offsets a) (offsets_image i offs) /\
  ar_sg a = (m_sgbase g, blen (m_sg g)) /\ holds (ar_mem a) (m_sgbase g) (m_sg g) /\
  0 < ar_buffer a /\ ar_buffer a + blen (m_data g) < 2 ^ (8 * psz i) /\
  CmdSpec.is_word i (ar_offsets a) /\ CmdSpec.is_word i (ar_target a) /\
  CmdSpec.is_u32 (ar_pid a) /\ CmdSpec.is_u32 (ar_euid a).

(* What was appended is read, one thing after another, and there's nothing else *)
Definition reads (cm : cmode) (e : kenv) (pr : protocol) (g : message) (p : reader) (l : list op) : Prop :=
  exists rs p1, read_items cm (k_io e) pr g p (map (rkind_of (k_io e)) l) = Ok (rs, p1) /\
    Forall2 (got (k_io e) e g) l rs /\ r_ptr p1 = blen (m_data g) /\ r_objects p1 = [].

(* The status which the caller sees for the one of the handler: -EAGAIN and the two numbers which stand for a dead
   object and for a failure become -EFAULT *)
Definition seen_status (s : Z) : Z :=
  if (s =? -11) || (s =? 1) || (s =? 2) then -14 else s.
