(* Calls which go through proxies: what is assumed, and how the call gets from one process to the next *)
From Verif Require Import Base UtfModel WriterModel ReaderModel CodecSpec CodecSafety ObjModel ObjReader
  KernelModel ObjSpec HidlSpec TxModel RpcModel WholeModel WholeSpec ViaModel.
From Verif Require FwdSpec CmdModel CmdSpec ClientModel.

(* The message and the offsets of its objects are in the memory of the process which sends it *)
Definition in_memory (e : kenv) (d : wdata) (pl : place) : Prop :=
  holds (k_mem e) (pl_data pl) (wd_bytes d) /\ holds (k_mem e) (pl_offs pl) (offsets_image (k_io e) (wd_offsets d)) /\
  CmdSpec.is_word (k_io e) (pl_data pl) /\ CmdSpec.is_word (k_io e) (pl_offs pl).
(* The buffers which were received are still in the memory of the process which sends them on *)
Definition still_there (e : kenv) (b : option (message * list Z)) : Prop :=
  match b with Some (g, _) => holds (k_mem e) (m_sgbase g) (m_sg g) | None => True end.

(* The way of a request, and of a reply. The proxies are in the order in which the request gets to them *)
Definition request_hops (r : list proxy) : FwdSpec.hops := map (fun p => (px_out p, px_requests p)) r.
Definition reply_hops (r : list proxy) : FwdSpec.hops := map (fun p => (px_back p, px_replies p)) (rev r).

(* A message which can be sent on this way: as in WholeSpec, but it's to the last receiver that no object may belong.
   The drivers have a place for its buffers *)
Definition ready_for (e : kenv) (pr : protocol) (al : nat -> Z) (l : list op) (d : wdata) (pl : place)
  (way : FwdSpec.hops) : Prop :=
  let i := k_io e in
  (forall n, is_addr i (al n)) /\ Forall (call_ok i pr (k_mem e)) l /\ Forall (FwdSpec.foreign_at_end e way) l /\
  w_ops i pr al wd_empty l = Ok d /\ blen (wd_bytes d) < 2 ^ 31 /\ in_memory e d pl /\
  Forall (fun b => holds (k_mem e) (fst b) (snd b)) (wd_heap d) /\
  0 < k_sgbase e /\ k_sgbase e + align8 (wd_bufsize d) < 2 ^ (8 * psz i) /\
  Forall (FwdSpec.hop_ok i (wd_bufsize d)) way.

(* A request which has arrived in the process of the first of the proxies (with what is in its buffer) gets to the last
   process, wherever the messages are in the memory of the processes, and is such as the last argument says *)
Fixpoint request_passes (cm : cmode) (i : io) (pr : protocol) (r : list proxy) (x : incoming)
  (b : option (message * list Z)) (at_end : incoming -> Prop) : Prop :=
  match r with
  | [] => at_end x
  | p :: r1 =>
    still_there (px_out p) b ->
    exists d, proxy_copies cm i pr p x b = Ok (Some d) /\
    forall pl, in_memory (px_out p) d pl ->
    exists cmd t g, CmdModel.command i (proxy_calls p x d pl) = Ok cmd /\
    k_accept (px_out p) cmd = Some (false, t, g, wd_offsets d) /\ tr_target t = px_handle p /\
    forall a, arrives i g (wd_offsets d) a ->
    exists x2 b2, receive cm i pr a (BR_TRANSACTION i) (arriving i t a) = Ok (Some x2) /\
      received_buffer i a (BR_TRANSACTION i) (arriving i t a) = b2 /\
      request_passes cm i pr r1 x2 b2 at_end
  end.

(* An answer which has arrived in the process of the last of the proxies gets to the caller. Here the proxies are in the
   opposite order *)
Fixpoint reply_passes (i : io) (pr : protocol) (r : list proxy) (an : ClientModel.answer)
  (at_end : ClientModel.answer -> Prop) : Prop :=
  match r with
  | [] => at_end an
  | p :: r1 =>
    still_there (px_back p) (ClientModel.an_reply an) ->
    exists fwd, proxy_reply i pr p an = Ok fwd /\
    forall pl addr,
    match fwd with
    | Some d => in_memory (px_back p) d pl
    | None => holds (k_mem (px_back p)) addr (le 4 (proxy_status an)) /\ CmdSpec.is_word i addr
    end ->
    exists cmd t g offs, CmdModel.command i (proxy_response fwd pl addr) = Ok cmd /\
    k_accept (px_back p) cmd = Some (true, t, g, offs) /\
    forall a, arrives i g offs a ->
    exists an2, reply_answer i a (BR_REPLY i) (arriving i t a) = Some an2 /\ reply_passes i pr r1 an2 at_end
  end.

(* What was appended is read, one thing after another, and there's nothing else: objects and descriptors are what
   the processes on the way have made of them, see passed in FwdSpec *)
Definition reads_after (cm : cmode) (e : kenv) (pr : protocol) (way : FwdSpec.hops) (g : message) (p : reader) (l : list op)
  : Prop :=
  exists rs p1, read_items cm (k_io e) pr g p (map (rkind_of (k_io e)) l) = Ok (rs, p1) /\
    Forall2 (FwdSpec.passed (k_io e) e way g) l rs /\ r_ptr p1 = blen (m_data g) /\ r_objects p1 = [].

(* The status which the caller sees for the one of the handler *)
Definition status_after (r : list proxy) (s : Z) : Z :=
  match r with
  | [] => seen_status s
  | _ => if (s =? -11) || (0 <? s) then -14 else s
  end.
