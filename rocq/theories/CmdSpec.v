(* What the binder driver makes of the bytes which are written to it (include/uapi/linux/android/binder.h of
   Linux and binder_thread_write of its driver), and what is meant by the functions of the library. *)
From Verif Require Import Base ObjModel TxModel CmdModel.

(* Commands, as the driver understands them *)
Inductive kcmd :=
| KIncrefs (desc : Z) | KAcquire (desc : Z) | KRelease (desc : Z) | KDecrefs (desc : Z)
| KIncrefsDone (ptr cookie : Z) | KAcquireDone (ptr cookie : Z)
| KFreeBuffer (ptr : Z)
| KEnterLooper | KExitLooper
| KRequestDeath (desc cookie : Z) | KClearDeath (desc cookie : Z) | KDeadDone (cookie : Z)
| KTransaction (t : trdata) | KReply (t : trdata)
| KTransactionSg (t : trdata) (buffers : Z) | KReplySg (t : trdata) (buffers : Z).

(* A number made of n bytes at that position, the lowest one goes first *)
Definition number (b : bytes) (at_ n : nat) : Z := unle (firstn n (skipn at_ b)).
Definition word (i : io) : nat := match i with Io32 => 4 | Io64 => 8 end.
(* struct binder_transaction_data *)
Definition transaction (i : io) (b : bytes) : trdata :=
  let w := word i in
  {| tr_target := number b 0 4;
     tr_cookie := number b w w;
     tr_code := number b (2 * w) 4;
     tr_flags := number b (2 * w + 4) 4;
     tr_pid := number b (2 * w + 8) 4;
     tr_euid := number b (2 * w + 12) 4;
     tr_data_size := number b (2 * w + 16) w;
     tr_offsets_size := number b (3 * w + 16) w;
     tr_buffer := number b (4 * w + 16) w;
     tr_offsets := number b (5 * w + 16) w |}.

(* A command consists of a code and of its argument. The code has two bits of direction, 14 bits of the
   size, 8 bits of the type which is 'c', and 8 bits of the number. All of them have to match. *)
Definition argument (i : io) (dir size nr : Z) (p : bytes) : option kcmd :=
  let w := word i in
  let wz := Z.of_nat w in
  let is n s := (nr =? n) && (dir =? (if s =? 0 then 0 else 1)) && (size =? s) in
  if is 0 (6 * wz + 16) then Some (KTransaction (transaction i p))
  else if is 1 (6 * wz + 16) then Some (KReply (transaction i p))
  else if is 3 wz then Some (KFreeBuffer (number p 0 w))
  else if is 4 4 then Some (KIncrefs (number p 0 4))
  else if is 5 4 then Some (KAcquire (number p 0 4))
  else if is 6 4 then Some (KRelease (number p 0 4))
  else if is 7 4 then Some (KDecrefs (number p 0 4))
  else if is 8 (2 * wz) then Some (KIncrefsDone (number p 0 w) (number p w w))
  else if is 9 (2 * wz) then Some (KAcquireDone (number p 0 w) (number p w w))
  else if is 12 0 then Some KEnterLooper
  else if is 13 0 then Some KExitLooper
  else if is 14 (4 + wz) then Some (KRequestDeath (number p 0 4) (number p 4 w))
  else if is 15 (4 + wz) then Some (KClearDeath (number p 0 4) (number p 4 w))
  else if is 16 wz then Some (KDeadDone (number p 0 w))
  else if is 17 (7 * wz + 16) then Some (KTransactionSg (transaction i p) (number p (6 * w + 16) w))
  else if is 18 (7 * wz + 16) then Some (KReplySg (transaction i p) (number p (6 * w + 16) w))
  else None.
(* One command at the beginning of what was written, and what follows it *)
Definition parse (i : io) (b : bytes) : option (kcmd * bytes) :=
  let code := number b 0 4 in
  let nr := code mod 256 in
  let type := code / 256 mod 256 in
  let size := code / 65536 mod 16384 in
  let dir := code / 1073741824 in
  let p := firstn (Z.to_nat size) (skipn 4 b) in
  if (4 <=? length b)%nat && (type =? 99) && (Z.of_nat (length p) =? size)
  then match argument i dir size nr p with
       | Some k => Some (k, skipn (4 + Z.to_nat size) b)
       | None => None
       end
  else None.
(* The whole of what was written consists of these commands *)
Inductive understood (i : io) : bytes -> list kcmd -> Prop :=
| understood_end : understood i [] []
| understood_next : forall b k r l, parse i b = Some (k, r) -> understood i r l -> understood i b (k :: l).

(* What is meant *)
Definition reply_is (flags payload_len offsets_size buffer offsets code target : Z) : trdata :=
  {| tr_target := target; tr_cookie := 0; tr_code := code; tr_flags := flags; tr_pid := 0; tr_euid := 0;
     tr_data_size := payload_len; tr_offsets_size := offsets_size; tr_buffer := buffer; tr_offsets := offsets |}.
Definition table (i : io) (offs : list Z) (addr : Z) : Z * Z :=
  match offs with [] => (0, 0) | _ => (Z.of_nat (length offs * word i), addr) end.
(* Scatter-gather buffers take a whole number of 8 byte words *)
Definition whole_words (n : Z) : Z := (n + 7) / 8 * 8.
Definition meaning (i : io) (c : call) : kcmd :=
  let w := word i in
  match c with
  | CIncrefs h => KIncrefs h
  | CDecrefs h => KDecrefs h
  | CAcquire h => KAcquire h
  | CRelease h => KRelease h
  | CRequestDeath h => KRequestDeath h h       (* the handle is the cookie *)
  | CClearDeath h => KClearDeath h h
  | CDeadDone h => KDeadDone h
  | CAcquireDone obj => KAcquireDone obj 0     (* local objects are sent with no cookie *)
  | CFreeBuffer p => KFreeBuffer p
  | CEnterLooper => KEnterLooper
  | CExitLooper => KExitLooper
  | CGotIncrefs p => KIncrefsDone (number p 0 w) (number p w w)
  | CGotAcquire p => KAcquireDone (number p 0 w) (number p w w)
  | CGotDead p => KDeadDone (number p 0 w)
  | CReplyStatus a => KReply (reply_is 8 4 0 a 0 0 0)   (* TF_STATUS_CODE, four bytes *)
  | CReply p n offs a extra =>
    let t := reply_is 0 n (fst (table i offs a)) p (snd (table i offs a)) 0 0 in
    if extra =? 0 then KReply t else KReplySg t (whole_words extra)
  | CTransact h code reply p n offs a extra =>
    let t := reply_is (if reply then 16 else 1) n (fst (table i offs a)) p (snd (table i offs a)) code h in
    if extra =? 0 then KTransaction t else KTransactionSg t (whole_words extra)
  end.
(* Arguments are what their types allow *)
Definition is_word (i : io) (v : Z) : Prop := 0 <= v < 2 ^ (8 * Z.of_nat (word i)).
Definition is_u32 (v : Z) : Prop := 0 <= v < 2 ^ 32.
Definition message_ok (i : io) (p n : Z) (offs : list Z) (a extra : Z) : Prop :=
  is_word i p /\ 0 <= n < 2 ^ 31 /\ Z.of_nat (length offs) < 2 ^ 28 /\ is_word i a /\ 0 <= extra /\ is_word i (extra + 7).
Definition args_ok (i : io) (c : call) : Prop :=
  match c with
  | CIncrefs h | CDecrefs h | CAcquire h | CRelease h | CRequestDeath h | CClearDeath h | CDeadDone h => is_u32 h
  | CAcquireDone p | CFreeBuffer p | CReplyStatus p => is_word i p
  | CEnterLooper | CExitLooper => True
  | CGotIncrefs p | CGotAcquire p => length p = (2 * word i)%nat /\ all_bytes p
  | CGotDead p => length p = word i /\ all_bytes p
  | CReply p n offs a extra => message_ok i p n offs a extra
  | CTransact h code _ p n offs a extra => is_u32 h /\ is_u32 code /\ message_ok i p n offs a extra
  end.

(* What the driver does. It doesn't ask to try again after it has taken something; a call which was
   interrupted goes on when it's repeated *)
Fixpoint no_repeat (taken : bool) (l : list answer) : Prop :=
  match l with
  | [] => True
  | Took n again :: r => no_repeat false r
  | Error e n :: r =>
    let taken := taken || negb (Nat.eqb n 0) in
    (Z.pos e = EAGAIN -> taken = false) /\ no_repeat ((Z.pos e =? EINTR) && taken) r
  end.
(* ... and doesn't claim success before it has taken everything, i.e. [left] bytes. For a transaction,
   success is a status. *)
Definition is_transaction (c : call) : bool := match c with CTransact _ _ _ _ _ _ _ _ => true | _ => false end.
Fixpoint takes_all (tx : bool) (left : nat) (l : list answer) : Prop :=
  match l with
  | [] => True
  | Took n again :: r => (tx && again = false -> (left <= n)%nat) /\ takes_all tx (left - n) r
  | Error e n :: r => takes_all tx (left - n) r
  end.
