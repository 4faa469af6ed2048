(* What the driver part of the library is supposed to do, in terms of the history of a
   thread: what comes from the kernel, what is written back, what handlers return *)
From Verif Require Import Base KernelModel TxModel DriverModel.

(* ------------------------------------------------------------------ *)
(* The shape of a history. Events which can appear anywhere: *)
Definition plain (e : dev) : Prop :=
  match e with
  | Begin _ | End _ | Returned _ _ | Leave => False
  | Got _ _ (RTransaction _) => False
  | Wrote (WReplyData | WReplyStatus _) => False
  | _ => True
  end.

(* The reply to a transaction *)
Definition answer (reply : bool) (status : Z) : wcmd := if reply then WReplyData else WReplyStatus status.
Definition one_way (tx : txdata) : bool := Z.testbit (tx_flags tx) 0.

(* A history in which all transactions have been handled and answered, one reply to each
   two-way transaction after its handler has returned, with that result; no reply to
   one-way ones; transactions which come while another one is being handled are complete
   before that one is answered *)
Inductive calm : list dev -> Prop :=
| calm_nil : calm []
| calm_plain e t : plain e -> calm t -> calm (e :: t)
| calm_call k body status t : calm body -> calm t -> calm (Begin k :: body ++ End status :: t)
| calm_one_way cmd payload tx body reply status rest t :
    one_way tx = true -> calm body -> calm rest -> calm t ->
    calm (Got cmd payload (RTransaction tx) :: body ++ Returned reply status :: rest ++ Leave :: t)
| calm_two_way cmd payload tx body reply status rest t :
    one_way tx = false -> calm body -> calm rest -> calm t ->
    calm (Got cmd payload (RTransaction tx) :: body ++ Returned reply status :: Wrote (answer reply status) :: rest ++ Leave :: t).

(* The same, in the middle of a call or a transaction *)
Inductive opened : list dev -> Prop :=
| opened_calm t : calm t -> opened t
| opened_call t k body : calm t -> opened body -> opened (t ++ Begin k :: body)
| opened_transaction t cmd payload tx body :
    calm t -> opened body -> opened (t ++ Got cmd payload (RTransaction tx) :: body)
| opened_returned t cmd payload tx body reply status :
    calm t -> calm body -> opened (t ++ Got cmd payload (RTransaction tx) :: body ++ [Returned reply status])
| opened_one_way t cmd payload tx body reply status rest :
    one_way tx = true -> calm t -> calm body -> opened rest ->
    opened (t ++ Got cmd payload (RTransaction tx) :: body ++ Returned reply status :: rest)
| opened_two_way t cmd payload tx body reply status rest :
    one_way tx = false -> calm t -> calm body -> opened rest ->
    opened (t ++ Got cmd payload (RTransaction tx) :: body ++ Returned reply status :: Wrote (answer reply status) :: rest).

(* ------------------------------------------------------------------ *)
(* What happens in a call itself, and not in other calls made by transaction handlers *)
Fixpoint own (d : nat) (t : list dev) : list dev :=
  match t with
  | [] => []
  | Begin _ :: r => own (S d) r
  | End _ :: r => own (pred d) r
  | e :: r => match d with O => e :: own d r | S _ => own d r end
  end.

(* Bytes which have been received, and those of commands which have been taken *)
Fixpoint received (t : list dev) : bytes :=
  match t with [] => [] | Input b :: r => b ++ received r | _ :: r => received r end.
Fixpoint taken (t : list dev) : bytes :=
  match t with [] => [] | Got cmd payload _ :: r => le 4 cmd ++ payload ++ taken r | _ :: r => taken r end.

(* There is no complete command *)
Definition incomplete (b : bytes) : Prop :=
  blen b < 4 \/ unle (slice b 0 4) = 0 \/ blen b < 4 + ioc_size (unle (slice b 0 4)).

(* At every moment the commands taken so far are the beginning of the bytes received *)
Definition in_order (body : list dev) : Prop :=
  forall p q, own 0 body = p ++ q -> exists rest, received p = taken p ++ rest.
(* Nothing is left but possibly a part of a command *)
Definition all_taken (body : list dev) : Prop :=
  exists rest, received (own 0 body) = taken (own 0 body) ++ rest /\ incomplete rest.

(* What comes from the kernel are octets *)
Definition octets (l : list ioresult) : Prop :=
  Forall (fun r => match r with IoErr _ => True | IoData b => all_bytes b end) l.

(* The two calls *)
Definition call_of (E : env) (F : fns) (k : option bool) : M Z :=
  match k with
  | None => driver_read E F
  | Some oneway => do (status, _) <- transact E F oneway; ret status
  end.

(* Commands are what their bytes say *)
Fixpoint decoded (E : env) (before t : list dev) : Prop :=
  match t with
  | [] => True
  | e :: r =>
    match e with
    | Got cmd payload c => c = decode_cmd (e_io E) (e_mem E before) cmd payload /\ blen payload = ioc_size cmd
    | _ => True
    end /\ decoded E (before ++ [e]) r
  end.

(* What is done about requests of the kernel concerning objects; [before] is the history
   including the request itself *)
Definition reaction (E : env) (before : list dev) (payload : bytes) (c : rcmd) : list dev :=
  match c with
  | RIncrefs obj => (if e_local E before obj then [Increfs obj] else []) ++ [Wrote (WIncrefsDone payload)]
  | RDecrefs obj => if e_local E before obj then [Deferred false obj] else []
  | RAcquire obj => if e_local E before obj then [Acquire obj] else [Wrote (WAcquireDone payload)]
  | RRelease obj => if e_local E before obj then [Deferred true obj] else []
  | RDeadBinder handle => if e_remote E before handle then [Death handle] else [Wrote (WDeadBinderDone payload)]
  | _ => []
  end.
Definition reacting (e : dev) : bool :=
  match e with
  | Increfs _ | Acquire _ | Deferred _ _ | Death _ => true
  | Wrote (WIncrefsDone _ | WAcquireDone _ | WDeadBinderDone _) => true
  | _ => false
  end.
Fixpoint reactions (E : env) (before t : list dev) : list dev :=
  match t with
  | [] => []
  | e :: r => match e with Got _ payload c => reaction E (before ++ [e]) payload c | _ => [] end ++ reactions E (before ++ [e]) r
  end.
(* What is done about a transaction for which there is no object: its buffer, if it's
   an empty one, is given back, and the transaction is refused with an error *)
Definition refusal (E : env) (before : list dev) (tx : txdata) : list dev :=
  let f := if (tx_data tx =? 0) || negb (tx_size tx =? 0) then [] else [Wrote (WFreeBuffer (tx_data tx))] in
  match e_handler E (before ++ f) tx with
  | Some _ => []
  | None => f ++ [Returned false (- (74))]
  end.
Definition at_once (E : env) (before : list dev) (payload : bytes) (c : rcmd) : list dev :=
  match c with RTransaction tx => refusal E before tx | _ => reaction E before payload c end.
(* That's done right after the request has been taken *)
Fixpoint prompt (E : env) (before t : list dev) : Prop :=
  match t with
  | [] => True
  | e :: r =>
    match e with Got _ payload c => exists r', r = at_once E (before ++ [e]) payload c ++ r' | _ => True end /\
    prompt E (before ++ [e]) r
  end.

(* ------------------------------------------------------------------ *)
(* Commands which a call takes outside of incoming transactions *)
Fixpoint mine (d : nat) (t : list dev) : list rcmd :=
  match t with
  | [] => []
  | Begin _ :: r | Got _ _ (RTransaction _) :: r => mine (S d) r
  | End _ :: r | Leave :: r => mine (pred d) r
  | Got _ _ c :: r => match d with O => c :: mine d r | S _ => mine d r end
  | _ :: r => mine d r
  end.

(* What they mean to the one who waits, with a reply expected or not *)
Definition decide (reply : bool) (c : rcmd) : option Z :=
  match c with
  | RComplete => if reply then None else Some 0
  | RDeadReply => Some 2
  | RFailedReply => Some 1
  | RReply tx =>
    if (tx_status tx =? - EAGAIN) || (tx_status tx =? 1) || (tx_status tx =? 2) then Some (- EFAULT)
    else Some (tx_status tx)
  | _ => None
  end.

(* The system call failed, and nothing else came from the kernel after that *)
Definition from_kernel (e : dev) : Prop :=
  match e with Input _ | Got _ _ _ | Failed _ => True | _ => False end.
Definition ended_by (err : positive) (t : list dev) : Prop :=
  exists u v, own 0 t = u ++ Failed err :: v /\ Forall (fun e => ~ from_kernel e) v.

(* The status of a call: what the first command says which decides, unless the system
   call fails *)
Definition call_status (reply : bool) (t : list dev) (status : Z) : Prop :=
  (exists l c r st, mine 0 t = l ++ c :: r /\ Forall (fun x => decide reply x = None) l /\ decide reply c = Some st /\
     (status = st \/ (0 <= st /\ exists err, ended_by err t /\ status = Z.neg err))) \/
  (Forall (fun x => decide reply x = None) (mine 0 t) /\ exists err, ended_by err t /\ status = Z.neg err).

(* ------------------------------------------------------------------ *)
(* Local objects to be released *)
Fixpoint deferred (t : list dev) : list (bool * Z) :=
  match t with [] => [] | Deferred r o :: t => (r, o) :: deferred t | _ :: t => deferred t end.
Definition not_unref (e : dev) : Prop := match e with Unref _ _ => False | _ => True end.
Definition unref_event (x : bool * Z) : dev := Unref (fst x) (snd x).

(* Objects which the call has to release are released after everything else which it
   does, except for freeing of buffers: once each, in the same order *)
Definition released_last (body : list dev) : Prop :=
  exists before after, own 0 body = before ++ map unref_event (deferred before) ++ after /\
    Forall not_unref before /\ Forall (fun e => exists b, e = Wrote (WFreeBuffer b)) after.

(* ------------------------------------------------------------------ *)
(* Buffers: how many times the one at this address came from the kernel, and was returned *)
Fixpoint came (a : Z) (t : list dev) : Z :=
  match t with
  | [] => 0
  | Got _ _ (RTransaction tx | RReply tx) :: r => Z.b2z (tx_data tx =? a) + came a r
  | _ :: r => came a r
  end.
Fixpoint went (a : Z) (t : list dev) : Z :=
  match t with
  | [] => 0
  | Wrote (WFreeBuffer b) :: r => Z.b2z (b =? a) + went a r
  | _ :: r => went a r
  end.
(* Replies which nobody waits for are ignored, together with their buffers. The kernel
   sends no such replies. *)
Fixpoint ignored (a : Z) (t : list dev) : Z :=
  match t with
  | [] => 0
  | Unexpected (RReply tx) :: r => Z.b2z (tx_data tx =? a) + ignored a r
  | _ :: r => ignored a r
  end.
(* How many different buffers at this address are referred to *)
Definition held (a : Z) (s : dstate) (refs : list nat) : Z :=
  blen (filter (fun id => buffer_of s id =? a) (nodup Nat.eq_dec refs)).

(* How many events are such; two-way transactions and replies *)
Fixpoint count_ev (f : dev -> bool) (t : list dev) : Z :=
  match t with [] => 0 | e :: r => Z.b2z (f e) + count_ev f r end.
Definition is_two_way (e : dev) : bool := match e with Got _ _ (RTransaction tx) => negb (one_way tx) | _ => false end.
Definition is_reply (e : dev) : bool := match e with Wrote (WReplyData | WReplyStatus _) => true | _ => false end.

(* ------------------------------------------------------------------ *)
(* The numbers of commands in include/uapi/linux/android/binder.h of Linux, 64-bit ABI,
   and what they mean *)
Inductive meaning :=
| MNothing | MSpawn | MFinished | MDone | MDead | MFailed | MReply | MTransaction
| MIncrefs | MAcquire | MRelease | MDecrefs | MDeath | MDeathCleared | MUnknown.
Definition linux_commands : list (Z * meaning) :=
  [(0x7201, MNothing) (* BR_OK *); (0x80407202, MTransaction); (0x80407203, MReply);
   (0x7205, MDead) (* BR_DEAD_REPLY *); (0x7206, MDone) (* BR_TRANSACTION_COMPLETE *);
   (0x80107207, MIncrefs); (0x80107208, MAcquire); (0x80107209, MRelease); (0x8010720a, MDecrefs);
   (0x720c, MNothing) (* BR_NOOP *); (0x720d, MSpawn); (0x720e, MFinished);
   (0x8008720f, MDeath); (0x80087210, MDeathCleared); (0x7211, MFailed) (* BR_FAILED_REPLY *)].
Definition meaning_of (c : rcmd) : meaning :=
  match c with
  | RNoop | ROk => MNothing | RSpawnLooper => MSpawn | RFinished => MFinished
  | RComplete => MDone | RDeadReply => MDead | RFailedReply => MFailed
  | RReply _ => MReply | RTransaction _ => MTransaction
  | RIncrefs _ => MIncrefs | RAcquire _ => MAcquire | RRelease _ => MRelease | RDecrefs _ => MDecrefs
  | RDeadBinder _ => MDeath | RClearDone => MDeathCleared | ROther => MUnknown
  end.
(* The object or the handle which a command is about: its first 8 bytes (a handle is kept
   in the lower half of the cookie) *)
Definition subject (c : rcmd) : option Z :=
  match c with
  | RIncrefs o | RAcquire o | RRelease o | RDecrefs o => Some o
  | RDeadBinder h => Some h
  | _ => None
  end.
