(* Model of src/gbinder_proxy_object.c: objects which forward all their transactions to a
   remote object, and replace the objects in requests and replies with more of the same kind.

   Several GBinderIpc are involved, each has its own remote and local objects. Any number of
   threads receive transactions; what such a thread does, and what happens to its requests on
   the main thread, is BlockModel.v. Everything else here happens on the main thread, except
   for sending the forwarded request, and for dropping references to the proxy object.

   Instead of being counted, references are recorded together with their owners. Dropping
   a reference which isn't there, and using an object which has no references, is a separate
   outcome (Crash).

   Simplifications: dropping the last reference and removing the object from the table is one
   step (the other order of events is in LocalModel.v). If several objects in the table match,
   then the oldest one is found (the order of the hash table is arbitrary). A remote object
   has no other state here than being dead and being in the table (see RemoteModel.v). The
   list of transactions which belong to a proxy (priv->tx) is in PendModel.v.
   The reply callback of a forwarded transaction is called once and is followed by the
   destroy callback (that is C29), because the transaction is never cancelled. *)
From Verif Require Import Base ReaderModel ObjModel TxModel ProxyConv BlockModel.

Definition EBADMSG : Z := 74.
(* src/gbinder_types.h GBINDER_STATUS_DEAD_OBJECT is 2 *)
Definition STATUS_DEAD_OBJECT : Z := 2.

(* A request: the thread which has received it, and its number *)
Definition key : Set := (nat * nat)%type.
Definition key_eqb (a b : key) : bool := Nat.eqb (fst a) (fst b) && Nat.eqb (snd a) (snd b).
Definition updk {A} (f : key -> A) (q : key) (v : A) : key -> A := fun j => if key_eqb j q then v else f j.

(* GBinderRemoteObject *)
Record remote := {
  r_ipc : nat;
  r_handle : Z;
  r_dead : bool;
  r_listed : bool                    (* in the table of remote objects of that GBinderIpc *)
}.

(* GBinderProxyObject *)
Record proxy := {
  p_ipc : nat;                       (* self->parent.ipc *)
  p_remote : nat;                    (* self->remote *)
  p_dropped : bool;
  p_acquired : bool
}.

(* Who has a reference to a proxy *)
Inductive owner : Set :=
| OApp                               (* the application, or a bridge *)
| OKernel                            (* the kernel *)
| OCall (q : key)                    (* the driver, while it handles a transaction *)
| OTx (q : key)                      (* tx->proxy *)
| ORequest (q : key)                 (* the forwarded request in which it's mentioned *)
| OReply (q : key).                  (* the forwarded reply *)

(* Who has a reference to a remote object *)
Inductive rowner : Set :=
| RApp
| RTemp                              (* the function which is being executed *)
| RProxy (p : nat).

Definition owner_dec (a b : owner * nat) : {a = b} + {a <> b}.
Proof. repeat decide equality. Defined.
Definition rowner_dec (a b : rowner * nat) : {a = b} + {a <> b}.
Proof. repeat decide equality. Defined.

Fixpoint take1 {A} (dec : forall a b : A, {a = b} + {a <> b}) (x : A) (l : list A) : option (list A) :=
  match l with
  | [] => None
  | y :: r => if dec x y then Some r else match take1 dec x r with Some r' => Some (y :: r') | None => None end
  end.

(* How far the request has got *)
Inductive stage : Set :=
| QNone                              (* not for a proxy *)
| QArrived
| QRefused
| QPending                           (* forwarded to the pool of worker threads *)
| QSent                              (* and to the driver *)
| QReplied                           (* in the middle of the reply callback *)
| QDone                              (* which has returned *)
| QFreed.                            (* and the destroy callback too *)

(* struct gbinder_proxy_tx, and the transaction which it belongs to *)
Record ptx := {
  t_stage : stage;
  t_proxy : nat;                     (* the target *)
  t_fwd : option wdata;              (* the forwarded request, NULL is None *)
  t_code : Z;
  t_flags : Z;
  t_dead : bool                      (* the status is GBINDER_STATUS_DEAD_OBJECT *)
}.

(* What can be seen from outside *)
Inductive pev :=
| EArrive (q : key) (p : nat)                                      (* a request for a proxy is received *)
| EForward (q : key) (p : nat) (code flags : Z) (msg : message)   (* a proxy gets a request *)
| ERefuse (q : key) (p : nat)
| ESent (q : key) (ipc : nat) (handle code flags : Z) (d : wdata) (* that's what the driver gets *)
| EReplied (q : key) (status : Z) (reply : option message)        (* the remote object has replied *)
| EConvert (ri : nat) (h : Z) (li : nat) (r p : nat)              (* handle [h] is a remote object and becomes a proxy *)
| EKept (ri : nat) (h : Z) (li : nat)                             (* or not, that object is known to be dead *)
| ECreated (p : nat)
| EGone (p : nat)
| EAcquire (p : nat)                 (* BC_ACQUIRE of the remote object *)
| ERelease (p : nat).                (* BC_RELEASE *)

Record pstate := {
  bs : nat -> bstate;                (* the threads *)
  rem : nat -> remote;
  nrem : nat;
  prx : nat -> proxy;
  nprx : nat;
  rrefs : list (rowner * nat);
  prefs : list (owner * nat);
  ptxs : key -> ptx;
  outs : list wdata;                 (* forwarded replies *)
  ptrace : list pev
}.

Record env := {
  e_io : io;
  e_mode : cmode;
  e_proto : nat -> protocol;         (* of each GBinderIpc *)
  e_looper : nat -> bool             (* is the thread a looper? *)
}.

Definition set_bs (s : pstate) (t : nat) (b : bstate) : pstate :=
  {| bs := upd (bs s) t b; rem := rem s; nrem := nrem s; prx := prx s; nprx := nprx s; rrefs := rrefs s;
     prefs := prefs s; ptxs := ptxs s; outs := outs s; ptrace := ptrace s |}.
Definition set_rem (s : pstate) (r : nat) (v : remote) : pstate :=
  {| bs := bs s; rem := upd (rem s) r v; nrem := nrem s; prx := prx s; nprx := nprx s; rrefs := rrefs s;
     prefs := prefs s; ptxs := ptxs s; outs := outs s; ptrace := ptrace s |}.
Definition set_prx (s : pstate) (p : nat) (v : proxy) : pstate :=
  {| bs := bs s; rem := rem s; nrem := nrem s; prx := upd (prx s) p v; nprx := nprx s; rrefs := rrefs s;
     prefs := prefs s; ptxs := ptxs s; outs := outs s; ptrace := ptrace s |}.
Definition set_rrefs (s : pstate) (l : list (rowner * nat)) : pstate :=
  {| bs := bs s; rem := rem s; nrem := nrem s; prx := prx s; nprx := nprx s; rrefs := l;
     prefs := prefs s; ptxs := ptxs s; outs := outs s; ptrace := ptrace s |}.
Definition set_prefs (s : pstate) (l : list (owner * nat)) : pstate :=
  {| bs := bs s; rem := rem s; nrem := nrem s; prx := prx s; nprx := nprx s; rrefs := rrefs s;
     prefs := l; ptxs := ptxs s; outs := outs s; ptrace := ptrace s |}.
Definition set_ptx (s : pstate) (q : key) (v : ptx) : pstate :=
  {| bs := bs s; rem := rem s; nrem := nrem s; prx := prx s; nprx := nprx s; rrefs := rrefs s;
     prefs := prefs s; ptxs := updk (ptxs s) q v; outs := outs s; ptrace := ptrace s |}.
Definition set_outs (s : pstate) (l : list wdata) : pstate :=
  {| bs := bs s; rem := rem s; nrem := nrem s; prx := prx s; nprx := nprx s; rrefs := rrefs s;
     prefs := prefs s; ptxs := ptxs s; outs := l; ptrace := ptrace s |}.
Definition emit (s : pstate) (e : pev) : pstate :=
  {| bs := bs s; rem := rem s; nrem := nrem s; prx := prx s; nprx := nprx s; rrefs := rrefs s;
     prefs := prefs s; ptxs := ptxs s; outs := outs s; ptrace := ptrace s ++ [e] |}.
(* A new object is at the end *)
Definition add_rem (s : pstate) (v : remote) : pstate :=
  {| bs := bs s; rem := upd (rem s) (nrem s) v; nrem := S (nrem s); prx := prx s; nprx := nprx s; rrefs := rrefs s;
     prefs := prefs s; ptxs := ptxs s; outs := outs s; ptrace := ptrace s |}.
Definition add_prx (s : pstate) (v : proxy) : pstate :=
  {| bs := bs s; rem := rem s; nrem := nrem s; prx := upd (prx s) (nprx s) v; nprx := S (nprx s); rrefs := rrefs s;
     prefs := prefs s; ptxs := ptxs s; outs := outs s; ptrace := ptrace s |}.

Definition r_set_dead (r : remote) (b : bool) : remote :=
  {| r_ipc := r_ipc r; r_handle := r_handle r; r_dead := b; r_listed := r_listed r |}.
Definition r_set_listed (r : remote) (b : bool) : remote :=
  {| r_ipc := r_ipc r; r_handle := r_handle r; r_dead := r_dead r; r_listed := b |}.
Definition p_set_dropped (p : proxy) : proxy :=
  {| p_ipc := p_ipc p; p_remote := p_remote p; p_dropped := true; p_acquired := p_acquired p |}.
Definition p_set_acquired (p : proxy) : proxy :=
  {| p_ipc := p_ipc p; p_remote := p_remote p; p_dropped := p_dropped p; p_acquired := true |}.
Definition t_set_stage (t : ptx) (st : stage) : ptx :=
  {| t_stage := st; t_proxy := t_proxy t; t_fwd := t_fwd t; t_code := t_code t; t_flags := t_flags t; t_dead := t_dead t |}.

Definition palive (s : pstate) (p : nat) : bool := existsb (fun x => Nat.eqb (snd x) p) (prefs s).
Definition ralive (s : pstate) (r : nat) : bool := existsb (fun x => Nat.eqb (snd x) r) (rrefs s).

(* gbinder_remote_object_ref, gbinder_remote_object_unref. When the last reference is gone, the
   object is not in the table anymore *)
Definition rref (s : pstate) (o : rowner) (r : nat) : pstate := set_rrefs s ((o, r) :: rrefs s).
Definition runref (s : pstate) (o : rowner) (r : nat) : out pstate :=
  match take1 rowner_dec (o, r) (rrefs s) with
  | None => Crash
  | Some l =>
    let s1 := set_rrefs s l in
    if ralive s1 r then Ok s1 else Ok (set_rem s1 r (r_set_listed (rem s1 r) false))
  end.

(* g_object_ref *)
Definition pref (s : pstate) (o : owner) (p : nat) : out pstate :=
  if palive s p then Ok (set_prefs s ((o, p) :: prefs s)) else Crash.

(* g_object_unref and src/gbinder_proxy_object.c:359-386 gbinder_proxy_object_finalize *)
Definition punref (s : pstate) (o : owner) (p : nat) : out pstate :=
  match take1 owner_dec (o, p) (prefs s) with
  | None => Crash
  | Some l =>
    let s1 := set_prefs s l in
    if palive s1 p then Ok s1
    else
      let s2 := if p_acquired (prx s p) then emit s1 (ERelease p) else s1 in
      runref (emit s2 (EGone p)) (RProxy p) (p_remote (prx s p))
  end.

(* src/gbinder_ipc.c:1318-1360 gbinder_ipc_priv_get_remote_object; the result has a new
   reference *)
Definition find_remote (s : pstate) (ipc : nat) (h : Z) : option nat :=
  find (fun r => r_listed (rem s r) && Nat.eqb (r_ipc (rem s r)) ipc && (r_handle (rem s r) =? h)) (seq 0 (nrem s)).
Definition get_remote (s : pstate) (o : rowner) (ipc : nat) (h : Z) (maybe_dead : bool) : pstate * nat :=
  match find_remote s ipc h with
  | Some r => (rref s o r, r)
  | None => (rref (add_rem s {| r_ipc := ipc; r_handle := h; r_dead := maybe_dead; r_listed := true |}) o (nrem s), nrem s)
  end.

(* src/gbinder_proxy_object.c:328-353 gbinder_proxy_object_new *)
Definition proxy_new (s : pstate) (o : owner) (ipc r : nat) : pstate * nat :=
  let p := nprx s in
  let s1 := add_prx s {| p_ipc := ipc; p_remote := r; p_dropped := false; p_acquired := false |} in
  (emit (rref (set_prefs s1 ((o, p) :: prefs s1)) (RProxy p) r) (ECreated p), p).

(* src/gbinder_ipc.c:1362-1394 gbinder_ipc_find_local_object with
   src/gbinder_proxy_object.c:93-105 gbinder_proxy_object_converter_check *)
Definition find_proxy (s : pstate) (ipc r : nat) : option nat :=
  find (fun p => palive s p && Nat.eqb (p_ipc (prx s p)) ipc && Nat.eqb (p_remote (prx s p)) r) (seq 0 (nprx s)).

(* src/gbinder_proxy_object.c:107-128 gbinder_proxy_object_converter_handle_to_local. The
   result belongs to [o] *)
Definition handle_to_local (s : pstate) (o : owner) (ri li : nat) (h : Z) : out (pstate * option nat) :=
  let (s1, r) := get_remote s RTemp ri h false in
  do (s2, p) <-
    match find_proxy s1 li r with
    | Some p => do s2 <- pref s1 o p; Ok (s2, Some p)
    | None =>
      if r_dead (rem s1 r) then Ok (s1, None)
      else let (s2, p) := proxy_new s1 o li r in Ok (s2, Some p)
    end;
  let s3 := emit s2 (match p with Some p => EConvert ri h li r p | None => EKept ri h li end) in
  do s4 <- runref s3 RTemp r;
  Ok (s4, p).

(* The calls of the above while a message is being copied: src/gbinder_writer.c:89-160
   gbinder_writer_data_append_contents *)
Fixpoint convert_objects (s : pstate) (o : owner) (ri li : nat) (data : bytes) (objs : list Z)
  : out (pstate * list (Z * option nat)) :=
  match objs with
  | [] => Ok (s, [])
  | x :: r =>
    match decode_binder_handle data x with
    | Base.Fault _ => Crash
    | Base.Ok None => convert_objects s o ri li data r
    | Base.Ok (Some h) =>
      do (s1, p) <- handle_to_local s o ri li h;
      do (s2, l) <- convert_objects s1 o ri li data r;
      Ok (s2, (h, p) :: l)
    end
  end.

(* Where the object is *)
Definition addr (p : nat) : Z := 16 * (Z.of_nat p + 1).
Definition as_local (p : nat) : local := {| lo_ptr := addr p; lo_stability := 0 |}.
Definition converter_of (l : list (Z * option nat)) : converter :=
  Some (fun h =>
    match find (fun x => fst x =? h) l with
    | Some (_, Some p) => Some (as_local p)
    | _ => None
    end).

(* Nothing of the application can prevent this move *)
Definition must {A} (m : out A) : out A := match m with Disabled => Crash | x => x end.
Definition on_bs (s : pstate) (t : nat) (f : bstate -> out bstate) : out pstate :=
  do b <- f (bs s t); Ok (set_bs s t b).

(* What the thread may do meanwhile *)
Definition thread_only (m : move) : bool := match m with Arrive | Thread | Stop => true | _ => false end.
Definition meanwhile (b : bstate) (l : list move) : out bstate :=
  if forallb thread_only l then run b l else Disabled.

(* src/gbinder_proxy_object.c:237-282 gbinder_proxy_object_handle_transaction, and how it's
   called and returns (src/gbinder_ipc.c:477-552 gbinder_ipc_looper_tx_handle). The converter
   takes handles of the GBinderIpc of the proxy and makes local objects of the other one *)
Definition handle_transaction (e : env) (s : pstate) (q : key) (code flags : Z) (msg : message) (l1 l2 l3 : list move)
  : out pstate :=
  let (t, k) := q in
  let x := ptxs s q in
  let p := t_proxy x in
  let self := prx s p in
  let r := p_remote self in
  do b0 <- step (bs s t) (Dispatch k);
  if negb (palive s p) then Crash
  else if negb (p_dropped self) && negb (r_dead (rem s r)) then
    do b1 <- meanwhile b0 l1;
    do b2 <- must (step b1 (Ref k));
    do b3 <- meanwhile b2 l2;
    do b4 <- must (step b3 (Block k));
    let s1 := emit (set_bs s t b4) (EForward q p code flags msg) in
    do s2 <- pref s1 (OTx q) p;
    do (s3, l) <-
      match msg with
      | Some (data, objs) => convert_objects s2 (ORequest q) (p_ipc self) (r_ipc (rem s r)) data objs
      | None => Ok (s2, [])
      end;
    match forward_request (e_io e) (e_mode e) (e_proto e (p_ipc self)) (e_proto e (r_ipc (rem s r)))
            (converter_of l) code msg with
    | Base.Fault _ => Crash
    | Base.Ok fwd =>
      do b5 <- meanwhile (bs s3 t) l3;
      do b6 <- must (step b5 (Return k (None, 0)));
      Ok (set_ptx (set_bs s3 t b6) q
            {| t_stage := QPending; t_proxy := p; t_fwd := fwd; t_code := code; t_flags := flags; t_dead := false |})
    end
  else
    do b1 <- meanwhile b0 l1;
    do b2 <- must (step b1 (Return k (None, - EBADMSG)));
    Ok (emit (set_ptx (set_bs s t b2) q (t_set_stage x QRefused)) (ERefuse q p)).

(* src/gbinder_ipc.c:1588-1603 gbinder_ipc_tx_internal_exec on a worker thread,
   src/gbinder_driver.c:1225-1313 gbinder_driver_transact: without a request, it reads data->bytes
   where data is NULL *)
Definition send (s : pstate) (q : key) : out pstate :=
  let x := ptxs s q in
  let r := rem s (p_remote (prx s (t_proxy x))) in
  match t_fwd x with
  | None => Crash
  | Some d =>
    Ok (emit (set_ptx s q (t_set_stage x QSent))
          (ESent q (r_ipc r) (r_handle r) (t_code x) (forwarded_flags (t_flags x)) d))
  end.

(* src/gbinder_proxy_object.c:188-223 gbinder_proxy_tx_reply up to and including
   gbinder_remote_request_complete. The converter takes handles of the GBinderIpc which the
   reply came from and makes local objects of the other one *)
Definition tx_reply (e : env) (s : pstate) (q : key) (status : Z) (reply : option message) : out pstate :=
  let (t, k) := q in
  let x := ptxs s q in
  let p := t_proxy x in
  let self := prx s p in
  let ipc := r_ipc (rem s (p_remote self)) in
  if negb (palive s p) then Crash
  else
    do (s1, l) <-
      match reply with
      | Some (Some (data, objs)) =>
        convert_objects (emit s (EReplied q status reply)) (OReply q) ipc (p_ipc self) data objs
      | _ => Ok (emit s (EReplied q status reply), [])
      end;
    match reply_to_local (e_io e) (e_proto e ipc) (converter_of l) reply with
    | Base.Fault _ => Crash
    | Base.Ok fwd =>
      do s2 <- punref s1 (OTx q) p;
      let (s3, token) :=
        match fwd with
        | Some d => (set_outs s2 (outs s2 ++ [d]), Some (Z.of_nat (length (outs s2))))
        | None => (s2, None)
        end in
      do s4 <- on_bs s3 t (fun b => must (step b (Complete k (token, if 0 <? status then - EFAULT else status))));
      Ok (set_ptx s4 q
            {| t_stage := QReplied; t_proxy := p; t_fwd := t_fwd x; t_code := t_code x; t_flags := t_flags x;
               t_dead := status =? STATUS_DEAD_OBJECT |})
    end.

(* The rest of it, src/gbinder_remote_object.c:139-161 gbinder_remote_object_commit_suicide *)
Definition tx_reply_end (s : pstate) (q : key) : out pstate :=
  let x := ptxs s q in
  let s1 := set_ptx s q (t_set_stage x QDone) in
  if t_dead x then
    if palive s (t_proxy x) then
      let r := p_remote (prx s (t_proxy x)) in
      if r_dead (rem s r) then Ok s1
      else Ok (set_rem s1 r (r_set_listed (r_set_dead (rem s r) true) false))
    else Crash
  else Ok s1.

Definition refs_of (s : pstate) (o : owner) : list nat :=
  map snd (filter (fun x => if owner_dec x (o, snd x) then true else false) (prefs s)).
Fixpoint release (s : pstate) (o : owner) (l : list nat) : out pstate :=
  match l with
  | [] => Ok s
  | p :: r => do s1 <- punref s o p; release s1 o r
  end.

(* src/gbinder_proxy_object.c:225-235 gbinder_proxy_tx_destroy, after which the transaction is
   freed together with the forwarded request and its references (src/gbinder_ipc.c:1559-1573
   gbinder_ipc_tx_internal_free). tx->proxy is NULL by then *)
Definition tx_destroy (s : pstate) (q : key) : out pstate :=
  let (t, k) := q in
  do s1 <- on_bs s t (fun b => must (step b (Unref k)));
  do s2 <- release s1 (ORequest q) (refs_of s1 (ORequest q));
  Ok (set_ptx s2 q (t_set_stage (ptxs s2 q) QFreed)).

(* src/gbinder_proxy_object.c:295-310 gbinder_proxy_object_acquire. The kernel has got its first
   reference *)
Definition proxy_acquire (s : pstate) (p : nat) : out pstate :=
  let self := prx s p in
  do s1 <- pref s OKernel p;
  if negb (r_dead (rem s (p_remote self))) && negb (p_dropped self) && negb (p_acquired self)
  then Ok (emit (set_prx s1 p (p_set_acquired self)) (EAcquire p))
  else Ok s1.

(* src/gbinder_proxy_object.c:312-322 gbinder_proxy_object_drop. The reference of the caller is
   gone too *)
Definition proxy_drop (s : pstate) (p : nat) : out pstate :=
  punref (set_prx s p (p_set_dropped (prx s p))) OApp p.

(* The application has a reference to the request, or is handling it: not if it's for a proxy *)
Definition app_move (m : move) : option nat :=
  match m with
  | Dispatch k | Return k _ | Ref k | Unref k | Block k | Complete k _ => Some k
  | Arrive | Thread | Forget _ | Stop => None
  end.

Definition answered (b : bstate) (k : nat) : bool :=
  existsb (fun x => match x with Answered j _ => Nat.eqb j k | _ => false end) (btrace b).

(* What happens next *)
Inductive pmove :=
| PArrive (t p : nat)                (* a thread gets a transaction for this proxy *)
| POther (t : nat) (m : move)        (* threads, and requests which aren't for proxies *)
| PHandle (q : key) (code flags : Z) (msg : message) (l1 l2 l3 : list move)
| PSend (q : key)
| PReply (q : key) (status : Z) (reply : option message)
| PReplyEnd (q : key)
| PDestroy (q : key)
| PCallEnd (q : key)                 (* the driver is done with the transaction *)
| PReplyFreed (q : key)              (* and with its reply *)
| PNew (ipc r : nat)                 (* gbinder_proxy_object_new is called by a bridge *)
| PRef (p : nat) | PUnref (p : nat) | PDrop (p : nat)
| PAcquire (p : nat) | PRelease (p : nat)          (* the kernel *)
| PDeath (r : nat)                   (* the remote object has died *)
| PGetRemote (ipc : nat) (h : Z) (maybe_dead : bool)
| PReanimate (r : nat)
| PPutRemote (r : nat).

Definition at_stage (s : pstate) (q : key) (st : stage) : bool :=
  match t_stage (ptxs s q), st with
  | QArrived, QArrived | QPending, QPending | QSent, QSent | QReplied, QReplied | QDone, QDone => true
  | _, _ => false
  end.
Definition when {A} (b : bool) (m : out A) : out A := if b then m else Disabled.
Definition owned (s : pstate) (o : owner) (p : nat) : bool :=
  existsb (fun x => if owner_dec x (o, p) then true else false) (prefs s).
Definition rowned (s : pstate) (o : rowner) (r : nat) : bool :=
  existsb (fun x => if rowner_dec x (o, r) then true else false) (rrefs s).

Definition pstep (e : env) (s : pstate) (m : pmove) : out pstate :=
  match m with
  | PArrive t p =>
    let k := count (bs s t) in
    when (palive s p)
      (do b <- step (bs s t) Arrive;
       do s1 <- pref (set_bs s t b) (OCall (t, k)) p;
       Ok (emit (set_ptx s1 (t, k)
             {| t_stage := QArrived; t_proxy := p; t_fwd := None; t_code := 0; t_flags := 0; t_dead := false |})
             (EArrive (t, k) p)))
  | POther t m =>
    when (match app_move m with
          | Some k => match t_stage (ptxs s (t, k)) with QNone => true | _ => false end
          | None => true
          end)
      (on_bs s t (fun b => step b m))
  | PHandle q code flags msg l1 l2 l3 =>
    when (at_stage s q QArrived) (handle_transaction e s q code flags msg l1 l2 l3)
  | PSend q => when (at_stage s q QPending) (send s q)
  | PReply q status reply => when (at_stage s q QSent) (tx_reply e s q status reply)
  | PReplyEnd q => when (at_stage s q QReplied) (tx_reply_end s q)
  | PDestroy q => when (at_stage s q QDone) (tx_destroy s q)
  | PCallEnd q =>
    when (owned s (OCall q) (t_proxy (ptxs s q)) && answered (bs s (fst q)) (snd q))
      (punref s (OCall q) (t_proxy (ptxs s q)))
  | PReplyFreed q =>
    when (answered (bs s (fst q)) (snd q) &&
          match t_stage (ptxs s q) with QDone | QFreed => true | _ => false end)
      (release s (OReply q) (refs_of s (OReply q)))
  | PNew ipc r => when (rowned s RApp r) (Ok (fst (proxy_new s OApp ipc r)))
  | PRef p => when (owned s OApp p) (pref s OApp p)
  | PUnref p => when (owned s OApp p) (punref s OApp p)
  | PDrop p => when (owned s OApp p) (proxy_drop s p)
  | PAcquire p => when (palive s p) (proxy_acquire s p)
  | PRelease p => when (owned s OKernel p) (punref s OKernel p)
  | PDeath r =>
    when (ralive s r && negb (r_dead (rem s r)))
      (Ok (set_rem s r (r_set_listed (r_set_dead (rem s r) true) false)))
  | PGetRemote ipc h maybe_dead => Ok (fst (get_remote s RApp ipc h maybe_dead))
  | PReanimate r => when (rowned s RApp r && r_listed (rem s r)) (Ok (set_rem s r (r_set_dead (rem s r) false)))
  | PPutRemote r => when (rowned s RApp r) (runref s RApp r)
  end.

Fixpoint prun (e : env) (s : pstate) (l : list pmove) : out pstate :=
  match l with
  | [] => Ok s
  | m :: r => do s1 <- pstep e s m; prun e s1 r
  end.

Definition no_remote : remote := {| r_ipc := 0; r_handle := 0; r_dead := true; r_listed := false |}.
Definition no_proxy : proxy := {| p_ipc := 0; p_remote := 0; p_dropped := true; p_acquired := false |}.
Definition no_ptx : ptx :=
  {| t_stage := QNone; t_proxy := 0; t_fwd := None; t_code := 0; t_flags := 0; t_dead := false |}.
Definition pinitial (e : env) : pstate :=
  {| bs := fun t => initial (e_looper e t); rem := fun _ => no_remote; nrem := 0; prx := fun _ => no_proxy; nprx := 0;
     rrefs := []; prefs := []; ptxs := fun _ => no_ptx; outs := []; ptrace := [] |}.

(* The same transaction handled on the main thread, which is waiting for a reply to its own
   synchronous call (src/gbinder_driver.c:515-597 gbinder_driver_handle_transaction without a
   handler): the request belongs to no GBinderIpcLooperTx. The result is what the driver sends
   as the reply right after that *)
Definition direct_request : cell :=
  {| c_tx := {| x_state := SCHEDULED; x_answer := (None, 0); x_refs := 0; x_pipe := 0; x_has_req := false;
                q_refs := 1; q_has_tx := false; q_app := 0; x_cb := CbGone |};
     c_pipe := None; c_ev := [] |}.
Definition handle_direct (s : pstate) (p : nat) : out (cell * answer) :=
  if negb (palive s p) then Crash
  else if negb (p_dropped (prx s p)) && negb (r_dead (rem s (p_remote (prx s p)))) then
    do c1 <- request_ref direct_request;
    do c2 <- request_block c1;
    Ok (c2, (None, 0))
  else Ok (direct_request, (None, - EBADMSG)).
