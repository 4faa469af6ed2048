(* Model of asynchronous transactions: the relevant parts of src/gbinder_ipc.c
   (gbinder_ipc_transact, gbinder_ipc_transact_custom, gbinder_ipc_cancel and what they
   start), with the event loop and the thread pool of GLib as the environment.

   The main thread runs the event loop, API calls and callbacks. Callbacks may do anything:
   make API calls and run the event loop (recursively). Worker threads are interleaved
   with the main thread in any way. A step is what one thread does between two accesses to
   what they share (the queue of the pool, the cancelled flag, the event loop).

   Simplifications: the counter of ids is shared with other GBinderIpc objects, and those
   move it at any time ([Tick]) but not in the middle of an allocation; the pool may have
   any number of threads rather than 15; gbinder_ipc_exit is called outside of callbacks. *)
From Verif Require Import Base.

Definition upd {A} (f : nat -> A) (i : nat) (v : A) : nat -> A := fun j => if Nat.eqb j i then v else f j.

(* What the caller has given: is there a reply (done) callback and a destroy callback *)
Record spec := { has_reply : bool; has_destroy : bool }.

Inductive phase :=
| Queued                             (* in the queue of the pool *)
| Executing (called : bool)          (* a worker thread has it; was fn_exec called? *)
| Ready (result : option Z)          (* the completion is attached to the event loop *)
| InReply (result : Z)               (* the reply callback is running *)
| InDestroy                          (* the destroy callback is running *)
| Freed
| Lost.                              (* pushed to the pool which is gone *)

(* GBinderIpcTxPriv *)
Record atx := { t_id : Z; t_spec : spec; t_cancelled : bool; t_phase : phase }.

(* What can be seen from outside. The numbers identify transactions in the order in which
   they were made. *)
Inductive aev :=
| Started (k : nat) (id : Z) (f : spec)
| CancelCalled (id : Z)
| Exec (k : nat)                     (* the transaction is being performed *)
| ExecEnd (k : nat) (result : Z)
| Reply (k : nat) (result : Z)       (* the reply callback is called *)
| ReplyEnd (k : nat)
| Gone (k : nat)                     (* the id doesn't refer to it anymore *)
| Destroy (k : nat)                  (* the destroy callback is called *)
| DestroyEnd (k : nat)
| IpcFreed
| Exiting.                           (* gbinder_ipc_exit was called *)

Record astate := {
  next_id : Z;                       (* gbinder_ipc_next_id, as guint *)
  tx_table : list (Z * nat);         (* priv->tx_table *)
  txs : nat -> atx;
  count : nat;
  pool : bool;                       (* priv->tx_pool is there *)
  queue : list nat;                  (* of the pool *)
  ready : list nat;                  (* completions attached to the event loop *)
  stack : list nat;                  (* transactions whose callbacks are running *)
  app_refs : nat;                    (* references to GBinderIpc, by the application *)
  ipc_refs : Z;                      (* and all of them *)
  atrace : list aev
}.

(* src/gbinder_ipc.c:1462-1471 gbinder_ipc_tx_new_id: the id and the new counter *)
Definition tx_new_id (next : Z) : Z * Z :=
  let id := u32 next in
  if id =? 0 then (u32 (next + 1), u32 (next + 2)) else (id, u32 (next + 1)).

Definition in_table (table : list (Z * nat)) (id : Z) : bool := existsb (fun e => fst e =? id) table.
Definition table_remove (table : list (Z * nat)) (id : Z) : list (Z * nat) :=
  filter (fun e => negb (fst e =? id)) table.
Definition table_lookup (table : list (Z * nat)) (id : Z) : option nat :=
  match find (fun e => fst e =? id) table with Some e => Some (snd e) | None => None end.

(* src/gbinder_ipc.c:1473-1485 gbinder_ipc_tx_get_id; None if the loop takes more than
   [fuel] rounds *)
Fixpoint tx_get_id (fuel : nat) (table : list (Z * nat)) (next : Z) : option (Z * Z) :=
  match fuel with
  | O => None
  | S n =>
    let (id, next1) := tx_new_id next in
    if in_table table id then tx_get_id n table next1 else Some (id, next1)
  end.

Definition add_event (s : astate) (e : aev) : astate :=
  {| next_id := next_id s; tx_table := tx_table s; txs := txs s; count := count s; pool := pool s;
     queue := queue s; ready := ready s; stack := stack s; app_refs := app_refs s; ipc_refs := ipc_refs s;
     atrace := atrace s ++ [e] |}.
Definition set_tx (s : astate) (k : nat) (t : atx) : astate :=
  {| next_id := next_id s; tx_table := tx_table s; txs := upd (txs s) k t; count := count s; pool := pool s;
     queue := queue s; ready := ready s; stack := stack s; app_refs := app_refs s; ipc_refs := ipc_refs s;
     atrace := atrace s |}.
Definition set_table (s : astate) (l : list (Z * nat)) : astate :=
  {| next_id := next_id s; tx_table := l; txs := txs s; count := count s; pool := pool s;
     queue := queue s; ready := ready s; stack := stack s; app_refs := app_refs s; ipc_refs := ipc_refs s;
     atrace := atrace s |}.
Definition set_work (s : astate) (q r st : list nat) : astate :=
  {| next_id := next_id s; tx_table := tx_table s; txs := txs s; count := count s; pool := pool s;
     queue := q; ready := r; stack := st; app_refs := app_refs s; ipc_refs := ipc_refs s;
     atrace := atrace s |}.
Definition set_refs (s : astate) (app : nat) (n : Z) : astate :=
  {| next_id := next_id s; tx_table := tx_table s; txs := txs s; count := count s; pool := pool s;
     queue := queue s; ready := ready s; stack := stack s; app_refs := app; ipc_refs := n;
     atrace := atrace s |}.
Definition set_phase (s : astate) (k : nat) (p : phase) : astate :=
  let t := txs s k in
  set_tx s k {| t_id := t_id t; t_spec := t_spec t; t_cancelled := t_cancelled t; t_phase := p |}.

(* gbinder_ipc_unref *)
Definition ipc_unref (s : astate) (app : nat) : astate :=
  let s1 := set_refs s app (ipc_refs s - 1) in
  if ipc_refs s - 1 =? 0 then add_event s1 IpcFreed else s1.

(* src/gbinder_ipc.c:1966-1990 gbinder_ipc_transact,
   src/gbinder_ipc.c:1992-2012 gbinder_ipc_transact_custom,
   src/gbinder_ipc.c:1605-1633 gbinder_ipc_tx_internal_new,
   src/gbinder_ipc.c:1681-1703 gbinder_ipc_tx_custom_new,
   src/gbinder_ipc.c:1518-1529 gbinder_ipc_tx_pub_init (which references GBinderIpc),
   src/gbinder_ipc.c:1531-1548 gbinder_ipc_tx_priv_init.
   None if it doesn't return. *)
Definition ipc_transact (s : astate) (f : spec) : option astate :=
  match tx_get_id (S (length (tx_table s))) (tx_table s) (next_id s) with
  | None => None
  | Some (id, next1) =>
    let k := count s in
    Some
      {| next_id := next1; tx_table := (id, k) :: table_remove (tx_table s) id;
         txs := upd (txs s) k {| t_id := id; t_spec := f; t_cancelled := false;
                                 t_phase := if pool s then Queued else Lost |};
         count := S k; pool := pool s;
         queue := if pool s then queue s ++ [k] else queue s; ready := ready s; stack := stack s;
         app_refs := app_refs s; ipc_refs := ipc_refs s + 1; atrace := atrace s ++ [Started k id f] |}
  end.

(* src/gbinder_ipc.c:2014-2031 gbinder_ipc_cancel *)
Definition ipc_cancel (s : astate) (id : Z) : astate :=
  let s1 := add_event s (CancelCalled id) in
  if id =? 0 then s1
  else
    match table_lookup (tx_table s) id with
    | Some k =>
      let t := txs s k in
      set_tx s1 k {| t_id := t_id t; t_spec := t_spec t; t_cancelled := true; t_phase := t_phase t |}
    | None => s1
    end.

(* src/gbinder_ipc.c:1487-1503 gbinder_ipc_tx_free, after the destroy callback *)
Definition tx_free_end (s : astate) (k : nat) : astate :=
  ipc_unref (set_phase s k Freed) (app_refs s).

(* src/gbinder_ipc.c:1487-1503 gbinder_ipc_tx_free, up to the destroy callback if there is one:
   src/gbinder_ipc.c:1559-1573 gbinder_ipc_tx_internal_free,
   src/gbinder_ipc.c:1644-1655 gbinder_ipc_tx_custom_free *)
Definition tx_free (s : astate) (k : nat) : astate :=
  let s1 := add_event (set_table s (table_remove (tx_table s) (t_id (txs s k)))) (Gone k) in
  if has_destroy (t_spec (txs s k)) then
    add_event (set_work (set_phase s1 k InDestroy) (queue s1) (ready s1) (k :: stack s1)) (Destroy k)
  else tx_free_end s1 k.

(* src/gbinder_ipc.c:1505-1516 gbinder_ipc_tx_done,
   src/gbinder_ipc.c:1575-1586 gbinder_ipc_tx_internal_done,
   src/gbinder_ipc.c:1657-1667 gbinder_ipc_tx_custom_done.
   The completion is removed from the event loop when it's done, and that calls
   gbinder_ipc_tx_free *)
Definition tx_done (s : astate) (k : nat) (result : option Z) : astate :=
  let s1 := set_work s (queue s) (remove Nat.eq_dec k (ready s)) (stack s) in
  let t := txs s k in
  if negb (t_cancelled t) && has_reply (t_spec t) then
    let r := match result with Some r => r | None => 0 end in
    add_event (set_work (set_phase s1 k (InReply r)) (queue s1) (ready s1) (k :: stack s1)) (Reply k r)
  else tx_free s1 k.

(* Who does what *)
Inductive move :=
| Transact (f : spec)
| Cancel (id : Z)
| Ref | Unref                        (* gbinder_ipc_ref, gbinder_ipc_unref by the application *)
| Tick                               (* another GBinderIpc takes an id *)
| Dispatch (k : nat)                 (* the event loop invokes the completion *)
| Return                             (* from the current callback *)
| Work                               (* a worker thread takes the next transaction *)
| Finish (k : nat) (result : Z)      (* and that's the result *)
| Exit                               (* gbinder_ipc_exit waits for the worker threads *)
| ExitCancel (k : nat).              (* and cancels the completions *)

Definition step (s : astate) (m : move) : option astate :=
  match m with
  (* API calls. Someone must have a reference; callbacks are given one *)
  | Transact f => if 0 <? ipc_refs s then ipc_transact s f else None
  | Cancel id => if 0 <? ipc_refs s then Some (ipc_cancel s id) else None
  | Ref => if 0 <? ipc_refs s then Some (set_refs s (S (app_refs s)) (ipc_refs s + 1)) else None
  | Unref =>
    match app_refs s with
    | O => None
    | S n => Some (ipc_unref s n)
    end
  | Tick =>
    Some {| next_id := snd (tx_new_id (next_id s)); tx_table := tx_table s; txs := txs s; count := count s;
            pool := pool s; queue := queue s; ready := ready s; stack := stack s; app_refs := app_refs s;
            ipc_refs := ipc_refs s; atrace := atrace s |}
  | Dispatch k =>
    match t_phase (txs s k) with
    | Ready result => if in_dec Nat.eq_dec k (ready s) then Some (tx_done s k result) else None
    | _ => None
    end
  | Return =>
    match stack s with
    | [] => None
    | k :: st =>
      let s1 := set_work s (queue s) (ready s) st in
      match t_phase (txs s k) with
      | InReply _ => Some (tx_free (add_event s1 (ReplyEnd k)) k)
      | InDestroy => Some (tx_free_end (add_event s1 (DestroyEnd k)) k)
      | _ => None
      end
    end
  (* src/gbinder_ipc.c:1706-1722 gbinder_ipc_tx_proc *)
  | Work =>
    match queue s with
    | [] => None
    | k :: q =>
      let s1 := set_work s q (ready s) (stack s) in
      if t_cancelled (txs s k) then Some (set_phase s1 k (Executing false))
      else Some (add_event (set_phase s1 k (Executing true)) (Exec k))
    end
  | Finish k result =>
    match t_phase (txs s k) with
    | Executing called =>
      let s1 := set_work s (queue s) (ready s ++ [k]) (stack s) in
      if called then Some (add_event (set_phase s1 k (Ready (Some result))) (ExecEnd k result))
      else Some (set_phase s1 k (Ready None))
    | _ => None
    end
  (* src/gbinder_ipc.c:2171-2255 gbinder_ipc_exit, which has its own reference (dropped by [Unref]) *)
  | Exit =>
    if pool s && (0 <? ipc_refs s) && (match queue s, stack s with [], [] => true | _, _ => false end) &&
       forallb (fun k => match t_phase (txs s k) with Executing _ => false | _ => true end) (seq 0 (count s))
    then
      Some {| next_id := next_id s; tx_table := tx_table s; txs := txs s; count := count s;
              pool := false; queue := queue s; ready := ready s; stack := stack s; app_refs := S (app_refs s);
              ipc_refs := ipc_refs s + 1; atrace := atrace s ++ [Exiting] |}
    else None
  | ExitCancel k =>
    match pool s, stack s, t_phase (txs s k) with
    | false, [], Ready _ =>
      if in_dec Nat.eq_dec k (ready s) then
        Some (tx_free (set_work s (queue s) (remove Nat.eq_dec k (ready s)) (stack s)) k)
      else None
    | _, _, _ => None
    end
  end.

Fixpoint run (s : astate) (l : list move) : option astate :=
  match l with
  | [] => Some s
  | m :: r => match step s m with Some s1 => run s1 r | None => None end
  end.

Definition no_tx : atx :=
  {| t_id := 0; t_spec := {| has_reply := false; has_destroy := false |}; t_cancelled := false; t_phase := Freed |}.
(* A new GBinderIpc. [next]: the counter of ids *)
Definition initial (next : Z) : astate :=
  {| next_id := u32 next; tx_table := []; txs := fun _ => no_tx; count := 0; pool := true; queue := [];
     ready := []; stack := []; app_refs := 1; ipc_refs := 1; atrace := [] |}.
