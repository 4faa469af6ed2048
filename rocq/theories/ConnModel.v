(* Model of how binder connections (GBinderIpc) are shared between threads: the table of connections of
   src/gbinder_ipc.c. Any number of threads run; what happens under gbinder_ipc_mutex is one step.

   g_object_unref is that of GLib: if the reference isn't the last one, it's dropped atomically.
   Otherwise dispose is called, and only then the last reference is dropped, unless there are others by
   that time; when it's gone the object is finalized.

   Simplifications: keys of the table (src/gbinder_ipc.c:268-275 gbinder_ipc_make_key) are numbers, and
   how the protocol is chosen is in InstModel; loopers are in PoolModel and here they are just stopped;
   references are anonymous, only their number matters;
   a caller uses a connection only while it's owned by somebody (see [owned]). gbinder_ipc_exit takes references in the same
   way as gbinder_ipc_new which finds an object. *)
From Verif Require Import Base.

(* What can be seen from outside *)
Inductive event :=
| EvOpen (k i : nat)                           (* the device was opened for a new connection *)
| EvClose (i : nat)                            (* its descriptor was closed, memory was freed *)
| EvNew (t k : nat) (r : option nat)           (* gbinder_ipc_new has returned that to the thread *)
| EvRef (i : nat)                              (* gbinder_ipc_ref *)
| EvUnref (i : nat).                           (* gbinder_ipc_unref was called *)
Definition is_it (r : option nat) (i : nat) : bool := match r with Some j => Nat.eqb j i | None => false end.
(* How many references callers own; the last event is the first *)
Fixpoint owned (tr : list event) (i : nat) : Z :=
  match tr with
  | [] => 0
  | EvNew _ _ r :: l => owned l i + (if is_it r i then 1 else 0)
  | EvRef j :: l => owned l i + (if Nat.eqb j i then 1 else 0)
  | EvUnref j :: l => owned l i - (if Nat.eqb j i then 1 else 0)
  | _ :: l => owned l i
  end.

(* GBinderIpc *)
Record conn := Conn {
  c_key : nat;
  c_refs : Z;                  (* the reference count *)
  c_freed : bool;
  c_stopped : bool             (* loopers were stopped by dispose *)
}.
(* What a thread is doing *)
Inductive pc :=
| Idle
| Disposing (i : nat)          (* gbinder_ipc_unref has found the last reference *)
| Stopping (i : nat)           (* gbinder_ipc_dispose has released the mutex *)
| Dropping (i : nat).          (* and it's done *)

Record state := State {
  conns : nat -> conn;
  count : nat;
  table : nat -> option nat;   (* gbinder_ipc_table; no table is an empty one *)
  threads : nat -> pc;
  trace : list event           (* the last one is the first *)
}.
Inductive out := Disabled | Crash | Ok (s : state).

Definition upd {A} (f : nat -> A) (i : nat) (x : A) : nat -> A := fun j => if Nat.eqb j i then x else f j.
Definition set_conn (s : state) (i : nat) (c : conn) : state :=
  State (upd (conns s) i c) (count s) (table s) (threads s) (trace s).
Definition set_table (s : state) (k : nat) (i : option nat) : state :=
  State (conns s) (count s) (upd (table s) k i) (threads s) (trace s).
Definition set_thread (s : state) (t : nat) (p : pc) : state :=
  State (conns s) (count s) (table s) (upd (threads s) t p) (trace s).
Definition say (s : state) (e : event) : state :=
  State (conns s) (count s) (table s) (threads s) (e :: trace s).
Definition set_refs (s : state) (i : nat) (n : Z) : state :=
  set_conn s i (Conn (c_key (conns s i)) n (c_freed (conns s i)) (c_stopped (conns s i))).

(* src/gbinder_ipc.c:1850-1899 gbinder_ipc_new, 1901-1911 gbinder_ipc_ref. [opened]: whether
   gbinder_driver_new succeeds *)
Definition ipc_new (s : state) (t : nat) (k : nat) (opened : bool) : out :=
  match table s k with
  | Some i =>
    if c_freed (conns s i) then Crash
    else Ok (say (set_refs s i (c_refs (conns s i) + 1)) (EvNew t k (Some i)))
  | None =>
    if opened then
      let i := count s in
      let s := State (upd (conns s) i (Conn k 1 false false)) (S i) (table s) (threads s) (EvOpen k i :: trace s) in
      Ok (say (set_table s k (Some i)) (EvNew t k (Some i)))
    else Ok (say s (EvNew t k None))
  end.
(* src/gbinder_ipc.c:1901-1911 gbinder_ipc_ref *)
Definition ipc_ref (s : state) (i : nat) : out :=
  if c_freed (conns s i) then Crash
  else Ok (say (set_refs s i (c_refs (conns s i) + 1)) (EvRef i)).
(* src/gbinder_ipc.c:1913-1920 gbinder_ipc_unref: the beginning of g_object_unref *)
Definition ipc_unref (s : state) (t : nat) (i : nat) : out :=
  if c_freed (conns s i) then Crash
  else if 1 <? c_refs (conns s i)
  then Ok (say (set_refs s i (c_refs (conns s i) - 1)) (EvUnref i))
  else Ok (say (set_thread s t (Disposing i)) (EvUnref i)).
(* src/gbinder_ipc.c:2102-2132 gbinder_ipc_dispose: under the mutex. The assertion that it's the object
   itself which is in the table is compiled in debug builds only. *)
Definition ipc_dispose (s : state) (t : nat) (i : nat) : out :=
  if c_freed (conns s i) then Crash
  else Ok (set_thread (set_table s (c_key (conns s i)) None) t (Stopping i)).
(* ... and after that: src/gbinder_ipc.c:2070-2100 gbinder_ipc_stop_loopers *)
Definition ipc_stop (s : state) (t : nat) (i : nat) : out :=
  let c := conns s i in
  if c_freed c then Crash
  else Ok (set_thread (set_conn s i (Conn (c_key c) (c_refs c) (c_freed c) true)) t (Dropping i)).
(* The end of g_object_unref; src/gbinder_ipc.c:2134-2156 gbinder_ipc_finalize *)
Definition ipc_drop (s : state) (t : nat) (i : nat) : out :=
  let c := conns s i in
  if c_freed c then Crash
  else if 1 <? c_refs c
  then Ok (set_thread (set_refs s i (c_refs c - 1)) t Idle)
  else Ok (say (set_thread (set_conn s i (Conn (c_key c) (c_refs c - 1) true (c_stopped c))) t Idle) (EvClose i)).

Inductive move :=
| MNew (t k : nat) (opened : bool)
| MRef (t i : nat)
| MUnref (t i : nat)
| MGo (t : nat).                (* the thread goes on with gbinder_ipc_unref *)
Definition is_idle (p : pc) : bool := match p with Idle => true | _ => false end.
Definition step (s : state) (m : move) : out :=
  match m with
  | MNew t k opened => if is_idle (threads s t) then ipc_new s t k opened else Disabled
  | MRef t i => if is_idle (threads s t) && (0 <? owned (trace s) i) then ipc_ref s i else Disabled
  | MUnref t i => if is_idle (threads s t) && (0 <? owned (trace s) i) then ipc_unref s t i else Disabled
  | MGo t =>
    match threads s t with
    | Idle => Disabled
    | Disposing i => ipc_dispose s t i
    | Stopping i => ipc_stop s t i
    | Dropping i => ipc_drop s t i
    end
  end.
Fixpoint run (s : state) (l : list move) : out :=
  match l with
  | [] => Ok s
  | m :: r => match step s m with Ok s1 => run s1 r | x => x end
  end.
Definition init : state :=
  State (fun _ => Conn 0 0 false false) 0 (fun _ => None) (fun _ => Idle) [].
