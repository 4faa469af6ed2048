(* Model of remote objects: src/gbinder_remote_object.c and the table of remote objects in
   src/gbinder_ipc.c, with the part of the binder driver which they depend on.

   Any number of threads look objects up, reference and release them; the main thread also
   handles deaths. A step is what a thread does between two accesses to what they share:
   the table (under its lock), the reference count (atomic), and the driver. Touching an
   object without references is a separate outcome (Crash).

   The driver: a handle refers to a node in another process, which may die; then it's told
   to whoever has asked for that, once. When nothing refers to the node anymore, the handle
   may be given to another node. A request for notifications is refused if there is one
   already. Nothing but remote objects is asking for them. References which are held by
   buffers and proxies keep the handles of those objects which are not acquired.

   Simplifications: handlers of the death signal do nothing but what the application could
   do at that time anyway; the driver doesn't fail. *)
From Verif Require Import Base.

Definition upd {A} (f : nat -> A) (i : nat) (v : A) : nat -> A := fun j => if Nat.eqb j i then v else f j.
Definition zupd {A} (f : Z -> A) (i : Z) (v : A) : Z -> A := fun j => if j =? i then v else f j.

(* GBINDER_SERVICEMANAGER_HANDLE, src/gbinder_servicemanager_p.h *)
Definition SM_HANDLE : Z := 0.

(* Where the thread is which drops what may be the last reference:
   PDispose: g_object_unref has seen that it's the last one, and has called dispose
   PDisposed: dispose has returned
   PFinal: the count has dropped to zero, finalize is called
   PFinal2: finalize has removed the handle from the table
   PGone: the object is freed *)
Inductive phase := PLive | PDispose | PDisposed | PFinal | PFinal2 | PGone.

(* GBinderRemoteObject. ro_node is the node which it stands for in its current life; it's
   not in the code. *)
Record robj := {
  ro_handle : Z;
  ro_dead : bool;
  ro_acquired : bool;
  ro_refs : Z;                 (* object.ref_count *)
  ro_phase : phase;
  ro_node : nat
}.

(* The driver's side of a handle: the node, whether it's dead, the number of strong
   references of this process, and the notification *)
Inductive watch := WNone | WSet | WSent.
Record kref := { kr_node : nat; kr_dead : bool; kr_strong : Z; kr_watch : watch }.

(* What the main thread is doing: nothing in particular, or in the middle of
   gbinder_remote_object_handle_death_on_main_thread (the object was alive) or of
   gbinder_remote_object_commit_suicide, before and after removing the handle *)
Inductive mphase := MIdle | MInvalidate (o : nat) (callback : bool) | MSignal (o : nat) (callback : bool)
                  | MDrop (o : nat).

(* What can be seen from outside: lookups with the object which was found or created, the
   commands for the driver with the object in whose name they are sent, and signals *)
Inductive event :=
| EvGot (h : Z) (o : nat) (created : bool)
| EvAcquire (o : nat) (h : Z)
| EvRelease (o : nat) (h : Z)
| EvRequest (o : nat) (h : Z)
| EvClear (o : nat) (h : Z)
| EvDone (h : Z)
| EvDeath (o : nat)
| EvFreed (o : nat).

Record state := {
  objs : nat -> robj;
  count : nat;
  table : Z -> option nat;     (* priv->remote_objects *)
  held : nat -> Z;             (* references of the application and of the library *)
  queue : list nat;            (* death callbacks of the event loop; each has a reference *)
  inflight : list Z;           (* BR_DEAD_BINDER which threads have got, but not yet handled *)
  main : mphase;
  kern : Z -> kref;
  trace : list event
}.

Inductive out := Disabled | Crash | Ok (s : state).
Definition bind (m : out) (f : state -> out) : out :=
  match m with Ok s => f s | x => x end.

Definition set_obj (s : state) (o : nat) (x : robj) : state :=
  {| objs := upd (objs s) o x; count := count s; table := table s; held := held s; queue := queue s;
     inflight := inflight s; main := main s; kern := kern s; trace := trace s |}.
Definition set_table (s : state) (t : Z -> option nat) : state :=
  {| objs := objs s; count := count s; table := t; held := held s; queue := queue s;
     inflight := inflight s; main := main s; kern := kern s; trace := trace s |}.
Definition set_held (s : state) (o : nat) (n : Z) : state :=
  {| objs := objs s; count := count s; table := table s; held := upd (held s) o n; queue := queue s;
     inflight := inflight s; main := main s; kern := kern s; trace := trace s |}.
Definition set_queue (s : state) (q : list nat) : state :=
  {| objs := objs s; count := count s; table := table s; held := held s; queue := q;
     inflight := inflight s; main := main s; kern := kern s; trace := trace s |}.
Definition set_inflight (s : state) (l : list Z) : state :=
  {| objs := objs s; count := count s; table := table s; held := held s; queue := queue s;
     inflight := l; main := main s; kern := kern s; trace := trace s |}.
Definition set_main (s : state) (m : mphase) : state :=
  {| objs := objs s; count := count s; table := table s; held := held s; queue := queue s;
     inflight := inflight s; main := m; kern := kern s; trace := trace s |}.
Definition set_kern (s : state) (h : Z) (k : kref) : state :=
  {| objs := objs s; count := count s; table := table s; held := held s; queue := queue s;
     inflight := inflight s; main := main s; kern := zupd (kern s) h k; trace := trace s |}.
Definition say (s : state) (e : event) : state :=
  {| objs := objs s; count := count s; table := table s; held := held s; queue := queue s;
     inflight := inflight s; main := main s; kern := kern s; trace := trace s ++ [e] |}.

Definition with_refs (x : robj) (n : Z) : robj :=
  {| ro_handle := ro_handle x; ro_dead := ro_dead x; ro_acquired := ro_acquired x; ro_refs := n;
     ro_phase := ro_phase x; ro_node := ro_node x |}.
Definition with_phase (x : robj) (p : phase) : robj :=
  {| ro_handle := ro_handle x; ro_dead := ro_dead x; ro_acquired := ro_acquired x; ro_refs := ro_refs x;
     ro_phase := p; ro_node := ro_node x |}.
Definition with_life (x : robj) (dead acquired : bool) (node : nat) : robj :=
  {| ro_handle := ro_handle x; ro_dead := dead; ro_acquired := acquired; ro_refs := ro_refs x;
     ro_phase := ro_phase x; ro_node := node |}.

(* ------------------------------------------------------------------ *)
(* Commands for the driver *)

(* BC_ACQUIRE, BC_RELEASE: src/gbinder_driver.c:1112-1128 *)
Definition k_acquire (s : state) (o : nat) (h : Z) : state :=
  let k := kern s h in
  say (set_kern s h {| kr_node := kr_node k; kr_dead := kr_dead k; kr_strong := kr_strong k + 1;
                       kr_watch := kr_watch k |}) (EvAcquire o h).
Definition k_release (s : state) (o : nat) (h : Z) : state :=
  let k := kern s h in
  say (set_kern s h {| kr_node := kr_node k; kr_dead := kr_dead k; kr_strong := kr_strong k - 1;
                       kr_watch := kr_watch k |}) (EvRelease o h).
(* BC_REQUEST_DEATH_NOTIFICATION, BC_CLEAR_DEATH_NOTIFICATION:
   src/gbinder_driver.c:1066-1092. The cookie is the handle. *)
Definition k_request (s : state) (o : nat) (h : Z) : state :=
  let k := kern s h in
  say (set_kern s h {| kr_node := kr_node k; kr_dead := kr_dead k; kr_strong := kr_strong k;
                       kr_watch := match kr_watch k with WNone => WSet | w => w end |}) (EvRequest o h).
Definition k_clear (s : state) (o : nat) (h : Z) : state :=
  let k := kern s h in
  say (set_kern s h {| kr_node := kr_node k; kr_dead := kr_dead k; kr_strong := kr_strong k;
                       kr_watch := WNone |}) (EvClear o h).

(* ------------------------------------------------------------------ *)
(* References *)

(* src/gbinder_remote_object.c:201-211 gbinder_remote_object_ref *)
Definition obj_ref (s : state) (o : nat) : out :=
  let x := objs s o in
  if ro_refs x <=? 0 then Crash else Ok (set_obj s o (with_refs x (ro_refs x + 1))).

(* src/gbinder_remote_object.c:213-220 gbinder_remote_object_unref, g_object_unref: up to
   the call of dispose *)
Definition obj_unref (s : state) (o : nat) : out :=
  let x := objs s o in
  if ro_refs x <=? 0 then Crash
  else if 1 <? ro_refs x then Ok (set_obj s o (with_refs x (ro_refs x - 1)))
  else Ok (set_obj s o (with_phase x PDispose)).

(* src/gbinder_ipc.c:1140-1163 gbinder_ipc_invalidate_remote_handle_locked *)
Definition invalidate (s : state) (h : Z) : state := set_table s (zupd (table s) h None).

(* The rest of g_object_unref:
   src/gbinder_remote_object.c:275-284 gbinder_remote_object_dispose,
   src/gbinder_ipc.c:1229-1266 gbinder_ipc_remote_object_disposed,
   src/gbinder_remote_object.c:286-305 gbinder_remote_object_finalize *)
Definition dispose_step (s : state) (o : nat) : out :=
  let x := objs s o in
  match ro_phase x with
  | PDispose =>
    let s1 := if ro_refs x =? 1 then invalidate s (ro_handle x) else s in
    Ok (set_obj s1 o (with_phase x PDisposed))
  | PDisposed =>
    if ro_refs x - 1 =? 0 then Ok (set_obj s o (with_phase (with_refs x 0) PFinal))
    else Ok (set_obj s o (with_phase (with_refs x (ro_refs x - 1)) PLive))
  | PFinal => Ok (set_obj (invalidate s (ro_handle x)) o (with_phase x PFinal2))
  | PFinal2 =>
    let s1 := if ro_dead x then s else k_clear s o (ro_handle x) in
    let s2 := if ro_acquired x then k_release s1 o (ro_handle x) else s1 in
    Ok (say (set_obj s2 o (with_phase x PGone)) (EvFreed o))
  | _ => Disabled
  end.

(* ------------------------------------------------------------------ *)
(* Lookups *)

(* REMOTE_OBJECT_CREATE *)
Inductive mode := CREATE_DEAD | CREATE_ALIVE | CREATE_ACQUIRED.

(* src/gbinder_remote_object.c:167-199 gbinder_remote_object_new *)
Definition obj_new (s : state) (h : Z) (m : mode) : state :=
  let o := count s in
  let dead := match m with CREATE_DEAD => true | _ => false end in
  let acquired := match m with CREATE_ACQUIRED => true | _ => false end in
  let x := {| ro_handle := h; ro_dead := dead; ro_acquired := acquired; ro_refs := 1;
              ro_phase := PLive; ro_node := kr_node (kern s h) |} in
  let s1 := {| objs := upd (objs s) o x; count := S o; table := table s; held := upd (held s) o 1;
               queue := queue s; inflight := inflight s; main := main s; kern := kern s;
               trace := trace s |} in
  if dead then s1
  else
    let s2 := if acquired then k_acquire s1 o h else s1 in
    k_request s2 o h.

(* src/gbinder_ipc.c:1318-1360 gbinder_ipc_priv_get_remote_object,
   src/gbinder_ipc.c:1447-1456 gbinder_ipc_object_registry_get_remote,
   src/gbinder_ipc.c:1396-1403 gbinder_ipc_get_service_manager. The mode is used if there
   is no object for the handle. *)
Definition obj_get (s : state) (h : Z) (m : mode) : out :=
  match table s h with
  | Some o =>
    bind (obj_ref s o) (fun s1 => Ok (say (set_held s1 o (held s1 o + 1)) (EvGot h o false)))
  | None =>
    let o := count s in
    let s1 := obj_new s h m in
    Ok (say (set_table s1 (zupd (table s1) h (Some o))) (EvGot h o true))
  end.

(* ------------------------------------------------------------------ *)
(* Deaths *)

Fixpoint remove_one (h : Z) (l : list Z) : option (list Z) :=
  match l with
  | [] => None
  | x :: r => if x =? h then Some r else match remove_one h r with Some r1 => Some (x :: r1) | None => None end
  end.

(* src/gbinder_driver.c:693-714, BR_DEAD_BINDER in gbinder_driver_handle_command: a lookup
   which creates nothing, and
   src/gbinder_remote_object.c:126-136 gbinder_remote_object_handle_death_notification.
   The reference of the lookup is dropped by the thread afterwards (Unref). *)
Definition dead_binder (s : state) (h : Z) : out :=
  match remove_one h (inflight s) with
  | Some l =>
    let s1 := set_inflight s l in
    match table s1 h with
    | Some o =>
      bind (obj_ref s1 o) (fun s2 =>
      bind (obj_ref (set_held s2 o (held s2 o + 1)) o) (fun s3 =>
      Ok (set_queue s3 (queue s3 ++ [o]))))
    | None => Ok (say s1 (EvDone h))
    end
  | None => Disabled
  end.

(* src/gbinder_remote_object.c:65-90 gbinder_remote_object_handle_death_on_main_thread, up
   to the point when the handle is removed *)
Definition callback (s : state) : out :=
  match main s, queue s with
  | MIdle, o :: q =>
    let s1 := set_queue s q in
    let x := objs s1 o in
    if ro_refs x <=? 0 then Crash
    else if ro_dead x then obj_unref s1 o
    else
      let s2 := set_obj s1 o (with_life x true false (ro_node x)) in
      let s3 := if ro_acquired x then k_release s2 o (ro_handle x) else s2 in
      Ok (set_main s3 (MInvalidate o true))
  | _, _ => Disabled
  end.

(* src/gbinder_remote_object.c:138-161 gbinder_remote_object_commit_suicide, up to the
   point when the handle is removed. The caller keeps its reference until that's done. *)
Definition suicide (s : state) (o : nat) : out :=
  match main s with
  | MIdle =>
    let x := objs s o in
    if ro_refs x <=? 0 then Crash
    else if ro_dead x then Ok s
    else
      let s1 := set_obj s o (with_life x true false (ro_node x)) in
      let s2 := k_clear s1 o (ro_handle x) in
      let s3 := if ro_acquired x then k_release s2 o (ro_handle x) else s2 in
      Ok (set_main (set_held s3 o (held s3 o - 1)) (MInvalidate o false))
  | _ => Disabled
  end.

(* The main thread goes on *)
Definition main_step (s : state) : out :=
  match main s with
  | MInvalidate o cb =>
    let h := ro_handle (objs s o) in
    let s1 := if cb && (h =? SM_HANDLE) then s else invalidate s h in
    Ok (set_main s1 (MSignal o cb))
  | MSignal o cb =>
    let h := ro_handle (objs s o) in
    if cb then Ok (set_main (say (say s (EvDone h)) (EvDeath o)) (MDrop o))
    else Ok (set_main (set_held (say s (EvDeath o)) o (held s o + 1)) MIdle)
  | MDrop o => bind (obj_unref s o) (fun s1 => Ok (set_main s1 MIdle))
  | MIdle => Disabled
  end.

(* src/gbinder_remote_object.c:96-124 gbinder_remote_object_reanimate: the ping succeeds if
   the node isn't dead *)
Definition reanimate (s : state) (o : nat) : out :=
  match main s with
  | MIdle =>
    let x := objs s o in
    let h := ro_handle x in
    if ro_refs x <=? 0 then Crash
    else if ro_dead x then
      if (h =? SM_HANDLE) && negb (kr_dead (kern s h)) then
        let s1 := set_obj s o (with_life x false true (kr_node (kern s h))) in
        Ok (k_request (k_acquire s1 o h) o h)
      else Ok s
    else Ok s
  | _ => Disabled
  end.

(* ------------------------------------------------------------------ *)
Inductive move :=
| Get (h : Z) (m : mode)
| Ref (o : nat)
| Unref (o : nat)
| Dispose (o : nat)
| DeadBinder (h : Z)
| Callback
| Suicide (o : nat)
| Main
| Reanimate (o : nat)
| Dies (h : Z)                 (* the driver: the node dies, *)
| Tell (h : Z)                 (* it's told to some thread, *)
| Reuse (h : Z).               (* and the handle is given to another node *)

(* Nobody needs the handle: no strong references, and no object which relies on the ones of
   buffers and proxies *)
Definition unused (s : state) (h : Z) : bool :=
  (kr_strong (kern s h) =? 0) &&
  forallb (fun o => match ro_phase (objs s o) with
                    | PGone => true
                    | _ => ro_dead (objs s o) || negb (ro_handle (objs s o) =? h)
                    end) (seq 0 (count s)).

Definition step (s : state) (mv : move) : out :=
  let mine o f := if 0 <? held s o then f else Disabled in
  match mv with
  | Get h m => obj_get s h m
  | Ref o => mine o (bind (obj_ref s o) (fun s1 => Ok (set_held s1 o (held s1 o + 1))))
  | Unref o => mine o (obj_unref (set_held s o (held s o - 1)) o)
  | Dispose o => if Nat.ltb o (count s) then dispose_step s o else Disabled
  | DeadBinder h => dead_binder s h
  | Callback => callback s
  | Suicide o => mine o (suicide s o)
  | Main => main_step s
  | Reanimate o => mine o (reanimate s o)
  | Dies h =>
    let k := kern s h in
    Ok (set_kern s h {| kr_node := kr_node k; kr_dead := true; kr_strong := kr_strong k;
                        kr_watch := kr_watch k |})
  | Tell h =>
    let k := kern s h in
    match kr_dead k, kr_watch k with
    | true, WSet =>
      Ok (set_inflight (set_kern s h {| kr_node := kr_node k; kr_dead := true; kr_strong := kr_strong k;
                                        kr_watch := WSent |}) (inflight s ++ [h]))
    | _, _ => Disabled
    end
  | Reuse h =>
    if unused s h then
      let k := kern s h in
      Ok (set_kern s h {| kr_node := S (kr_node k); kr_dead := false; kr_strong := 0; kr_watch := WNone |})
    else Disabled
  end.

Fixpoint run (s : state) (l : list move) : out :=
  match l with
  | [] => Ok s
  | m :: r => bind (step s m) (fun s1 => run s1 r)
  end.

Definition no_obj : robj :=
  {| ro_handle := 0; ro_dead := true; ro_acquired := false; ro_refs := 0; ro_phase := PGone; ro_node := 0 |}.
Definition initial : state :=
  {| objs := fun _ => no_obj; count := 0; table := fun _ => None; held := fun _ => 0; queue := [];
     inflight := []; main := MIdle;
     kern := fun _ => {| kr_node := 0; kr_dead := false; kr_strong := 0; kr_watch := WNone |};
     trace := [] |}.
