(* Model of deferred calls and timeouts: src/gbinder_eventloop.c. Event loop integrations are numbers,
   0 is the default one, which is written in terms of GLib sources.

   GLib sources (g_source_new, g_source_attach, g_source_destroy, g_source_unref and the dispatch of a
   source by the main loop) are modelled as GLib implements them: the loop holds a reference to a source
   which is attached and another one while it calls the function; the data of the callback is counted
   separately, it's released by g_source_destroy if the source was attached, by the last g_source_unref
   otherwise, and it isn't freed before the function returns; a destroyed source can't be attached.
   Steps of the loop and of other threads alternate in any order; calls to GLib are atomic.

   Simplifications: other integrations do what the default one does (that's what include/gbinder_eventloop.h
   asks for); gbinder_idle_callback_invoke_later gets a function. Callers own the references which they
   use and don't use a timeout which is over: that's [s_held], which isn't in the code. *)
From Verif Require Import Base.

(* A timeout, a callback, and one which gbinder_idle_callback_invoke_later has created *)
Inductive kind := Timeout | Callback | Later.
(* What can be seen from outside; n is the integration and i is the object *)
Inductive event :=
| EvNew (n i : nat) (k : kind) (* timeout_add, callback_new *)
| EvCall (n i : nat)           (* any other function of the integration, except for cleanup *)
| EvCleanup (n : nat)
| EvCancel (i : nat)           (* it was cancelled, or the timeout removed *)
| EvInvoke (i : nat)           (* the function is called *)
| EvReturn (i : nat)
| EvFree (i : nat).            (* its data is freed *)
Record source := Source {
  s_kind : kind;
  s_owner : nat;               (* GBinderEventLoopTimeout.eventloop, GBinderEventLoopCallback.eventloop *)
  s_refs : Z;
  s_attached : bool;
  s_destroyed : bool;
  s_has : bool;                (* the source has got the data *)
  s_data : Z;                  (* references to the data *)
  s_running : bool;
  s_gone : bool;               (* the source has been freed *)
  s_ready : bool;              (* timeouts: gbinder_eventloop_glib_timeout_add has stored the id *)
  s_held : Z
}.
Record state := State {
  sources : nat -> source;
  count : nat;
  current : nat;               (* gbinder_eventloop *)
  trace : list event           (* the last one is the first *)
}.
Inductive out := Disabled | Crash | Ok (s : state).
Definition obind (r : out) (f : state -> out) : out := match r with Ok s => f s | x => x end.

Definition upd {A} (f : nat -> A) (i : nat) (x : A) : nat -> A := fun j => if Nat.eqb j i then x else f j.
Definition put (s : state) (i : nat) (x : source) : state :=
  State (upd (sources s) i x) (count s) (current s) (trace s).
Definition say (s : state) (e : event) : state := State (sources s) (count s) (current s) (e :: trace s).
Definition with_refs (x : source) (n : Z) : source :=
  Source (s_kind x) (s_owner x) n (s_attached x) (s_destroyed x) (s_has x) (s_data x) (s_running x) (s_gone x) (s_ready x) (s_held x).
Definition with_data (x : source) (n : Z) : source :=
  Source (s_kind x) (s_owner x) (s_refs x) (s_attached x) (s_destroyed x) (s_has x) n (s_running x) (s_gone x) (s_ready x) (s_held x).
Definition with_held (x : source) (n : Z) : source :=
  Source (s_kind x) (s_owner x) (s_refs x) (s_attached x) (s_destroyed x) (s_has x) (s_data x) (s_running x) (s_gone x) (s_ready x) n.
Definition with_attached (x : source) (b : bool) : source :=
  Source (s_kind x) (s_owner x) (s_refs x) b (s_destroyed x) (s_has x) (s_data x) (s_running x) (s_gone x) (s_ready x) (s_held x).
Definition with_destroyed (x : source) : source :=
  Source (s_kind x) (s_owner x) (s_refs x) (s_attached x) true (s_has x) (s_data x) (s_running x) (s_gone x) (s_ready x) (s_held x).
Definition without_data (x : source) : source :=
  Source (s_kind x) (s_owner x) (s_refs x) (s_attached x) (s_destroyed x) false (s_data x) (s_running x) (s_gone x) (s_ready x) (s_held x).
Definition with_running (x : source) (b : bool) : source :=
  Source (s_kind x) (s_owner x) (s_refs x) (s_attached x) (s_destroyed x) (s_has x) (s_data x) b (s_gone x) (s_ready x) (s_held x).
Definition freed (x : source) : source :=
  Source (s_kind x) (s_owner x) (s_refs x) (s_attached x) (s_destroyed x) (s_has x) (s_data x) (s_running x) true (s_ready x) (s_held x).
Definition stored (x : source) : source :=
  Source (s_kind x) (s_owner x) (s_refs x) (s_attached x) (s_destroyed x) (s_has x) (s_data x) (s_running x) (s_gone x) true (s_held x).

(* GLib: a reference to the data is dropped. The last one calls the function which frees it:
   src/gbinder_eventloop.c:92-98 gbinder_eventloop_glib_timeout_finalize (a timeout is its own data), the one which
   was given to gbinder_idle_callback_new, or 247-258 gbinder_idle_callback_invoke_done *)
Definition data_unref (s : state) (i : nat) : out :=
  let x := sources s i in
  if s_data x <=? 0 then Crash
  else
    let s := put s i (with_data x (s_data x - 1)) in
    if s_data x =? 1 then Ok (say s (EvFree i)) else Ok s.
(* GLib: g_source_unref *)
Definition src_unref (s : state) (i : nat) : out :=
  let x := sources s i in
  if s_gone x then Crash
  else
    let s := put s i (with_refs x (s_refs x - 1)) in
    if 1 <? s_refs x then Ok s
    else
      obind (if s_has x then data_unref (put s i (without_data (sources s i))) i else Ok s) (fun s =>
      Ok (put s i (freed (sources s i)))).
(* GLib: g_source_ref *)
Definition src_ref (s : state) (i : nat) : out :=
  let x := sources s i in
  if s_gone x then Crash else Ok (put s i (with_refs x (s_refs x + 1))).
(* GLib: g_source_attach *)
Definition src_attach (s : state) (i : nat) : out :=
  let x := sources s i in
  if s_gone x then Crash
  else if s_attached x || s_destroyed x then Ok s
  else Ok (put s i (with_attached (with_refs x (s_refs x + 1)) true)).
(* GLib: g_source_destroy *)
Definition src_destroy (s : state) (i : nat) : out :=
  let x := sources s i in
  if s_gone x then Crash
  else if s_destroyed x then Ok s
  else
    let s := put s i (with_destroyed x) in
    if s_attached x then
      obind (if s_has x then data_unref (put s i (without_data (sources s i))) i else Ok s) (fun s =>
      src_unref (put s i (with_attached (sources s i) false)) i)
    else Ok s.

(* src/gbinder_eventloop.c:156-175 gbinder_eventloop_glib_callback_new *)
Definition source_new (s : state) (k : kind) (n : nat) : state :=
  let i := count s in
  say (State (upd (sources s) i (Source k n 1 false false true 1 false false true 1)) (S i) (current s) (trace s)) (EvNew n i k).

(* src/gbinder_eventloop.c:293-300 gbinder_idle_callback_new *)
Definition callback_new (s : state) (k : kind) : state := source_new s k (current s).
(* src/gbinder_eventloop.c:315-324 gbinder_idle_callback_ref, 177-183 gbinder_eventloop_glib_callback_ref *)
Definition callback_ref (s : state) (i : nat) : out :=
  if s_gone (sources s i) then Crash
  else src_ref (say s (EvCall (s_owner (sources s i)) i)) i.
(* src/gbinder_eventloop.c:326-333 gbinder_idle_callback_unref, 185-191 gbinder_eventloop_glib_callback_unref *)
Definition callback_unref (s : state) (i : nat) : out :=
  if s_gone (sources s i) then Crash
  else src_unref (say s (EvCall (s_owner (sources s i)) i)) i.
(* src/gbinder_eventloop.c:335-342 gbinder_idle_callback_schedule, 193-202
   gbinder_eventloop_glib_callback_schedule *)
Definition callback_schedule (s : state) (i : nat) : out :=
  if s_gone (sources s i) then Crash
  else src_attach (say s (EvCall (s_owner (sources s i)) i)) i.
(* src/gbinder_eventloop.c:344-351 gbinder_idle_callback_cancel, 204-210
   gbinder_eventloop_glib_callback_cancel *)
Definition callback_cancel (s : state) (i : nat) : out :=
  if s_gone (sources s i) then Crash
  else src_destroy (say (say s (EvCall (s_owner (sources s i)) i)) (EvCancel i)) i.
(* src/gbinder_eventloop.c:353-363 gbinder_idle_callback_destroy: the integration is read from the object
   before it's cancelled *)
Definition callback_destroy (s : state) (i : nat) : out :=
  if s_gone (sources s i) then Crash
  else
    let n := s_owner (sources s i) in
    obind (src_destroy (say (say s (EvCall n i)) (EvCancel i)) i) (fun s =>
    src_unref (say s (EvCall n i)) i).
(* src/gbinder_eventloop.c:302-313 gbinder_idle_callback_schedule_new *)
Definition callback_schedule_new (s : state) : out :=
  let i := count s in
  callback_schedule (callback_new s Callback) i.
(* src/gbinder_eventloop.c:365-380 gbinder_idle_callback_invoke_later *)
Definition invoke_later (s : state) : out :=
  let i := count s in
  callback_schedule (callback_new s Later) i.

(* src/gbinder_eventloop.c:267-274 gbinder_timeout_add, 276-282 gbinder_idle_add, 100-117
   gbinder_eventloop_glib_timeout_add: up to the point where the loop knows of the timeout. The
   reference which is left is that of the loop. *)
Definition timeout_start (s : state) : state :=
  let i := count s in
  let n := current s in
  say (State (upd (sources s) i (Source Timeout n 1 true false true 1 false false false 1)) (S i) (current s) (trace s)) (EvNew n i Timeout).
(* ... and from there on: the id is stored in the timeout *)
Definition timeout_end (s : state) (i : nat) : out :=
  let x := sources s i in
  if s_data x <=? 0 then Crash else Ok (put s i (stored x)).
(* src/gbinder_eventloop.c:284-291 gbinder_timeout_remove, 119-125 gbinder_eventloop_glib_timeout_remove *)
Definition timeout_remove (s : state) (i : nat) : out :=
  let x := sources s i in
  if s_data x <=? 0 then Crash
  else
    let s := say (say s (EvCall (s_owner x) i)) (EvCancel i) in
    if s_destroyed x then Ok s else src_destroy s i.

(* GLib: the loop calls the function of the source; src/gbinder_eventloop.c:82-90
   gbinder_eventloop_glib_timeout_callback, 127-154 gbinder_eventloop_glib_callback_prepare and so on *)
Definition dispatch (s : state) (i : nat) : out :=
  let x := sources s i in
  if s_attached x && negb (s_destroyed x) && negb (s_running x)
  then if s_gone x || (s_data x <=? 0) then Crash
       else Ok (say (put s i (with_running (with_data (with_refs x (s_refs x + 1)) (s_data x + 1)) true)) (EvInvoke i))
  else Disabled.
(* The function returns; src/gbinder_eventloop.c:234-245 gbinder_idle_callback_invoke_proc *)
Definition finished (s : state) (i : nat) (again : bool) : out :=
  let x := sources s i in
  if s_running x then
    let s := say s (EvReturn i) in
    obind (match s_kind x with
           | Later => callback_unref (put s i (with_held x (s_held x - 1))) i
           | _ => Ok s
           end) (fun s =>
    let s := put s i (with_running (sources s i) false) in
    obind (data_unref s i) (fun s =>
    obind (if match s_kind x with Timeout => again | _ => false end then Ok s
           else
             (* the caller knows that there's no timeout any more *)
             let s := match s_kind x with Timeout => put s i (with_held (sources s i) 0) | _ => s end in
             src_destroy s i) (fun s =>
    src_unref s i)))
  else Disabled.
(* src/gbinder_eventloop.c:386-397 gbinder_eventloop_set. NULL means 0. *)
Definition eventloop_set (s : state) (n : nat) : state :=
  if Nat.eqb (current s) n then s
  else say (State (sources s) (count s) n (trace s)) (EvCleanup (current s)).

Inductive move :=
| MNew                         (* callers of the functions above: *)
| MScheduleNew
| MRef (i : nat)
| MUnref (i : nat)
| MSchedule (i : nat)
| MCancel (i : nat)
| MDestroy (i : nat)
| MLater
| MAdd                         (* a timeout, by the thread which runs the loop *)
| MStart                       (* a timeout, by another thread *)
| MEnd (i : nat)
| MRemove (i : nat)
| MSet (n : nat)
| MDispatch (i : nat)          (* what the loop does *)
| MReturn (i : nat) (again : bool).
Definition is_callback (x : source) : bool := match s_kind x with Callback => true | _ => false end.
Definition is_timeout (x : source) : bool := match s_kind x with Timeout => true | _ => false end.
Definition usable (s : state) (i : nat) : bool :=
  is_callback (sources s i) && (0 <? s_held (sources s i)).
Definition held (s : state) (i : nat) (d : Z) : state := put s i (with_held (sources s i) (s_held (sources s i) + d)).
Definition step (s : state) (m : move) : out :=
  match m with
  | MNew => Ok (callback_new s Callback)
  | MScheduleNew => callback_schedule_new s
  | MRef i => if usable s i then callback_ref (held s i 1) i else Disabled
  | MUnref i => if usable s i then callback_unref (held s i (-1)) i else Disabled
  | MSchedule i => if usable s i then callback_schedule s i else Disabled
  | MCancel i => if usable s i then callback_cancel s i else Disabled
  | MDestroy i => if usable s i then callback_destroy (held s i (-1)) i else Disabled
  | MLater => invoke_later s
  | MAdd => timeout_end (timeout_start s) (count s)
  | MStart => Ok (timeout_start s)
  | MEnd i => if is_timeout (sources s i) && negb (s_ready (sources s i)) && (i <? count s)%nat
              then timeout_end s i else Disabled
  | MRemove i => if is_timeout (sources s i) && s_ready (sources s i) && (0 <? s_held (sources s i))
                 then timeout_remove (held s i (-1)) i else Disabled
  | MSet n => Ok (eventloop_set s n)
  | MDispatch i => dispatch s i
  | MReturn i again => finished s i again
  end.
Fixpoint run (s : state) (l : list move) : out :=
  match l with
  | [] => Ok s
  | m :: r => match step s m with Ok s1 => run s1 r | x => x end
  end.
Definition nothing : source := Source Callback 0 0 false false false 0 false true true 0.
Definition init : state := State (fun _ => nothing) 0 0 [].
