(* What asynchronous calls of clients and service managers own: gbinder_client_transact,
   gbinder_servicemanager_list, gbinder_servicemanager_get_service and
   gbinder_servicemanager_add_service, on top of the transactions of AsyncModel, and
   gbinder_servicemanager_get_service_sync, which returns objects to be released later.

   Simplifications: the managers and clients use one GBinderIpc, to which somebody else
   has a reference (what happens to it is in AsyncModel, ConnModel and InstModel). What
   a client has of its own is not modelled, and requests which are made for the caller
   (if there's no argument) belong to that. gbinder_servicemanager_get_service_sync is called
   by the main thread. The application frees a list which it has kept after its callback has returned.
   Destroy functions of service manager calls make no calls, but
   here anything may happen before they do their work. *)
From Verif Require Import Base AsyncModel.

(* Things with references. Strings and string arrays have one, and g_free or g_strfreev
   drops it. *)
Inductive tkind := Manager | Client | Object | Str | StrV.
Definition tkind_eqb (a b : tkind) : bool :=
  match a, b with
  | Manager, Manager | Client, Client | Object, Object | Str, Str | StrV, StrV => true
  | _, _ => false
  end.

(* GBinderServiceManagerListTxData (src/gbinder_servicemanager.c:188-193),
   GBinderServiceManagerGetServiceTxData (src/gbinder_servicemanager.c:231-238),
   GBinderServiceManagerAddServiceTxData (src/gbinder_servicemanager.c:275-282) and
   GBinderClientTx (src/gbinder_client.c:62-67) with what GBinderIpcTxInternal has *)
Inductive ckind := KList | KGet | KAdd | KTx.
Record data := {
  d_kind : ckind;
  d_holder : nat;                (* sm or client *)
  d_name : option nat;
  d_obj : option nat;            (* the local object of add_service, the request of a transaction *)
  d_result : option nat          (* result, obj of get_service, the reply *)
}.

(* GBinderEventLoopCallback: references and the manager for which it's scheduled *)
Record idle := { cb_refs : Z; cb_for : option nat }.

Record cstate := {
  ca : astate;
  refs : nat -> Z;
  kinds : nat -> tkind;
  next_thing : nat;
  datas : nat -> option data;
  auto : nat -> list nat;        (* priv->autorelease *)
  auto_cb : nat -> option nat;   (* priv->autorelease_cb *)
  cbs : nat -> idle;
  next_cb : nat;
  app_has : nat -> Z             (* ghost: references of the application *)
}.
Definition with_ca (s : cstate) (a : astate) : cstate :=
  {| ca := a; refs := refs s; kinds := kinds s; next_thing := next_thing s; datas := datas s; auto := auto s;
     auto_cb := auto_cb s; cbs := cbs s; next_cb := next_cb s; app_has := app_has s |}.
Definition with_refs (s : cstate) (t : nat) (n : Z) : cstate :=
  {| ca := ca s; refs := upd (refs s) t n; kinds := kinds s; next_thing := next_thing s; datas := datas s;
     auto := auto s; auto_cb := auto_cb s; cbs := cbs s; next_cb := next_cb s; app_has := app_has s |}.
Definition with_data (s : cstate) (k : nat) (d : option data) : cstate :=
  {| ca := ca s; refs := refs s; kinds := kinds s; next_thing := next_thing s; datas := upd (datas s) k d;
     auto := auto s; auto_cb := auto_cb s; cbs := cbs s; next_cb := next_cb s; app_has := app_has s |}.
Definition with_auto (s : cstate) (h : nat) (l : list nat) (c : option nat) : cstate :=
  {| ca := ca s; refs := refs s; kinds := kinds s; next_thing := next_thing s; datas := datas s;
     auto := upd (auto s) h l; auto_cb := upd (auto_cb s) h c; cbs := cbs s; next_cb := next_cb s;
     app_has := app_has s |}.
Definition with_cb (s : cstate) (c : nat) (i : idle) : cstate :=
  {| ca := ca s; refs := refs s; kinds := kinds s; next_thing := next_thing s; datas := datas s; auto := auto s;
     auto_cb := auto_cb s; cbs := upd (cbs s) c i; next_cb := next_cb s; app_has := app_has s |}.
Definition with_app (s : cstate) (t : nat) (n : Z) : cstate :=
  {| ca := ca s; refs := refs s; kinds := kinds s; next_thing := next_thing s; datas := datas s; auto := auto s;
     auto_cb := auto_cb s; cbs := cbs s; next_cb := next_cb s; app_has := upd (app_has s) t n |}.

(* What happens: the next state, use of something which is gone, or something which can't
   happen because the application would have to break the rules *)
Inductive out (A : Type) := Ok (a : A) | Crash | Never.
Arguments Ok {A}. Arguments Crash {A}. Arguments Never {A}.
Definition bind {A B} (r : out A) (f : A -> out B) : out B :=
  match r with Ok a => f a | Crash => Crash | Never => Never end.
Local Notation "'let*' x := a 'in' b" := (bind a (fun x => b))
  (at level 200, x pattern, a at level 100, b at level 200).

(* A new thing with one reference *)
Definition make (s : cstate) (k : tkind) : nat * cstate :=
  let t := next_thing s in
  (t, {| ca := ca s; refs := upd (refs s) t 1; kinds := upd (kinds s) t k; next_thing := S t;
         datas := datas s; auto := auto s; auto_cb := auto_cb s; cbs := cbs s; next_cb := next_cb s;
         app_has := app_has s |}).

(* gbinder_servicemanager_ref, gbinder_client_ref, gbinder_local_object_ref, ...: nothing
   is done with NULL *)
Definition ref (s : cstate) (t : nat) : out cstate :=
  if 0 <? refs s t then Ok (with_refs s t (refs s t + 1)) else Crash.
Definition ref_opt (s : cstate) (o : option nat) : out cstate :=
  match o with Some t => ref s t | None => Ok s end.

(* The reference is dropped, and nothing else *)
Definition drop (s : cstate) (t : nat) : out cstate :=
  if 0 <? refs s t then Ok (with_refs s t (refs s t - 1)) else Crash.
Definition drop_opt (s : cstate) (o : option nat) : out cstate :=
  match o with Some t => drop s t | None => Ok s end.

(* g_slist_free_full(list, g_object_unref) *)
Fixpoint drop_list (s : cstate) (l : list nat) : out cstate :=
  match l with
  | [] => Ok s
  | t :: r => let* s1 := drop s t in drop_list s1 r
  end.

(* src/gbinder_eventloop.c:353-363 gbinder_idle_callback_destroy *)
Definition idle_destroy (s : cstate) (o : option nat) : cstate :=
  match o with
  | Some c => with_cb s c {| cb_refs := cb_refs (cbs s c) - 1; cb_for := None |}
  | None => s
  end.

(* src/gbinder_servicemanager.c:1112-1127 gbinder_servicemanager_finalize, what concerns
   objects to be released *)
Definition finalize (s : cstate) (h : nat) : out cstate :=
  let s1 := idle_destroy s (auto_cb s h) in
  let* s2 := drop_list s1 (auto s1 h) in
  Ok (with_auto s2 h [] None).

(* gbinder_servicemanager_unref, src/gbinder_client.c:318-330 gbinder_client_unref *)
Definition unref (s : cstate) (t : nat) : out cstate :=
  let* s1 := drop s t in
  if (refs s1 t =? 0) && tkind_eqb (kinds s1 t) Manager then finalize s1 t else Ok s1.

(* src/gbinder_servicemanager.c:442-454 gbinder_servicemanager_autorelease_cb *)
Definition autorelease_cb (s : cstate) (h : nat) : out cstate :=
  if 0 <? refs s h then
    let list := auto s h in
    drop_list (with_auto s h [] None) list
  else Crash.

(* gbinder_ipc_transact and gbinder_ipc_transact_custom, which are given functions to
   call when it's done and in the end *)
Definition start (s : cstate) (d : data) : out cstate :=
  match step (ca s) (Transact {| has_reply := true; has_destroy := true |}) with
  | Some a => Ok (with_ca (with_data s (count (ca s)) (Some d)) a)
  | None => Never
  end.

(* src/gbinder_servicemanager.c:784-804 gbinder_servicemanager_list *)
Definition call_list (s : cstate) (h : nat) : out cstate :=
  let* s1 := ref s h in
  start s1 {| d_kind := KList; d_holder := h; d_name := None; d_obj := None; d_result := None |}.

(* src/gbinder_servicemanager.c:817-840 gbinder_servicemanager_get_service *)
Definition call_get (s : cstate) (h : nat) : out cstate :=
  let* s1 := ref s h in
  let (name, s2) := make s1 Str in
  start s2 {| d_kind := KGet; d_holder := h; d_name := Some name; d_obj := None; d_result := None |}.

(* src/gbinder_servicemanager.c:868-893 gbinder_servicemanager_add_service *)
Definition call_add (s : cstate) (h : nat) (o : option nat) : out cstate :=
  let* s1 := ref s h in
  let* s2 := ref_opt s1 o in
  let (name, s3) := make s2 Str in
  start s3 {| d_kind := KAdd; d_holder := h; d_name := Some name; d_obj := o; d_result := None |}.

(* src/gbinder_client.c:426-467 gbinder_client_transact (of an object which isn't dead),
   src/gbinder_ipc.c:1605-1633 gbinder_ipc_tx_internal_new *)
Definition call_tx (s : cstate) (h : nat) (req : option nat) : out cstate :=
  let* s1 := ref s h in
  let* s2 := ref_opt s1 req in
  start s2 {| d_kind := KTx; d_holder := h; d_name := None; d_obj := req; d_result := None |}.

(* What comes from the other side: nothing, something new, or an object which is
   known already *)
Inductive received := RNone | RNew | ROld (t : nat).
Definition set_result (d : data) (r : option nat) : data :=
  {| d_kind := d_kind d; d_holder := d_holder d; d_name := d_name d; d_obj := d_obj d; d_result := r |}.
Definition get_object (s : cstate) (r : received) : out (cstate * option nat) :=
  match r with
  | RNone => Ok (s, None)
  | RNew => let (t, s1) := make s Object in Ok (s1, Some t)
  | ROld t => if (0 <? refs s t) && tkind_eqb (kinds s t) Object
              then let* s1 := ref s t in Ok (s1, Some t)
              else Never
  end.

(* On a thread of the pool, with the result:
   src/gbinder_servicemanager.c:195-204 gbinder_servicemanager_list_tx_exec,
   src/gbinder_servicemanager.c:240-250 gbinder_servicemanager_get_service_tx_exec,
   src/gbinder_servicemanager.c:284-293 gbinder_servicemanager_add_service_tx_exec,
   src/gbinder_ipc.c:1588-1603 gbinder_ipc_tx_internal_exec.
   They use the manager, the name and the object (or the request) all the time. *)
Definition gone (s : cstate) (o : option nat) : bool :=
  match o with Some t => negb (0 <? refs s t) | None => false end.
Definition exec_end (s : cstate) (k : nat) (d : data) (r : received) : out cstate :=
  if gone s (Some (d_holder d)) || gone s (d_name d) || gone s (d_obj d) then Crash
  else
    match d_kind d with
    | KList =>
      match r with
      | RNone => Ok (with_data s k (Some (set_result d None)))
      | RNew => let (t, s1) := make s StrV in Ok (with_data s1 k (Some (set_result d (Some t))))
      | ROld _ => Never
      end
    | KGet =>
      let* (s1, o) := get_object s r in
      Ok (with_data s1 k (Some (set_result d o)))
    | KAdd => match r with RNone => Ok s | _ => Never end
    | KTx =>
      match r with
      | RNone => Ok (with_data s k (Some (set_result d None)))
      | RNew => let (t, s1) := make s Object in Ok (with_data s1 k (Some (set_result d (Some t))))
      | ROld _ => Never
      end
    end.

(* The callback has returned [verdict]:
   src/gbinder_servicemanager.c:206-217 gbinder_servicemanager_list_tx_done,
   src/gbinder_servicemanager.c:252-260 gbinder_servicemanager_get_service_tx_done,
   src/gbinder_servicemanager.c:295-303 gbinder_servicemanager_add_service_tx_done,
   src/gbinder_client.c:152-165 gbinder_client_transact_reply *)
Definition done_end (s : cstate) (k : nat) (d : data) (verdict : bool) : out cstate :=
  match d_kind d with
  | KList =>
    let* s1 :=
      if verdict
      then Ok match d_result d with Some t => with_app s t (app_has s t + 1) | None => s end
      else drop_opt s (d_result d) in
    Ok (with_data s1 k (Some (set_result d None)))
  | _ => Ok s
  end.

(* src/gbinder_ipc.c:1559-1573 gbinder_ipc_tx_internal_free up to the destroy function; the
   fields aren't used after this. Custom transactions have nothing there. *)
Definition free_begin (s : cstate) (k : nat) (d : data) : out cstate :=
  match d_kind d with
  | KTx =>
    let* s1 := drop_opt s (d_obj d) in
    let* s2 := drop_opt s1 (d_result d) in
    Ok (with_data s2 k (Some {| d_kind := KTx; d_holder := d_holder d; d_name := None; d_obj := None;
                                d_result := None |}))
  | _ => Ok s
  end.

(* src/gbinder_servicemanager.c:219-229 gbinder_servicemanager_list_tx_free,
   src/gbinder_servicemanager.c:262-273 gbinder_servicemanager_get_service_tx_free,
   src/gbinder_servicemanager.c:305-316 gbinder_servicemanager_add_service_tx_free,
   src/gbinder_client.c:167-179 gbinder_client_transact_destroy after destroy() *)
Definition free_end (s : cstate) (k : nat) (d : data) : out cstate :=
  let* s1 :=
    match d_kind d with
    | KList => let* s1 := drop_opt s (d_result d) in unref s1 (d_holder d)
    | KGet => let* s1 := unref s (d_holder d) in
              let* s2 := drop_opt s1 (d_result d) in drop_opt s2 (d_name d)
    | KAdd => let* s1 := unref s (d_holder d) in
              let* s2 := drop_opt s1 (d_obj d) in drop_opt s2 (d_name d)
    | KTx => unref s (d_holder d)
    end in
  Ok (with_data s1 k None).

(* src/gbinder_servicemanager.c:842-866 gbinder_servicemanager_get_service_sync,
   src/gbinder_eventloop.c:302-313 gbinder_idle_callback_schedule_new. The result is
   what's returned. *)
Definition get_service_sync (s : cstate) (h : nat) (r : received) : out (cstate * option nat) :=
  let* (s1, o) := get_object s r in
  match o with
  | None => Ok (s1, None)
  | Some t =>
    let l := t :: auto s1 h in
    match auto_cb s1 h with
    | Some c => Ok (with_auto s1 h l (Some c), Some t)
    | None =>
      let c := next_cb s1 in
      Ok ({| ca := ca s1; refs := refs s1; kinds := kinds s1; next_thing := next_thing s1; datas := datas s1;
             auto := upd (auto s1) h l; auto_cb := upd (auto_cb s1) h (Some c);
             cbs := upd (cbs s1) c {| cb_refs := 1; cb_for := Some h |}; next_cb := S c;
             app_has := app_has s1 |}, Some t)
    end
  end.

(* What the application may use: what it has references to, and what has been passed to
   its callbacks which are running *)
Definition lends (s : cstate) (t k : nat) : bool :=
  match t_phase (txs (ca s) k), datas s k with
  | InReply _, Some d =>
    Nat.eqb (d_holder d) t || match d_result d with Some r => Nat.eqb r t | None => false end
  | _, _ => false
  end.
Definition usable (s : cstate) (t : nat) : bool :=
  (0 <? app_has s t) || existsb (lends s t) (stack (ca s)).
Definition is_holder (s : cstate) (t : nat) : bool :=
  match kinds s t with Manager | Client => true | _ => false end.

Inductive cmove :=
| AppNew (k : tkind)
| AppRef (t : nat)
| AppUnref (t : nat)                 (* or g_strfreev *)
| List (h : nat)
| Get (h : nat)
| Add (h : nat) (o : option nat)
| Tx (h : nat) (req : option nat)
| SyncGet (h : nat) (r : received)
| Idle (c : nat)                     (* the event loop invokes the callback *)
| CCancel (id : Z)
| CTick
| CDispatch (k : nat)
| CReturn (verdict : bool)           (* from the callback or the destroy function *)
| CWork
| CFinish (k : nat) (r : received)
| CExit
| CExitCancel (k : nat).

Definition astep (s : cstate) (m : move) : out cstate :=
  match step (ca s) m with Some a => Ok (with_ca s a) | None => Never end.

(* Is the transaction in its destroy function now? *)
Definition destroying (s : cstate) (k : nat) : bool :=
  match t_phase (txs (ca s) k) with InDestroy => true | _ => false end.
Definition after_destroy (s : cstate) (k : nat) : out cstate :=
  if destroying s k then match datas s k with Some d => free_begin s k d | None => Crash end else Ok s.

Definition cstep (s : cstate) (m : cmove) : out cstate :=
  match m with
  | AppNew k => let (t, s1) := make s k in Ok (with_app s1 t 1)
  | AppRef t =>
    if usable s t && negb (tkind_eqb (kinds s t) StrV) && negb (tkind_eqb (kinds s t) Str)
    then let* s1 := ref s t in Ok (with_app s1 t (app_has s1 t + 1)) else Never
  | AppUnref t =>
    if 0 <? app_has s t then unref (with_app s t (app_has s t - 1)) t else Never
  | List h => if usable s h && tkind_eqb (kinds s h) Manager then call_list s h else Never
  | Get h => if usable s h && tkind_eqb (kinds s h) Manager then call_get s h else Never
  | Add h o =>
    if usable s h && tkind_eqb (kinds s h) Manager &&
       match o with Some t => usable s t && tkind_eqb (kinds s t) Object | None => true end
    then call_add s h o else Never
  | Tx h req =>
    if usable s h && tkind_eqb (kinds s h) Client &&
       match req with Some t => usable s t && tkind_eqb (kinds s t) Object | None => true end
    then call_tx s h req else Never
  | SyncGet h r =>
    if usable s h && tkind_eqb (kinds s h) Manager
    then let* (s1, _) := get_service_sync s h r in Ok s1 else Never
  | Idle c =>
    match cb_for (cbs s c) with
    | Some h => autorelease_cb (with_cb s c {| cb_refs := cb_refs (cbs s c); cb_for := None |}) h
    | None => Never
    end
  | CCancel id => astep s (Cancel id)
  | CTick => astep s Tick
  | CDispatch k => let* s1 := astep s (Dispatch k) in after_destroy s1 k
  | CReturn verdict =>
    match stack (ca s) with
    | [] => Never
    | k :: _ =>
      match t_phase (txs (ca s) k), datas s k with
      | InReply _, Some d =>
        let* s1 := done_end s k d verdict in
        let* s2 := astep s1 Return in
        after_destroy s2 k
      | InDestroy, Some d =>
        let* s1 := free_end s k d in
        astep s1 Return
      | _, _ => Crash
      end
    end
  | CWork => astep s Work
  | CFinish k r =>
    match t_phase (txs (ca s) k), datas s k with
    | Executing true, Some d =>
      let* s1 := exec_end s k d r in
      astep s1 (Finish k 0)
    | Executing false, Some _ => astep s (Finish k 0)
    | Executing _, None => Crash
    | _, _ => Never
    end
  | CExit => astep s Exit
  | CExitCancel k => let* s1 := astep s (ExitCancel k) in after_destroy s1 k
  end.

Fixpoint crun (s : cstate) (l : list cmove) : out cstate :=
  match l with
  | [] => Ok s
  | m :: r => let* s1 := cstep s m in crun s1 r
  end.

(* [next] is the counter of ids *)
Definition cinit (next : Z) : cstate :=
  {| ca := initial next; refs := fun _ => 0; kinds := fun _ => Str; next_thing := 0; datas := fun _ => None;
     auto := fun _ => []; auto_cb := fun _ => None; cbs := fun _ => {| cb_refs := 0; cb_for := None |};
     next_cb := 0; app_has := fun _ => 0 |}.
