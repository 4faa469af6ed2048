(* C33, C34: remote objects and their deaths *)
From Verif Require Import Base RemoteModel RemoteSpec RemoteProofs RemoteLaw RemoteCareful RemoteDeath.
From Coq Require Import Lia.

(* A service dies and another one gets its handle, with everything in order: the object of
   the first is gone by the time when the second shows up *)
Definition death : list move :=
  [Get 1 CREATE_ACQUIRED; Dies 1; Tell 1; DeadBinder 1; Callback; Main; Main; Main; Unref 0].
Definition burial : list move := [Unref 0; Dispose 0; Dispose 0; Dispose 0; Dispose 0].
Definition in_order : list move :=
  [Get 0 CREATE_DEAD; Reanimate 0] ++
  [Get 1 CREATE_ACQUIRED; Dies 1; Tell 1; DeadBinder 1; Unref 1; Callback; Main; Main; Main;
   Unref 1; Dispose 1; Dispose 1; Dispose 1; Dispose 1; Reuse 1; Get 1 CREATE_ACQUIRED; Get 1 CREATE_ALIVE].

(* ------------------------------------------------------------------ *)
(* C33 *)

(* In histories in which handles are not mixed up (careful), as long as an object is
   referenced and not dead, a lookup of its handle finds it. *)
Theorem C33_same_object_partial :
  forall l s o m,
    careful initial l = true -> run initial l = Ok s ->
    0 < held s o -> ro_dead (objs s o) = false ->
    exists s1, step s (Get (ro_handle (objs s o)) m) = Ok s1 /\
               trace s1 = trace s ++ [EvGot (ro_handle (objs s o)) o false].
Proof.
  intros l s o m C E H D. pose proof (good_run l initial s good_initial C E) as G.
  pose proof (held_in_table s o G H (or_introl D)) as T. destruct G as [A _ _ _].
  pose proof (held_pos s o A H) as L. cbn [step]. unfold obj_get, obj_ref. rewrite T.
  destruct (Z.leb_spec (ro_refs (objs s o)) 0); [lia|]. cbn [bind]. eexists. split; reflexivity.
Qed.
Print Assumptions C33_same_object_partial.

Example C33_same_object_nonvacuous :
  careful initial in_order = true /\
  exists s, run initial in_order = Ok s /\ held s 2 = 2 /\ ro_dead (objs s 2) = false /\
            ro_handle (objs s 2) = 1 /\ ro_node (objs s 2) = 1%nat.
Proof. split; [vm_compute; reflexivity|]. eexists. split; [vm_compute; reflexivity|]. repeat split. Qed.

(* The object of the service manager is found whether it's dead or not. *)
Theorem C33_manager_object_partial :
  forall l s o m,
    careful initial l = true -> run initial l = Ok s ->
    0 < held s o -> ro_handle (objs s o) = SM_HANDLE ->
    exists s1, step s (Get SM_HANDLE m) = Ok s1 /\ trace s1 = trace s ++ [EvGot SM_HANDLE o false].
Proof.
  intros l s o m C E H D. pose proof (good_run l initial s good_initial C E) as G.
  pose proof (held_in_table s o G H (or_intror D)) as T. destruct G as [A _ _ _]. rewrite D in T.
  pose proof (held_pos s o A H) as L. cbn [step]. unfold obj_get, obj_ref. rewrite T.
  destruct (Z.leb_spec (ro_refs (objs s o)) 0); [lia|]. cbn [bind]. eexists. split; reflexivity.
Qed.
Print Assumptions C33_manager_object_partial.

Example C33_manager_object_nonvacuous :
  let l := [Get 0 CREATE_DEAD; Reanimate 0; Dies 0; Tell 0; DeadBinder 0; Unref 0; Callback; Main; Main; Main] in
  careful initial l = true /\
  exists s, run initial l = Ok s /\ held s 0 = 1 /\ ro_dead (objs s 0) = true /\ ro_handle (objs s 0) = SM_HANDLE.
Proof. split; [vm_compute; reflexivity|]. eexists. split; [vm_compute; reflexivity|]. repeat split. Qed.

(* In such histories nothing is used after it's freed. *)
Theorem C33_no_use_after_free_partial :
  forall l, careful initial l = true -> run initial l <> Crash.
Proof. intros l C. apply (careful_safe l initial good_initial C). Qed.
Print Assumptions C33_no_use_after_free_partial.

(* In other histories: the object of a dead service is freed, which removes the object of
   the service which has got its handle from the table. The next lookup makes another
   object, although the first one is alive and referenced. *)
Definition mixed_up : list move :=
  death ++ [Reuse 1; Get 1 CREATE_ACQUIRED] ++ burial.
Theorem C33_same_object_refuted :
  exists l s s1,
    run initial l = Ok s /\ 0 < held s 1 /\ ro_dead (objs s 1) = false /\ ro_handle (objs s 1) = 1 /\
    step s (Get 1 CREATE_ACQUIRED) = Ok s1 /\ In (EvGot 1 2 true) (trace s1).
Proof.
  exists mixed_up. eexists. eexists. split; [vm_compute; reflexivity|].
  split; [reflexivity|]. split; [reflexivity|]. split; [reflexivity|].
  split; [vm_compute; reflexivity|]. cbn [trace In]. repeat (try (left; reflexivity); right).
Qed.
Print Assumptions C33_same_object_refuted.

(* Two threads look the same object up and drop it: the second one gets a reference while
   the first one is about to find out that it has the last one, and drops it right after.
   The object is freed while it's in the table, and the next lookup uses it. *)
Theorem C33_use_after_free_refuted :
  run initial [Get 1 CREATE_ACQUIRED; Unref 0; Get 1 CREATE_ACQUIRED; Dispose 0; Unref 0; Dispose 0;
               Get 1 CREATE_ACQUIRED] = Crash.
Proof. vm_compute. reflexivity. Qed.
Print Assumptions C33_use_after_free_refuted.

(* The handle of a dead service is released before it's removed from the table. A lookup
   which happens in between on behalf of the next service with that handle finds the dead
   object. *)
Theorem C33_new_service_refuted :
  exists l s s1,
    run initial l = Ok s /\ kr_dead (kern s 1) = false /\ kr_node (kern s 1) = 1%nat /\
    step s (Get 1 CREATE_ACQUIRED) = Ok s1 /\ In (EvGot 1 0 false) (trace s1) /\
    ro_dead (objs s1 0) = true /\ ro_node (objs s1 0) = 0%nat.
Proof.
  exists [Get 1 CREATE_ACQUIRED; Dies 1; Tell 1; DeadBinder 1; Callback; Reuse 1].
  eexists. eexists. split; [vm_compute; reflexivity|].
  split; [reflexivity|]. split; [reflexivity|]. split; [vm_compute; reflexivity|].
  split; [cbn [trace In]; repeat (try (left; reflexivity); right)|]. split; reflexivity.
Qed.
Print Assumptions C33_new_service_refuted.

(* ------------------------------------------------------------------ *)
(* C34 *)

(* Whatever happens (as long as no object is used after it's freed): handles are acquired
   and released in turns, notifications are requested and cleared or delivered in turns,
   death is signalled once per request, and nothing is left when the object is freed. *)
Theorem C34_commands_balanced :
  forall l s o, run initial l = Ok s -> lawful o (trace s).
Proof. intros l s o E. apply (always_lawful l s o E). Qed.
Print Assumptions C34_commands_balanced.

Example C34_commands_balanced_nonvacuous :
  exists s, run initial in_order = Ok s /\
    trace s = [EvGot 0 0 true; EvAcquire 0 0; EvRequest 0 0;
               EvAcquire 1 1; EvRequest 1 1; EvGot 1 1 true; EvRelease 1 1; EvDone 1; EvDeath 1; EvFreed 1;
               EvAcquire 2 1; EvRequest 2 1; EvGot 1 2 true; EvGot 1 2 false].
Proof. eexists. split; [vm_compute; reflexivity|reflexivity]. Qed.
(* and what isn't lawful *)
Example C34_unlawful :
  law_run 0 law0 [EvAcquire 0 5; EvRequest 0 5; EvDeath 0; EvFreed 0] = None /\
  law_run 0 law0 [EvRequest 0 5; EvDeath 0; EvDeath 0] = None /\
  law_run 0 law0 [EvRequest 0 5; EvFreed 0] = None /\
  law_run 0 law0 [EvRequest 0 5; EvDeath 0; EvClear 0 5] = None.
Proof. repeat split. Qed.

(* In histories in which handles are not mixed up, an object dies (other than by suicide,
   which follows a failed transaction) only if the service which it stands for is dead. *)
Theorem C34_no_false_death_partial :
  forall l s m s1 o,
    careful initial l = true -> run initial l = Ok s -> (o < count s)%nat ->
    step s m = Ok s1 -> m <> Suicide o ->
    ro_dead (objs s o) = false -> ro_dead (objs s1 o) = true ->
    kr_dead (kern s (ro_handle (objs s o))) = true /\
    ro_node (objs s o) = kr_node (kern s (ro_handle (objs s o))).
Proof.
  intros l s m s1 o C E L S NS D0 D1. pose proof (good_run l initial s good_initial C E) as G.
  destruct (dies_by s m s1 o (g_acct s G) S D0 D1) as [->|[->|X]]; [|contradiction|lia].
  apply (callback_dead s s1 o G S D0 D1).
Qed.
Print Assumptions C34_no_false_death_partial.

(* And if it's dead, then the driver and the threads of the library can go on without the
   application until the death is signalled. *)
Theorem C34_death_is_signalled_partial :
  forall l s o,
    careful initial l = true -> run initial l = Ok s ->
    0 < held s o -> ro_dead (objs s o) = false -> kr_dead (kern s (ro_handle (objs s o))) = true ->
    exists k s1 t, forallb internal k = true /\ run s k = Ok s1 /\ trace s1 = trace s ++ t /\ In (EvDeath o) t.
Proof.
  intros l s o C E H D K. pose proof (good_run l initial s good_initial C E) as G.
  destruct (death_comes s o G H D K) as [k [s1 [P1 [P2 [t [P3 P4]]]]]]. exists k, s1, t. auto.
Qed.
Print Assumptions C34_death_is_signalled_partial.

Example C34_deaths_nonvacuous :
  let l := [Get 1 CREATE_ACQUIRED; Dies 1; Tell 1; DeadBinder 1] in
  careful initial l = true /\
  exists s s1, run initial l = Ok s /\ held s 0 = 2 /\ ro_dead (objs s 0) = false /\
    kr_dead (kern s 1) = true /\ step s Callback = Ok s1 /\ ro_dead (objs s1 0) = true.
Proof.
  split; [vm_compute; reflexivity|]. eexists. eexists. split; [vm_compute; reflexivity|].
  split; [reflexivity|]. split; [reflexivity|]. split; [reflexivity|]. split; [vm_compute; reflexivity|]. reflexivity.
Qed.

(* In other histories: the notification is on its way while the object goes away, the
   handle goes to another service, and the object of that one dies, because the cookie of
   the notification is the handle. *)
Theorem C34_no_false_death_refuted :
  exists l s s1,
    run initial l = Ok s /\ 0 < held s 1 /\ ro_dead (objs s 1) = false /\ ro_handle (objs s 1) = 1 /\
    kr_dead (kern s 1) = false /\ ro_node (objs s 1) = kr_node (kern s 1) /\
    step s Callback = Ok s1 /\ ro_dead (objs s1 1) = true.
Proof.
  exists ([Get 1 CREATE_ACQUIRED; Dies 1; Tell 1; Unref 0; Dispose 0; Dispose 0; Dispose 0; Dispose 0;
           Reuse 1; Get 1 CREATE_ACQUIRED; DeadBinder 1]).
  eexists. eexists. split; [vm_compute; reflexivity|].
  split; [reflexivity|]. split; [reflexivity|]. split; [reflexivity|]. split; [reflexivity|]. split; [reflexivity|].
  split; [vm_compute; reflexivity|]. reflexivity.
Qed.
Print Assumptions C34_no_false_death_refuted.

(* Two objects for the same handle (see above): when one of them goes away, the
   notification is cleared for both. The other one is never told. *)
Theorem C34_death_is_signalled_refuted :
  exists l s,
    run initial l = Ok s /\ 0 < held s 1 /\ ro_dead (objs s 1) = false /\ ro_handle (objs s 1) = 1 /\
    kr_dead (kern s 1) = true /\ ro_node (objs s 1) = kr_node (kern s 1) /\
    inflight s = [] /\ queue s = [] /\ main s = MIdle /\ step s (Tell 1) = Disabled.
Proof.
  exists (mixed_up ++ [Get 1 CREATE_ACQUIRED; Unref 2; Dispose 2; Dispose 2; Dispose 2; Dispose 2; Dies 1]).
  eexists. split; [vm_compute; reflexivity|].
  split; [reflexivity|]. split; [reflexivity|]. split; [reflexivity|]. split; [reflexivity|]. split; [reflexivity|].
  split; [reflexivity|]. split; [reflexivity|]. split; [reflexivity|].
  reflexivity.
Qed.
Print Assumptions C34_death_is_signalled_refuted.

(* An object which is received when there is one for its handle which isn't acquired (of a
   proxy) remains so: nothing but the received message keeps the handle. *)
Theorem C34_received_is_acquired_refuted :
  forall l s h o s1,
    run initial l = Ok s -> table s h = Some o -> ro_acquired (objs s o) = false ->
    step s (Get h CREATE_ACQUIRED) = Ok s1 ->
    trace s1 = trace s ++ [EvGot h o false] /\ ro_acquired (objs s1 o) = false /\
    kr_strong (kern s1 h) = kr_strong (kern s h).
Proof.
  intros l s h o s1 E T A S. cbn [step] in S. unfold obj_get in S. rewrite T in S.
  destruct (obj_ref s o) as [| |s2] eqn:ER; try discriminate. cbn [bind] in S. apply ok_inj in S.
  destruct (obj_ref_frame _ _ _ ER) as [_ E2]. subst s1. subst s2. sproj. rewrite upd_eq. auto.
Qed.
Print Assumptions C34_received_is_acquired_refuted.
Example C34_received_is_acquired_nonvacuous :
  exists s s1, run initial [Get 1 CREATE_ALIVE] = Ok s /\ table s 1 = Some 0%nat /\
    ro_acquired (objs s 0) = false /\ step s (Get 1 CREATE_ACQUIRED) = Ok s1.
Proof. eexists. eexists. split; [vm_compute; reflexivity|]. split; [reflexivity|]. split; [reflexivity|]. vm_compute. reflexivity. Qed.
