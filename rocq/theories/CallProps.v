(* C64: asynchronous calls own what they need, until they are over. The vocabulary is in
   CallSpec.v, the modelled functions are in CallModel.v. [reached next l s] means that the
   moves [l] of the application, the main thread and the thread pool lead to the state [s]. *)
From Verif Require Import Base AsyncModel AsyncSpec CallModel CallSpec CallProofs CallSteps CallRun CallLife CallArgs CallEnd.

(* ------------------------------------------------------------------ *)
(* C64: nothing is used after it has been freed, or freed twice: in any history of calls,
   cancellations, callbacks which make calls, cancel, take and drop references, and executions. *)
Theorem C64_no_crash : forall next l, crun (cinit next) l <> Crash.
Proof. intros next l E. pose proof (crun_full l (cinit next) (full_init next)) as X. rewrite E in X. exact X. Qed.
Print Assumptions C64_no_crash.

(* What the application may use (because it has a reference, or because it has been passed
   to its callback which is running) is there. *)
Theorem C64_usable_is_there : forall next l s t,
  reached next l s -> usable s t = true -> there s t.
Proof. intros next l s t R. exact (usable_there s t (reached_full _ _ _ R)). Qed.
Print Assumptions C64_usable_is_there.

(* Calls can be made by whoever may use the manager or the client (and the object), as long as
   there is an unused transaction id. *)
Theorem C64_calls_are_made : forall next l s m id,
  reached next l s -> may_call s m -> 0 < ipc_refs (ca s) -> 0 < id < 2 ^ 32 -> (forall k, ~ refers (atrace (ca s)) id k) ->
  exists s1, cstep s m = Ok s1.
Proof. exact may_call_ok. Qed.
Print Assumptions C64_calls_are_made.

(* ------------------------------------------------------------------ *)
(* C64: what a call has been made with stays, whatever the application does with its own
   references: the manager or the client until the call is over, the object which is being
   added, its name and the request until the destroy function is invoked at least. *)
Theorem C64_arguments_stay : forall next l1 s m s1 kd h o l2 s2,
  reached next l1 s -> cstep s m = Ok s1 -> made_with m = Some (kd, h, o) -> crun s1 l2 = Ok s2 ->
  let k := count (ca s) in
  ~ over s2 k -> there s2 h /\ (kd <> KTx \/ t_phase (txs (ca s2) k) <> InDestroy -> there_opt s2 o).
Proof.
  intros next l1 s m s1 kd h o l2 s2 R E M E2 k No. pose proof (reached_full _ _ _ R) as F.
  pose proof (cstep_full s m F) as F1. rewrite E in F1. pose proof (crun_full l2 s1 F1) as F2. rewrite E2 in F2.
  destruct (made _ _ _ _ _ _ E M) as (d & D1 & D2 & D3 & D4 & D5 & D6 & _).
  assert (H : has_args d s1 k).
  { split; [rewrite D5; unfold k; lia|]. unfold k. rewrite D6. destruct (pool (ca s)); exists d; repeat (split; [reflexivity || assumption|]); auto. }
  pose proof (has_args_run _ _ _ _ _ F1 H E2) as H2. destruct (call_stays _ _ _ F2 H2 No) as [T1 T2].
  rewrite D2 in T1. split; [exact T1|]. intros X. rewrite D1 in T2. destruct (T2 X) as [_ T3]. rewrite D3 in T3. exact T3.
Qed.
Print Assumptions C64_arguments_stay.

(* When the callback is running, the manager or the client and the result are there. *)
Theorem C64_callback_arguments : forall next l s k r,
  reached next l s -> t_phase (txs (ca s) k) = InReply r ->
  exists d, datas s k = Some d /\ there s (d_holder d) /\ there_opt s (d_result d).
Proof. intros next l s k r R. exact (lent_there s k r (reached_full _ _ _ R)). Qed.
Print Assumptions C64_callback_arguments.

(* ------------------------------------------------------------------ *)
(* C64: nobody else has references: each one belongs to the application, a call, or is
   about to be released. *)
Theorem C64_references : forall next l s t,
  reached next l s -> refs s t = app_has s t + calls_have s t + to_release s t /\
  0 <= app_has s t /\ 0 <= calls_have s t /\ 0 <= to_release s t.
Proof. exact reached_balance. Qed.
Print Assumptions C64_references.

(* When all calls are over and nothing is to be released, what the application hasn't got a
   reference to is gone, and names, lists and their like are gone already when the calls are over. *)
Theorem C64_nothing_left : forall next l s,
  reached next l s -> (forall k, over s k) ->
  (forall t, kinds s t = Str \/ kinds s t = StrV -> refs s t = app_has s t) /\
  ((forall h, auto_cb s h = None) -> forall t, refs s t = app_has s t).
Proof.
  intros next l s R Ov. pose proof (reached_full _ _ _ R) as F. split.
  - intros t K. rewrite (all_over _ _ F Ov), (string_release _ _ F K). lia.
  - intros N t. rewrite (all_over _ _ F Ov), (nothing_to_release _ _ F N). lia.
Qed.
Print Assumptions C64_nothing_left.

(* The list which is passed to the callback of gbinder_servicemanager_list belongs to the
   application if the callback returns true, otherwise it's gone. *)
Theorem C64_list_ownership : forall next l s k st r d t verdict s1,
  reached next l s -> stack (ca s) = k :: st -> t_phase (txs (ca s) k) = InReply r ->
  datas s k = Some d -> d_kind d = KList -> d_result d = Some t ->
  cstep s (CReturn verdict) = Ok s1 ->
  refs s1 t = (if verdict then 1 else 0) /\ app_has s1 t = (if verdict then 1 else 0).
Proof. intros next l s k st r d t v s1 R. exact (list_returned s k st r d t v s1 (reached_full _ _ _ R)). Qed.
Print Assumptions C64_list_ownership.

(* If the call has been cancelled after its result had been received, the list is gone with it. *)
Theorem C64_list_cancelled : forall next l s k st d t verdict s1,
  reached next l s -> stack (ca s) = k :: st -> t_phase (txs (ca s) k) = InDestroy ->
  datas s k = Some d -> d_kind d = KList -> d_result d = Some t ->
  cstep s (CReturn verdict) = Ok s1 -> refs s1 t = 0.
Proof. intros next l s k st d t v s1 R. exact (list_destroyed s k st d t v s1 (reached_full _ _ _ R)). Qed.
Print Assumptions C64_list_cancelled.

(* The transactions are those of C29: whatever happens in these histories happens there. *)
Theorem C64_transactions : forall next l s,
  reached next l s -> exists moves, run (initial next) moves = Some (ca s).
Proof. exact reached_async. Qed.
Print Assumptions C64_transactions.

(* ------------------------------------------------------------------ *)
(* C64: the object which is returned by gbinder_servicemanager_get_service_sync stays until
   the event loop runs idle callbacks, as long as the manager is there. *)
Theorem C64_sync_object_stays : forall next l1 s h r s1 t l2 s2,
  reached next l1 s -> cstep s (SyncGet h r) = Ok s1 -> get_service_sync s h r = Ok (s1, Some t) ->
  crun s1 l2 = Ok s2 -> forallb (fun m => negb (is_idle m)) l2 = true -> there s2 h -> there s2 t.
Proof. exact sync_stays. Qed.
Print Assumptions C64_sync_object_stays.

(* Such objects are always going to be released: an idle callback is scheduled, and it
   drops one reference for each call. *)
Theorem C64_sync_object_released : forall next l s h,
  reached next l s -> auto s h <> [] ->
  exists c s1, cb_for (cbs s c) = Some h /\ cstep s (Idle c) = Ok s1 /\ auto s1 h = [] /\
    forall t, refs s1 t = refs s t - occurs (auto s h) t.
Proof. intros next l s h R. exact (scheduled s h (reached_full _ _ _ R)). Qed.
Print Assumptions C64_sync_object_released.

(* ------------------------------------------------------------------ *)
(* C64 is false for these idle callbacks: every time one has been invoked, it's
   leaked. The pointer to it is cleared without dropping the reference. *)
Theorem C64_idle_callbacks_refuted : forall next l s,
  reached next l s -> lost_callbacks s = length (filter is_idle l).
Proof. intros next l s R. rewrite (lost_run l _ _ (full_init next) R). cbn. lia. Qed.
Print Assumptions C64_idle_callbacks_refuted.

(* And for calls which are made after the pool has been shut down: they are never over, and
   what they've been made with is never released. *)
Theorem C64_after_exit_refuted : forall next l1 s m s1 kd h o l2 s2,
  reached next l1 s -> pool (ca s) = false -> cstep s m = Ok s1 -> made_with m = Some (kd, h, o) -> crun s1 l2 = Ok s2 ->
  let k := count (ca s) in
  ~ over s2 k /\ there s2 h /\ there_opt s2 o.
Proof.
  intros next l1 s m s1 kd h o l2 s2 R P E M E2 k. pose proof (reached_full _ _ _ R) as F.
  pose proof (cstep_full s m F) as F1. rewrite E in F1.
  destruct (made _ _ _ _ _ _ E M) as (d & _ & _ & _ & _ & D5 & D6 & _). rewrite P in D6.
  pose proof (later_run k l2 s1 s2 F1 ltac:(rewrite D5; unfold k; lia) E2 D6) as La.
  assert (No : ~ over s2 k) by (unfold over; rewrite La; discriminate). split; [exact No|].
  destruct (C64_arguments_stay next l1 s m s1 kd h o l2 s2 R E M E2 No) as [T1 T2]. split; [exact T1|].
  apply T2. right. fold k. rewrite La. discriminate.
Qed.
Print Assumptions C64_after_exit_refuted.

(* ------------------------------------------------------------------ *)
(* Histories. Thing 0 is a manager, 1 an object; 2 is the name in the call which adds it. The application
   drops both while the call is being executed; everything is gone when it's over. *)
Definition add_moves : list cmove :=
  [AppNew Manager; AppNew Object; Add 0 (Some 1%nat); CWork; AppUnref 0; AppUnref 1].
Definition add_rest : list cmove := [CFinish 0 RNone; CDispatch 0; CReturn false; CReturn false; CTick].
Definition state_of (l : list cmove) : cstate := match crun (cinit 0) l with Ok s => s | _ => cinit 0 end.
Lemma state_reached l : match crun (cinit 0) l with Ok _ => true | _ => false end = true -> reached 0 l (state_of l).
Proof. unfold reached, state_of. destruct (crun _ l); [reflexivity|discriminate|discriminate]. Qed.
Lemma state_step l m : match crun (cinit 0) (l ++ [m]) with Ok _ => true | _ => false end = true ->
  cstep (state_of l) m = Ok (state_of (l ++ [m])).
Proof.
  unfold state_of. enough (X : forall s, crun s (l ++ [m]) = CallModel.bind (crun s l) (fun s1 => cstep s1 m)).
  { rewrite !X. destruct (crun (cinit 0) l); cbn [CallModel.bind]; try discriminate. destruct (cstep a m); [reflexivity|discriminate|discriminate]. }
  induction l as [|x l IH]; intros s; cbn [crun app CallModel.bind]; [destruct (cstep s m); reflexivity|].
  destruct (cstep s x); cbn [CallModel.bind]; auto.
Qed.
Example C64_example_add :
  reached 0 add_moves (state_of add_moves) /\ t_phase (txs (ca (state_of add_moves)) 0) = Executing true /\
  map (refs (state_of add_moves)) [0; 1; 2]%nat = [1; 1; 1] /\ map (app_has (state_of add_moves)) [0; 1; 2]%nat = [0; 0; 0] /\
  let s := state_of (add_moves ++ add_rest) in
  reached 0 (add_moves ++ add_rest) s /\ over s 0 /\ map (refs s) [0; 1; 2]%nat = [0; 0; 0].
Proof.
  split; [apply state_reached; vm_compute; reflexivity|]. do 3 (split; [vm_compute; reflexivity|]).
  split; [apply state_reached; vm_compute; reflexivity|]. split; vm_compute; reflexivity.
Qed.
(* all calls are over, including those which haven't been made *)
Example C64_example_all_over : forall k, over (state_of (add_moves ++ add_rest)) k.
Proof. intros [|k]; vm_compute; reflexivity. Qed.

(* A list is kept by the first callback and dropped by the second, a third call is cancelled after the list
   has been received *)
Definition list_moves : list cmove :=
  [AppNew Manager; List 0; CWork; CFinish 0 RNew; CDispatch 0].
Example C64_example_list :
  let s := state_of list_moves in
  reached 0 list_moves s /\ stack (ca s) = [0%nat] /\ t_phase (txs (ca s) 0) = InReply 0 /\
  usable s 1 = true /\ usable s 0 = true /\
  (exists d, datas s 0 = Some d /\ d_kind d = KList /\ d_result d = Some 1%nat) /\
  app_has (state_of (list_moves ++ [CReturn true])) 1 = 1 /\ refs (state_of (list_moves ++ [CReturn true])) 1 = 1 /\
  refs (state_of (list_moves ++ [CReturn false])) 1 = 0.
Proof. cbv zeta. split; [apply state_reached; vm_compute; reflexivity|]. repeat split; try (vm_compute; reflexivity). eexists. split; [vm_compute; reflexivity|split; reflexivity]. Qed.
Definition cancel_moves : list cmove :=
  [AppNew Manager; List 0; CWork; CFinish 0 RNew; CCancel 1; CTick; CDispatch 0].
Example C64_example_cancelled :
  let s := state_of cancel_moves in
  reached 0 cancel_moves s /\ stack (ca s) = [0%nat] /\ t_phase (txs (ca s) 0) = InDestroy /\
  (exists d, datas s 0 = Some d /\ d_kind d = KList /\ d_result d = Some 1%nat) /\
  refs s 1 = 1 /\ refs (state_of (cancel_moves ++ [CReturn true])) 1 = 0.
Proof. cbv zeta. split; [apply state_reached; vm_compute; reflexivity|]. repeat split; try (vm_compute; reflexivity). eexists. split; [vm_compute; reflexivity|split; reflexivity]. Qed.

(* A callback, which makes another call on the manager which it's been passed and the
   application has no reference to *)
Definition again_moves : list cmove :=
  [AppNew Manager; Get 0; AppUnref 0; CWork; CFinish 0 RNew; CDispatch 0; AppRef 2].
Example C64_example_again :
  let s := state_of again_moves in
  reached 0 again_moves s /\ app_has s 0 = 0 /\ may_call s (Add 0 (Some 2%nat)) /\ 0 < ipc_refs (ca s) /\
  (forall k, ~ refers (atrace (ca s)) 2 k) /\
  (exists s1, cstep s (Add 0 (Some 2%nat)) = Ok s1 /\ refs s1 0 = 2 /\ refs s1 2 = 3).
Proof.
  cbv zeta. split; [apply state_reached; vm_compute; reflexivity|]. split; [reflexivity|]. split; [repeat split; vm_compute; reflexivity|]. split; [vm_compute; reflexivity|].
  split.
  { intros k [[f X] _]. vm_compute in X. repeat (destruct X as [X|X]; [discriminate X|]). exact X. }
  eexists. split; [apply state_step; vm_compute; reflexivity|split; vm_compute; reflexivity].
Qed.

(* An object from gbinder_servicemanager_get_service_sync, obtained twice, and released by the idle callback, which
   is lost then *)
Definition sync_moves : list cmove := [AppNew Manager; SyncGet 0 RNew; SyncGet 0 (ROld 1)].
Example C64_example_sync :
  let s := state_of sync_moves in
  reached 0 sync_moves s /\ auto s 0 = [1; 1]%nat /\ refs s 1 = 2 /\ lost_callbacks s = 0%nat /\
  let s1 := state_of (sync_moves ++ [Idle 0]) in
  reached 0 (sync_moves ++ [Idle 0]) s1 /\ refs s1 1 = 0 /\ lost_callbacks s1 = 1%nat.
Proof.
  cbv zeta. split; [apply state_reached; vm_compute; reflexivity|]. do 3 (split; [vm_compute; reflexivity|]).
  split; [apply state_reached; vm_compute; reflexivity|]. split; vm_compute; reflexivity.
Qed.
Example C64_example_sync_call :
  let s := state_of [AppNew Manager] in
  exists s1, cstep s (SyncGet 0 RNew) = Ok s1 /\ get_service_sync s 0 RNew = Ok (s1, Some 1%nat).
Proof. eexists. split; reflexivity. Qed.

(* A call after the end of the pool *)
Example C64_example_after_exit :
  let s := state_of [AppNew Manager; CExit] in
  reached 0 [AppNew Manager; CExit] s /\ pool (ca s) = false /\ exists s1, cstep s (List 0) = Ok s1 /\ refs s1 0 = 2.
Proof.
  cbv zeta. split; [apply state_reached; vm_compute; reflexivity|]. split; [reflexivity|].
  eexists. split; [apply state_step; vm_compute; reflexivity|vm_compute; reflexivity].
Qed.
