(* Property theorems about service names. The vocabulary is in NameSpec.v, the modelled
   functions are in NameModel.v. *)
From Coq Require Import ZArith List Lia Bool.
From Verif Require Import Base NameModel NameSpec NameProofs.
Import ListNotations.

(* C39: whatever happens and in whatever order, nothing is touched after it's freed, at most
   one registration call is awaited and at most one timer is scheduled; each timer is for half
   a second *)
Theorem C39_one_call_one_timer :
  forall p (l : list move),
  run (init p) l = Misuse \/
  exists s, run (init p) l = Ok s /\
    (length (awaited s) <= 1)%nat /\ (length (timers s) <= 1)%nat /\
    (in_use s -> forall id ms, In (EvTimer id ms) (trace s) -> ms = 500).
Proof.
  intros p l. destruct (good_run l (init p) (good_init p)) as [H|(s & E & G)]; auto. right. exists s.
  split; [exact E|]. destruct G as [U|I|O].
  - unfold awaited. rewrite (u_calls _ U), (u_timers _ U). cbn. split; [lia|]. split; [lia|].
    intros [_ R]. pose proof (u_refs _ U). lia.
  - rewrite (v_awaited _ I), (v_timers _ I). unfold ilist, olist. split; [destruct (_ =? _); cbn; lia|].
    split; [destruct (retry_timer s); cbn; lia|]. intros _. apply (v_ms _ I).
  - rewrite (o_awaited _ O), (o_timers _ O). cbn. split; [lia|]. split; [lia|].
    intros [_ R]. pose proof (o_refs _ O). lia.
Qed.
Print Assumptions C39_one_call_one_timer.

(* C39: if each change of the presence is signalled once and before the next one, then there's
   a call or a timer but not both *)
Theorem C39_call_or_timer_partial :
  forall p (l : list move), orderly (init p) l = true -> forall s, run (init p) l = Ok s ->
  (length (awaited s) + length (timers s) <= 1)%nat.
Proof.
  intros p l H s E.
  assert (N : neat s).
  { eapply neat_run; eauto. split; [apply good_init|]. cbn. lia. }
  destruct N as [[U|I|O] T].
  - unfold awaited. rewrite (u_calls _ U), (u_timers _ U). cbn. lia.
  - specialize (T (v_refs _ I)). rewrite (v_awaited _ I), (v_timers _ I). unfold ilist.
    destruct (Z.eqb_spec (add_call_id s) 0) as [E0|E0].
    + destruct (retry_timer s); cbn; lia.
    + rewrite (y_one _ T E0). cbn. lia.
  - rewrite (o_awaited _ O), (o_timers _ O). cbn. lia.
Qed.
Print Assumptions C39_call_or_timer_partial.

(* The manager appears; the first call fails, so there's a timer; the second one is still
   queued when the manager disappears; it comes back and the third one succeeds; then the name
   is released *)
Definition story : list move :=
  [NNew; NFlip; NSignal; NStart 1; NFinish 1 (-22); NComplete 1; NTimer 2; NFlip; NSignal; NStart 3;
   NComplete 3; NFlip; NSignal; NStart 4; NFinish 4 0; NComplete 4; NUnref].
Definition look (n : nat) : option (list Z * list Z * attempt) :=
  match run (init false) (firstn n story) with
  | Ok s => Some (awaited s, timers s, last_attempt (since (trace s)))
  | _ => None
  end.
Example story_orderly : orderly (init false) story = true.
Proof. vm_compute. reflexivity. Qed.
Example story_states :
  map look [1; 3; 5; 6; 7; 9; 11; 13; 16; 17]%nat =
  map Some [([], [], NoCall); ([1], [], Pending 1); ([1], [], Pending 1); ([], [2], Result 1 (-22));
            ([3], [], Pending 3); ([], [], NoCall); ([], [], NoCall); ([4], [], Pending 4);
            ([], [], Result 4 0); ([], [], Result 4 0)].
Proof. vm_compute. reflexivity. Qed.

(* Without this condition there may be both: the name is created when another manager has
   already found out that the object is alive (see C42_two_managers_refuted) and the first call
   fails before this manager's handlers are told; the timer remains when the second call is
   made *)
Theorem C39_call_or_timer_refuted :
  exists s, run (init true) [NNew; NStart 1; NFinish 1 (-22); NComplete 1; NSignal] = Ok s /\
    awaited s = [3] /\ timers s = [2].
Proof. eexists. split; [vm_compute; reflexivity|]. split; reflexivity. Qed.
Print Assumptions C39_call_or_timer_refuted.

(* C39: as long as the name is in use and the manager is present, once the name knows about
   it: a call was made after the manager has appeared, and the last one is awaited, or it
   has failed and the timer for the next one is scheduled, or it has succeeded. *)
Theorem C39_kept_registered :
  forall p (l : list move) s, run (init p) l = Ok s -> in_use s ->
  present s = true -> told (trace s) = true ->
  match last_attempt (since (trace s)) with
  | NoCall => False
  | Pending id => awaited s = [id]
  | Result _ st => awaited s = [] /\ (st <> 0 -> exists t, timers s = [t])
  end.
Proof.
  intros p l s E [_ R] P T.
  destruct (good_run l (init p) (good_init p)) as [H|(s2 & E2 & G)]; rewrite E in *; [discriminate|].
  injection E2 as <-. pose proof (good_inv s G R) as I. pose proof (v_present _ I T P) as K.
  rewrite (v_awaited _ I), (v_timers _ I). destruct (last_attempt (since (trace s))) as [|id|id st]; auto.
  - destruct K as [-> N]. apply ilist_pos. auto.
  - destruct K as [-> N]. split; [reflexivity|]. intros H. specialize (N H). destruct (retry_timer s); [|congruence].
    cbn [olist]. eauto.
Qed.
Print Assumptions C39_kept_registered.

(* C39: and when the timer expires, a call is made *)
Theorem C39_retried :
  forall p (l : list move) s, run (init p) l = Ok s -> in_use s ->
  forall t, timers s = [t] ->
  exists s2 id, step s (NTimer t) = Ok s2 /\ trace s2 = EvCall id :: trace s /\ awaited s2 = [id] /\ timers s2 = [].
Proof.
  intros p l s E [_ R] t Ht.
  destruct (good_run l (init p) (good_init p)) as [H|(s2 & E2 & G)]; rewrite E in *; [discriminate|].
  injection E2 as <-. pose proof (good_inv s G R) as I. cbn [step].
  destruct (inv_timer s t I) as [K|(s2 & K & _ & _ & K2 & K3 & K4)].
  - exfalso. unfold retry in K. rewrite Ht in K. cbn [existsb] in K. rewrite Z.eqb_refl in K. cbn [orb] in K.
    change (freed (set_timers s _)) with (freed s) in K. rewrite (not_freed _ R) in K.
    unfold add_service in K. cbn in K. destruct (freed _); discriminate.
  - exists s2, (next s). auto.
Qed.
Print Assumptions C39_retried.

(* C39: nothing is done while the manager is absent, once the name knows about it *)
Theorem C39_absent :
  forall p (l : list move) s, run (init p) l = Ok s -> in_use s ->
  present s = false -> told (trace s) = true -> awaited s = [] /\ timers s = [].
Proof.
  intros p l s E [_ R] P T.
  destruct (good_run l (init p) (good_init p)) as [H|(s2 & E2 & G)]; rewrite E in *; [discriminate|].
  injection E2 as <-. pose proof (good_inv s G R) as I. destruct (v_absent _ I T P) as [A B].
  rewrite (v_awaited _ I), (v_timers _ I), A, B. auto.
Qed.
Print Assumptions C39_absent.

(* C39: after the last reference is dropped no call is made, performed or reported, and no
   timer is scheduled; what remains of calls is given back with them, the object too *)
Theorem C39_silent_after_release :
  forall p (l : list move) s, run (init p) l = Ok s -> In EvReleased (trace s) ->
  awaited s = [] /\ timers s = [] /\ obj_refs s = Z.of_nat (length (calls s)) /\
  exists after before, trace s = after ++ EvReleased :: before /\ forall e, In e after -> activity e = false.
Proof.
  intros p l s E H.
  assert (Q : forall l s, good s -> (0 < refs s -> ~ In EvReleased (trace s)) -> forall s2, run s l = Ok s2 ->
    (0 < refs s2 -> ~ In EvReleased (trace s2))).
  { clear. induction l as [|mv l IH]; intros s G N s2; cbn [run]; [intros [= <-]; auto|].
    destruct (step s mv) as [| |s1] eqn:Es; cbn [bind]; try discriminate. intros R.
    destruct (good_step s mv G) as [K|(s3 & K & G3)]; rewrite Es in K; [discriminate|]. injection K as <-.
    apply (IH s1 G3); auto. clear IH R s2. intros R1.
    destruct (Z_lt_dec 0 (refs s)) as [R|R].
    - specialize (N R). pose proof (good_inv s G R) as I. clear G G3.
      destruct mv; cbn [step] in Es.
      + unfold servicename_new in Es. rewrite (v_created _ I) in Es. discriminate.
      + unfold servicename_ref in Es. rewrite (not_freed _ R) in Es. injection Es as <-. auto.
      + destruct (Z.eq_dec (refs s) 1) as [Q1|Q1].
        * destruct (inv_last_unref s I Q1) as (s4 & E4 & O). rewrite Es in E4. injection E4 as <-.
          pose proof (o_refs _ O). lia.
        * unfold servicename_unref in Es. rewrite (not_freed _ R) in Es. cbn [set_refs refs] in Es.
          destruct (Z.eqb_spec (refs s - 1) 0); [lia|]. injection Es as <-. auto.
      + injection Es as <-. intros [H|H]; [discriminate|auto].
      + rewrite (not_freed _ R) in Es. unfold presence_handler in Es. rewrite (not_freed _ R) in Es.
        pose proof (base_say s (EvSignal (present s)) (inv_base _ I) ltac:(discriminate)) as B.
        set (s4 := say s (EvSignal (present s))) in *. destruct (present s4).
        * destruct (add_service_ok s4 B) as (s5 & E5 & _ & _ & _ & _ & F4). rewrite Es in E5. injection E5 as <-.
          rewrite F4. cbn. intros [H|[H|H]]; try discriminate; auto.
        * assert (T : forall x, trace (if add_call_id s4 =? 0 then s4 else set_id (cancel s4 (add_call_id s4)) x) = trace s4).
          { intros x. destruct (_ =? _); auto. cbn [set_id trace]. apply cancel_fields. }
          set (s5 := if add_call_id s4 =? 0 then s4 else set_id (cancel s4 (add_call_id s4)) 0) in *.
          assert (T5 : trace s1 = trace s5).
          { destruct (retry_timer s5) as [t|]; [|injection Es as <-; auto]. unfold timeout_remove in Es.
            destruct (existsb _ _); cbn [bind] in Es; [|discriminate]. injection Es as <-. reflexivity. }
          rewrite T5. unfold s5. rewrite T. cbn. intros [H|H]; [discriminate|auto].
      + destruct (inv_timer s id I) as [K|(s4 & E4 & _ & _ & _ & _ & F4)]; rewrite Es in *; [discriminate|].
        injection E4 as <-. rewrite F4. intros [H|H]; [discriminate|auto].
      + unfold start in Es. destruct (find_call s id) as [[i k ph]|]; [|discriminate]. destruct ph; try discriminate.
        destruct k; injection Es as <-; auto. intros [H|H]; [discriminate|auto].
      + unfold finish in Es. destruct (find_call s id) as [[i k ph]|]; [|discriminate]. destruct ph; try discriminate.
        injection Es as <-; auto.
      + unfold complete in Es. destruct (find_call s id) as [[i k ph]|]; [|discriminate].
        destruct ph as [| |r]; try discriminate. destruct k; [injection Es as <-; auto|].
        unfold add_service_done in Es. rewrite (not_freed _ R) in Es.
        destruct (_ =? 0); cbn [bind] in Es.
        * injection Es as <-. intros [H|H]; [discriminate|auto].
        * unfold timeout_remove in Es.
          destruct (retry_timer _); [destruct (existsb _ _)|]; cbn [bind] in Es; try discriminate;
            injection Es as <-; cbn; intros [H|[H|H]]; try discriminate; auto.
    - destruct G as [U|I|O].
      + assert (T0 : ~ In EvReleased (trace s)) by (intros H; apply (u_trace _ U) in H; destruct H; discriminate).
        assert (F : freed s = true) by (unfold freed; rewrite (u_refs _ U); reflexivity).
        destruct mv; cbn [step] in Es.
        * unfold servicename_new in Es. rewrite (u_created _ U) in Es. cbn [present] in Es.
          set (s4 := State _ _ _ _ _ _ _ _ _ _) in Es.
          assert (T4 : ~ In EvReleased (trace s4)) by (intros [H|H]; [discriminate|auto]).
          destruct (present s); [|injection Es as <-; auto].
          unfold add_service in Es. destruct (freed s4); [discriminate|]. cbn [sm_add_service] in Es.
          injection Es as <-. intros [H|H]; [discriminate|]. apply T4. exact H.
        * unfold servicename_ref in Es. rewrite F in Es. discriminate.
        * unfold servicename_unref in Es. rewrite F in Es. discriminate.
        * injection Es as <-. intros [H|H]; [discriminate|auto].
        * rewrite F in Es. discriminate.
        * unfold retry in Es. rewrite (u_timers _ U) in Es. discriminate.
        * unfold start, find_call in Es. rewrite (u_calls _ U) in Es. discriminate.
        * unfold finish, find_call in Es. rewrite (u_calls _ U) in Es. discriminate.
        * unfold complete, find_call in Es. rewrite (u_calls _ U) in Es. discriminate.
      + pose proof (v_refs _ I). lia.
      + exfalso. destruct (over_step s mv O) as [K|(s4 & K & O2)]; rewrite Es in K; [discriminate|]. injection K as <-.
        pose proof (o_refs _ O2). lia. }
  destruct (good_run l (init p) (good_init p)) as [K|(s2 & E2 & G)]; rewrite E in *; [discriminate|].
  injection E2 as <-.
  assert (N : 0 < refs s -> ~ In EvReleased (trace s)) by (apply (Q l (init p) (good_init p)); auto).
  destruct G as [U|I|O].
  - apply (u_trace _ U) in H. destruct H. discriminate.
  - destruct (N (v_refs _ I) H).
  - destruct O. split; auto. split; auto. split; auto. destruct o_silent as (a & b & Et & F).
    exists a, b. split; auto. intros e He. rewrite forallb_forall in F. apply F in He. destruct (activity e); auto; discriminate.
Qed.
Print Assumptions C39_silent_after_release.

(* The name is released when its call is being performed and another one is cancelled but not
   finished: nothing more is reported, and the references are given back *)
Definition released_early : list move :=
  [NNew; NStart 1; NSignal; NUnref; NFlip; NStart 2; NFinish 1 0; NComplete 1; NComplete 2].
Example released_case :
  map (fun n => match run (init true) (firstn n released_early) with
                | Ok s => Some (awaited s, obj_refs s, length (calls s), filter activity (trace s)) | _ => None end)
      [4; 9]%nat =
  [Some ([], 2, 2%nat, [EvCall 2; EvSignal true; EvExec 1; EvCall 1]);
   Some ([], 0, 0%nat, [EvCall 2; EvSignal true; EvExec 1; EvCall 1])].
Proof. vm_compute. reflexivity. Qed.
