(* C59: deferred calls reach their event loop exactly once.
   The vocabulary (invokes, returns, frees, cancelled, created, calls) is in LoopSpec; traces are written
   backwards, so in "a ++ e :: b" what happened before e is b. *)
From Verif Require Import Base LoopModel LoopSpec LoopProofs.
Local Arguments Nat.ltb : simpl never.

Lemma moment : forall l s a e b i, run init l = Ok s -> trace s = a ++ e :: b -> fine i (e :: b).
Proof. intros l s a e b i R T. pose proof (fine_all l s R i) as F. rewrite T in F. exact (fine_split i a _ F). Qed.

(* Nothing which was freed is used, if timeouts are added by the thread which runs the loop *)
Theorem C59_no_crash_partial : forall l, on_loop l -> run init l <> Crash.
Proof. intros l O. apply safe_run; auto; [exact inv_init|]. intros i. reflexivity. Qed.
Print Assumptions C59_no_crash_partial.
(* Otherwise it is: the timeout may be over before its id is stored *)
Lemma acts_ok : forall s i x e o, acts s i (Some (x, e)) o ->
  exists s1, o = Ok s1 /\ sources s1 i = x /\ count s1 = count s.
Proof. intros s i x e [| |s1] A; try contradiction. destruct A as (A1 & _ & A3 & _). eauto. Qed.
Theorem C59_no_crash_refuted : forall l s, run init l = Ok s ->
  run s [MStart; MDispatch (count s); MReturn (count s) false; MEnd (count s)] = Crash.
Proof.
  intros l s _. cbn [run step].
  assert (X1 : sources (timeout_start s) (count s) = Source Timeout (current s) 1 true false true 1 false false false 1)
    by apply upd_same.
  assert (C1 : count (timeout_start s) = S (count s)) by reflexivity.
  revert X1 C1. generalize (timeout_start s) as s1. generalize (count s) as c. intros c s1 X1 C1.
  assert (N1 : dispatch s1 c <> Disabled) by (unfold dispatch; cbv zeta; rewrite X1; discriminate).
  pose proof (dispatch_acts s1 c N1) as A1. rewrite X1 in A1.
  assert (L1 : l_dispatch c (Source Timeout (current s) 1 true false true 1 false false false 1) =
    Some (Source Timeout (current s) 2 true false true 2 true false false 1, [EvInvoke c])) by reflexivity.
  rewrite L1 in A1. destruct (acts_ok _ _ _ _ _ A1) as (s2 & E2 & X2 & C2). rewrite E2. clear A1 L1 E2 N1 X1.
  assert (N2 : finished s2 c false <> Disabled) by (apply finished_enabled; rewrite X2; reflexivity).
  pose proof (finished_acts s2 c false N2) as A2. rewrite X2 in A2.
  assert (L2 : l_finished c false (Source Timeout (current s) 2 true false true 2 true false false 1) =
    Some (Source Timeout (current s) 0 false true false 0 false true false 0, [EvFree c; EvReturn c])) by reflexivity.
  rewrite L2 in A2. destruct (acts_ok _ _ _ _ _ A2) as (s3 & E3 & X3 & C3). rewrite E3. clear A2 L2 E3 N2 X2.
  rewrite X3. cbn [is_timeout s_kind s_ready andb negb].
  replace (c <? count s3)%nat with true by (symmetry; apply Nat.ltb_lt; lia).
  unfold timeout_end. rewrite X3. reflexivity.
Qed.
Print Assumptions C59_no_crash_refuted.

(* A history with two integrations: a callback which is cancelled, one which is invoked, one which can't
   be cancelled, and a timeout which is removed by its own function *)
Definition busy_day : list move :=
  [MNew; MSchedule 0; MScheduleNew; MLater; MSet 5; MDispatch 1; MCancel 0; MUnref 1; MAdd; MReturn 1 false; MUnref 0;
   MDispatch 3; MRemove 3; MReturn 3 true; MDispatch 2; MReturn 2 false].
Example C59_busy_day : on_loop busy_day /\
  match run init busy_day with
  | Ok s => trace s = [EvFree 2; EvCall 0 2; EvReturn 2; EvInvoke 2;
                       EvFree 3; EvReturn 3; EvCancel 3; EvCall 5 3; EvInvoke 3;
                       EvCall 0 0; EvFree 1; EvReturn 1; EvNew 5 3 Timeout; EvCall 0 1; EvFree 0; EvCancel 0; EvCall 0 0;
                       EvInvoke 1; EvCleanup 0; EvCall 0 2; EvNew 0 2 Later; EvCall 0 1; EvNew 0 1 Callback; EvCall 0 0; EvNew 0 0 Callback]
  | _ => False
  end.
Proof.
  split; [|vm_compute; reflexivity]. intros m H. unfold busy_day in H. cbn in H.
  repeat (destruct H as [<-|H]; [discriminate|]). destruct H.
Qed.

(* Objects are only given to the integration which has created them *)
Theorem C59_right_loop : forall l s a n i b, run init l = Ok s -> trace s = a ++ EvCall n i :: b ->
  exists k, created b i = Some (n, k).
Proof. intros l s a n i b R T. destruct (moment l s a _ b i R T) as [F _]. cbn in F. now apply F. Qed.
Print Assumptions C59_right_loop.
Example C59_right_loop_case : exists s a b, run init busy_day = Ok s /\ trace s = a ++ EvCall 0 0 :: b /\
  In (EvCleanup 0) b /\ current s = 5%nat.
Proof.
  do 3 eexists. split; [vm_compute; reflexivity|]. cbn [trace].
  split; [apply (f_equal (fun x => x)); exact (eq_refl : _ = [EvFree 2; EvCall 0 2; EvReturn 2; EvInvoke 2;
     EvFree 3; EvReturn 3; EvCancel 3; EvCall 5 3; EvInvoke 3] ++ EvCall 0 0 :: _)|].
  split; [cbn; tauto|reflexivity].
Qed.

(* A deferred call is invoked at most once *)
Theorem C59_once : forall l s i n k, run init l = Ok s -> created (trace s) i = Some (n, k) -> k <> Timeout ->
  (invokes (trace s) i <= 1)%nat.
Proof.
  intros l s i n k R C N. pose proof (reach l s R) as H. destruct (le_lt_dec (count s) i) as [L|L].
  - destruct (proj2 H i L) as (_ & _ & _ & _ & _ & F & _). congruence.
  - destruct (proj1 H i L) as (_ & (_ & _ & T3 & _ & _ & T6) & _). apply T3. congruence.
Qed.
Print Assumptions C59_once.

(* ... and never after it has been cancelled, nor is a timeout after it has been removed, nor are they
   invoked by the loop while they are being invoked, or after their data has been freed *)
Theorem C59_not_after : forall l s a i b, run init l = Ok s -> trace s = a ++ EvInvoke i :: b ->
  cancelled b i = false /\ frees b i = 0%nat /\ invokes b i = returns b i.
Proof. intros l s a i b R T. destruct (moment l s a _ b i R T) as [F _]. cbn in F. now apply F. Qed.
Print Assumptions C59_not_after.

(* The data is freed at most once, and never while the function is being executed or before it's called *)
Theorem C59_freed_once : forall l s i, run init l = Ok s -> (frees (trace s) i <= 1)%nat.
Proof.
  intros l s i R. pose proof (reach l s R) as H. destruct (le_lt_dec (count s) i) as [L|L].
  - destruct (proj2 H i L) as (_ & F & _). lia.
  - destruct (proj1 H i L) as (_ & (T1 & _) & _). rewrite T1. destruct (s_data (sources s i) =? 0); cbn; lia.
Qed.
Print Assumptions C59_freed_once.
Theorem C59_freed_after : forall l s a i b, run init l = Ok s -> trace s = a ++ EvFree i :: b ->
  invokes b i = returns b i /\ invokes a i = 0%nat.
Proof.
  intros l s a i b R T. destruct (moment l s a _ b i R T) as [F _]. cbn in F. split; [now apply F|].
  assert (G : forall a1 a2, a = a1 ++ EvInvoke i :: a2 -> False).
  { intros a1 a2 E. rewrite E, <- app_assoc in T. cbn in T. destruct (C59_not_after l s a1 i _ R T) as (_ & A & _).
    rewrite frees_app in A. cbn in A. rewrite Nat.eqb_refl in A. lia. }
  clear T F. induction a as [|e a IH]; [reflexivity|].
  assert (X : invokes a i = 0%nat) by (apply IH; intros a1 a2 E; apply (G (e :: a1) a2); rewrite E; reflexivity).
  destruct e; cbn; auto. destruct (Nat.eqb i0 i) eqn:Q; [|exact X]. apply Nat.eqb_eq in Q. subst.
  exfalso. exact (G [] a eq_refl).
Qed.
Print Assumptions C59_freed_after.
Example C59_freed_after_case : exists s a b, run init busy_day = Ok s /\ trace s = a ++ EvFree 1 :: b /\
  invokes b 1 = 1%nat /\ s_held (sources s 1%nat) = 0.
Proof.
  do 3 eexists. split; [vm_compute; reflexivity|]. cbn [trace].
  split; [exact (eq_refl : _ = [EvFree 2; EvCall 0 2; EvReturn 2; EvInvoke 2;
     EvFree 3; EvReturn 3; EvCancel 3; EvCall 5 3; EvInvoke 3; EvCall 0 0] ++ EvFree 1 :: _)|].
  split; vm_compute; reflexivity.
Qed.
(* It's freed when nobody holds the object and the loop is done with it *)
Theorem C59_freed : forall l s i n k, run init l = Ok s -> created (trace s) i = Some (n, k) ->
  s_held (sources s i) = 0 -> s_attached (sources s i) = false -> s_running (sources s i) = false ->
  frees (trace s) i = 1%nat.
Proof.
  intros l s i n k R C Z0 A Rn. pose proof (reach l s R) as H. destruct (le_lt_dec (count s) i) as [L|L].
  - destruct (proj2 H i L) as (_ & _ & _ & _ & _ & F & _). congruence.
  - destruct (proj1 H i L) as (X & (T1 & _) & _). rewrite T1. destruct X as [X|X].
    + destruct X as (_ & X1 & X2 & _). rewrite A, Rn in X1. unfold hold in X1. cbn in X1.
      destruct (s_kind (sources s i)); lia.
    + destruct X as (_ & _ & _ & _ & _ & X). rewrite X. reflexivity.
Qed.
Print Assumptions C59_freed.
(* Cancelling a call which is scheduled, or removing a timeout, frees the data at once, unless the
   function is being executed: then it's freed when it returns *)
Theorem C59_cancel_frees : forall l s i s1, run init l = Ok s -> s_attached (sources s i) = true ->
  s_running (sources s i) = false -> step s (MCancel i) = Ok s1 \/ step s (MDestroy i) = Ok s1 \/ step s (MRemove i) = Ok s1 ->
  frees (trace s1) i = 1%nat /\ invokes (trace s1) i = returns (trace s1) i.
Proof.
  intros l s i s1 R A Rn E. pose proof (reach l s R) as H.
  assert (H1 : Inv s1) by (destruct E as [E|[E|E]]; exact (inv_step _ _ _ H E)).
  assert (L : (i < count s)%nat).
  { destruct (le_lt_dec (count s) i) as [L|L]; auto. destruct (proj2 H i L) as [X _]. rewrite X in A. discriminate. }
  assert (Q : exists s2, s1 = s2 /\ s_data (sources s2 i) = 0 /\ s_running (sources s2 i) = false /\ count s2 = count s).
  { exists s1. split; auto. destruct (proj1 H i L) as ([X|X] & _); [|destruct X as (_ & _ & X & _); congruence].
    destruct X as (G & X1 & X2 & X3 & X4 & X5 & _). destruct (X5 A) as [D Hs]. rewrite A, Rn, Hs in *. cbn in X1, X4.
    assert (DD : forall x, s_gone x = false -> s_destroyed x = false -> s_attached x = true -> s_has x = true ->
      s_data x = 1 -> s_running x = false -> match l_src_destroy i x with
        | Some (y, e) => s_data y = 0 /\ s_running y = false /\ (s_gone y = false -> s_has y = false)
        | None => True end).
    { intros x G1 G2 G3 G4 G5 G6. unfold l_src_destroy. rewrite G1, G2, G3, G4. rewrite du1 by exact G5. cbn [lbind].
      unfold l_src_unref. cbn. rewrite G1. destruct (1 <? s_refs x); cbn; auto. }
    destruct E as [E|[E|E]]; cbn [step] in E.
    - destruct (usable s i); [|discriminate]. pose proof (cancel_acts s i) as Ac. rewrite E in Ac.
      unfold l_cancel in Ac. rewrite G in Ac. specialize (DD (sources s i) G D A Hs X4 Rn).
      destruct (l_src_destroy i (sources s i)) as [[y e]|]; [|contradiction].
      destruct Ac as (A1 & _ & A3 & _). rewrite A1. destruct DD as (DD1 & DD2 & _). auto.
    - destruct (usable s i); [|discriminate].
      pose proof (held_acts s i (-1) (l_destroy i) (fun s => callback_destroy s i) (fun s => destroy_acts s i)) as Ac.
      cbv beta in Ac. rewrite E in Ac. unfold l_destroy in Ac. cbn [s_gone lheld with_held] in Ac. rewrite G in Ac.
      specialize (DD (lheld (sources s i) (-1)) G D A Hs X4 Rn).
      destruct (l_src_destroy i (lheld (sources s i) (-1))) as [[y e]|]; [|contradiction].
      destruct DD as (DD1 & DD2 & DD3). cbn [ladd lbind] in Ac. unfold l_src_unref in Ac.
      destruct (s_gone y) eqn:GY; [contradiction|]. rewrite (DD3 eq_refl) in Ac. cbv zeta in Ac.
      destruct (1 <? s_refs y); cbn [ladd lbind] in Ac; destruct Ac as (A1 & _ & A3 & _); rewrite A1; cbn; auto.
    - destruct (is_timeout (sources s i) && s_ready (sources s i) && (0 <? s_held (sources s i))); [|discriminate].
      pose proof (held_acts s i (-1) (l_remove i) (fun s => timeout_remove s i) (fun s => remove_acts s i)) as Ac.
      cbv beta in Ac. rewrite E in Ac. unfold l_remove in Ac. cbn [s_data lheld with_held s_destroyed] in Ac. rewrite X4, D in Ac.
      cbn -[l_src_destroy] in Ac. specialize (DD (lheld (sources s i) (-1)) G D A Hs X4 Rn). fold (lheld (sources s i) (-1)) in Ac.
      destruct (l_src_destroy i (lheld (sources s i) (-1))) as [[y e]|]; [|contradiction].
      destruct Ac as (A1 & _ & A3 & _). rewrite A1. destruct DD as (DD1 & DD2 & _). auto. }
  destruct Q as (s2 & <- & Q1 & Q2 & Q3). rewrite <- Q3 in L.
  destruct (proj1 H1 i L) as (_ & (T1 & T2 & _) & _). rewrite T1, T2, Q1, Q2. cbn. lia.
Qed.
Print Assumptions C59_cancel_frees.
Example C59_cancel_frees_case : exists s s1, run init [MNew; MSchedule 0; MSet 5] = Ok s /\
  s_attached (sources s 0%nat) = true /\ step s (MCancel 0) = Ok s1.
Proof.
  do 2 eexists. split; [vm_compute; reflexivity|]. split; [vm_compute; reflexivity|]. vm_compute. reflexivity.
Qed.

(* A call which can't be cancelled is never cancelled, it's invoked exactly once before its data is freed,
   and until then the loop can always invoke it or is invoking it *)
Theorem C59_later : forall l s i n, run init l = Ok s -> created (trace s) i = Some (n, Later) ->
  (frees (trace s) i = 1%nat /\ invokes (trace s) i = 1%nat /\ returns (trace s) i = 1%nat) \/
  (frees (trace s) i = 0%nat /\ invokes (trace s) i = 1%nat /\ exists s1, step s (MReturn i false) = Ok s1) \/
  (frees (trace s) i = 0%nat /\ invokes (trace s) i = 0%nat /\ exists s1, step s (MDispatch i) = Ok s1).
Proof.
  intros l s i n R C. pose proof (reach l s R) as H. destruct (le_lt_dec (count s) i) as [L|L].
  - destruct (proj2 H i L) as (_ & _ & _ & _ & _ & F & _). congruence.
  - destruct (proj1 H i L) as (X & (T1 & T2 & T3 & T4 & T5 & T6) & _).
    assert (K : s_kind (sources s i) = Later) by congruence.
    destruct (T3 ltac:(congruence)) as [T3a T3b]. destruct (T5 K) as [(G & A & Hd & Cn)|(G & Rt)].
    + right. destruct X as [X|X]; [|destruct X as (X & _); congruence].
      destruct X as (_ & X1 & X2 & X3 & X4 & X5 & X6 & X7 & X8). destruct (X5 A) as [D Hs]. rewrite Hs in X4. cbn in X4.
      destruct (s_running (sources s i)) eqn:Rn; cbn in *.
      * left. split; [rewrite T1, X4; reflexivity|]. split; [lia|].
        destruct (step_ok s (MReturn i false) H) as [Q|[(s1 & Q & _)|(j & Q & _)]]; [|eauto|discriminate].
        exfalso. exact (finished_enabled s i false Rn Q).
      * right. split; [rewrite T1, X4; reflexivity|]. split; [auto|].
        cbn [step]. unfold dispatch. cbv zeta. rewrite A, D, Rn, G, X4. cbn. eauto.
    + left. destruct X as [X|X]; [destruct X as (X & _); congruence|].
      destruct X as (_ & _ & _ & Rn & _ & D). rewrite T1, D. rewrite Rn in T2. cbn in *. lia.
Qed.
Print Assumptions C59_later.
Example C59_later_case : exists s, run init (firstn 15 busy_day) = Ok s /\ created (trace s) 2 = Some (0%nat, Later) /\
  s_running (sources s 2%nat) = true.
Proof. eexists. split; [vm_compute; reflexivity|]. split; vm_compute; reflexivity. Qed.

(* An integration is called only while it's in use, or for an object which it has created and which still
   exists *)
Theorem C59_replaced_partial : forall l s m s1 e v n, run init l = Ok s -> step s m = Ok s1 -> trace s1 = e ++ trace s ->
  In v e -> calls v n = true ->
  n = current s \/ (exists i, (i < count s)%nat /\ s_owner (sources s i) = n /\ s_gone (sources s i) = false).
Proof.
  intros l s m s1 e v n R E T V C. destruct (who_is_called s m s1 e v n (reach l s R) E T V C) as [A|(i & _ & A)]; eauto.
Qed.
Print Assumptions C59_replaced_partial.
(* In the latter case it may be called after it was told to clean up *)
Theorem C59_replaced_refuted : forall l s i n, run init l = Ok s -> usable s i = true ->
  s_owner (sources s i) = current s -> n <> current s ->
  exists s1 tr, run s [MSet n; MRef i] = Ok s1 /\ trace s1 = EvCall (current s) i :: EvCleanup (current s) :: tr.
Proof.
  intros l s i n R U O N. pose proof (reach l s R) as H. destruct (usable_count s i H U) as (L & K & P).
  pose proof (alive_of i _ _ (proj1 H i L) (or_introl P)) as G.
  cbn -[upd]. unfold eventloop_set. rewrite (eqb_other n (current s)) by auto.
  unfold usable in *. cbn -[upd]. rewrite U. unfold callback_ref, src_ref. cbn -[upd]. rewrite upd_same. cbn -[upd]. rewrite G.
  rewrite O. do 2 eexists. split; reflexivity.
Qed.
Print Assumptions C59_replaced_refuted.
Example C59_replaced_case : exists s, run init [MScheduleNew] = Ok s /\ usable s 0 = true /\
  s_owner (sources s 0%nat) = current s.
Proof. eexists. split; [vm_compute; reflexivity|]. split; vm_compute; reflexivity. Qed.
