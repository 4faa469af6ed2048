From Verif Require Import Base AsyncModel AsyncSpec AsyncProofs AsyncLife AsyncEnds AsyncTurn CallModel CallSpec CallProofs CallSteps CallRun CallLife CallArgs.
Local Notation bind := CallModel.bind.

Lemma reached_balance next l s t : reached next l s -> refs s t = app_has s t + calls_have s t + to_release s t /\ 0 <= app_has s t /\ 0 <= calls_have s t /\ 0 <= to_release s t.
Proof.
  intros R. pose proof (u_own _ _ (reached_full _ _ _ R)) as O. rewrite (o_count _ _ _ O), occurs_nil. unfold calls_have. split; [lia|].
  split; [apply (o_app _ _ _ O)|]. split; [apply calls_nonneg|apply to_release_nonneg].
Qed.

Lemma over_none s k : full s -> over s k -> datas s k = None.
Proof.
  intros F H. destruct (Nat.lt_ge_cases k (count (ca s))) as [L|G]; [|exact (o_data _ _ _ (u_own _ _ F) _ G)].
  pose proof (u_data _ _ F k L) as X. unfold over in H. rewrite H in X. exact X.
Qed.
Lemma all_over s t : full s -> (forall k, over s k) -> refs s t = app_has s t + to_release s t.
Proof.
  intros F H. rewrite (o_count _ _ _ (u_own _ _ F)), occurs_nil. rewrite sum_zero; [lia|]. intros k _. now rewrite (over_none _ _ F (H k)).
Qed.
Lemma nothing_to_release s t : full s -> (forall h, auto_cb s h = None) -> to_release s t = 0.
Proof.
  intros F H. apply sum_zero. intros h _. destruct (auto s h) as [|x r] eqn:E; [reflexivity|].
  exfalso. apply (o_some _ _ _ (u_own _ _ F) h); [congruence|apply H].
Qed.
Lemma string_release s t : full s -> stringy (kinds s t) -> to_release s t = 0.
Proof.
  intros F H. apply sum_zero. intros h _. pose proof (occurs_nonneg (auto s h) t). destruct (Z.eq_dec (occurs (auto s h) t) 0) as [|N]; [assumption|].
  exfalso. assert (In t (auto s h)) as I by (apply occurs_in; lia). rewrite (o_auto _ _ _ (u_own _ _ F) _ _ I) in H. destruct H; discriminate.
Qed.

(* A call until the end *)
Lemma call_stays s k d : full s -> has_args d s k -> ~ over s k -> there s (d_holder d) /\
  (d_kind d <> KTx \/ t_phase (txs (ca s) k) <> InDestroy -> there_opt s (d_name d) /\ there_opt s (d_obj d)).
Proof.
  intros F [Hk H] No. unfold over in No. pose proof (u_own _ _ F) as O.
  assert (exists d1, datas s k = Some d1 /\ d_kind d1 = d_kind d /\ d_holder d1 = d_holder d /\
    (d_kind d <> KTx \/ t_phase (txs (ca s) k) <> InDestroy -> d_name d1 = d_name d /\ d_obj d1 = d_obj d)) as (d1 & E1 & E2 & E3 & E4).
  { destruct (t_phase (txs (ca s) k)); try congruence; destruct H as (d1 & X1 & X2 & X3 & X4); exists d1; repeat (split; [assumption|]); auto.
    intros [Y|Y]; [auto|congruence]. }
  pose proof (call_all_there _ _ _ _ _ O E1) as (T1 & T2 & T3 & _). rewrite E3 in T1. split; [exact T1|].
  intros X. destruct (E4 X) as [E5 E6]. rewrite E5 in T2. rewrite E6 in T3. auto.
Qed.

(* Lists *)
Lemma one_owner s k d t : full s -> datas s k = Some d -> d_kind d = KList -> d_result d = Some t ->
  kinds s t = StrV /\ refs s t = 1 /\ app_has s t = 0.
Proof.
  intros F Hd Kd Rt. pose proof (u_own _ _ F) as O. destruct (o_kinds _ _ _ O _ _ Hd) as (_ & _ & _ & _ & K5). specialize (K5 Kd). rewrite Rt in K5.
  split; [exact K5|].
  assert (Hk : (k < count (ca s))%nat) by (destruct (Nat.lt_ge_cases k (count (ca s))) as [?|G]; [assumption|rewrite (o_data _ _ _ O _ G) in Hd; discriminate]).
  pose proof (o_str _ _ _ O t ltac:(right; exact K5)) as Le. pose proof (o_count _ _ _ O t) as C. rewrite occurs_nil in C. pose proof (o_app _ _ _ O t). pose proof (to_release_nonneg s t).
  pose proof (sum_ge (fun k => call_has (datas s k) t) (count (ca s)) k (fun k => call_has_nonneg _ _) Hk) as G. cbn beta in G. rewrite Hd in G. cbn [call_has] in G.
  rewrite Rt, one_same in G. pose proof (one_nonneg (Some (d_holder d)) t). pose proof (one_nonneg (d_name d) t). pose proof (one_nonneg (d_obj d) t). lia.
Qed.
Lemma after_destroy_not_tx s k d s1 : datas s k = Some d -> d_kind d <> KTx -> after_destroy s k = Ok s1 -> s1 = s.
Proof.
  intros Hd N. unfold after_destroy. rewrite Hd. unfold free_begin. destruct (destroying s k); [|intros E; injection E as <-; reflexivity].
  destruct (d_kind d); try congruence; intros E; injection E as <-; reflexivity.
Qed.
Lemma astep_rest s m s1 : astep s m = Ok s1 -> refs s1 = refs s /\ app_has s1 = app_has s /\ datas s1 = datas s.
Proof. unfold astep. destruct (step _ _); [|discriminate]. intros E. injection E as <-. auto. Qed.
Lemma list_returned s k st r d t v s1 : full s -> stack (ca s) = k :: st -> t_phase (txs (ca s) k) = InReply r -> datas s k = Some d -> d_kind d = KList -> d_result d = Some t ->
  cstep s (CReturn v) = Ok s1 -> refs s1 t = (if v then 1 else 0) /\ app_has s1 t = (if v then 1 else 0).
Proof.
  intros F St Ph Hd Kd Rt E. destruct (one_owner _ _ _ _ F Hd Kd Rt) as (_ & R1 & A0). cbn [cstep] in E. rewrite St, Ph, Hd in E.
  apply bind_inv in E. destruct E as (s2 & E1 & E). apply bind_inv in E. destruct E as (s3 & E2 & E). unfold done_end in E1. rewrite Kd, Rt in E1.
  apply bind_inv in E1. destruct E1 as (s4 & E1 & E4). injection E4 as <-. destruct (astep_rest _ _ _ E2) as (Y1 & Y2 & Y3). cbn [with_data refs app_has datas] in Y1, Y2, Y3.
  assert (s1 = s3) as ->.
  { apply (after_destroy_not_tx s3 k (set_result d None)); [rewrite Y3; apply upd_same|cbn [set_result d_kind]; rewrite Kd; discriminate|exact E]. }
  rewrite Y1, Y2. destruct v.
  - injection E1 as <-. cbn [with_app refs app_has]. rewrite upd_same. lia.
  - cbn [drop_opt] in E1. unfold drop in E1. destruct (_ <? _); [|discriminate]. injection E1 as <-. cbn [with_refs refs app_has]. rewrite upd_same. lia.
Qed.
Lemma list_destroyed s k st d t v s1 : full s -> stack (ca s) = k :: st -> t_phase (txs (ca s) k) = InDestroy -> datas s k = Some d -> d_kind d = KList -> d_result d = Some t ->
  cstep s (CReturn v) = Ok s1 -> refs s1 t = 0.
Proof.
  intros F St Ph Hd Kd Rt E. destruct (one_owner _ _ _ _ F Hd Kd Rt) as (_ & R1 & A0). cbn [cstep] in E. rewrite St, Ph, Hd in E.
  apply bind_inv in E. destruct E as (s2 & E1 & E). unfold free_end in E1. rewrite Kd, Rt in E1.
  apply bind_inv in E1. destruct E1 as (s3 & E1 & E4). injection E4 as <-. destruct (astep_rest _ _ _ E) as (Y1 & _). rewrite Y1. cbn [with_data refs].
  apply bind_inv in E1. destruct E1 as (s4 & E1 & E2). pose proof (own_cb_ok _ _ _ (u_own _ _ F)) as OK.
  pose proof (known (u_own _ _ F) t ltac:(lia)) as Kt. cbn [drop_opt] in E1.
  destruct (evolve_drop _ _ _ E1) as (_ & (_ & _ & C & _ & T) & B & _).
  unfold drop in E1. destruct (_ <? _) in E1; [|discriminate]. injection E1 as <-.
  assert (evolve (with_refs s t (refs s t - 1)) s3) as Ev by (refine (evolve_unref _ _ _ _ E2); exact OK).
  apply (e_dead _ _ Ev); [exact Kt|]. cbn [with_refs refs]. rewrite upd_same. lia.
Qed.

(* Results of other calls are there in the callback *)
Lemma lent_there s k r : full s -> t_phase (txs (ca s) k) = InReply r -> exists d, datas s k = Some d /\ there s (d_holder d) /\ there_opt s (d_result d).
Proof.
  intros F Ph. assert (Hk : (k < count (ca s))%nat) by (apply in_call; [exact F|rewrite Ph; discriminate]).
  pose proof (u_data _ _ F k Hk) as X. rewrite Ph in X. destruct X as (d & Hd & _). exists d. split; [exact Hd|].
  destruct (call_all_there _ _ _ _ _ (u_own _ _ F) Hd) as (T1 & _ & _ & T4). auto.
Qed.

(* The transactions are those of AsyncModel *)
Lemma run_snoc l : forall a m a1 a2, run a l = Some a1 -> step a1 m = Some a2 -> run a (l ++ [m]) = Some a2.
Proof.
  induction l as [|x l IH]; intros a m a1 a2 E1 E2; cbn [run app] in *; [injection E1 as <-; rewrite E2; reflexivity|].
  destruct (step a x); [|discriminate]. exact (IH _ _ _ _ E1 E2).
Qed.
Lemma crun_async next l : forall s la s1, full s -> run (initial next) la = Some (ca s) -> crun s l = Ok s1 -> exists lb, run (initial next) lb = Some (ca s1).
Proof.
  induction l as [|m l IH]; intros s la s1 F R E; cbn [crun] in E; [injection E as <-; eauto|].
  apply bind_inv in E. destruct E as (s2 & E1 & E2). pose proof (cstep_full s m F) as F2. rewrite E1 in F2.
  destruct (cstep_ca _ _ _ F E1) as [Ec|(m1 & X)].
  - rewrite <- Ec in R. exact (IH _ _ _ F2 R E2).
  - exact (IH _ _ _ F2 (run_snoc _ _ _ _ _ R X) E2).
Qed.
Lemma reached_async next l s : reached next l s -> exists la, run (initial next) la = Some (ca s).
Proof. intros R. exact (crun_async next l (cinit next) [] s (full_init next) eq_refl R). Qed.

(* A call can always be made, by whoever may use the manager or the client *)
Definition may_call (s : cstate) (m : cmove) : Prop :=
  match m with
  | List h | Get h => usable s h = true /\ kinds s h = Manager
  | Add h o => usable s h = true /\ kinds s h = Manager /\ match o with Some t => usable s t = true /\ kinds s t = Object | None => True end
  | Tx h o => usable s h = true /\ kinds s h = Client /\ match o with Some t => usable s t = true /\ kinds s t = Object | None => True end
  | _ => False
  end.
Lemma may_call_ok next l s m free : reached next l s -> may_call s m -> 0 < ipc_refs (ca s) -> 0 < free < 2 ^ 32 -> (forall k, ~ refers (atrace (ca s)) free k) ->
  exists s1, cstep s m = Ok s1.
Proof.
  intros R M Ip Fr Un. pose proof (reached_full _ _ _ R) as F. pose proof (u_own _ _ F) as O. destruct (reached_async _ _ _ R) as (la & Ra).
  pose proof (good_run _ _ _ (good_initial next) Ra) as G.
  assert (ST : forall s2 d, ca s2 = ca s -> exists s1, start s2 d = Ok s1).
  { intros s2 d Ec. unfold start. rewrite Ec. pose proof (transact_returns (ca s) {| has_reply := true; has_destroy := true |} free G Ip Fr Un) as X.
    destruct (step (ca s) _); [eauto|congruence]. }
  assert (RF : forall s2 t, ca s2 = ca s -> 0 < refs s2 t -> exists s3, ref s2 t = Ok s3 /\ ca s3 = ca s /\ forall u, 0 < refs s2 u -> 0 < refs s3 u).
  { intros s2 t Ec H. unfold ref. rewrite (proj2 (Z.ltb_lt _ _) H). eexists. split; [reflexivity|]. split; [exact Ec|]. intros u Hu. cbn [with_refs refs]. unfold upd. destruct (Nat.eqb u t); lia. }
  assert (RO : forall s2 o, ca s2 = ca s -> match o with Some t => 0 < refs s2 t | None => True end -> exists s3, ref_opt s2 o = Ok s3 /\ ca s3 = ca s).
  { intros s2 [t|] Ec H; cbn [ref_opt]; [destruct (RF s2 t Ec H) as (s3 & X & Y & _); eauto|eauto]. }
  assert (KE : forall k, tkind_eqb k k = true) by (intros []; reflexivity).
  destruct m; cbn [may_call] in M; try contradiction; cbn [cstep].
  - destruct M as [U K]. rewrite U, K, KE. cbn [andb]. unfold call_list. destruct (RF s h eq_refl (usable_there _ _ F U)) as (s2 & -> & Ec & _). cbn [bind]. apply ST. exact Ec.
  - destruct M as [U K]. rewrite U, K, KE. cbn [andb]. unfold call_get. destruct (RF s h eq_refl (usable_there _ _ F U)) as (s2 & -> & Ec & _). cbn [bind].
    destruct (make s2 Str) as [t s3] eqn:Mk. apply ST. rewrite (proj2 (sd_make _ _ _ _ Mk)). exact Ec.
  - destruct M as (U & K & Ko). rewrite U, K, KE. cbn [andb].
    replace (match o with Some t => usable s t && tkind_eqb (kinds s t) Object | None => true end) with true by (destruct o as [t|]; [destruct Ko as [-> ->]; reflexivity|reflexivity]).
    unfold call_add. destruct (RF s h eq_refl (usable_there _ _ F U)) as (s2 & -> & Ec & Keep). cbn [bind].
    destruct (RO s2 o Ec) as (s3 & -> & Ec3); [destruct o as [t|]; [apply Keep, (usable_there _ _ F), Ko|exact Logic.I]|]. cbn [bind].
    destruct (make s3 Str) as [t s4] eqn:Mk. apply ST. rewrite (proj2 (sd_make _ _ _ _ Mk)). exact Ec3.
  - destruct M as (U & K & Ko). rewrite U, K, KE. cbn [andb].
    replace (match req with Some t => usable s t && tkind_eqb (kinds s t) Object | None => true end) with true by (destruct req as [t|]; [destruct Ko as [-> ->]; reflexivity|reflexivity]).
    unfold call_tx. destruct (RF s h eq_refl (usable_there _ _ F U)) as (s2 & -> & Ec & Keep). cbn [bind].
    destruct (RO s2 req Ec) as (s3 & -> & Ec3); [destruct req as [t|]; [apply Keep, (usable_there _ _ F), Ko|exact Logic.I]|]. cbn [bind].
    apply ST. exact Ec3.
Qed.

(* Objects which are released later *)
Lemma sync_stays next l1 s h r s1 t l2 s2 : reached next l1 s -> cstep s (SyncGet h r) = Ok s1 -> get_service_sync s h r = Ok (s1, Some t) ->
  crun s1 l2 = Ok s2 -> forallb (fun m => negb (is_idle m)) l2 = true -> there s2 h -> there s2 t.
Proof.
  intros R E Es E2 NI Th. pose proof (reached_full _ _ _ R) as F. pose proof (cstep_full s (SyncGet h r) F) as F1. rewrite E in F1.
  cbn [cstep] in E. destruct (usable s h) eqn:U; [|discriminate]. destruct (tkind_eqb (kinds s h) Manager) eqn:K; [|discriminate]. apply kind_eqb in K.
  pose proof (sync_own s _ h r (u_own _ _ F) (usable_there _ _ F U) K) as X. rewrite Es in X. destruct X as (O1 & _ & _ & _ & I & _).
  pose proof (run_evolve _ _ _ F1 NI E2) as Ev. pose proof (crun_full l2 s1 F1) as F2. rewrite E2 in F2.
  assert (Hh : (h < next_thing s1)%nat) by (apply (known O1); apply (o_mgr _ _ _ O1); right; intros N; rewrite N in I; exact I).
  destruct (e_auto _ _ Ev h Hh) as [[lx Ex]|Z0]; [|unfold there in Th; lia].
  apply (auto_there (u_own _ _ F2) h). rewrite Ex. apply in_or_app. right. exact I.
Qed.
Lemma scheduled s h : full s -> auto s h <> [] -> exists c s1, cb_for (cbs s c) = Some h /\ cstep s (Idle c) = Ok s1 /\ auto s1 h = [] /\
  forall t, refs s1 t = refs s t - occurs (auto s h) t.
Proof.
  intros F N. pose proof (u_own _ _ F) as O. destruct (auto_cb s h) as [c|] eqn:E; [|exfalso; exact (o_some _ _ _ O h N E)].
  apply (o_cb _ _ _ O) in E. destruct (idle_own s _ c h O E) as (s1 & E1 & _ & _ & A & _ & _ & R). exists c, s1.
  split; [exact E|]. split; [cbn [cstep]; rewrite E; exact E1|]. split; [rewrite A; apply upd_same|exact R].
Qed.
