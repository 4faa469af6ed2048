From Verif Require Import Base AsyncModel AsyncSpec AsyncProofs CallModel CallSpec CallProofs CallSteps.
Local Notation bind := CallModel.bind.

Lemma full_own s s1 : full s -> ca s1 = ca s -> datas s1 = datas s -> own s1 (count (ca s)) [] -> full s1.
Proof. intros [O L Sp D] E1 E2 O1. constructor; rewrite ?E1, ?E2; auto. Qed.

Lemma to_release_add s s1 h l t : (h < next_thing s)%nat -> next_thing s1 = next_thing s -> auto s1 = upd (auto s) h l ->
  to_release s1 t = to_release s t - occurs (auto s h) t + occurs l t.
Proof.
  intros Hh N A. unfold to_release. rewrite N.
  rewrite (sum_change (fun h => occurs (auto s h) t) (fun h => occurs (auto s1 h) t) _ h Hh).
  - rewrite A, upd_same. lia.
  - intros j Hj. now rewrite A, upd_other by exact Hj.
Qed.

(* An object to be released later *)
Lemma sync_own s n h r : own s n [] -> 0 < refs s h -> kinds s h = Manager ->
  match get_service_sync s h r with
  | Ok (s1, o) => own s1 n [] /\ ca s1 = ca s /\ datas s1 = datas s /\ app_has s1 = app_has s /\
      match o with Some t => In t (auto s1 h) /\ auto_cb s1 h <> None | None => True end
  | Crash => False
  | Never => True
  end.
Proof.
  intros O Rh Kh. unfold get_service_sync. pose proof (get_object_own s n [] r O) as X.
  destruct (get_object s r) as [[s1 [t|]]| |]; cbn [bind]; auto; destruct X as (O1 & Ec & Ed & Ea & Ko & Ku & Y1 & Y2 & Y3 & Y4).
  2:{ auto. }
  destruct Ko as [Ko Rt]. destruct (Ku h Rh) as [Kh1 Rh1]. rewrite Kh in Kh1.
  pose proof (known O1 h ltac:(lia)) as Hh.
  assert (CNT : forall s2, next_thing s2 = next_thing s1 -> auto s2 = upd (auto s1) h (t :: auto s1 h) -> refs s2 = refs s1 -> app_has s2 = app_has s1 -> datas s2 = datas s1 ->
     forall u, refs s2 u = app_has s2 u + sum (fun k => call_has (datas s2 k) u) n + to_release s2 u + occurs [] u).
  { intros s2 N A R P Dt u. rewrite (to_release_add s1 s2 h _ u Hh N A), R, P, Dt, (o_count _ _ _ O1), occurs_cons, (occurs_cons t), occurs_nil. lia. }
  destruct (auto_cb s1 h) as [c|] eqn:Ecb.
  - split; [|cbn [with_auto ca datas app_has auto auto_cb]; rewrite !upd_same; repeat (split; [assumption|]); split; [left; reflexivity|discriminate]].
    constructor.
    + apply CNT; reflexivity.
    + apply (o_app _ _ _ O1).
    + apply (o_next _ _ _ O1).
    + apply (o_data _ _ _ O1).
    + apply (o_kinds _ _ _ O1).
    + intros h1 u. cbn [with_auto auto kinds]. unfold upd. destruct (Nat.eqb_spec h1 h) as [->|N]; [intros [<-|HI]; [exact Ko|exact (o_auto _ _ _ O1 _ _ HI)]|apply (o_auto _ _ _ O1)].
    + intros h1. cbn [with_auto auto auto_cb kinds refs]. unfold upd. destruct (Nat.eqb_spec h1 h) as [->|N]; [intros _; split; [lia|exact Kh1]|apply (o_mgr _ _ _ O1)].
    + intros h1 c1. cbn [with_auto auto_cb cbs]. unfold upd. destruct (Nat.eqb_spec h1 h) as [->|N]; [rewrite <- Ecb|]; apply (o_cb _ _ _ O1).
    + intros h1. cbn [with_auto auto auto_cb]. unfold upd. destruct (Nat.eqb_spec h1 h) as [->|N]; [discriminate|apply (o_some _ _ _ O1)].
    + apply (o_refs _ _ _ O1).
    + apply (o_nocb _ _ _ O1).
    + apply (o_str _ _ _ O1).
  - split; [|cbn [ca datas app_has auto auto_cb]; rewrite !upd_same; repeat (split; [assumption|]); split; [left; reflexivity|discriminate]].
    set (c := next_cb s1).
    assert (FR : forall h1, cb_for (cbs s1 c) <> Some h1) by (intros h1; rewrite (o_nocb _ _ _ O1 c) by (unfold c; lia); discriminate).
    constructor; cbn [refs kinds next_thing datas auto auto_cb cbs next_cb app_has].
    + match goal with |- context [to_release ?x] => exact (CNT x eq_refl eq_refl eq_refl eq_refl eq_refl) end.
    + apply (o_app _ _ _ O1).
    + apply (o_next _ _ _ O1).
    + apply (o_data _ _ _ O1).
    + apply (o_kinds _ _ _ O1).
    + intros h1 u. unfold upd. destruct (Nat.eqb_spec h1 h) as [->|N]; [intros [<-|HI]; [exact Ko|exact (o_auto _ _ _ O1 _ _ HI)]|apply (o_auto _ _ _ O1)].
    + intros h1. unfold upd. destruct (Nat.eqb_spec h1 h) as [->|N]; [intros _; split; [lia|exact Kh1]|apply (o_mgr _ _ _ O1)].
    + intros h1 c1. unfold upd. destruct (Nat.eqb_spec h1 h) as [->|N], (Nat.eqb_spec c1 c) as [->|N1]; cbn [cb_for].
      * split; reflexivity.
      * split; [intros X; injection X as <-; congruence|]. intros X. apply (o_cb _ _ _ O1) in X. congruence.
      * split; [|congruence]. intros X. apply (o_cb _ _ _ O1) in X. exfalso. exact (FR _ X).
      * apply (o_cb _ _ _ O1).
    + intros h1. unfold upd. destruct (Nat.eqb_spec h1 h) as [->|N]; [discriminate|apply (o_some _ _ _ O1)].
    + intros c1 h1. unfold upd. destruct (Nat.eqb_spec c1 c) as [->|N1]; cbn [cb_for cb_refs].
      * intros _. split; [reflexivity|]. unfold c. lia.
      * intros X. destruct (o_refs _ _ _ O1 _ _ X). split; [auto|]. unfold c. lia.
    + intros c1 Hc. rewrite upd_other by (unfold c in *; lia). apply (o_nocb _ _ _ O1). unfold c in *; lia.
    + apply (o_str _ _ _ O1).
Qed.

(* The callback is invoked *)
Lemma idle_own s n c h : own s n [] -> cb_for (cbs s c) = Some h ->
  exists s1, autorelease_cb (with_cb s c {| cb_refs := cb_refs (cbs s c); cb_for := None |}) h = Ok s1 /\ own s1 n [] /\ frame s s1 /\
    auto s1 = upd (auto s) h [] /\ auto_cb s1 = upd (auto_cb s) h None /\ cbs s1 = upd (cbs s) c {| cb_refs := cb_refs (cbs s c); cb_for := None |} /\
    (forall t, refs s1 t = refs s t - occurs (auto s h) t).
Proof.
  intros O E. assert (Ecb : auto_cb s h = Some c) by (apply (o_cb _ _ _ O); exact E).
  destruct (o_mgr _ _ _ O h) as [Rh Kh]; [left; congruence|]. unfold autorelease_cb. cbn [with_cb refs auto].
  pose proof (proj2 (Z.ltb_lt _ _) Rh) as B. rewrite B.
  set (i := {| cb_refs := cb_refs (cbs s c); cb_for := None |}).
  destruct (drop_list_ok (auto s h) (with_auto (with_cb s c i) h [] None)) as (s1 & E1 & F1 & R1 & A1 & B1 & C1).
  { intros t. cbn [with_auto with_cb refs]. pose proof (auto_ge O h t). rewrite (o_count _ _ _ O). pose proof (o_app _ _ _ O t). pose proof (calls_nonneg s n t).
    pose proof (occurs_nonneg [] t). lia. }
  exists s1. split; [exact E1|]. cbn [with_auto with_cb refs auto auto_cb cbs] in *.
  assert (F : frame s s1) by (destruct F1; constructor; assumption).
  split; [|repeat split; try assumption; apply F]. destruct F.
  apply (release_own s s1 n [] h [] O); auto.
  - exact (known O h Rh).
  - intros c1. rewrite C1. unfold upd. destruct (Nat.eqb_spec c1 c) as [->|N]; [rewrite E, Nat.eqb_refl; reflexivity|].
    destruct (cb_for (cbs s c1)) as [h1|] eqn:E2; [|reflexivity]. destruct (Nat.eqb_spec h1 h) as [->|N1]; [|reflexivity].
    apply (o_cb _ _ _ O) in E2. congruence.
  - intros c1 h1. rewrite C1. unfold upd. destruct (Nat.eqb_spec c1 c) as [->|N]; [discriminate|reflexivity].
  - intros c1 Hc. rewrite C1. apply upd_other. destruct (o_refs _ _ _ O _ _ E). lia.
  - intros t. rewrite R1, occurs_nil. lia.
  - lia.
Qed.

Lemma phase_not_freed p o : p <> Freed -> phase_ok p o -> exists d, o = Some d /\ shape d.
Proof. intros N H. destruct p; cbn [phase_ok] in H; try congruence; destruct H as (d & E & Sh & _); exists d; auto. Qed.

Lemma astep_ok s m a : step (ca s) m = Some a -> astep s m = Ok (with_ca s a).
Proof. intros E. unfold astep. now rewrite E. Qed.

Lemma in_call s k : full s -> t_phase (txs (ca s) k) <> Freed -> (k < count (ca s))%nat.
Proof. intros F H. destruct (Nat.lt_ge_cases k (count (ca s))) as [?|G]; [assumption|]. now rewrite (lo_none _ (u_lists _ _ F) _ G) in H. Qed.

Lemma others k j q o : j <> k -> phase_ok q o -> destroyed k j q o.
Proof. intros N H. unfold destroyed. apply Nat.eqb_neq in N. now rewrite N. Qed.

(* A call starts to be destroyed *)
Lemma destroy_full s s1 a k es : full s -> change (ca s) a k InDestroy es -> own s1 (count (ca s)) [] ->
  (forall j, j <> k -> datas s1 j = datas s j) -> (exists d, datas s1 k = Some d /\ shape d) ->
  exists s2, after_destroy (with_ca s1 a) k = Ok s2 /\ full s2 /\ same_things s1 s2 /\ app_has s2 = app_has s1 /\ ca s2 = a /\
   ((forall d, datas s1 k = Some d -> d_kind d <> KTx) -> s2 = with_ca s1 a).
Proof.
  intros F C O1 Dj Dk. pose proof (ch_lt _ _ _ _ _ C) as Hk. pose proof (ch_count _ _ _ _ _ C) as N.
  destruct (after_destroy_full (with_ca s1 a) k) as (s2 & E & F2 & ST & AH & Eca & Sm); [cbn [with_ca ca]; lia| |exists s2; auto 9].
  apply (full_change (destroyed k) s s1 a k InDestroy es F C O1 Dj (others k)).
  unfold destroyed. rewrite Nat.eqb_refl. auto.
Qed.

Lemma both_spec s k : full s -> (k < count (ca s))%nat -> has_reply (t_spec (txs (ca s) k)) = true /\ has_destroy (t_spec (txs (ca s) k)) = true.
Proof. intros F Hk. rewrite (u_spec _ _ F k Hk). auto. Qed.

Lemma cstep_full s m : full s -> match cstep s m with Ok s1 => full s1 | Crash => False | Never => True end.
Proof.
  intros F. pose proof (u_own _ _ F) as O. pose proof (u_lists _ _ F) as L. set (n := count (ca s)) in *.
  destruct m; cbn [cstep].
  - (* AppNew *)
    destruct (make s k) as [t s1] eqn:E. destruct (make_own _ _ _ _ _ _ O E) as (O1 & _ & K & A & D & P & R0 & R1 & X & Y).
    apply (full_own s); [exact F|exact A|exact D|].
    assert (app_has s1 t = 0) as Z0 by (rewrite P; apply (nothing O t R0)).
    replace 1 with (app_has s1 t + 1) by lia. apply (app_own s1 _ [t]); [exact O1| |lia]. intros u. rewrite occurs_cons, occurs_nil. lia.
  - (* AppRef *)
    destruct (usable s t) eqn:U; [|exact Logic.I]. destruct (tkind_eqb (kinds s t) StrV) eqn:K1; [exact Logic.I|]. destruct (tkind_eqb (kinds s t) Str) eqn:K2; [exact Logic.I|].
    cbn [andb negb]. destruct (ref_own s n [] t O (usable_there _ _ F U)) as (s1 & -> & -> & O1).
    { intros [Ks|Ks]; rewrite Ks in *; discriminate. }
    cbn [bind]. apply (full_own s); [exact F|reflexivity|reflexivity|].
    apply (app_own _ _ [t]); [exact O1|intros u; rewrite occurs_cons, occurs_nil; lia|]. cbn [with_refs app_has]. pose proof (o_app _ _ _ O t). lia.
  - (* AppUnref *)
    destruct (0 <? app_has s t) eqn:U; [|exact Logic.I]. apply Z.ltb_lt in U.
    assert (O1 : own (with_app s t (app_has s t - 1)) n [t]).
    { replace (app_has s t - 1) with (app_has s t + -1) by lia. apply (app_own _ _ []); [exact O|intros u; rewrite occurs_cons, occurs_nil; lia|lia]. }
    destruct (unref_own _ _ _ _ O1) as (s1 & -> & Fr & O2). destruct Fr. apply (full_own s); auto.
  - (* List *)
    destruct (usable s h) eqn:U; [|exact Logic.I]. destruct (tkind_eqb (kinds s h) Manager) eqn:K; [|exact Logic.I]. cbn [andb]. apply kind_eqb in K.
    unfold call_list. destruct (ref_own s n [] h O (usable_there _ _ F U)) as (s1 & -> & -> & O1); [rewrite K; intros [?|?]; discriminate|].
    cbn [bind]. apply (start_full _ s); auto; try reflexivity; cbn [d_holder d_name d_obj d_result]; try exact O1.
    { unfold shape. cbn. auto. }
    split; [left; exact K|]. cbn. repeat (split; [auto|]). auto.
  - (* Get *)
    destruct (usable s h) eqn:U; [|exact Logic.I]. destruct (tkind_eqb (kinds s h) Manager) eqn:K; [|exact Logic.I]. cbn [andb]. apply kind_eqb in K.
    unfold call_get. pose proof (usable_there _ _ F U) as Rh. destruct (ref_own s n [] h O Rh) as (s1 & -> & Es & O1); [rewrite K; intros [?|?]; discriminate|].
    cbn [bind]. destruct (make s1 Str) as [t s2] eqn:E. destruct (make_own _ _ _ _ _ _ O1 E) as (O2 & _ & K2 & A & D & P & R0 & R1 & X & Y).
    assert (Nt : h <> t) by (intros ->; rewrite Es in R0; cbn [with_refs refs] in R0; rewrite upd_same in R0; lia).
    destruct (X h Nt) as [Kh _].
    apply (start_full _ s); auto; try reflexivity; cbn [d_holder d_name d_obj d_result].
    + now rewrite A, Es.
    + now rewrite D, Es.
    + rewrite A, Es. cbn [with_refs ca]. cbn [app]. apply (own_perm _ _ [t; h]); [intros u; rewrite !occurs_cons; lia|exact O2].
    + unfold data_kinds, not_manager. cbn [d_holder d_name d_obj d_result]. rewrite Kh, K2, Es. cbn [with_refs kinds]. split; [auto|]. split; [discriminate|]. split; [auto|]. split; [auto|discriminate].
  - (* Add *)
    destruct (usable s h) eqn:U; [|exact Logic.I]. destruct (tkind_eqb (kinds s h) Manager) eqn:K; [|exact Logic.I]. cbn [andb]. apply kind_eqb in K.
    destruct (match o with Some t => usable s t && tkind_eqb (kinds s t) Object | None => true end) eqn:Uo; [|exact Logic.I].
    unfold call_add. pose proof (usable_there _ _ F U) as Rh. destruct (ref_own s n [] h O Rh) as (s1 & -> & Es & O1); [rewrite K; intros [?|?]; discriminate|].
    cbn [bind].
    assert (exists s2, ref_opt s1 o = Ok s2 /\ own s2 n (match o with Some t => [t; h] | None => [h] end) /\ kinds s2 = kinds s /\ ca s2 = ca s /\ datas s2 = datas s /\ 0 < refs s2 h /\
       match o with Some t => 0 < refs s2 t /\ kinds s t = Object | None => True end) as (s2 & -> & O2 & Ek & Ec & Ed & Rh2 & Ko).
    { destruct o as [t|]; cbn [ref_opt].
      - apply Bool.andb_true_iff in Uo. destruct Uo as [Ut Kt]. apply kind_eqb in Kt. pose proof (usable_there _ _ F Ut) as Rt.
        assert (Rt1 : 0 < refs s1 t) by (rewrite Es; cbn [with_refs refs]; unfold upd; destruct (Nat.eqb t h); lia).
        destruct (ref_own s1 n [h] t O1 Rt1) as (s2 & -> & Es2 & O2); [rewrite Es; cbn [with_refs kinds]; rewrite Kt; intros [?|?]; discriminate|].
        exists s2. split; [reflexivity|]. split; [exact O2|]. rewrite Es2, Es. cbn [with_refs kinds ca datas refs]. rewrite upd_same. repeat (split; [reflexivity|]).
        split; [|split; [|exact Kt]]; unfold upd; destruct (Nat.eqb_spec h t), (Nat.eqb_spec t h); rewrite ?Nat.eqb_refl; try lia.
      - exists s1. split; [reflexivity|]. split; [exact O1|]. rewrite Es. cbn [with_refs kinds ca datas refs]. rewrite upd_same. repeat (split; [reflexivity|]). split; [lia|auto]. }
    cbn [bind]. destruct (make s2 Str) as [t s3] eqn:E. destruct (make_own _ _ _ _ _ _ O2 E) as (O3 & _ & K3 & A & D & P & R0 & R1 & X & Y).
    assert (Nt : h <> t) by (intros ->; lia). destruct (X h Nt) as [Kh _].
    apply (start_full _ s); auto; try reflexivity; cbn [d_holder d_name d_obj d_result].
    + now rewrite A, Ec.
    + now rewrite D, Ed.
    + rewrite A, Ec. revert O3. apply own_perm. intros u. cbn [app]. destruct o; rewrite ?occurs_cons, ?occurs_nil; lia.
    + unfold data_kinds, not_manager. cbn [d_holder d_name d_obj d_result]. rewrite Kh, K3, Ek. split; [auto|]. split; [discriminate|]. split; [|split; [exact Logic.I|discriminate]].
      destruct o as [u|]; [|exact Logic.I]. destruct Ko as [Ru Ku]. assert (Nu : u <> t) by (intros ->; lia). destruct (X u Nu) as [-> _]. rewrite Ek, Ku. discriminate.
  - (* Tx *)
    destruct (usable s h) eqn:U; [|exact Logic.I]. destruct (tkind_eqb (kinds s h) Client) eqn:K; [|exact Logic.I]. cbn [andb]. apply kind_eqb in K.
    destruct (match req with Some t => usable s t && tkind_eqb (kinds s t) Object | None => true end) eqn:Uo; [|exact Logic.I].
    unfold call_tx. pose proof (usable_there _ _ F U) as Rh. destruct (ref_own s n [] h O Rh) as (s1 & -> & Es & O1); [rewrite K; intros [?|?]; discriminate|].
    cbn [bind].
    assert (exists s2, ref_opt s1 req = Ok s2 /\ own s2 n (match req with Some t => [t; h] | None => [h] end) /\ kinds s2 = kinds s /\ ca s2 = ca s /\ datas s2 = datas s /\
       match req with Some t => kinds s t = Object | None => True end) as (s2 & -> & O2 & Ek & Ec & Ed & Ko).
    { destruct req as [t|]; cbn [ref_opt].
      - apply Bool.andb_true_iff in Uo. destruct Uo as [Ut Kt]. apply kind_eqb in Kt. pose proof (usable_there _ _ F Ut) as Rt.
        assert (Rt1 : 0 < refs s1 t) by (rewrite Es; cbn [with_refs refs]; unfold upd; destruct (Nat.eqb t h); lia).
        destruct (ref_own s1 n [h] t O1 Rt1) as (s2 & -> & Es2 & O2); [rewrite Es; cbn [with_refs kinds]; rewrite Kt; intros [?|?]; discriminate|].
        exists s2. split; [reflexivity|]. split; [exact O2|]. rewrite Es2, Es. cbn [with_refs kinds ca datas refs]. auto.
      - exists s1. split; [reflexivity|]. split; [exact O1|]. rewrite Es. cbn [with_refs kinds ca datas refs]. auto. }
    cbn [bind]. apply (start_full _ s); auto; try reflexivity; cbn [d_holder d_name d_obj d_result].
    + rewrite Ec. revert O2. apply own_perm. intros u. cbn [app]. destruct req; rewrite ?occurs_cons, ?occurs_nil; lia.
    + unfold data_kinds, not_manager. cbn [d_holder d_name d_obj d_result]. rewrite Ek. split; [auto|]. split; [exact Logic.I|]. split; [|split; [exact Logic.I|discriminate]].
      destruct req as [u|]; [|exact Logic.I]. rewrite Ko. discriminate.
  - (* SyncGet *)
    destruct (usable s h) eqn:U; [|exact Logic.I]. destruct (tkind_eqb (kinds s h) Manager) eqn:K; [|exact Logic.I]. cbn [andb]. apply kind_eqb in K.
    pose proof (sync_own s n h r O (usable_there _ _ F U) K) as X. destruct (get_service_sync s h r) as [[s1 o]| |]; cbn [bind]; auto.
    destruct X as (O1 & Ec & Ed & _). apply (full_own s); auto.
  - (* Idle *)
    destruct (cb_for (cbs s c)) as [h|] eqn:E; [|exact Logic.I]. destruct (idle_own s n c h O E) as (s1 & -> & O1 & Fr & _). destruct Fr. apply (full_own s); auto.
  - (* Cancel *)
    unfold astep. destruct (step (ca s) (Cancel id)) as [a|] eqn:E; [|exact Logic.I]. pose proof (lists_step _ _ _ L E) as L1.
    cbn [step] in E. destruct (0 <? ipc_refs (ca s)); [|discriminate]. unfold ipc_cancel in E.
    apply full_same; auto.
    + destruct (id =? 0); [injection E as <-; reflexivity|]. destruct (table_lookup _ _); injection E as <-; reflexivity.
    + intros k. destruct (id =? 0); [injection E as <-; auto|]. destruct (table_lookup _ _) as [j|]; injection E as <-; auto.
      cbn [set_tx add_event txs]. unfold upd. destruct (Nat.eqb_spec k j) as [->|]; auto.
  - (* Tick *)
    unfold astep. destruct (step (ca s) Tick) as [a|] eqn:E; [|exact Logic.I]. pose proof (lists_step _ _ _ L E) as L1.
    cbn [step] in E. injection E as <-. apply full_same; auto.
  - (* Dispatch *)
    unfold astep. destruct (step (ca s) (Dispatch k)) as [a|] eqn:E; [|exact Logic.I]. cbn [bind].
    pose proof (step_moved _ _ _ L E) as (res & Ph & M). assert (Hk : (k < n)%nat) by (apply (in_call s); [exact F|rewrite Ph; discriminate]).
    destruct (both_spec s k F Hk) as [B1 B2]. rewrite B1, B2, Bool.andb_true_r in M. pose proof (u_data _ _ F k Hk) as Dk. rewrite Ph in Dk.
    destruct Dk as (d & Hd & Sh & _). destruct (t_cancelled (txs (ca s) k)); cbn [negb] in M.
    + destruct M as (p & fin & C & -> & _). destruct (destroy_full s s a k _ F C O (fun _ _ => eq_refl)) as (s2 & -> & F2 & _); [exists d; auto|exact F2].
    + assert (F1 : full (with_ca s a)).
      { apply (full_change _ s s a k _ _ F M O); auto. cbn [phase_ok]. exists d. auto. }
      unfold after_destroy, destroying. cbn [with_ca ca]. rewrite (ch_tx _ _ _ _ _ M), Nat.eqb_refl. cbn [with_phase t_phase]. exact F1.
  - (* Return *)
    destruct (stack (ca s)) as [|k st] eqn:St; [exact Logic.I|].
    assert (Hs : (k < n)%nat /\ on_stack (t_phase (txs (ca s) k))) by (apply (lo_stack _ L); rewrite St; left; reflexivity).
    destruct Hs as [Hk Os]. pose proof (u_data _ _ F k Hk) as Dk. destruct (both_spec s k F Hk) as [B1 B2].
    destruct (t_phase (txs (ca s) k)) as [| | |r| | |] eqn:Ph; cbn [on_stack] in Os; try contradiction.
    + destruct Dk as (d & Hd & Sh & _). rewrite Hd.
      destruct (done_end_own s n k d verdict O Hk Hd Sh) as (s1 & -> & Ec & O1 & (d1 & D1 & Sh1 & _) & Dj & _). cbn [bind]. unfold astep. rewrite Ec.
      destruct (step (ca s) Return) as [a|] eqn:E; [|exact Logic.I]. cbn [bind].
      pose proof (step_moved _ _ _ L E) as (k1 & M).
      assert (k1 = k).
      { cbn [step] in E. rewrite St, Ph in E. destruct M as [(r1 & p & fin & Ph1 & C & X)|(Ph1 & C)].
        - pose proof (ch_lt _ _ _ _ _ C) as Hk1. rewrite (proj2 (both_spec s k1 F Hk1)) in X. destruct X as [-> _].
          pose proof (ch_tx _ _ _ _ _ C k1) as T. rewrite Nat.eqb_refl in T.
          injection E as <-. unfold tx_free in T. cbn [add_event set_table set_work txs t_spec] in T. rewrite B2 in T.
          cbn [add_event set_work set_phase set_tx set_table txs] in T. unfold upd in T. destruct (Nat.eqb_spec k1 k) as [?|Ne]; [assumption|].
          apply (f_equal t_phase) in T. cbn [with_phase t_phase] in T. congruence.
        - pose proof (ch_tx _ _ _ _ _ C k1) as T. rewrite Nat.eqb_refl in T.
          injection E as <-. unfold tx_free in T. cbn [add_event set_table set_work txs t_spec] in T. rewrite B2 in T.
          cbn [add_event set_work set_phase set_tx set_table txs] in T. unfold upd in T. destruct (Nat.eqb_spec k1 k) as [?|Ne]; [assumption|].
          apply (f_equal t_phase) in T. cbn [with_phase t_phase] in T. congruence. }
      subst k1. destruct M as [(r1 & p & fin & Ph1 & C & X)|(Ph1 & C)]; [|congruence]. rewrite B2 in X. destruct X as [-> _].
      destruct (destroy_full s s1 a k _ F C O1 Dj) as (s2 & -> & F2 & _); [exists d1; auto|exact F2].
    + destruct Dk as (d & Hd & Sh & Tx). rewrite Hd.
      destruct (free_end_own s n k d O Hk Hd Sh Tx) as (s1 & -> & Ec & O1 & D1 & Dj & _). cbn [bind]. unfold astep. rewrite Ec.
      destruct (step (ca s) Return) as [a|] eqn:E; [|exact Logic.I].
      pose proof (step_moved _ _ _ L E) as (k1 & M).
      assert (k1 = k).
      { cbn [step] in E. rewrite St, Ph in E. injection E as <-.
        assert (TT : forall j, j <> k -> txs (tx_free_end (add_event (set_work (ca s) (queue (ca s)) (ready (ca s)) st) (DestroyEnd k)) k) j = txs (ca s) j).
        { intros j Nj. unfold tx_free_end, ipc_unref. destruct (_ =? 0); cbn [add_event set_refs set_phase set_tx set_work txs]; unfold upd; apply Nat.eqb_neq in Nj; now rewrite Nj. }
        destruct M as [(r1 & p & fin & Ph1 & C & X)|(Ph1 & C)].
        - pose proof (ch_lt _ _ _ _ _ C) as Hk1. rewrite (proj2 (both_spec s k1 F Hk1)) in X. destruct X as [-> _].
          pose proof (ch_tx _ _ _ _ _ C k1) as T. rewrite Nat.eqb_refl in T. destruct (Nat.eq_dec k1 k) as [?|Ne]; [assumption|].
          rewrite (TT _ Ne) in T. apply (f_equal t_phase) in T. cbn [with_phase t_phase] in T. congruence.
        - pose proof (ch_tx _ _ _ _ _ C k1) as T. rewrite Nat.eqb_refl in T. destruct (Nat.eq_dec k1 k) as [?|Ne]; [assumption|].
          rewrite (TT _ Ne) in T. apply (f_equal t_phase) in T. cbn [with_phase t_phase] in T. congruence. }
      subst k1. destruct M as [(r1 & p & fin & Ph1 & C & X)|(Ph1 & C)]; [congruence|].
      apply (full_change _ s s1 a k _ _ F C O1 Dj); [auto|]. cbn [phase_ok]. exact D1.
  - (* Work *)
    unfold astep. destruct (step (ca s) Work) as [a|] eqn:E; [|exact Logic.I]. pose proof (step_moved _ _ _ L E) as (k & p & Ph & -> & C).
    pose proof (ch_lt _ _ _ _ _ C) as Hk. pose proof (u_data _ _ F k Hk) as Dk. rewrite Ph in Dk.
    apply (full_change _ s s a k _ _ F C O); auto.
  - (* Finish *)
    destruct (t_phase (txs (ca s) k)) as [|[|]| | | | |] eqn:Ph; try exact Logic.I.
    all: assert (Hk : (k < n)%nat) by (apply (in_call s); [exact F|rewrite Ph; discriminate]); pose proof (u_data _ _ F k Hk) as Dk; rewrite Ph in Dk;
      destruct Dk as (d & Hd & Sh & Rn); rewrite Hd.
    + pose proof (exec_end_own s n k d r O Hk Hd Sh Rn) as X. destruct (exec_end s k d r) as [s1| |]; cbn [bind]; auto.
      destruct X as (Ec & O1 & (d1 & D1 & Sh1) & Dj & _). unfold astep. rewrite Ec. destruct (step (ca s) (Finish k 0)) as [a|] eqn:E; [|exact Logic.I].
      pose proof (step_moved _ _ _ L E) as (c & Ph1 & C). rewrite Ph in Ph1. injection Ph1 as <-.
      apply (full_change _ s s1 a k _ _ F C O1 Dj); [auto|]. cbn [phase_ok]. exists d1. auto.
    + unfold astep. destruct (step (ca s) (Finish k 0)) as [a|] eqn:E; [|exact Logic.I].
      pose proof (step_moved _ _ _ L E) as (c & Ph1 & C). rewrite Ph in Ph1. injection Ph1 as <-.
      apply (full_change _ s s a k _ _ F C O); auto. cbn [phase_ok]. exists d. auto.
  - (* Exit *)
    unfold astep. destruct (step (ca s) Exit) as [a|] eqn:E; [|exact Logic.I]. pose proof (lists_step _ _ _ L E) as L1.
    cbn [step] in E. destruct (_ && _); [|discriminate]. injection E as <-. apply full_same; auto.
  - (* ExitCancel *)
    unfold astep. destruct (step (ca s) (ExitCancel k)) as [a|] eqn:E; [|exact Logic.I]. cbn [bind].
    pose proof (step_moved _ _ _ L E) as (_ & res & p & fin & Ph & C & M). assert (Hk : (k < n)%nat) by exact (ch_lt _ _ _ _ _ C).
    destruct (both_spec s k F Hk) as [B1 B2]. rewrite B2 in M. destruct M as [-> _]. pose proof (u_data _ _ F k Hk) as Dk. rewrite Ph in Dk.
    destruct Dk as (d & Hd & Sh & _).
    destruct (destroy_full s s a k _ F C O (fun _ _ => eq_refl)) as (s2 & -> & F2 & _); [exists d; auto|exact F2].
Qed.

Lemma full_init next : full (cinit next).
Proof.
  constructor; cbn [cinit ca initial count datas txs].
  - constructor; cbn [cinit refs kinds next_thing datas auto auto_cb cbs next_cb app_has cb_for]; try (intros; contradiction); try discriminate; auto; try lia.
    + intros h [H|H]; congruence.
    + intros h c. split; discriminate.
  - constructor; cbn [initial queue ready stack count txs]; try apply NoDup_nil; auto.
    all: intros k; split; [intros []|lia].
  - intros; lia.
  - intros; lia.
Qed.
Lemma crun_full l : forall s, full s -> match crun s l with Ok s1 => full s1 | Crash => False | Never => True end.
Proof.
  induction l as [|m l IH]; intros s F; cbn [crun]; [exact F|]. pose proof (cstep_full s m F) as X.
  destruct (cstep s m); cbn [bind]; [apply IH; exact X|contradiction|exact Logic.I].
Qed.
Lemma reached_full next l s : reached next l s -> full s.
Proof. unfold reached. intros E. pose proof (crun_full l _ (full_init next)) as X. now rewrite E in X. Qed.
