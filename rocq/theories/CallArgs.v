From Verif Require Import Base AsyncModel AsyncSpec AsyncProofs CallModel CallSpec CallProofs CallSteps CallRun CallLife.
Local Notation bind := CallModel.bind.

(* Calls and transactions aren't changed *)
Definition sd (s s1 : cstate) : Prop := datas s1 = datas s /\ ca s1 = ca s.
Lemma sd_refl s : sd s s.
Proof. split; reflexivity. Qed.
Lemma sd_trans a b c : sd a b -> sd b c -> sd a c.
Proof. intros [] []. split; congruence. Qed.
Lemma sd_ref s t s1 : ref s t = Ok s1 -> sd s s1.
Proof. unfold ref. destruct (_ <? _); [|discriminate]. intros E. injection E as <-. split; reflexivity. Qed.
Lemma sd_ref_opt s o s1 : ref_opt s o = Ok s1 -> sd s s1.
Proof. destruct o; [apply sd_ref|]. intros E. injection E as <-. apply sd_refl. Qed.
Lemma sd_drop s t s1 : drop s t = Ok s1 -> sd s s1.
Proof. unfold drop. destruct (_ <? _); [|discriminate]. intros E. injection E as <-. split; reflexivity. Qed.
Lemma sd_drop_opt s o s1 : drop_opt s o = Ok s1 -> sd s s1.
Proof. destruct o; [apply sd_drop|]. intros E. injection E as <-. apply sd_refl. Qed.
Lemma sd_drop_list l : forall s s1, drop_list s l = Ok s1 -> sd s s1.
Proof.
  induction l as [|t l IH]; intros s s1 E; cbn [drop_list] in E; [injection E as <-; apply sd_refl|].
  apply bind_inv in E. destruct E as (s2 & E1 & E2). eapply sd_trans; [exact (sd_drop _ _ _ E1)|exact (IH _ _ E2)].
Qed.
Lemma sd_unref s t s1 : unref s t = Ok s1 -> sd s s1.
Proof.
  intros E. unfold unref in E. apply bind_inv in E. destruct E as (s2 & E1 & E2). eapply sd_trans; [exact (sd_drop _ _ _ E1)|].
  destruct (_ && _); [|injection E2 as <-; apply sd_refl]. unfold finalize in E2. apply bind_inv in E2. destruct E2 as (s3 & E3 & E4). injection E4 as <-.
  apply (sd_trans _ (idle_destroy s2 (auto_cb s2 t))); [unfold idle_destroy; destruct (auto_cb s2 t); split; reflexivity|].
  eapply sd_trans; [exact (sd_drop_list _ _ _ E3)|split; reflexivity].
Qed.
Lemma sd_make s k t s1 : make s k = (t, s1) -> sd s s1.
Proof. intros E. injection E as _ <-. split; reflexivity. Qed.
Lemma sd_get_object s r s1 o : get_object s r = Ok (s1, o) -> sd s s1.
Proof.
  destruct r as [| |t]; cbn [get_object].
  - intros E. injection E as <- _. apply sd_refl.
  - destruct (make s Object) as [t s2] eqn:E. intros X. injection X as <- _. exact (sd_make _ _ _ _ E).
  - destruct (_ && _); [|discriminate]. intros E. apply bind_inv in E. destruct E as (s2 & E1 & E2). injection E2 as <- _. exact (sd_ref _ _ _ E1).
Qed.
Lemma sd_sync s h r s1 o : get_service_sync s h r = Ok (s1, o) -> sd s s1.
Proof.
  intros E. unfold get_service_sync in E. apply bind_inv in E. destruct E as ([s2 [t|]] & E1 & E).
  2:{ injection E as <- _. exact (sd_get_object _ _ _ _ E1). }
  eapply sd_trans; [exact (sd_get_object _ _ _ _ E1)|]. destruct (auto_cb s2 h); injection E as <- _; split; reflexivity.
Qed.

(* What a call was made with *)
Definition keeps (d : data) (o : option data) : Prop :=
  exists d1, o = Some d1 /\ d_kind d1 = d_kind d /\ d_holder d1 = d_holder d /\ d_name d1 = d_name d /\ d_obj d1 = d_obj d.
Lemma keeps_refl d : keeps d (Some d).
Proof. exists d. auto. Qed.

(* How a move changes a call [k] which is there: it keeps its arguments, or it's a transaction which has begun to be destroyed, or it's over *)
Definition moved_call (d : data) (p : phase) (o : option data) : Prop :=
  keeps d o \/ (p = InDestroy /\ d_kind d = KTx /\ exists d1, o = Some d1 /\ d_kind d1 = KTx /\ d_holder d1 = d_holder d) \/ p = Freed.

Lemma free_begin_call s j d0 s1 k d : free_begin s j d0 = Ok s1 -> datas s j = Some d0 -> destroying s j = true -> datas s k = Some d ->
  moved_call d (t_phase (txs (ca s1) k)) (datas s1 k) /\ ca s1 = ca s.
Proof.
  intros E Hj De Hk. unfold free_begin in E. destruct (d_kind d0) eqn:K; try (injection E as <-; split; [left; rewrite Hk; apply keeps_refl|reflexivity]).
  apply bind_inv in E. destruct E as (s2 & E1 & E). apply bind_inv in E. destruct E as (s3 & E2 & E). injection E as <-.
  destruct (sd_trans _ _ _ (sd_drop_opt _ _ _ E1) (sd_drop_opt _ _ _ E2)) as [Ed Ec]. cbn [with_data datas ca]. split; [|exact Ec]. rewrite Ed, Ec.
  destruct (Nat.eq_dec k j) as [Ekj|N].
  - rewrite Ekj, upd_same. rewrite Ekj in Hk. rewrite Hj in Hk. injection Hk as <-. right. left. unfold destroying in De.
    destruct (t_phase (txs (ca s) j)); try discriminate. split; [reflexivity|]. split; [exact K|]. eexists. split; [reflexivity|]. auto.
  - rewrite upd_other by exact N. left. rewrite Hk. apply keeps_refl.
Qed.
Lemma after_destroy_call s j s1 k d : after_destroy s j = Ok s1 -> datas s k = Some d -> moved_call d (t_phase (txs (ca s1) k)) (datas s1 k) /\ ca s1 = ca s.
Proof.
  intros E Hk. unfold after_destroy in E. destruct (destroying s j) eqn:De; [|injection E as <-; split; [left; rewrite Hk; apply keeps_refl|reflexivity]].
  destruct (datas s j) as [d0|] eqn:Hj; [|discriminate]. exact (free_begin_call _ _ _ _ _ _ E Hj De Hk).
Qed.
Lemma astep_sd s m s1 : astep s m = Ok s1 -> datas s1 = datas s /\ step (ca s) m = Some (ca s1).
Proof. unfold astep. destruct (step _ _) eqn:E; [|discriminate]. intros X. injection X as <-. auto. Qed.
Lemma start_call s d0 s1 k d n p : own s n p -> (k < n)%nat -> n = count (ca s) -> start s d0 = Ok s1 -> datas s k = Some d -> keeps d (datas s1 k).
Proof.
  intros O Hk N E Hd. unfold start in E. destruct (step _ _); [|discriminate]. injection E as <-. cbn [with_ca with_data datas].
  rewrite upd_other by lia. rewrite Hd. apply keeps_refl.
Qed.
Lemma moved_keeps d p p1 o o1 d1 : keeps d o -> o = Some d1 -> moved_call d1 p1 o1 -> p = p1 -> moved_call d p1 o1.
Proof.
  intros (d2 & E & K1 & K2 & K3 & K4) E1 M _. rewrite E in E1. injection E1 as <-. destruct M as [(d3 & X & M1 & M2 & M3 & M4)|[(X & Y & d3 & Z1 & Z2 & Z3)|X]].
  - left. exists d3. repeat split; congruence.
  - right. left. split; [exact X|]. split; [congruence|]. exists d3. repeat split; congruence.
  - right. right. exact X.
Qed.

Lemma cstep_call s m s1 k d : full s -> cstep s m = Ok s1 -> datas s k = Some d -> moved_call d (t_phase (txs (ca s1) k)) (datas s1 k).
Proof.
  intros F E Hd. pose proof (u_own _ _ F) as O. pose proof (u_lists _ _ F) as L.
  assert (Hk : (k < count (ca s))%nat) by (destruct (Nat.lt_ge_cases k (count (ca s))) as [?|G]; [assumption|rewrite (o_data _ _ _ O _ G) in Hd; discriminate]).
  assert (SD : forall s2, sd s s2 -> keeps d (datas s2 k)) by (intros s2 [X _]; rewrite X, Hd; apply keeps_refl).
  assert (ST : forall s2 d0, sd s s2 -> start s2 d0 = Ok s1 -> keeps d (datas s1 k)).
  { intros s2 d0 [X Y] E1. unfold start in E1. destruct (step _ _); [|discriminate]. injection E1 as <-. cbn [with_ca with_data datas].
    rewrite upd_other by (rewrite Y; lia). rewrite X, Hd. apply keeps_refl. }
  destruct m; cbn [cstep] in E.
  - destruct (make s k0) as [t s2] eqn:M. injection E as <-. left. apply SD. eapply sd_trans; [exact (sd_make _ _ _ _ M)|split; reflexivity].
  - destruct (_ && _); [|discriminate]. apply bind_inv in E. destruct E as (s2 & E1 & E). injection E as <-. left. apply SD. eapply sd_trans; [exact (sd_ref _ _ _ E1)|split; reflexivity].
  - destruct (_ <? _); [|discriminate]. left. apply SD. apply (sd_trans _ (with_app s t (app_has s t - 1))); [split; reflexivity|exact (sd_unref _ _ _ E)].
  - destruct (_ && _); [|discriminate]. unfold call_list in E. apply bind_inv in E. destruct E as (s2 & E1 & E). left. exact (ST s2 _ (sd_ref _ _ _ E1) E).
  - destruct (_ && _); [|discriminate]. unfold call_get in E. apply bind_inv in E. destruct E as (s2 & E1 & E). destruct (make s2 Str) as [t s3] eqn:M.
    left. exact (ST s3 _ (sd_trans _ _ _ (sd_ref _ _ _ E1) (sd_make _ _ _ _ M)) E).
  - destruct (_ && _ && _); [|discriminate]. unfold call_add in E. apply bind_inv in E. destruct E as (s2 & E1 & E). apply bind_inv in E. destruct E as (s2' & E2 & E).
    destruct (make s2' Str) as [t s3] eqn:M. left. exact (ST s3 _ (sd_trans _ _ _ (sd_trans _ _ _ (sd_ref _ _ _ E1) (sd_ref_opt _ _ _ E2)) (sd_make _ _ _ _ M)) E).
  - destruct (_ && _ && _); [|discriminate]. unfold call_tx in E. apply bind_inv in E. destruct E as (s2 & E1 & E). apply bind_inv in E. destruct E as (s2' & E2 & E).
    left. exact (ST s2' _ (sd_trans _ _ _ (sd_ref _ _ _ E1) (sd_ref_opt _ _ _ E2)) E).
  - destruct (_ && _); [|discriminate]. apply bind_inv in E. destruct E as ([s2 o] & E1 & E). injection E as <-. left. apply SD. exact (sd_sync _ _ _ _ _ E1).
  - destruct (cb_for (cbs s c)) as [h|] eqn:Ef; [|discriminate]. destruct (idle_own s _ c h O Ef) as (s2 & E2 & _ & Fr & _). rewrite E2 in E. injection E as <-.
    left. apply SD. destruct Fr. split; assumption.
  - apply astep_sd in E. destruct E as [E _]. left. rewrite E, Hd. apply keeps_refl.
  - apply astep_sd in E. destruct E as [E _]. left. rewrite E, Hd. apply keeps_refl.
  - apply bind_inv in E. destruct E as (s2 & E1 & E). apply astep_sd in E1. destruct E1 as [E1 _]. rewrite <- E1 in Hd. exact (proj1 (after_destroy_call _ _ _ _ _ E Hd)).
  - destruct (stack (ca s)) as [|j st] eqn:St; [discriminate|]. destruct (t_phase (txs (ca s) j)) as [| | |r| | |] eqn:Ph; try discriminate; destruct (datas s j) as [d0|] eqn:Hj; try discriminate.
    + apply bind_inv in E. destruct E as (s2 & E1 & E). apply bind_inv in E. destruct E as (s3 & E2 & E). apply astep_sd in E2. destruct E2 as [E2 _].
      assert (KE : keeps d (datas s2 k)).
      { unfold done_end in E1. destruct (d_kind d0); try (injection E1 as <-; rewrite Hd; apply keeps_refl).
        apply bind_inv in E1. destruct E1 as (s4 & E1 & E4). injection E4 as <-. cbn [with_data datas].
        assert (datas s4 = datas s) as Ed.
        { destruct verdict; [injection E1 as <-; destruct (d_result d0); reflexivity|]. apply sd_drop_opt in E1. apply E1. }
        destruct (Nat.eq_dec k j) as [->|N]; [|rewrite upd_other, Ed, Hd by exact N; apply keeps_refl]. rewrite upd_same.
        rewrite Hj in Hd. injection Hd as <-. exists (set_result d0 None). repeat split. }
      pose proof KE as (d2 & D2 & _). assert (D3 : datas s3 k = Some d2) by (rewrite E2; exact D2).
      pose proof (proj1 (after_destroy_call _ _ _ _ _ E D3)) as M. exact (moved_keeps d _ _ _ _ d2 KE D2 M eq_refl).
    + apply bind_inv in E. destruct E as (s2 & E1 & E). apply astep_sd in E. destruct E as [Ed Es].
      unfold free_end in E1. apply bind_inv in E1. destruct E1 as (s3 & E1 & E3). injection E3 as <-. cbn [with_data datas ca] in Ed, Es.
      assert (Sd : sd s s3).
      { destruct (d_kind d0).
        - apply bind_inv in E1. destruct E1 as (s4 & A1 & A2). exact (sd_trans _ _ _ (sd_drop_opt _ _ _ A1) (sd_unref _ _ _ A2)).
        - apply bind_inv in E1. destruct E1 as (s4 & A1 & A2). apply bind_inv in A2. destruct A2 as (s5 & A2 & A3).
          exact (sd_trans _ _ _ (sd_unref _ _ _ A1) (sd_trans _ _ _ (sd_drop_opt _ _ _ A2) (sd_drop_opt _ _ _ A3))).
        - apply bind_inv in E1. destruct E1 as (s4 & A1 & A2). apply bind_inv in A2. destruct A2 as (s5 & A2 & A3).
          exact (sd_trans _ _ _ (sd_unref _ _ _ A1) (sd_trans _ _ _ (sd_drop_opt _ _ _ A2) (sd_drop_opt _ _ _ A3))).
        - exact (sd_unref _ _ _ E1). }
      destruct Sd as [Sd1 Sd2]. rewrite Ed, Sd1. destruct (Nat.eq_dec k j) as [->|N]; [|rewrite upd_other, Hd by exact N; left; apply keeps_refl].
      right. right. rewrite Sd2 in Es. cbn [step] in Es. rewrite St, Ph in Es. injection Es as <-.
      unfold tx_free_end, ipc_unref. destruct (_ =? 0); cbn [add_event set_refs set_phase set_tx set_work txs]; rewrite upd_same; reflexivity.
  - apply astep_sd in E. destruct E as [E _]. left. rewrite E, Hd. apply keeps_refl.
  - destruct (t_phase (txs (ca s) k0)) as [|[|]| | | | |] eqn:Ph; try discriminate; destruct (datas s k0) as [d0|] eqn:Hj; try discriminate.
    + apply bind_inv in E. destruct E as (s2 & E1 & E). apply astep_sd in E. destruct E as [E _]. left. rewrite E.
      assert (SR : forall s4 o, sd s s4 -> keeps d (datas (with_data s4 k0 (Some (set_result d0 o))) k)).
      { intros s4 o [X _]. cbn [with_data datas]. destruct (Nat.eq_dec k k0) as [->|N]; [|rewrite upd_other, X, Hd by exact N; apply keeps_refl]. rewrite upd_same.
        rewrite Hj in Hd. injection Hd as <-. exists (set_result d0 o). repeat split. }
      unfold exec_end in E1. destruct (_ || _); [discriminate|]. destruct (d_kind d0).
      * destruct r; [injection E1 as <-; apply SR; apply sd_refl|destruct (make s StrV) as [t s4] eqn:M; injection E1 as <-; apply SR; exact (sd_make _ _ _ _ M)|discriminate].
      * apply bind_inv in E1. destruct E1 as ([s4 o] & A1 & A2). injection A2 as <-. apply SR. exact (sd_get_object _ _ _ _ A1).
      * destruct r; try discriminate. injection E1 as <-. rewrite Hd. apply keeps_refl.
      * destruct r; [injection E1 as <-; apply SR; apply sd_refl|destruct (make s Object) as [t s4] eqn:M; injection E1 as <-; apply SR; exact (sd_make _ _ _ _ M)|discriminate].
    + apply astep_sd in E. destruct E as [E _]. left. rewrite E, Hd. apply keeps_refl.
  - apply astep_sd in E. destruct E as [E _]. left. rewrite E, Hd. apply keeps_refl.
  - apply bind_inv in E. destruct E as (s2 & E1 & E). apply astep_sd in E1. destruct E1 as [E1 _]. rewrite <- E1 in Hd. exact (proj1 (after_destroy_call _ _ _ _ _ E Hd)).
Qed.

(* ------------------------------------------------------------------ *)
(* How transactions proceed *)
Lemma cstep_ca s m s1 : full s -> cstep s m = Ok s1 -> ca s1 = ca s \/ exists m1, step (ca s) m1 = Some (ca s1).
Proof.
  intros F E. pose proof (u_own _ _ F) as O.
  assert (SD : forall s2, sd s s2 -> ca s2 = ca s \/ exists m1, step (ca s) m1 = Some (ca s2)) by (intros s2 [_ X]; left; exact X).
  assert (ST : forall s2 d0, sd s s2 -> start s2 d0 = Ok s1 -> ca s1 = ca s \/ exists m1, step (ca s) m1 = Some (ca s1)).
  { intros s2 d0 [X Y] E1. unfold start in E1. rewrite Y in E1. destruct (step _ _) eqn:Es in E1; [|discriminate]. injection E1 as <-. right. eexists. exact Es. }
  assert (AS : forall m1 s2, astep s m1 = Ok s2 -> ca s2 = ca s \/ exists m1, step (ca s) m1 = Some (ca s2)).
  { intros m1 s2 X. apply astep_sd in X. right. exists m1. apply X. }
  assert (AD : forall s2 k s3, after_destroy s2 k = Ok s3 -> ca s3 = ca s2).
  { intros s2 k s3 X. unfold after_destroy in X. destruct (destroying s2 k); [|injection X as <-; reflexivity]. destruct (datas s2 k) as [d|]; [|discriminate].
    unfold free_begin in X. destruct (d_kind d); try (injection X as <-; reflexivity). apply bind_inv in X. destruct X as (s4 & A1 & X). apply bind_inv in X. destruct X as (s5 & A2 & X).
    injection X as <-. cbn [with_data ca]. apply (sd_trans _ _ _ (sd_drop_opt _ _ _ A1) (sd_drop_opt _ _ _ A2)). }
  destruct m; cbn [cstep] in E.
  - destruct (make s k) as [t s2] eqn:M. injection E as <-. apply SD. eapply sd_trans; [exact (sd_make _ _ _ _ M)|split; reflexivity].
  - destruct (_ && _); [|discriminate]. apply bind_inv in E. destruct E as (s2 & E1 & E). injection E as <-. apply SD. eapply sd_trans; [exact (sd_ref _ _ _ E1)|split; reflexivity].
  - destruct (_ <? _); [|discriminate]. apply SD. apply (sd_trans _ (with_app s t (app_has s t - 1))); [split; reflexivity|exact (sd_unref _ _ _ E)].
  - destruct (_ && _); [|discriminate]. unfold call_list in E. apply bind_inv in E. destruct E as (s2 & E1 & E). exact (ST s2 _ (sd_ref _ _ _ E1) E).
  - destruct (_ && _); [|discriminate]. unfold call_get in E. apply bind_inv in E. destruct E as (s2 & E1 & E). destruct (make s2 Str) as [t s3] eqn:M.
    exact (ST s3 _ (sd_trans _ _ _ (sd_ref _ _ _ E1) (sd_make _ _ _ _ M)) E).
  - destruct (_ && _ && _); [|discriminate]. unfold call_add in E. apply bind_inv in E. destruct E as (s2 & E1 & E). apply bind_inv in E. destruct E as (s2' & E2 & E).
    destruct (make s2' Str) as [t s3] eqn:M. exact (ST s3 _ (sd_trans _ _ _ (sd_trans _ _ _ (sd_ref _ _ _ E1) (sd_ref_opt _ _ _ E2)) (sd_make _ _ _ _ M)) E).
  - destruct (_ && _ && _); [|discriminate]. unfold call_tx in E. apply bind_inv in E. destruct E as (s2 & E1 & E). apply bind_inv in E. destruct E as (s2' & E2 & E).
    exact (ST s2' _ (sd_trans _ _ _ (sd_ref _ _ _ E1) (sd_ref_opt _ _ _ E2)) E).
  - destruct (_ && _); [|discriminate]. apply bind_inv in E. destruct E as ([s2 o] & E1 & E). injection E as <-. apply SD. exact (sd_sync _ _ _ _ _ E1).
  - destruct (cb_for (cbs s c)) as [h|] eqn:Ef; [|discriminate]. destruct (idle_own s _ c h O Ef) as (s2 & E2 & _ & Fr & _). rewrite E2 in E. injection E as <-.
    apply SD. destruct Fr. split; assumption.
  - exact (AS _ _ E).
  - exact (AS _ _ E).
  - apply bind_inv in E. destruct E as (s2 & E1 & E). rewrite (AD _ _ _ E). exact (AS _ _ E1).
  - destruct (stack (ca s)) as [|j st]; [discriminate|]. destruct (t_phase (txs (ca s) j)) as [| | |r| | |]; try discriminate; destruct (datas s j) as [d0|]; try discriminate.
    + apply bind_inv in E. destruct E as (s2 & E1 & E). apply bind_inv in E. destruct E as (s3 & E2 & E). rewrite (AD _ _ _ E). apply astep_sd in E2. destruct E2 as [_ E2].
      assert (ca s2 = ca s) as Ec.
      { unfold done_end in E1. destruct (d_kind d0); try (injection E1 as <-; reflexivity). apply bind_inv in E1. destruct E1 as (s4 & A1 & A2). injection A2 as <-. cbn [with_data ca].
        destruct verdict; [injection A1 as <-; destruct (d_result d0); reflexivity|]. apply sd_drop_opt in A1. apply A1. }
      rewrite Ec in E2. right. exists Return. exact E2.
    + apply bind_inv in E. destruct E as (s2 & E1 & E). apply astep_sd in E. destruct E as [_ E].
      assert (ca s2 = ca s) as Ec.
      { unfold free_end in E1. apply bind_inv in E1. destruct E1 as (s3 & E1 & E3). injection E3 as <-. cbn [with_data ca]. destruct (d_kind d0).
        - apply bind_inv in E1. destruct E1 as (s4 & A1 & A2). apply (sd_trans _ _ _ (sd_drop_opt _ _ _ A1) (sd_unref _ _ _ A2)).
        - apply bind_inv in E1. destruct E1 as (s4 & A1 & A2). apply bind_inv in A2. destruct A2 as (s5 & A2 & A3).
          apply (sd_trans _ _ _ (sd_unref _ _ _ A1) (sd_trans _ _ _ (sd_drop_opt _ _ _ A2) (sd_drop_opt _ _ _ A3))).
        - apply bind_inv in E1. destruct E1 as (s4 & A1 & A2). apply bind_inv in A2. destruct A2 as (s5 & A2 & A3).
          apply (sd_trans _ _ _ (sd_unref _ _ _ A1) (sd_trans _ _ _ (sd_drop_opt _ _ _ A2) (sd_drop_opt _ _ _ A3))).
        - apply (sd_unref _ _ _ E1). }
      rewrite Ec in E. right. exists Return. exact E.
  - exact (AS _ _ E).
  - destruct (t_phase (txs (ca s) k)) as [|[|]| | | | |]; try discriminate; destruct (datas s k) as [d0|]; try discriminate.
    + apply bind_inv in E. destruct E as (s2 & E1 & E). apply astep_sd in E. destruct E as [_ E].
      assert (ca s2 = ca s) as Ec.
      { unfold exec_end in E1. destruct (_ || _); [discriminate|]. destruct (d_kind d0).
        - destruct r; [injection E1 as <-; reflexivity|destruct (make s StrV) as [t s4] eqn:M; injection E1 as <-; apply (sd_make _ _ _ _ M)|discriminate].
        - apply bind_inv in E1. destruct E1 as ([s4 o] & A1 & A2). injection A2 as <-. apply (sd_get_object _ _ _ _ A1).
        - destruct r; try discriminate. injection E1 as <-. reflexivity.
        - destruct r; [injection E1 as <-; reflexivity|destruct (make s Object) as [t s4] eqn:M; injection E1 as <-; apply (sd_make _ _ _ _ M)|discriminate]. }
      rewrite Ec in E. right. exists (Finish k 0). exact E.
    + exact (AS _ _ E).
  - exact (AS _ _ E).
  - apply bind_inv in E. destruct E as (s2 & E1 & E). rewrite (AD _ _ _ E). exact (AS _ _ E1).
Qed.

(* The end is the end *)
Definition later (p q : phase) : Prop :=
  match p with
  | Freed => q = Freed
  | InDestroy => q = InDestroy \/ q = Freed
  | Lost => q = Lost
  | _ => True
  end.
Lemma later_refl p : later p p.
Proof. destruct p; cbn [later]; auto. Qed.
Lemma change_later a a1 j p es k : change a a1 j p es -> (t_phase (txs a j) <> Freed) -> (t_phase (txs a j) <> Lost) ->
  (t_phase (txs a j) = InDestroy -> p = Freed) -> later (t_phase (txs a k)) (t_phase (txs a1 k)).
Proof.
  intros C N1 N2 N3. rewrite (ch_tx _ _ _ _ _ C k). destruct (Nat.eqb_spec k j) as [->|N]; [|apply later_refl]. cbn [with_phase t_phase].
  destruct (t_phase (txs a j)); cbn [later]; auto; congruence.
Qed.
Lemma step_later a m a1 k : lists_ok a -> (k < count a)%nat -> step a m = Some a1 -> later (t_phase (txs a k)) (t_phase (txs a1 k)) /\ (count a <= count a1)%nat.
Proof.
  intros L Hk E. pose proof (step_moved _ _ _ L E) as M. destruct m; cbn [moved] in M.
  - cbn [step] in E. destruct (_ <? _); [|discriminate]. unfold ipc_transact in E. destruct (tx_get_id _ _ _) as [[id nx]|]; [|discriminate].
    injection E as <-. cbn [txs count]. rewrite upd_other by lia. split; [apply later_refl|lia].
  - cbn [step] in E. destruct (_ <? _); [|discriminate]. injection E as <-. unfold ipc_cancel.
    destruct (id =? 0); [split; [apply later_refl|cbn; lia]|]. destruct (table_lookup _ _) as [j|]; [|split; [apply later_refl|cbn; lia]].
    cbn [set_tx add_event txs count]. unfold upd. destruct (Nat.eqb_spec k j) as [->|]; cbn [t_phase]; split; try apply later_refl; lia.
  - cbn [step] in E. destruct (_ <? _); [|discriminate]. injection E as <-. split; [apply later_refl|cbn; lia].
  - cbn [step] in E. destruct (app_refs a); [discriminate|]. injection E as <-. unfold ipc_unref. destruct (_ =? 0); split; try apply later_refl; cbn; lia.
  - cbn [step] in E. injection E as <-. split; [apply later_refl|cbn; lia].
  - destruct M as (res & Ph & M). destruct (_ && _).
    + split; [|rewrite (ch_count _ _ _ _ _ M); lia]. apply (change_later _ _ _ _ _ _ M); rewrite Ph; discriminate.
    + destruct M as (p & fin & C & _). split; [|rewrite (ch_count _ _ _ _ _ C); lia]. apply (change_later _ _ _ _ _ _ C); rewrite Ph; discriminate.
  - destruct M as (j & [(r & p & fin & Ph & C & _)|(Ph & C)]); (split; [|rewrite (ch_count _ _ _ _ _ C); lia]); apply (change_later _ _ _ _ _ _ C); rewrite Ph; try discriminate; auto.
  - destruct M as (j & p & Ph & _ & C). split; [|rewrite (ch_count _ _ _ _ _ C); lia]. apply (change_later _ _ _ _ _ _ C); rewrite Ph; discriminate.
  - destruct M as (c & Ph & C). split; [|rewrite (ch_count _ _ _ _ _ C); lia]. apply (change_later _ _ _ _ _ _ C); rewrite Ph; discriminate.
  - cbn [step] in E. destruct (_ && _); [|discriminate]. injection E as <-. split; [apply later_refl|cbn; lia].
  - destruct M as (_ & res & p & fin & Ph & C & _). split; [|rewrite (ch_count _ _ _ _ _ C); lia]. apply (change_later _ _ _ _ _ _ C); rewrite Ph; discriminate.
Qed.
Lemma cstep_later s m s1 k : full s -> (k < count (ca s))%nat -> cstep s m = Ok s1 ->
  later (t_phase (txs (ca s) k)) (t_phase (txs (ca s1) k)) /\ (count (ca s) <= count (ca s1))%nat.
Proof.
  intros F Hk E. destruct (cstep_ca _ _ _ F E) as [->|(m1 & X)]; [split; [apply later_refl|lia]|]. exact (step_later _ _ _ _ (u_lists _ _ F) Hk X).
Qed.

(* Until the end, a call has what it was made with *)
Definition has_args (d : data) (s : cstate) (k : nat) : Prop :=
  (k < count (ca s))%nat /\
  match t_phase (txs (ca s) k) with
  | Freed => True
  | InDestroy => exists d1, datas s k = Some d1 /\ d_kind d1 = d_kind d /\ d_holder d1 = d_holder d /\ (d_kind d <> KTx -> d_name d1 = d_name d /\ d_obj d1 = d_obj d)
  | _ => keeps d (datas s k)
  end.
Lemma has_args_step d s m s1 k : full s -> has_args d s k -> cstep s m = Ok s1 -> has_args d s1 k.
Proof.
  intros F [Hk H] E. destruct (cstep_later _ _ _ _ F Hk E) as [La Cn]. split; [lia|].
  assert (X : t_phase (txs (ca s) k) = Freed \/ exists d1, datas s k = Some d1 /\ d_kind d1 = d_kind d /\ d_holder d1 = d_holder d /\
     ((d_name d1 = d_name d /\ d_obj d1 = d_obj d) \/ d_kind d = KTx /\ t_phase (txs (ca s) k) = InDestroy)).
  { destruct (t_phase (txs (ca s) k)); auto; right; destruct H as (d1 & E1 & E2 & E3 & E4); exists d1; repeat (split; [assumption|]); auto.
    destruct (d_kind d); auto; left; apply E4; discriminate. }
  destruct X as [X|(d1 & E1 & E2 & E3 & E4)].
  - rewrite X in La. cbn [later] in La. rewrite La. exact Logic.I.
  - pose proof (cstep_call _ _ _ _ _ F E E1) as M.
    destruct M as [(d2 & X & M1 & M2 & M3 & M4)|[(X & Y & d2 & Z1 & Z2 & Z3)|X]].
    + destruct E4 as [[E4 E5]|[E4 E5]].
      * destruct (t_phase (txs (ca s1) k)); auto; exists d2; repeat split; congruence.
      * rewrite E5 in La. cbn [later] in La. destruct La as [-> | ->]; [|exact Logic.I]. exists d2. split; [congruence|]. split; [congruence|]. split; [congruence|]. intros; congruence.
    + rewrite X. exists d2. split; [congruence|]. split; [congruence|]. split; [congruence|]. intros N; congruence.
    + rewrite X. exact Logic.I.
Qed.
Lemma has_args_run d k l : forall s s1, full s -> has_args d s k -> crun s l = Ok s1 -> has_args d s1 k.
Proof.
  induction l as [|m l IH]; intros s s1 F H E; cbn [crun] in E; [injection E as <-; exact H|].
  apply bind_inv in E. destruct E as (s2 & E1 & E2). pose proof (cstep_full s m F) as F2. rewrite E1 in F2.
  exact (IH _ _ F2 (has_args_step _ _ _ _ _ F H E1) E2).
Qed.
Lemma later_run k l : forall s s1, full s -> (k < count (ca s))%nat -> crun s l = Ok s1 -> t_phase (txs (ca s) k) = Lost -> t_phase (txs (ca s1) k) = Lost.
Proof.
  induction l as [|m l IH]; intros s s1 F Hk E H; cbn [crun] in E; [injection E as <-; exact H|].
  apply bind_inv in E. destruct E as (s2 & E1 & E2). pose proof (cstep_full s m F) as F2. rewrite E1 in F2.
  destruct (cstep_later _ _ _ _ F Hk E1) as [La Cn]. rewrite H in La. cbn [later] in La. exact (IH _ _ F2 ltac:(lia) E2 La).
Qed.

(* Calls, what they are made with, and the new state *)
Definition made_with (m : cmove) : option (ckind * nat * option nat) :=
  match m with
  | List h => Some (KList, h, None)
  | Get h => Some (KGet, h, None)
  | Add h o => Some (KAdd, h, o)
  | Tx h o => Some (KTx, h, o)
  | _ => None
  end.
Lemma start_made s d s1 : start s d = Ok s1 -> datas s1 (count (ca s)) = Some d /\ count (ca s1) = S (count (ca s)) /\
  t_phase (txs (ca s1) (count (ca s))) = if pool (ca s) then Queued else Lost.
Proof.
  unfold start. destruct (step (ca s) _) as [a|] eqn:E; [|discriminate]. intros X. injection X as <-. cbn [with_ca with_data datas ca]. rewrite upd_same.
  cbn [step] in E. destruct (_ <? _); [|discriminate]. unfold ipc_transact in E. destruct (tx_get_id _ _ _) as [[id nx]|]; [|discriminate].
  injection E as <-. cbn [count txs]. rewrite upd_same. auto.
Qed.
Lemma made s m s1 kd h o : cstep s m = Ok s1 -> made_with m = Some (kd, h, o) ->
  exists d, d_kind d = kd /\ d_holder d = h /\ d_obj d = o /\ datas s1 (count (ca s)) = Some d /\ count (ca s1) = S (count (ca s)) /\
    t_phase (txs (ca s1) (count (ca s))) = (if pool (ca s) then Queued else Lost) /\
    (kd = KGet \/ kd = KAdd -> d_name d <> None).
Proof.
  intros E M. destruct m; try discriminate M; injection M as <- <- <-; cbn [cstep] in E.
  - destruct (_ && _); [|discriminate]. unfold call_list in E. apply bind_inv in E. destruct E as (s2 & E1 & E). destruct (sd_ref _ _ _ E1) as [_ X]. rewrite <- X.
    eexists. repeat (split; [|]). 4: exact (proj1 (start_made _ _ _ E)). all: try reflexivity; try apply (start_made _ _ _ E). intros [?|?]; discriminate.
  - destruct (_ && _); [|discriminate]. unfold call_get in E. apply bind_inv in E. destruct E as (s2 & E1 & E). destruct (make s2 Str) as [t s3] eqn:Mk.
    destruct (sd_trans _ _ _ (sd_ref _ _ _ E1) (sd_make _ _ _ _ Mk)) as [_ X]. rewrite <- X.
    eexists. repeat (split; [|]). 4: exact (proj1 (start_made _ _ _ E)). all: try reflexivity; try apply (start_made _ _ _ E). intros _; discriminate.
  - destruct (_ && _ && _); [|discriminate]. unfold call_add in E. apply bind_inv in E. destruct E as (s2 & E1 & E). apply bind_inv in E. destruct E as (s2' & E2 & E).
    destruct (make s2' Str) as [t s3] eqn:Mk. destruct (sd_trans _ _ _ (sd_trans _ _ _ (sd_ref _ _ _ E1) (sd_ref_opt _ _ _ E2)) (sd_make _ _ _ _ Mk)) as [_ X]. rewrite <- X.
    eexists. repeat (split; [|]). 4: exact (proj1 (start_made _ _ _ E)). all: try reflexivity; try apply (start_made _ _ _ E). intros _; discriminate.
  - destruct (_ && _ && _); [|discriminate]. unfold call_tx in E. apply bind_inv in E. destruct E as (s2 & E1 & E). apply bind_inv in E. destruct E as (s2' & E2 & E).
    destruct (sd_trans _ _ _ (sd_ref _ _ _ E1) (sd_ref_opt _ _ _ E2)) as [_ X]. rewrite <- X.
    eexists. repeat (split; [|]). 4: exact (proj1 (start_made _ _ _ E)). all: try reflexivity; try apply (start_made _ _ _ E). intros [?|?]; discriminate.
Qed.
