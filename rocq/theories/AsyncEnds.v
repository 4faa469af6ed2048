From Verif Require Import Base AsyncModel AsyncSpec AsyncProofs AsyncLife.

Record base_ok (s : astate) : Prop := { bo_lists : lists_ok s; bo_table : table_ok s; bo_life : life_ok s }.

Lemma base_step s m s' : base_ok s -> step s m = Some s' -> base_ok s'.
Proof.
  intros [L T Li] H. split; [eapply lists_step|eapply table_step|eapply life_step]; eauto.
Qed.
Lemma base_initial n : base_ok (initial n).
Proof.
  split; split; cbn; auto using NoDup_nil; try (intros; lia); try (intros; tauto); try (intros; intuition lia).
  apply u32_range.
Qed.

Lemma in_life_of k e t : about k e = true -> (In e t <-> In e (life_of k t)).
Proof. intros H. unfold life_of. rewrite filter_In. tauto. Qed.

(* The only event of this kind *)
Lemma life_started s k id f : base_ok s -> In (Started k id f) (atrace s) -> (k < count s)%nat /\ id = t_id (txs s k) /\ f = t_spec (txs s k).
Proof.
  intros B H. apply (in_life_of k) in H; [|cbn; apply Nat.eqb_refl].
  destruct (Nat.ltb_spec k (count s)) as [Hk|Hk]; [|rewrite (lf_new _ (bo_life _ B) _ Hk) in H; destruct H].
  split; [exact Hk|]. pose proof (lf_old _ (bo_life _ B) _ Hk) as P. unfold phase_life in P.
  assert (X : exists r, life_of k (atrace s) = Started k (t_id (txs s k)) (t_spec (txs s k)) :: r /\ ~ In (Started k id f) r).
  { destruct (t_phase (txs s k)).
    - exists []. rewrite P. split; [reflexivity|]. intros [].
    - destruct P as [P _]. eexists. split; [exact P|]. destruct called; cbn; [|tauto]. intros [X|[]]; discriminate.
    - destruct P as [P _]. eexists. split; [exact P|]. destruct result; cbn; [|tauto]. intros [X|[X|[]]]; discriminate.
    - destruct P as [P _]. eexists. split; [exact P|]. cbn. intros [X|[X|[X|[]]]]; discriminate.
    - destruct P as (_ & pe & re & M & P). eexists. split; [exact P|]. rewrite !in_app_iff. cbn [In].
      destruct M as [[-> ->]|(r & -> & [->|[_ ->]])]; cbn [In]; intuition discriminate.
    - destruct P as (pe & re & M & P). eexists. split; [exact P|]. rewrite !in_app_iff. cbn [In].
      destruct M as [[-> ->]|(r & -> & [->|[_ ->]])]; destruct (has_destroy _); cbn [In]; intuition discriminate.
    - exists []. rewrite P. split; [reflexivity|]. intros []. }
  destruct X as (r & X & N). rewrite X in H. destruct H as [H|H]; [|contradiction]. now inversion H.
Qed.

Lemma life_has_started s k : base_ok s -> (k < count s)%nat -> In (Started k (t_id (txs s k)) (t_spec (txs s k))) (atrace s).
Proof.
  intros B Hk. apply (in_life_of k); [cbn; apply Nat.eqb_refl|]. pose proof (lf_old _ (bo_life _ B) _ Hk) as P. unfold phase_life in P.
  destruct (t_phase (txs s k)).
  1,7: rewrite P; now left.
  1,2,3: destruct P as [P _]; rewrite P; now left.
  - destruct P as (_ & pe & re & M & P). rewrite P; now left.
  - destruct P as (pe & re & M & P). rewrite P; now left.
Qed.

Lemma life_gone s k : base_ok s -> (k < count s)%nat -> (In (Gone k) (atrace s) <-> alive (t_phase (txs s k)) = false).
Proof.
  intros B Hk. rewrite (in_life_of k) by (cbn; apply Nat.eqb_refl). pose proof (lf_old _ (bo_life _ B) _ Hk) as P. unfold phase_life in P.
  destruct (t_phase (txs s k)); cbn [alive].
  - rewrite P. cbn. intuition discriminate.
  - destruct P as [P _]. rewrite P. destruct called; cbn; intuition discriminate.
  - destruct P as [P _]. rewrite P. destruct result; cbn; intuition discriminate.
  - destruct P as [P _]. rewrite P. cbn; intuition discriminate.
  - destruct P as (_ & pe & re & M & P). rewrite P. cbn [In]. rewrite !in_app_iff. cbn [In]. tauto.
  - destruct P as (pe & re & M & P). rewrite P. cbn [In]. rewrite !in_app_iff. cbn [In]. tauto.
  - rewrite P. cbn. intuition discriminate.
Qed.

Lemma refers_table s id k : base_ok s -> (refers (atrace s) id k <-> In (id, k) (tx_table s)).
Proof.
  intros B. rewrite (tb_in _ (bo_table _ B)). unfold refers. split.
  - intros [[f H] G]. apply (life_started _ _ _ _ B) in H. destruct H as (Hk & -> & _). split; [exact Hk|]. split; [reflexivity|].
    rewrite (life_gone _ _ B Hk) in G. destruct (alive _); congruence.
  - intros (Hk & -> & Ha). split; [eexists; apply life_has_started; assumption|]. rewrite (life_gone _ _ B Hk), Ha. discriminate.
Qed.

(* ------------------------------------------------------------------ *)
(* A mark in the past or among the new events *)
Lemma split_events {A} (t es t1 t2 : list A) e : t ++ es = t1 ++ e :: t2 ->
  (exists u, t = t1 ++ e :: u /\ t2 = u ++ es) \/ (exists u, es = u ++ e :: t2 /\ t1 = t ++ u).
Proof.
  revert t1. induction t as [|x t IH]; intros t1 H; cbn in H.
  - right. exists t1. auto.
  - destruct t1 as [|y t1]; cbn in H; injection H as -> H.
    + left. exists t. auto.
    + apply IH in H. destruct H as [(u & -> & ->)|(u & -> & ->)]; [left|right]; exists u; auto.
Qed.

Definition freshly (es : list aev) (e : aev) : Prop := exists u v, es = u ++ e :: v.


Ltac no_event H := exfalso; revert H; clear;
  repeat match goal with |- context [if ?b then _ else _] => destruct b end; cbn [In]; intuition discriminate.

Lemma over_no_event k pre (p : phase) (r : Z) e : In e (pre ++ (if freed p && (r =? 0) then [IpcFreed] else [])) ->
  (forall e, In e pre -> over_events k e /\ e <> IpcFreed) -> over_events k e.
Proof.
  intros H Hp. apply in_app_iff in H. destruct H as [H|H]; [apply Hp in H; tauto|].
  destruct (_ && _); [|destruct H]. destruct H as [<-|[]]. unfold over_events. tauto.
Qed.

Lemma change_events s s' m es e : step_kind s s' m es -> In e es ->
  (exists f id, m = Transact f /\ e = Started (count s) id f /\ es = [e]) \/
  (exists id, m = Cancel id /\ e = CancelCalled id /\ es = [e]) \/
  (m = Exit /\ e = Exiting /\ es = [e]) \/
  (e = IpcFreed) \/
  (exists k, (k < count s)%nat /\ (over_events k e \/ (e = Exec k /\ t_cancelled (txs s k) = false) \/ (exists r, e = ExecEnd k r) \/ (exists r, e = Reply k r /\ t_cancelled (txs s k) = false))).
Proof.
  intros K H. destruct K.
  - destruct H as [<-|[]]. left. eauto.
  - destruct H as [<-|[]]. right. left. eauto.
  - destruct H.
  - destruct (_ =? 0); [|destruct H]. destruct H as [<-|[]]. right. right. right. now left.
  - destruct H as [<-|[]]. right. right. left. auto.
  - right. right. right. right. exists k. split; [apply (ch_lt _ _ _ _ _ Kch)|].
    destruct Kes as [->|[->|[(r & ->)|[(r & -> & Hc)|(pre & fin & -> & Hp & ->)]]]].
    + destruct H.
    + destruct H as [<-|[]]. right. left. split; [reflexivity|]. apply Kexec. now left.
    + destruct H as [<-|[]]. right. right. left. eauto.
    + destruct H as [<-|[]]. right. right. right. eauto.
    + left. eapply over_no_event; eauto.
Qed.

Ltac events K H := apply (change_events _ _ _ _ _ K) in H; unfold over_events in H;
  destruct H as [(?f & ?i & ?Hm & H & ?Hes)|[(?i & ?Hm & H & ?Hes)|[(?Hm & H & ?Hes)|[H|(?k & ?Hlt & [H|[(H & ?Hc)|[(?r & H)|(?r & H & ?Hc)]]])]]]];
  try discriminate H; try (exfalso; revert H; clear; intuition discriminate).

Lemma kind_cancel s s' m es id : step_kind s s' m es -> In (CancelCalled id) es -> m = Cancel id /\ es = [CancelCalled id].
Proof. intros K H. events K H. injection H as ->. auto. Qed.

Lemma kind_exit s s' m es : step_kind s s' m es -> In Exiting es -> m = Exit /\ es = [Exiting].
Proof. intros K H. events K H. auto. Qed.

Lemma kind_started s s' m es k id f : step_kind s s' m es -> In (Started k id f) es -> m = Transact f /\ k = count s /\ es = [Started k id f].
Proof. intros K H. events K H. injection H as -> -> ->. auto. Qed.

Lemma kind_exec s s' m es k : step_kind s s' m es -> In (Exec k) es -> t_cancelled (txs s k) = false /\ (k < count s)%nat.
Proof. intros K H. events K H. injection H as ->. auto. Qed.

Lemma kind_reply s s' m es k r : step_kind s s' m es -> In (Reply k r) es -> t_cancelled (txs s k) = false /\ (k < count s)%nat.
Proof. intros K H. events K H. injection H as -> ->. auto. Qed.

(* ------------------------------------------------------------------ *)

Record ends_ok (s : astate) : Prop := {
  en_cancel : forall k, (k < count s)%nat -> (t_cancelled (txs s k) = true <-> was_cancelled (atrace s) k);
  en_silent : forall k t1 id t2, atrace s = t1 ++ CancelCalled id :: t2 -> refers t1 id k -> ~ In (Exec k) t2 /\ forall r, ~ In (Reply k r) t2;
  en_exec : forall k, (k < count s)%nat -> alive (t_phase (txs s k)) = false -> t_cancelled (txs s k) = false -> In (Exec k) (atrace s);
  en_reply : forall k, (k < count s)%nat -> alive (t_phase (txs s k)) = false -> t_cancelled (txs s k) = false -> has_reply (t_spec (txs s k)) = true ->
    (exists r, In (Reply k r) (atrace s)) \/ exited_first (atrace s) k;
  en_pool : pool s = false <-> In Exiting (atrace s);
  en_lost : forall k, (k < count s)%nat -> (t_phase (txs s k) = Lost <-> too_late (atrace s) k)
}.

Lemma ends_initial n : ends_ok (initial n).
Proof.
  split; cbn; try (intros; lia).
  - intros k t1 id t2 H. destruct t1; discriminate.
Qed.

(* Events in the past stay there *)
Lemma was_cancelled_more t es k : was_cancelled t k -> was_cancelled (t ++ es) k.
Proof. intros (t1 & id & t2 & -> & R). exists t1, id, (t2 ++ es). now rewrite <- app_assoc. Qed.
Lemma exited_more t es k : exited_first t k -> exited_first (t ++ es) k.
Proof. intros (t1 & t2 & -> & R). exists t1, (t2 ++ es). now rewrite <- app_assoc. Qed.
Lemma too_late_more t es k : too_late t k -> too_late (t ++ es) k.
Proof. intros (t1 & t2 & id & f & -> & R). exists t1, (t2 ++ es), id, f. now rewrite <- app_assoc. Qed.

Lemma was_cancelled_in_range s k : base_ok s -> was_cancelled (atrace s) k -> (k < count s)%nat.
Proof.
  intros B (t1 & id & t2 & E & [[f Hin] _]). eapply life_started; [exact B|]. rewrite E. apply in_app_iff. left. exact Hin.
Qed.

Lemma change_phase s s' k p es j : change s s' k p es -> t_phase (txs s' j) = if Nat.eqb j k then p else t_phase (txs s j).
Proof. intros C. rewrite (ch_tx _ _ _ _ _ C). destruct (Nat.eqb j k); reflexivity. Qed.
Lemma change_cancelled s s' k p es j : change s s' k p es -> t_cancelled (txs s' j) = t_cancelled (txs s j).
Proof. intros C. rewrite (ch_tx _ _ _ _ _ C). destruct (Nat.eqb_spec j k) as [->|]; reflexivity. Qed.
Lemma change_spec s s' k p es j : change s s' k p es -> t_spec (txs s' j) = t_spec (txs s j).
Proof. intros C. rewrite (ch_tx _ _ _ _ _ C). destruct (Nat.eqb_spec j k) as [->|]; reflexivity. Qed.
Lemma change_id s s' k p es j : change s s' k p es -> t_id (txs s' j) = t_id (txs s j).
Proof. intros C. rewrite (ch_tx _ _ _ _ _ C). destruct (Nat.eqb_spec j k) as [->|]; reflexivity. Qed.

(* Once the flag is set, it's not cleared; a cancellation sets it *)
Lemma cancelled_step s s' m es k : base_ok s -> step_kind s s' m es -> (k < count s)%nat ->
  (t_cancelled (txs s' k) = true <-> t_cancelled (txs s k) = true \/ exists id, m = Cancel id /\ In (id, k) (tx_table s)).
Proof.
  intros B K Hk. destruct K.
  - rewrite Kold by exact Hk. split; [tauto|]. intros [?|(? & ? & _)]; [assumption|discriminate].
  - rewrite Kcancel by exact Hk. split; [intros [?|?]; [tauto|right; eauto]|]. intros [?|(i & [= ->] & ?)]; tauto.
  - rewrite Ktxs. split; [tauto|]. intros [?|(? & ? & _)]; [assumption|]. destruct Kwhich; congruence.
  - rewrite Ktxs. split; [tauto|]. intros [?|(? & ? & _)]; [assumption|discriminate].
  - rewrite Ktxs. split; [tauto|]. intros [?|(? & ? & _)]; [assumption|discriminate].
  - rewrite (change_cancelled _ _ _ _ _ _ Kch). split; [tauto|]. intros [?|(? & E & _)]; [assumption|]. subst. contradiction.
Qed.

Lemma kind_count s s' m es : step_kind s s' m es -> count s' = count s \/ (count s' = S (count s) /\ exists f, m = Transact f).
Proof. intros K. destruct K; eauto. left. apply (ch_count _ _ _ _ _ Kch). Qed.

Lemma cancel_step s s' m es : base_ok s -> base_ok s' -> step_kind s s' m es -> atrace s' = atrace s ++ es ->
  (forall k, (k < count s)%nat -> (t_cancelled (txs s k) = true <-> was_cancelled (atrace s) k)) ->
  forall k, (k < count s')%nat -> (t_cancelled (txs s' k) = true <-> was_cancelled (atrace s') k).
Proof.
  intros B B' K Et Hc k Hk. rewrite Et.
  destruct (Nat.ltb_spec k (count s)) as [Hk0|Hk0].
  - rewrite (cancelled_step _ _ _ _ _ B K Hk0), (Hc k Hk0). split.
    + intros [H|(id & -> & H)]; [apply was_cancelled_more, H|]. inversion K; subst; [|destruct Kwhich; discriminate|contradiction].
      exists (atrace s), id, []. split; [reflexivity|]. apply refers_table; assumption.
    + intros (t1 & id & t2 & E & R). apply split_events in E. destruct E as [(u & E & _)|(u & E & E1)].
      * left. exists t1, id, u. auto.
      * right. destruct (kind_cancel _ _ _ _ id K) as [-> X]; [rewrite E; apply in_app_iff; right; now left|].
        rewrite X in E. destruct u as [|? [|? ?]]; [|discriminate E|discriminate E]. rewrite app_nil_r in E1. subst t1.
        exists id. split; [reflexivity|]. apply refers_table; assumption.
  - destruct (kind_count _ _ _ _ K) as [X|[X [f ->]]]; [lia|]. assert (k = count s) by lia. subst k. inversion K; subst; [|destruct Kwhich; discriminate|contradiction].
    rewrite Knew. cbn [t_cancelled]. split; [discriminate|]. intros (t1 & id1 & t2 & E & [[f1 R] _]).
    exfalso. apply split_events in E. destruct E as [(u & E & _)|(u & E & E1)].
    + assert (Y : In (Started (count s) id1 f1) (atrace s)) by (rewrite E; apply in_app_iff; now left). apply (life_started _ _ _ _ B) in Y. lia.
    + destruct u as [|? [|? ?]]; discriminate E.
Qed.

Lemma silent_step s s' m es : base_ok s -> ends_ok s -> step_kind s s' m es -> atrace s' = atrace s ++ es ->
  forall k t1 id t2, atrace s' = t1 ++ CancelCalled id :: t2 -> refers t1 id k -> ~ In (Exec k) t2 /\ forall r, ~ In (Reply k r) t2.
Proof.
  intros B E K Et k t1 id t2 H R. rewrite Et in H. apply split_events in H. destruct H as [(u & H & ->)|(u & H & ->)].
  - assert (W : was_cancelled (atrace s) k) by (exists t1, id, u; auto).
    pose proof (was_cancelled_in_range _ _ B W) as Hk. apply (en_cancel _ E _ Hk) in W.
    destruct (en_silent _ E _ _ _ _ H R) as [S1 S2]. split; [|intros r]; rewrite in_app_iff; intros [X|X].
    + exact (S1 X).
    + apply (kind_exec _ _ _ _ _ K) in X. destruct X; congruence.
    + exact (S2 _ X).
    + apply (kind_reply _ _ _ _ _ _ K) in X. destruct X; congruence.
  - destruct (kind_cancel _ _ _ _ id K) as [-> X]; [rewrite H; apply in_app_iff; right; now left|].
    rewrite X in H. destruct u as [|? [|? ?]]; [|discriminate H|discriminate H]. injection H as <-. cbn. tauto.
Qed.

(* How a transaction comes to its end *)
Lemma gone_step s s' m es k : base_ok s -> step_kind s s' m es -> (k < count s')%nat -> alive (t_phase (txs s' k)) = false ->
  (k < count s)%nat /\ t_spec (txs s' k) = t_spec (txs s k) /\ t_cancelled (txs s' k) = t_cancelled (txs s k) /\
  (alive (t_phase (txs s k)) = false \/
   ((exists r, t_phase (txs s k) = Ready r) /\ (t_cancelled (txs s k) = true \/ has_reply (t_spec (txs s k)) = false \/ (pool s = false /\ exists fin, es = Gone k :: fin))) \/
   (exists r, t_phase (txs s k) = InReply r)).
Proof.
  intros B K Hk Ha. destruct K.
  - assert (k <> count s) by (intros ->; rewrite Knew in Ha; cbn in Ha; destruct (pool s); discriminate). assert (Hk0 : (k < count s)%nat) by lia.
    rewrite (Kold _ Hk0) in *. auto 6.
  - rewrite Kcount in Hk. destruct (Ksame k) as (P1 & P2 & _). rewrite P1 in Ha. split; [exact Hk|].
    assert (N : ~ In (id, k) (tx_table s)) by (intros X; apply (tb_in _ (bo_table _ B)) in X; destruct X as (_ & _ & X); congruence).
    specialize (Kcancel _ Hk). split; [exact P2|]. split; [|tauto].
    destruct (t_cancelled (txs s' k)), (t_cancelled (txs s k)); try reflexivity.
    + destruct Kcancel as [H5 _]. destruct (H5 eq_refl); [discriminate|contradiction].
    + apply Kcancel. now left.
  - rewrite Kcount in Hk. rewrite Ktxs in *. auto.
  - rewrite Kcount in Hk. rewrite Ktxs in *. auto.
  - rewrite Kcount in Hk. rewrite Ktxs in *. auto.
  - rewrite (ch_count _ _ _ _ _ Kch) in Hk. rewrite (change_phase _ _ _ _ _ _ Kch) in Ha. split; [exact Hk|].
    rewrite (change_spec _ _ _ _ _ _ Kch), (change_cancelled _ _ _ _ _ _ Kch). split; [reflexivity|]. split; [reflexivity|].
    destruct (Nat.eqb_spec k k0) as [->|]; [|auto]. destruct (alive (t_phase (txs s k0))) eqn:Hal; [|auto]. right. auto.
Qed.

Lemma ends_step s m s' : base_ok s -> ends_ok s -> step s m = Some s' -> ends_ok s'.
Proof.
  intros B E H. pose proof (base_step _ _ _ B H) as B'.
  destruct (step_is _ _ _ (bo_lists _ B) (bo_table _ B) H) as (es & Et & K). split.
  - exact (cancel_step _ _ _ _ B B' K Et (en_cancel _ E)).
  - exact (silent_step _ _ _ _ B E K Et).
  - intros k Hk Ha Hc. rewrite Et, in_app_iff. left. destruct (gone_step _ _ _ _ _ B K Hk Ha) as (Hk0 & H1 & H2 & H3). rewrite H2 in Hc.
    destruct H3 as [H3|[((r & Hr) & _)|(r & Hr)]]; [apply (en_exec _ E); auto| |];
      (apply (in_life_of k); [cbn; apply Nat.eqb_refl|]); pose proof (lf_old _ (bo_life _ B) _ Hk0) as P; unfold phase_life in P; rewrite Hr in P; destruct P as [P P1]; rewrite P.
    + destruct r; [right; now left|]. rewrite (P1 eq_refl) in Hc. discriminate.
    + right; now left.
  - intros k Hk Ha Hc Hr. rewrite Et. destruct (gone_step _ _ _ _ _ B K Hk Ha) as (Hk0 & H1 & H2 & H3). rewrite H2 in Hc. rewrite H1 in Hr.
    destruct H3 as [H3|[((r & Hph) & [X|[X|(X & fin & ->)]])|(r & Hph)]]; try congruence.
    + destruct (en_reply _ E k Hk0 H3 Hc Hr) as [(r & X)|X]; [left; exists r; apply in_app_iff; auto|right; apply exited_more, X].
    + right. exists (atrace s), fin. split; [reflexivity|]. apply (en_pool _ E), X.
    + left. exists r. apply in_app_iff. left. apply (in_life_of k); [cbn; apply Nat.eqb_refl|].
      pose proof (lf_old _ (bo_life _ B) _ Hk0) as P; unfold phase_life in P; rewrite Hph in P; destruct P as [P P1]; rewrite P. cbn; auto.
  - rewrite Et, in_app_iff, <- (en_pool _ E).
    assert (X : In Exiting es <-> m = Exit) by (split; [intros X; apply (kind_exit _ _ _ _ K X)|intros ->; inversion K; [destruct Kwhich; discriminate|now left|contradiction]]).
    rewrite X. destruct K; try rewrite Kpool; try (split; [tauto|]; intros [?|?]; [assumption|discriminate]).
    + split; [tauto|]. intros [?|Hex]; [assumption|]. subst; destruct Kwhich; discriminate.
    + rewrite Kpool'. split; auto.
    + rewrite (ch_pool _ _ _ _ _ Kch). split; [tauto|]. intros [?|Hex]; [assumption|subst; contradiction].
  - intros k Hk. rewrite Et. destruct (Nat.ltb_spec k (count s)) as [Hk0|Hk0].
    + transitivity (t_phase (txs s k) = Lost); [|rewrite (en_lost _ E _ Hk0); split].
      * destruct K.
        -- rewrite Kold by exact Hk0. tauto.
        -- destruct (Ksame k) as (-> & _). tauto.
        -- rewrite Ktxs. tauto.
        -- rewrite Ktxs. tauto.
        -- rewrite Ktxs. tauto.
        -- rewrite (change_phase _ _ _ _ _ _ Kch). destruct (Nat.eqb_spec k k0) as [->|]; [|tauto]. split; congruence.
      * apply too_late_more.
      * intros (t1 & t2 & id & f & X & I). apply split_events in X. destruct X as [(u & X & _)|(u & X & ->)].
        -- exists t1, u, id, f. auto.
        -- exfalso. destruct (kind_started _ _ _ _ k id f K) as (_ & -> & _); [rewrite X; apply in_app_iff; right; now left|]. lia.
    + destruct (kind_count _ _ _ _ K) as [X|[X [f ->]]]; [lia|]. assert (k = count s) by lia. subst k. inversion K; subst; [|destruct Kwhich; discriminate|contradiction].
      rewrite Knew. cbn [t_phase]. rewrite <- Et. split.
      * intros Hp. exists (atrace s), [], id, f. split; [exact Et|]. apply (en_pool _ E). destruct (pool s); [discriminate|reflexivity].
      * intros (t1 & t2 & id1 & f1 & Y & I). rewrite Et in Y. apply split_events in Y. destruct Y as [(u & Y & _)|(u & Y & ->)].
        -- exfalso. assert (Z : In (Started (count s) id1 f1) (atrace s)) by (rewrite Y; apply in_app_iff; right; now left). apply (life_started _ _ _ _ B) in Z. lia.
        -- destruct u as [|? [|? ?]]; [|discriminate Y|discriminate Y]. rewrite app_nil_r in I. apply (en_pool _ E) in I. now rewrite I.
Qed.

(* ------------------------------------------------------------------ *)
(* References *)
Definition unfreed (s : astate) (n : nat) : Z :=
  fold_right Z.add 0 (map (fun k => if freed (t_phase (txs s k)) then 0 else 1) (seq 0 n)).

Lemma sum_app l1 l2 : fold_right Z.add 0 (l1 ++ l2) = fold_right Z.add 0 l1 + fold_right Z.add 0 l2.
Proof. induction l1; cbn; lia. Qed.
Lemma unfreed_S s n : unfreed s (S n) = unfreed s n + if freed (t_phase (txs s n)) then 0 else 1.
Proof.
  unfold unfreed. rewrite seq_S, map_app, sum_app. cbn. lia.
Qed.
Lemma unfreed_same s s' n : (forall k, (k < n)%nat -> freed (t_phase (txs s' k)) = freed (t_phase (txs s k))) -> unfreed s' n = unfreed s n.
Proof.
  intros H. induction n; [reflexivity|]. rewrite !unfreed_S, IHn, H by auto. reflexivity.
Qed.
Lemma unfreed_nonneg s n : 0 <= unfreed s n.
Proof. induction n; [reflexivity|]. rewrite unfreed_S. destruct (freed _); lia. Qed.
Lemma unfreed_zero s n k : unfreed s n = 0 -> (k < n)%nat -> t_phase (txs s k) = Freed.
Proof.
  induction n; [lia|]. rewrite unfreed_S. pose proof (unfreed_nonneg s n). intros H1 H2.
  destruct (t_phase (txs s n)) eqn:E; cbn [freed] in H1; try lia.
  destruct (Nat.eq_dec k n) as [->|]; [assumption|]. apply IHn; lia.
Qed.
Lemma unfreed_change s s' k p es n : change s s' k p es -> (k < n)%nat -> t_phase (txs s k) <> Freed -> unfreed s' n = unfreed s n - if freed p then 1 else 0.
Proof.
  intros C Hk Hf. induction n; [lia|]. rewrite !unfreed_S. rewrite (change_phase _ _ _ _ _ _ C).
  destruct (Nat.eqb_spec n k) as [->|E].
  - rewrite (unfreed_same s s' k). 2:{ intros j Hj. rewrite (change_phase _ _ _ _ _ _ C). destruct (Nat.eqb_spec j k); [lia|reflexivity]. }
    destruct (t_phase (txs s k)); try congruence; destruct p; cbn; lia.
  - rewrite IHn by lia. lia.
Qed.

Record refs_ok (s : astate) : Prop := {
  rf_sum : ipc_refs s = Z.of_nat (app_refs s) + unfreed s (count s);
  rf_freed : In IpcFreed (atrace s) <-> ipc_refs s = 0;
  rf_last : forall t1 t2, atrace s = t1 ++ IpcFreed :: t2 -> t2 = []
}.

Lemma refs_initial n : refs_ok (initial n).
Proof.
  split; cbn; [reflexivity| |].
  - split; [intros []|lia].
  - intros t1 t2 H. destruct t1; discriminate.
Qed.

Lemma split_last {A} (pre fin t1 t2 : list A) e : pre ++ fin = t1 ++ e :: t2 -> ~ In e pre -> (fin = [] \/ fin = [e]) -> t2 = [].
Proof.
  intros H N F. apply split_events in H. destruct H as [(u & -> & _)|(u & H & _)]; [exfalso; apply N, in_app_iff; right; now left|].
  destruct F as [->| ->]; [destruct u; discriminate|]. destruct u as [|? [|? ?]]; [now injection H|discriminate H|discriminate H].
Qed.

(* What remains after a step *)
Lemma refs_kind s s' m es : base_ok s -> refs_ok s -> step_kind s s' m es -> atrace s' = atrace s ++ es ->
  ipc_refs s' = Z.of_nat (app_refs s') + unfreed s' (count s') /\
  (ipc_refs s = 0 -> es = [] /\ ipc_refs s' = 0) /\
  (ipc_refs s > 0 -> exists pre, es = pre ++ (if ipc_refs s' =? 0 then [IpcFreed] else []) /\ ~ In IpcFreed pre).
Proof.
  intros B R K Et. pose proof (rf_sum _ R) as HS. pose proof (unfreed_nonneg s (count s)) as HN. destruct K.
  - rewrite Kcount, unfreed_S, Kapp, Krefs, (unfreed_same s s') by (intros; rewrite Kold by assumption; reflexivity). rewrite Knew. cbn [t_phase].
    split; [destruct (pool s); cbn [freed]; lia|]. split; [lia|]. intros _. exists [Started (count s) id f]. destruct (Z.eqb_spec (ipc_refs s + 1) 0); [lia|].
    split; [reflexivity|]. intros [X|[]]; discriminate.
  - rewrite Kcount, Kapp, Krefs, (unfreed_same s s') by (intros; now rewrite (proj1 (Ksame _))). split; [lia|]. split; [lia|]. intros _.
    destruct (Z.eqb_spec (ipc_refs s) 0); [lia|]. exists [CancelCalled id]. split; [reflexivity|]. intros [X|[]]; discriminate.
  - rewrite Kcount, (unfreed_same s s') by (intros; now rewrite Ktxs). destruct Kpos as (Kp1 & Kp2 & Kp3). split; [lia|]. split.
    + intros Hz. split; [reflexivity|]. destruct Kwhich as [->| ->]; [specialize (Kp1 eq_refl); lia|specialize (Kp2 eq_refl); lia].
    + intros Hz. destruct (Z.eqb_spec (ipc_refs s') 0); [lia|]. exists []. split; [reflexivity|]. intros [].
  - rewrite Kcount, Krefs, (unfreed_same s s') by (intros; now rewrite Ktxs). split; [lia|]. split; [lia|]. intros _. exists []. split; [reflexivity|intros []].
  - rewrite Kcount, Kapp, Krefs, (unfreed_same s s') by (intros; now rewrite Ktxs). split; [lia|]. split; [lia|]. intros _.
    destruct (Z.eqb_spec (ipc_refs s + 1) 0); [lia|]. exists [Exiting]. split; [reflexivity|]. intros [X|[]]; discriminate.
  - rewrite (ch_count _ _ _ _ _ Kch), (ch_app _ _ _ _ _ Kch), (ch_refs _ _ _ _ _ Kch), (unfreed_change _ _ _ _ _ (count s) Kch (ch_lt _ _ _ _ _ Kch) Knf).
    assert (Hpos : ipc_refs s > 0).
    { destruct (Z.eq_dec (unfreed s (count s)) 0) as [Z|]; [|lia]. destruct (Knf (unfreed_zero _ _ _ Z (ch_lt _ _ _ _ _ Kch))). }
    split; [lia|]. split; [lia|]. intros _.
    destruct Kes as [->|[->|[(r & ->)|[(r & -> & Hc)|(pre & fin & -> & Hp & ->)]]]].
    1-4: assert (Hfp : freed p = false) by (destruct (freed p); [|reflexivity]; destruct (Kfreed eq_refl) as [X|X]; cbn in X; intuition discriminate);
      rewrite Hfp; destruct (Z.eqb_spec (ipc_refs s - 0) 0); [lia|]; eexists; rewrite app_nil_r; split; [reflexivity|]; cbn; intuition discriminate.
    destruct (freed p) eqn:Hfp; cbn [andb].
    + exists pre. split; [reflexivity|]. intros X. apply Hp in X. tauto.
    + destruct (Z.eqb_spec (ipc_refs s - 0) 0); [lia|]. exists pre. split; [reflexivity|]. intros X. apply Hp in X. tauto.
Qed.

Lemma refs_step s m s' : base_ok s -> refs_ok s -> step s m = Some s' -> refs_ok s'.
Proof.
  intros B R H. destruct (step_is _ _ _ (bo_lists _ B) (bo_table _ B) H) as (es & Et & K).
  destruct (refs_kind _ _ _ _ B R K Et) as (H1 & H2 & H3). pose proof (rf_sum _ R). pose proof (unfreed_nonneg s (count s)).
  split; [exact H1| |].
  - rewrite Et, in_app_iff, (rf_freed _ R). destruct (Z.eq_dec (ipc_refs s) 0) as [Z|Z].
    + destruct (H2 Z) as [-> ->]. tauto.
    + destruct H3 as (pre & -> & N); [lia|]. rewrite in_app_iff. destruct (Z.eqb_spec (ipc_refs s') 0); cbn [In]; intuition.
  - intros t1 t2 E. rewrite Et in E. destruct (Z.eq_dec (ipc_refs s) 0) as [Z|Z].
    + destruct (H2 Z) as [-> _]. rewrite app_nil_r in E. exact (rf_last _ R _ _ E).
    + destruct H3 as (pre & -> & N); [lia|]. rewrite app_assoc in E. eapply split_last; [exact E| |].
      * rewrite in_app_iff, (rf_freed _ R). tauto.
      * destruct (_ =? 0); auto.
Qed.

(* ------------------------------------------------------------------ *)
(* Everything holds all the time *)
Record good (s : astate) : Prop := { gd_base : base_ok s; gd_ends : ends_ok s; gd_refs : refs_ok s }.

Lemma good_initial n : good (initial n).
Proof. split; auto using base_initial, ends_initial, refs_initial. Qed.
Lemma good_step s m s' : good s -> step s m = Some s' -> good s'.
Proof. intros [B E R] H. split; eauto using base_step, ends_step, refs_step. Qed.
Lemma good_run s l s' : good s -> run s l = Some s' -> good s'.
Proof.
  revert s. induction l as [|m l IH]; intros s G H; cbn [run] in H; [injection H as <-; exact G|].
  destruct (step s m) as [s1|] eqn:E; [|discriminate]. eapply IH; [|exact H]. eapply good_step; eauto.
Qed.
