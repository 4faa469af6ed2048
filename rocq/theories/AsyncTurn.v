From Verif Require Import Base AsyncModel AsyncSpec AsyncProofs AsyncLife AsyncEnds.

(* ------------------------------------------------------------------ *)
(* Every moment is a moment of a life *)
Lemma whole_life_intro k id f pe re : middle k f pe re ->
  whole_life k (Started k id f :: pe ++ re ++ Gone k :: (if has_destroy f then [Destroy k; DestroyEnd k] else [])).
Proof. intros M. exists id, f, pe, re. split; [reflexivity|exact M]. Qed.

Lemma phase_in_life k t l : phase_life k t l -> in_life k l.
Proof.
  unfold phase_life, in_life. intros P. set (fin := Gone k :: (if has_destroy (t_spec t) then [Destroy k; DestroyEnd k] else [])).
  assert (M0 : middle k (t_spec t) [] []) by (left; auto).
  assert (M1 : forall v, middle k (t_spec t) [Exec k; ExecEnd k v] []) by (intros v; right; exists v; auto).
  destruct (t_phase t).
  - exists fin. rewrite P. exact (whole_life_intro _ _ _ _ _ M0).
  - destruct P as [-> _]. destruct called.
    + exists (ExecEnd k 0 :: fin). exact (whole_life_intro _ _ _ _ _ (M1 0)).
    + exists fin. exact (whole_life_intro _ _ _ _ _ M0).
  - destruct P as [-> _]. exists fin. destruct result as [v|]; [exact (whole_life_intro _ _ _ _ _ (M1 v))|exact (whole_life_intro _ _ _ _ _ M0)].
  - destruct P as [-> Hr]. exists (ReplyEnd k :: fin).
    refine (whole_life_intro _ _ _ [Exec k; ExecEnd k result] [Reply k result; ReplyEnd k] _). right. exists result. auto.
  - destruct P as (Hd & pe & re & M & ->). exists [DestroyEnd k]. pose proof (whole_life_intro k (t_id t) _ _ _ M) as W. rewrite Hd in W.
    cbn [app]. rewrite <- !app_assoc. exact W.
  - destruct P as (pe & re & M & ->). exists []. rewrite app_nil_r. exact (whole_life_intro _ _ _ _ _ M).
  - exists fin. rewrite P. exact (whole_life_intro _ _ _ _ _ M0).
Qed.

Lemma good_in_life s k : good s -> in_life k (life_of k (atrace s)).
Proof.
  intros G. pose proof (bo_life _ (gd_base _ G)) as L. destruct (Nat.ltb_spec k (count s)) as [H|H].
  - eapply phase_in_life. apply (lf_old _ L), H.
  - rewrite (lf_new _ L _ H). eexists. exact (whole_life_intro k 0 {| has_reply := false; has_destroy := false |} [] [] (or_introl (conj eq_refl eq_refl))).
Qed.

Lemma freed_whole s k : good s -> (k < count s)%nat -> t_phase (txs s k) = Freed -> whole_life k (life_of k (atrace s)).
Proof.
  intros G Hk Hf. pose proof (lf_old _ (bo_life _ (gd_base _ G)) _ Hk) as P. unfold phase_life in P. rewrite Hf in P.
  destruct P as (pe & re & M & ->). now apply whole_life_intro.
Qed.

(* ------------------------------------------------------------------ *)
(* Until nothing is left to do *)

Lemma quiet_phase s k : good s -> quiet s -> (k < count s)%nat -> t_phase (txs s k) = Freed \/ t_phase (txs s k) = Lost.
Proof.
  intros G [Q1 Q2] Hk. pose proof (bo_lists _ (gd_base _ G)) as L. destruct (t_phase (txs s k)) eqn:E; auto; exfalso.
  - assert (X : In k (queue s)) by (apply (lo_queue _ L); rewrite E; split; [assumption|reflexivity]).
    destruct (queue s) as [|j q] eqn:Eq; [destruct X|].
    destruct (step s Work) as [s1|] eqn:Es; [exact (Q2 _ _ Es)|]. cbn [step] in Es. rewrite Eq in Es. destruct (t_cancelled _); discriminate.
  - destruct (step s (Finish k 0)) as [s1|] eqn:Es; [exact (Q2 _ _ Es)|]. cbn [step] in Es. rewrite E in Es. destruct called; discriminate.
  - assert (X : In k (ready s)) by (apply (lo_ready _ L); rewrite E; split; [assumption|exact I]).
    destruct (step s (Dispatch k)) as [s1|] eqn:Es; [exact (Q2 _ _ Es)|]. cbn [step] in Es. rewrite E in Es. destruct (in_dec _ _ _); [discriminate|contradiction].
  - assert (X : In k (stack s)) by (apply (lo_stack _ L); rewrite E; split; [assumption|exact I]). rewrite Q1 in X. destruct X.
  - assert (X : In k (stack s)) by (apply (lo_stack _ L); rewrite E; split; [assumption|exact I]). rewrite Q1 in X. destruct X.
Qed.

Definition weight (p : phase) : nat :=
  match p with Queued => 5 | Executing _ => 4 | Ready _ => 3 | InReply _ => 2 | InDestroy => 1 | Freed | Lost => 0 end.
Definition load_left (s : astate) (n : nat) : nat := list_sum (map (fun k => weight (t_phase (txs s k))) (seq 0 n)).

Lemma load_S s n : load_left s (S n) = (load_left s n + weight (t_phase (txs s n)))%nat.
Proof. unfold load_left. rewrite seq_S, map_app, list_sum_app. cbn. lia. Qed.
Lemma load_bound s n : (load_left s n <= 5 * n)%nat.
Proof. induction n; [reflexivity|]. rewrite load_S. destruct (t_phase (txs s n)); cbn [weight]; lia. Qed.
Lemma load_change s s' k p es n : change s s' k p es -> (k < n)%nat ->
  (load_left s' n + weight (t_phase (txs s k)) = load_left s n + weight p)%nat.
Proof.
  intros C. induction n; [lia|]. intros Hk. rewrite !load_S. rewrite (change_phase _ _ _ _ _ _ C). destruct (Nat.eqb_spec n k) as [->|E].
  - assert (load_left s' k = load_left s k); [|lia]. unfold load_left. f_equal. apply map_ext_in. intros j Hj. apply in_seq in Hj.
    rewrite (change_phase _ _ _ _ _ _ C). destruct (Nat.eqb_spec j k); [lia|reflexivity].
  - specialize (IHn ltac:(lia)). lia.
Qed.

Lemma internal_count s m s' : good s -> internal m -> step s m = Some s' -> count s' = count s /\ (load_left s' (count s') < load_left s (count s))%nat.
Proof.
  intros G I H. pose proof (step_moved _ _ _ (bo_lists _ (gd_base _ G)) H) as M. destruct m; try destruct I; cbn [moved] in M.
  - destruct M as (r & Hr & M). destruct (_ && _).
    + cbv zeta in M. rewrite (ch_count _ _ _ _ _ M). pose proof (load_change _ _ _ _ _ _ M (ch_lt _ _ _ _ _ M)) as X. rewrite Hr in X. cbn [weight] in X. lia.
    + destruct M as (p & fin & M & Hf). rewrite (ch_count _ _ _ _ _ M). pose proof (load_change _ _ _ _ _ _ M (ch_lt _ _ _ _ _ M)) as X. rewrite Hr in X.
      destruct (has_destroy _); destruct Hf as [-> _]; cbn [weight] in X; lia.
  - destruct M as (k & [(r & p & fin & Hr & M & Hf)|(Hr & M)]); rewrite (ch_count _ _ _ _ _ M); pose proof (load_change _ _ _ _ _ _ M (ch_lt _ _ _ _ _ M)) as X; rewrite Hr in X.
    + destruct (has_destroy _); destruct Hf as [-> _]; cbn [weight] in X; lia.
    + cbn [weight] in X. lia.
  - destruct M as (k & p & Hr & Hp & M). rewrite (ch_count _ _ _ _ _ M). pose proof (load_change _ _ _ _ _ _ M (ch_lt _ _ _ _ _ M)) as X. rewrite Hr, Hp in X. cbn [weight] in X. lia.
  - destruct M as (c & Hr & M). rewrite (ch_count _ _ _ _ _ M). pose proof (load_change _ _ _ _ _ _ M (ch_lt _ _ _ _ _ M)) as X. rewrite Hr in X. cbn [weight] in X. lia.
Qed.

Lemma internal_bounded s l s' : good s -> Forall internal l -> run s l = Some s' -> (length l <= load_left s (count s))%nat.
Proof.
  revert s. induction l as [|m l IH]; intros s G F H; [cbn; lia|]. cbn [run] in H. apply Forall_cons_iff in F. destruct F as [F1 F2].
  destruct (step s m) as [s1|] eqn:E; [|discriminate]. pose proof (internal_count _ _ _ G F1 E) as [X1 X2].
  specialize (IH _ (good_step _ _ _ G E) F2 H). cbn [length]. lia.
Qed.

(* Which internal step is possible *)
Definition next_move (s : astate) : option move :=
  match stack s with
  | _ :: _ => Some Return
  | [] =>
    match ready s with
    | k :: _ => Some (Dispatch k)
    | [] =>
      match queue s with
      | _ :: _ => Some Work
      | [] =>
        match find (fun k => match t_phase (txs s k) with Executing _ => true | _ => false end) (seq 0 (count s)) with
        | Some k => Some (Finish k 0)
        | None => None
        end
      end
    end
  end.

Lemma next_move_some s m : good s -> next_move s = Some m -> internal m /\ step s m <> None.
Proof.
  intros G. pose proof (bo_lists _ (gd_base _ G)) as L. unfold next_move.
  destruct (stack s) as [|k st] eqn:Es.
  - destruct (ready s) as [|k r] eqn:Er.
    + destruct (queue s) as [|k q] eqn:Eq.
      * destruct (find _ _) as [k|] eqn:Ef; [|discriminate]. apply find_some in Ef. destruct Ef as [_ Ef]. intros [= <-]. split; [exact I|].
        cbn [step]. destruct (t_phase (txs s k)); try discriminate. destruct called; discriminate.
      * intros [= <-]. split; [exact I|]. cbn [step]. rewrite Eq. destruct (t_cancelled _); discriminate.
    + intros [= <-]. split; [exact I|]. cbn [step]. assert (X : In k (ready s)) by (rewrite Er; now left).
      pose proof (proj1 (lo_ready _ L k) X) as [_ Y]. destruct (t_phase (txs s k)); try destruct Y. destruct (in_dec _ _ _); [discriminate|contradiction].
  - intros [= <-]. split; [exact I|]. cbn [step]. rewrite Es. assert (X : In k (stack s)) by (rewrite Es; now left).
    pose proof (proj1 (lo_stack _ L k) X) as [_ Y]. destruct (t_phase (txs s k)); try destruct Y; discriminate.
Qed.

Lemma next_move_none s : good s -> next_move s = None -> quiet s.
Proof.
  intros G. pose proof (bo_lists _ (gd_base _ G)) as L. unfold next_move.
  destruct (stack s) as [|k st] eqn:Es; [|discriminate]. destruct (ready s) as [|k r] eqn:Er; [|discriminate].
  destruct (queue s) as [|k q] eqn:Eq; [|discriminate]. destruct (find _ _) as [k|] eqn:Ef; [discriminate|]. intros _.
  split; [exact Es|]. intros m s1 H. destruct m; auto; cbn [step] in H.
  - destruct (t_phase _); try discriminate. destruct (in_dec _ _ _) as [X|]; [|discriminate]. rewrite Er in X. destruct X.
  - rewrite Es in H. discriminate.
  - rewrite Eq in H. discriminate.
  - destruct (Nat.ltb_spec k (count s)) as [Hk|Hk].
    + pose proof (find_none _ _ Ef k) as X. cbn beta in X. rewrite in_seq in X. specialize (X ltac:(lia)). destruct (t_phase (txs s k)); discriminate.
    + rewrite (lo_none _ L _ Hk) in H. discriminate.
Qed.

Lemma comes_to_rest n : forall s, good s -> (load_left s (count s) <= n)%nat -> exists l s', Forall internal l /\ run s l = Some s' /\ quiet s'.
Proof.
  induction n as [|n IH]; intros s G Hn; destruct (next_move s) as [m|] eqn:E.
  - destruct (next_move_some _ _ G E) as [I X]. destruct (step s m) as [s1|] eqn:Es; [|contradiction]. pose proof (internal_count _ _ _ G I Es). lia.
  - exists [], s. split; [constructor|]. split; [reflexivity|apply next_move_none; assumption].
  - destruct (next_move_some _ _ G E) as [I X]. destruct (step s m) as [s1|] eqn:Es; [|contradiction]. pose proof (internal_count _ _ _ G I Es) as [_ Y].
    destruct (IH s1 (good_step _ _ _ G Es) ltac:(lia)) as (l & s' & H1 & H2 & H3). exists (m :: l), s'. split; [constructor; assumption|]. cbn [run]. rewrite Es. auto.
  - exists [], s. split; [constructor|]. split; [reflexivity|apply next_move_none; assumption].
Qed.

(* ------------------------------------------------------------------ *)
(* Ids *)
Definition all_ids := 2 ^ 32 - 1.
Definition norm (n : Z) : Z := if n =? 0 then 1 else n.

Lemma tx_new_id_norm n : 0 <= n < 2 ^ 32 -> exists n', tx_new_id n = (norm n, n') /\ 0 <= n' < 2 ^ 32 /\ norm n' = 1 + (norm n) mod all_ids.
Proof.
  intros Hn. unfold tx_new_id, norm, u32, all_ids. rewrite (Z.mod_small n) by lia. destruct (Z.eqb_spec n 0) as [->|E].
  - eexists. split; [reflexivity|]. vm_compute. auto. repeat split; discriminate.
  - eexists. split; [reflexivity|]. split; [apply Z.mod_pos_bound; lia|]. destruct (Z.eq_dec n (2 ^ 32 - 1)) as [->|F].
    + reflexivity.
    + rewrite (Z.mod_small (n + 1)) by lia. rewrite Z.mod_small by lia. destruct (Z.eqb_spec (n + 1) 0); lia.
Qed.

Lemma tx_get_id_none fuel : forall table n, 0 <= n < 2 ^ 32 -> tx_get_id fuel table n = None ->
  forall j, 0 <= j < Z.of_nat fuel -> In (1 + (norm n - 1 + j) mod all_ids) (map fst table).
Proof.
  induction fuel as [|fuel IH]; intros table n Hn H j Hj; [lia|]. cbn [tx_get_id] in H.
  assert (Hm : 1 <= norm n <= all_ids) by (unfold norm, all_ids; destruct (Z.eqb_spec n 0); lia).
  destruct (tx_new_id_norm n Hn) as (n' & E & Hn' & Hnn). rewrite E in H. destruct (in_table table (norm n)) eqn:Et; [|discriminate].
  destruct (Z.eq_dec j 0) as [->|Hj0].
  - rewrite Z.add_0_r, Z.mod_small by lia. replace (1 + (norm n - 1)) with (norm n) by lia.
    destruct (in_dec Z.eq_dec (norm n) (map fst table)) as [X|X]; [exact X|]. apply in_table_false in X. congruence.
  - pose proof (IH table n' Hn' H (j - 1) ltac:(lia)) as X. rewrite Hnn in X.
    replace (1 + norm n mod all_ids - 1 + (j - 1)) with (norm n mod all_ids + (j - 1)) in X by lia.
    rewrite Zplus_mod_idemp_l in X. replace (norm n + (j - 1)) with (norm n - 1 + j) in X by lia. exact X.
Qed.

Lemma nodup_range (m : nat) l : NoDup l -> (forall x, In x l -> 1 <= x <= Z.of_nat m) -> (length l <= m)%nat.
Proof.
  intros N H. assert (X : incl l (map Z.of_nat (seq 1 m))).
  { intros x Hx. specialize (H x Hx). apply in_map_iff. exists (Z.to_nat x). split; [lia|]. apply in_seq. lia. }
  pose proof (NoDup_incl_length N X) as Y. rewrite map_length, seq_length in Y. exact Y.
Qed.

Lemma map_nodup_in {A B} (g : A -> B) l : (forall a b, In a l -> In b l -> g a = g b -> a = b) -> NoDup l -> NoDup (map g l).
Proof.
  induction l as [|x l IH]; intros H N; [constructor|]. apply NoDup_cons_iff in N. destruct N as [N1 N2]. cbn [map]. constructor.
  - rewrite in_map_iff. intros (y & E & Hy). apply N1. rewrite (H x y); [exact Hy|now left|now right|auto].
  - apply IH; [|exact N2]. intros a b Ha Hb. apply H; now right.
Qed.

Lemma tx_get_id_some table n free : 0 <= n < 2 ^ 32 -> NoDup (map fst table) -> (forall id, In id (map fst table) -> 0 < id < 2 ^ 32) ->
  0 < free < 2 ^ 32 -> ~ In free (map fst table) -> tx_get_id (S (length table)) table n <> None.
Proof.
  intros Hn N R Hf Hnf H.
  pose proof (tx_get_id_none _ _ _ Hn H) as X.
  assert (Hlen : (S (length table) <= Z.to_nat all_ids)%nat).
  { pose proof (nodup_range (Z.to_nat all_ids) (free :: map fst table)) as Y. cbn [length] in Y. rewrite map_length in Y. apply Y.
    - constructor; assumption.
    - intros x [<-|Hx]; [unfold all_ids; lia|]. specialize (R _ Hx). unfold all_ids. lia. }
  assert (HM : 0 < all_ids) by reflexivity.
  assert (L : (length (map (fun j : nat => (1 + (norm n - 1 + Z.of_nat j) mod all_ids)%Z) (seq 0 (S (length table)))) <= length (map fst table))%nat).
  { apply NoDup_incl_length.
    - apply map_nodup_in; [|apply seq_NoDup]. intros a b Ha Hb E. apply in_seq in Ha, Hb.
      assert (E1 : (norm n - 1 + Z.of_nat a) mod all_ids = (norm n - 1 + Z.of_nat b) mod all_ids) by lia.
      apply (f_equal (fun z => (z - (norm n - 1)) mod all_ids)) in E1. rewrite !Zminus_mod_idemp_l in E1.
      replace (norm n - 1 + Z.of_nat a - (norm n - 1)) with (Z.of_nat a) in E1 by lia. replace (norm n - 1 + Z.of_nat b - (norm n - 1)) with (Z.of_nat b) in E1 by lia.
      rewrite !Z.mod_small in E1 by lia. lia.
    - intros x Hx. apply in_map_iff in Hx. destruct Hx as (j & <- & Hj). apply in_seq in Hj. apply X. lia. }
  rewrite !map_length, seq_length in L. lia.
Qed.

Lemma keys_in_table s id : good s -> (In id (map fst (tx_table s)) <-> exists k, refers (atrace s) id k).
Proof.
  intros G. rewrite in_map_iff. split.
  - intros ([i k] & <- & H). exists k. apply refers_table; [apply gd_base, G|exact H].
  - intros [k H]. apply refers_table in H; [|apply gd_base, G]. exists (id, k). auto.
Qed.
Lemma transact_returns s f free : good s -> 0 < ipc_refs s -> 0 < free < 2 ^ 32 -> (forall k, ~ refers (atrace s) free k) -> step s (Transact f) <> None.
Proof.
  intros G Hr Hf Hn. pose proof (bo_table _ (gd_base _ G)) as T. cbn [step]. destruct (Z.ltb_spec 0 (ipc_refs s)); [|lia]. unfold ipc_transact.
  destruct (tx_get_id _ _ _) as [[? ?]|] eqn:E; [discriminate|]. exfalso. revert E. eapply tx_get_id_some; [apply T|apply T| |exact Hf|].
  - intros id Hid. apply in_map_iff in Hid. destruct Hid as ([i k] & <- & H1). apply (tb_in _ T) in H1. destruct H1 as (H1 & -> & _). apply (tb_ids _ T _ H1).
  - rewrite keys_in_table by exact G. intros [k X]. exact (Hn k X).
Qed.

(* ------------------------------------------------------------------ *)
Lemma started_end s k id f : good s -> In (Started k id f) (atrace s) -> In (Gone k) (atrace s) -> ~ was_cancelled (atrace s) k ->
  In (Exec k) (atrace s) /\ (has_reply f = true -> (exists r, In (Reply k r) (atrace s)) \/ exited_first (atrace s) k).
Proof.
  intros G H1 H2 H3. pose proof (gd_base _ G) as B. pose proof (gd_ends _ G) as E. destruct (life_started _ _ _ _ B H1) as (Hk & -> & ->).
  apply (life_gone _ _ B Hk) in H2.
  assert (Hc : t_cancelled (txs s k) = false) by (destruct (t_cancelled (txs s k)) eqn:X; [|reflexivity]; apply (en_cancel _ E _ Hk) in X; contradiction).
  split; [apply (en_exec _ E); assumption|]. intros Hr. apply (en_reply _ E); assumption.
Qed.

Lemma quiet_end s k id f : good s -> quiet s -> In (Started k id f) (atrace s) -> whole_life k (life_of k (atrace s)) \/ too_late (atrace s) k.
Proof.
  intros G Q H. destruct (life_started _ _ _ _ (gd_base _ G) H) as (Hk & _ & _). destruct (quiet_phase _ _ G Q Hk) as [X|X].
  - left. apply freed_whole; assumption.
  - right. apply (en_lost _ (gd_ends _ G)); assumption.
Qed.

Lemma too_late_life s k : good s -> too_late (atrace s) k -> exists id f, life_of k (atrace s) = [Started k id f].
Proof.
  intros G X. assert (Hk : (k < count s)%nat).
  { destruct X as (t1 & t2 & id & f & E & _). eapply life_started; [apply (gd_base _ G)|]. rewrite E. apply in_app_iff. right. now left. }
  apply (en_lost _ (gd_ends _ G) _ Hk) in X. pose proof (lf_old _ (bo_life _ (gd_base _ G)) _ Hk) as P. unfold phase_life in P. rewrite X in P. eauto.
Qed.

Lemma ipc_freed_end s : good s -> In IpcFreed (atrace s) ->
  (forall t1 t2, atrace s = t1 ++ IpcFreed :: t2 -> t2 = []) /\ app_refs s = 0%nat /\
  forall k id f, In (Started k id f) (atrace s) -> whole_life k (life_of k (atrace s)).
Proof.
  intros G H. pose proof (gd_refs _ G) as R. split; [apply (rf_last _ R)|]. apply (rf_freed _ R) in H. pose proof (rf_sum _ R) as S. pose proof (unfreed_nonneg s (count s)).
  split; [lia|]. intros k id f Hs. destruct (life_started _ _ _ _ (gd_base _ G) Hs) as (Hk & _ & _). apply freed_whole; [assumption|assumption|].
  eapply unfreed_zero; [|exact Hk]. lia.
Qed.

Lemma ipc_alive s : good s -> (0 < app_refs s)%nat -> ~ In IpcFreed (atrace s).
Proof.
  intros G H X. apply (rf_freed _ (gd_refs _ G)) in X. pose proof (rf_sum _ (gd_refs _ G)). pose proof (unfreed_nonneg s (count s)). lia.
Qed.

Lemma worker_events s m s' : good s -> (m = Work \/ exists k r, m = Finish k r) -> step s m = Some s' ->
  exists es, atrace s' = atrace s ++ es /\ forall e, In e es -> exists k, e = Exec k \/ exists r, e = ExecEnd k r.
Proof.
  intros G Hm H. pose proof (step_moved _ _ _ (bo_lists _ (gd_base _ G)) H) as M.
  destruct Hm as [->|(k & r & ->)]; cbn [moved] in M.
  - destruct M as (k & p & _ & _ & M). eexists. split; [apply (ch_trace _ _ _ _ _ M)|]. intros e He. destruct (t_cancelled _); [destruct He|]. destruct He as [<-|[]]. eauto.
  - destruct M as (c & _ & M). eexists. split; [apply (ch_trace _ _ _ _ _ M)|]. intros e He. destruct c; [|destruct He]. destruct He as [<-|[]]. eauto.
Qed.

Lemma new_id s f s' : good s -> step s (Transact f) = Some s' ->
  exists id, atrace s' = atrace s ++ [Started (count s) id f] /\ 0 < id < 2 ^ 32 /\ forall k, ~ refers (atrace s) id k.
Proof.
  intros G H. pose proof (gd_base _ G) as B. pose proof (good_step _ _ _ G H) as G'.
  destruct (step_is _ _ _ (bo_lists _ B) (bo_table _ B) H) as (es & Et & K). inversion K; subst; [|destruct Kwhich; discriminate|contradiction].
  exists id. split; [exact Et|]. split.
  - pose proof (tb_ids _ (bo_table _ (gd_base _ G')) (count s)) as X. rewrite Knew in X. apply X. lia.
  - intros k X. apply Kid, keys_in_table; [assumption|]. eauto.
Qed.

Lemma one_per_id s id j k : good s -> refers (atrace s) id j -> refers (atrace s) id k -> j = k.
Proof.
  intros G H1 H2. apply refers_table in H1, H2; try apply (gd_base _ G). pose proof (tb_keys _ (bo_table _ (gd_base _ G))) as N.
  apply (lookup_in _ _ _ N) in H1, H2. congruence.
Qed.

Lemma cancel_none s id s' : good s -> step s (Cancel id) = Some s' -> (forall k, ~ refers (atrace s) id k) -> s' = add_event s (CancelCalled id).
Proof.
  intros G H Hn. cbn [step] in H. destruct (_ <? _); [|discriminate]. injection H as <-. unfold ipc_cancel. destruct (id =? 0); [reflexivity|].
  destruct (table_lookup (tx_table s) id) as [k|] eqn:E; [|reflexivity]. exfalso. apply (Hn k).
  apply refers_table; [apply (gd_base _ G)|]. apply lookup_in; [apply (tb_keys _ (bo_table _ (gd_base _ G)))|exact E].
Qed.
Lemma cancel_one s id s' k : good s -> step s (Cancel id) = Some s' -> refers (atrace s) id k ->
  s' = set_tx (add_event s (CancelCalled id)) k {| t_id := id; t_spec := t_spec (txs s k); t_cancelled := true; t_phase := t_phase (txs s k) |}.
Proof.
  intros G H R. apply refers_table in R; [|apply (gd_base _ G)]. pose proof (bo_table _ (gd_base _ G)) as T.
  pose proof (proj1 (tb_in _ T _ _) R) as (Hk & Hid & _). pose proof (tb_ids _ T _ Hk).
  cbn [step] in H. destruct (_ <? _); [|discriminate]. injection H as <-. unfold ipc_cancel. destruct (Z.eqb_spec id 0); [lia|].
  apply (lookup_in _ _ _ (tb_keys _ T)) in R. rewrite R, <- Hid. reflexivity.
Qed.
