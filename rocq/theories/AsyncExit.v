(* gbinder_ipc_exit waits for the worker threads *)
From Verif Require Import Base AsyncModel AsyncSpec AsyncProofs AsyncLife AsyncEnds.

Definition busy (p : phase) : bool := match p with Queued | Executing _ => true | _ => false end.

Lemma exit_idle s s' : lists_ok s -> step s Exit = Some s' ->
  atrace s' = atrace s ++ [Exiting] /\ pool s' = false /\ txs s' = txs s /\ count s' = count s /\
  forall k, busy (t_phase (txs s k)) = false.
Proof.
  intros L H. cbn [step] in H. destruct (pool s); [|discriminate]. destruct (0 <? ipc_refs s); [|discriminate]. cbn [andb] in H.
  destruct (queue s) eqn:Q; [|discriminate]. destruct (stack s); [|discriminate]. cbn [andb] in H.
  destruct (forallb _ _) eqn:F; [|discriminate]. injection H as <-. cbn [atrace pool txs count].
  do 4 (split; [reflexivity|]). intros k. destruct (Nat.lt_ge_cases k (count s)) as [K|K].
  - rewrite forallb_forall in F. assert (Y : In k (seq 0 (count s))) by (apply in_seq; lia). specialize (F k Y). clear Y.
    pose proof (proj2 (lo_queue _ L k)) as N. rewrite Q in N. cbn [In] in N.
    destruct (t_phase (txs s k)) eqn:P; try reflexivity; [|discriminate]. exfalso. apply N. split; [exact K|reflexivity].
  - now rewrite (lo_none _ L _ K).
Qed.

Definition no_work (es : list aev) : Prop := forall k, ~ In (Exec k) es /\ forall r, ~ In (ExecEnd k r) es.

Lemma change_idle s s' k p es : change s s' k p es -> busy p = false -> no_work es ->
  pool s = false -> (forall j, busy (t_phase (txs s j)) = false) ->
  pool s' = false /\ (forall j, busy (t_phase (txs s' j)) = false) /\ exists es, atrace s' = atrace s ++ es /\ no_work es.
Proof.
  intros C Bp N P B. split; [rewrite (ch_pool _ _ _ _ _ C); exact P|]. split.
  - intros j. rewrite (ch_tx _ _ _ _ _ C). destruct (Nat.eqb j k); [exact Bp|apply B].
  - exists es. split; [exact (ch_trace _ _ _ _ _ C)|exact N].
Qed.

Lemma gone_no_work k fin (d : bool) p (r : Z) :
  (if d then p = InDestroy /\ fin = [Destroy k] else p = Freed /\ fin = if r =? 0 then [IpcFreed] else []) ->
  busy p = false /\ no_work (Gone k :: fin) /\ no_work (ReplyEnd k :: Gone k :: fin).
Proof.
  intros H. destruct d; destruct H as [-> ->]; (split; [reflexivity|]); [|destruct (r =? 0)];
    split; intros j; cbn [In]; intuition discriminate.
Qed.

Lemma idle_kept s m s' : lists_ok s -> table_ok s -> pool s = false -> (forall k, busy (t_phase (txs s k)) = false) ->
  step s m = Some s' -> pool s' = false /\ (forall k, busy (t_phase (txs s' k)) = false) /\
  exists es, atrace s' = atrace s ++ es /\ no_work es.
Proof.
  intros L T P B H. pose proof (step_moved _ _ _ L H) as M. destruct (step_is _ _ _ L T H) as (es & E & K).
  destruct m; cbn [moved] in M.
  6:{ destruct M as (r & Hr & M). destruct (_ && _).
      - cbv zeta in M. eapply change_idle; [exact M|reflexivity| |exact P|exact B]. intros j. cbn [In]. intuition discriminate.
      - destruct M as (p & fin & M & F). destruct (gone_no_work _ _ _ _ _ F) as (F1 & F2 & _). eapply change_idle; eauto. }
  6:{ destruct M as (k & [(r & p & fin & Hr & M & F)|(Hr & M)]).
      - destruct (gone_no_work _ _ _ _ _ F) as (F1 & _ & F2). eapply change_idle; eauto.
      - eapply change_idle; [exact M|reflexivity| |exact P|exact B]. intros j. destruct (_ =? 0); cbn [In]; intuition discriminate. }
  6:{ destruct M as (k & p & Q & _). specialize (B k). rewrite Q in B. discriminate. }
  6:{ destruct M as (c & Q & _). specialize (B k). rewrite Q in B. discriminate. }
  7:{ destruct M as (_ & r & p & fin & Hr & M & F). destruct (gone_no_work _ _ _ _ _ F) as (F1 & F2 & _). eapply change_idle; eauto. }
  all: inversion K; subst; try contradiction; try (destruct Kwhich; discriminate).
  - split; [congruence|]. split.
    + intros k. destruct (Nat.lt_ge_cases k (count s)) as [X|X]; [rewrite (Kold _ X); apply B|].
      destruct (Nat.eq_dec k (count s)) as [->|X']; [rewrite Knew, P; reflexivity|].
      pose proof (lists_step _ _ _ L H) as L'. rewrite (lo_none _ L' k); [reflexivity|lia].
    + exists [Started (count s) id f]. split; [exact E|]. intros k. cbn. intuition discriminate.
  - split; [congruence|]. split; [intros k; rewrite (proj1 (Ksame k)); apply B|].
    exists [CancelCalled id]. split; [exact E|]. intros k. cbn. intuition discriminate.
  - split; [congruence|]. split; [intros k; rewrite Ktxs; apply B|]. exists []. split; [exact E|]. intros k. cbn. tauto.
  - split; [congruence|]. split; [intros k; rewrite Ktxs; apply B|]. exists (if ipc_refs s - 1 =? 0 then [IpcFreed] else []).
    split; [exact E|]. intros k. destruct (_ =? 0); cbn; intuition discriminate.
  - split; [congruence|]. split; [intros k; rewrite Ktxs; apply B|]. exists []. split; [exact E|]. intros k. cbn. tauto.
  - congruence.
Qed.

(* What had been handed over to the worker threads *)
Definition settled (t1 : list aev) : Prop := forall k,
  (In (Exec k) t1 -> exists r, In (ExecEnd k r) t1) /\
  (forall id f, In (Started k id f) t1 -> ~ was_cancelled t1 k -> In (Exec k) t1).

Lemma life_in k t e : about k e = true -> (In e (life_of k t) <-> In e t).
Proof. intros A. unfold life_of. rewrite filter_In. tauto. Qed.

Lemma idle_settled s : good s -> ~ In Exiting (atrace s) -> (forall k, busy (t_phase (txs s k)) = false) -> settled (atrace s).
Proof.
  intros G X B k. pose proof (gd_base _ G) as [L T Li]. pose proof (gd_ends _ G) as En.
  assert (A1 : about k (Exec k) = true) by (cbn; apply Nat.eqb_refl).
  assert (A2 : forall r, about k (ExecEnd k r) = true) by (intros; cbn; apply Nat.eqb_refl).
  destruct (Nat.lt_ge_cases k (count s)) as [K|K].
  - pose proof (lf_old _ Li _ K) as Ph. pose proof (B k) as Bk.
    assert (Q : forall e, about k e = true -> In e (life_of k (atrace s)) -> In e (atrace s)) by (intros e A; apply life_in; exact A).
    assert (Lost_ : t_phase (txs s k) <> Lost).
    { intros HL. apply (en_lost _ En _ K) in HL. destruct HL as (t1 & t2 & id & f & E & Hx). apply X. rewrite E. apply in_app_iff. now left. }
    assert (Z1 : In (Exec k) (atrace s) /\ (exists r, In (ExecEnd k r) (atrace s)) \/
                 (~ In (Exec k) (atrace s) /\ t_cancelled (txs s k) = true)).
    { unfold phase_life in Ph. destruct (t_phase (txs s k)) as [|c|r|v| | |] eqn:HP; try discriminate; [| | | |congruence].
      - destruct Ph as [El Hc]. destruct r as [v|].
        + left. split; [|exists v]; apply Q; auto; rewrite El; cbn; auto.
        + right. split; [|auto]. rewrite <- (life_in k _ _ A1), El. cbn. intuition discriminate.
      - destruct Ph as [El _]. left. split; [|exists v]; apply Q; auto; rewrite El; cbn; auto.
      - destruct Ph as (_ & pe & re & [[-> ->]|(r & -> & _)] & El).
        + right. split; [rewrite <- (life_in k _ _ A1), El; cbn; intuition discriminate|].
          destruct (t_cancelled (txs s k)) eqn:HC; [reflexivity|]. exfalso.
          pose proof (en_exec _ En k K) as W. rewrite HP in W. specialize (W eq_refl HC).
          rewrite <- (life_in k _ _ A1), El in W. cbn in W. intuition discriminate.
        + left. split; [|exists r]; apply Q; auto; rewrite El; cbn; auto.
      - destruct Ph as (pe & re & [[-> ->]|(r & -> & _)] & El).
        + right. split; [rewrite <- (life_in k _ _ A1), El; destruct (has_destroy _); cbn; intuition discriminate|].
          destruct (t_cancelled (txs s k)) eqn:HC; [reflexivity|]. exfalso.
          pose proof (en_exec _ En k K) as W. rewrite HP in W. specialize (W eq_refl HC).
          rewrite <- (life_in k _ _ A1), El in W. destruct (has_destroy _); cbn in W; intuition discriminate.
        + left. split; [|exists r]; apply Q; auto; rewrite El; cbn; auto. }
    split.
    + intros I1. destruct Z1 as [[_ ?]|[? _]]; [assumption|contradiction].
    + intros id f _ Nc. destruct Z1 as [[? _]|[_ Hc]]; [assumption|]. exfalso. apply Nc. now apply (en_cancel _ En _ K).
  - pose proof (lf_new _ Li _ K) as Em. split.
    + intros I1. rewrite <- (life_in k _ _ A1), Em in I1. destruct I1.
    + intros id f I1. assert (A3 : about k (Started k id f) = true) by (cbn; apply Nat.eqb_refl).
      rewrite <- (life_in k _ _ A3), Em in I1. destruct I1.
Qed.

Definition exit_ok (s : astate) : Prop :=
  (pool s = false -> forall k, busy (t_phase (txs s k)) = false) /\
  forall t1 t2, atrace s = t1 ++ Exiting :: t2 -> settled t1 /\ no_work t2.

(* [es] at the end of a trace which had [Exiting] in it, or has it now *)
Lemma split_tail (t es t1 t2 : list aev) : t ++ es = t1 ++ Exiting :: t2 -> ~ In Exiting es ->
  exists t2', t = t1 ++ Exiting :: t2' /\ t2 = t2' ++ es.
Proof.
  intros E N. revert t1 E. induction t as [|a t IH]; intros t1 E; cbn in E.
  - exfalso. apply N. rewrite E. apply in_app_iff. right. now left.
  - destruct t1 as [|b t1]; cbn in E; injection E as -> E.
    + exists t. split; [reflexivity|]. congruence.
    + destruct (IH _ E) as (u & -> & ->). exists u. auto.
Qed.

Lemma exit_step s m s' : good s -> exit_ok s -> step s m = Some s' -> exit_ok s'.
Proof.
  intros G [X1 X2] H. pose proof (gd_base _ G) as [L T Li]. pose proof (gd_ends _ G) as En.
  destruct (step_is _ _ _ L T H) as (es & E & K).
  destruct (pool s) eqn:P.
  - assert (NX : ~ In Exiting (atrace s)) by (rewrite <- (en_pool _ En); congruence).
    destruct (in_dec (fun a b : aev => ltac:(repeat decide equality) : {a = b} + {a <> b}) Exiting es) as [I1|N1].
    + destruct (kind_exit _ _ _ _ K I1) as [-> ->]. destruct (exit_idle _ _ L H) as (E1 & _ & Et & _ & B).
      split; [intros _ k; rewrite Et; apply B|]. intros t1 t2 Es. rewrite E in Es.
      assert (Q : t1 = atrace s /\ t2 = []).
      { clear - Es NX. revert t1 Es NX. generalize (atrace s). intros t. induction t as [|a t IH]; intros t1 Es NX; cbn in Es.
        - destruct t1 as [|b t1]; cbn in Es; [injection Es as <-; auto|]. injection Es as <- Es. destruct t1; discriminate.
        - destruct t1 as [|b t1]; cbn in Es; injection Es as -> Es; [exfalso; apply NX; now left|].
          destruct (IH t1 Es) as [-> ->]; [intros Y; apply NX; now right|]. auto. }
      destruct Q as [-> ->]. split; [apply idle_settled; auto|]. intros k. cbn. tauto.
    + split.
      * intros P'. exfalso. destruct K; try congruence; [apply N1; now left|]. pose proof (ch_pool _ _ _ _ _ Kch). congruence.
      * intros t1 t2 Es. rewrite E in Es. destruct (split_tail _ _ _ _ Es N1) as (u & Eu & _). exfalso. apply NX. rewrite Eu.
        apply in_app_iff. right. now left.
  - destruct (idle_kept _ _ _ L T P (X1 eq_refl) H) as (P' & B' & es' & E' & N).
    assert (es' = es) by (rewrite E in E'; symmetry; now apply app_inv_head in E'). subst es'.
    split; [auto|]. intros t1 t2 Es. rewrite E in Es.
    assert (N1 : ~ In Exiting es).
    { intros I1. destruct (kind_exit _ _ _ _ K I1) as [-> _]. cbn [step] in H. rewrite P in H. discriminate. }
    destruct (split_tail _ _ _ _ Es N1) as (u & Eu & ->). destruct (X2 _ _ Eu) as [Y1 Y2]. split; [exact Y1|].
    intros k. split; [|intros r]; rewrite in_app_iff; intros [W|W]; revert W; try apply Y2; apply N.
Qed.

Lemma exit_run n l s : run (initial n) l = Some s -> exit_ok s.
Proof.
  assert (W : forall s0, good s0 -> exit_ok s0 -> run s0 l = Some s -> exit_ok s).
  { induction l as [|m l IH]; intros s0 G X H; cbn [run] in H; [injection H as <-; exact X|].
    destruct (step s0 m) as [s1|] eqn:E; [|discriminate]. apply (IH s1); eauto using good_step, exit_step. }
  apply W; [apply good_initial|]. split; [discriminate|]. intros t1 t2 E. destruct t1; discriminate.
Qed.
