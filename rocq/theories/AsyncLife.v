From Verif Require Import Base AsyncModel AsyncSpec AsyncProofs.

Lemma life_app k t u : life_of k (t ++ u) = life_of k t ++ life_of k u.
Proof. apply filter_app. Qed.

Definition middle (k : nat) (f : spec) (performed reply : list aev) : Prop :=
  (performed = [] /\ reply = []) \/
  exists r, performed = [Exec k; ExecEnd k r] /\ (reply = [] \/ (has_reply f = true /\ reply = [Reply k r; ReplyEnd k])).

Definition phase_life (k : nat) (t : atx) (l : list aev) : Prop :=
  match t_phase t with
  | Queued | Lost => l = [Started k (t_id t) (t_spec t)]
  | Executing c => l = Started k (t_id t) (t_spec t) :: (if c then [Exec k] else []) /\ (c = false -> t_cancelled t = true)
  | Ready r => l = Started k (t_id t) (t_spec t) :: (match r with Some v => [Exec k; ExecEnd k v] | None => [] end) /\
               (r = None -> t_cancelled t = true)
  | InReply v => l = [Started k (t_id t) (t_spec t); Exec k; ExecEnd k v; Reply k v] /\ has_reply (t_spec t) = true
  | InDestroy => has_destroy (t_spec t) = true /\ exists pe re, middle k (t_spec t) pe re /\
      l = Started k (t_id t) (t_spec t) :: pe ++ re ++ [Gone k; Destroy k]
  | Freed => exists pe re, middle k (t_spec t) pe re /\
      l = Started k (t_id t) (t_spec t) :: pe ++ re ++ Gone k :: (if has_destroy (t_spec t) then [Destroy k; DestroyEnd k] else [])
  end.

Record life_ok (s : astate) : Prop := {
  lf_old : forall k, (k < count s)%nat -> phase_life k (txs s k) (life_of k (atrace s));
  lf_new : forall k, (count s <= k)%nat -> life_of k (atrace s) = []
}.

Lemma change_life s s' k p es : life_ok s -> change s s' k p es ->
  (forall j, j <> k -> life_of j es = []) -> phase_life k (with_phase (txs s k) p) (life_of k (atrace s) ++ life_of k es) -> life_ok s'.
Proof.
  intros [L1 L2] C Ho Hk. destruct C. split.
  - intros j Hj. rewrite ch_count in Hj. rewrite ch_tx, ch_trace, life_app. destruct (Nat.eqb_spec j k) as [->|E]; [exact Hk|].
    rewrite (Ho _ E), app_nil_r. auto.
  - intros j Hj. rewrite ch_count in Hj. rewrite ch_trace, life_app, (L2 _ Hj). rewrite (Ho j); [reflexivity|lia].
Qed.

Ltac about_other := intros j Hj; cbn [life_of filter about]; repeat match goal with |- context [Nat.eqb ?a j] => destruct (Nat.eqb_spec a j); [congruence|] end; try reflexivity.

Lemma over_other k fin (d : bool) (r : Z) : (if d then fin = [Destroy k] else fin = if r =? 0 then [IpcFreed] else []) ->
  forall j, j <> k -> life_of j fin = [].
Proof.
  intros H j Hj. destruct d; subst fin; [cbn; destruct (Nat.eqb_spec k j); [congruence|reflexivity]|]. destruct (r =? 0); reflexivity.
Qed.
Lemma over_same k fin (d : bool) (r : Z) : (if d then fin = [Destroy k] else fin = if r =? 0 then [IpcFreed] else []) ->
  life_of k fin = if d then [Destroy k] else [].
Proof.
  intros H. destruct d; subst fin; [cbn; now rewrite Nat.eqb_refl|]. destruct (r =? 0); reflexivity.
Qed.

(* What happens when a transaction is freed after [pe] and [re] *)
Lemma over_life k t p fin (r : Z) pe re :
  middle k (t_spec t) pe re ->
  (if has_destroy (t_spec t) then p = InDestroy /\ fin = [Destroy k] else p = Freed /\ fin = if r =? 0 then [IpcFreed] else []) ->
  phase_life k (with_phase t p) (Started k (t_id t) (t_spec t) :: pe ++ re ++ life_of k (Gone k :: fin)).
Proof.
  intros Hm H. assert (Hf : life_of k (Gone k :: fin) = Gone k :: life_of k fin) by (cbn; now rewrite Nat.eqb_refl).
  rewrite Hf. rewrite (over_same k fin (has_destroy (t_spec t)) r) by (destruct (has_destroy (t_spec t)); tauto).
  destruct (has_destroy (t_spec t)) eqn:Hd; destruct H as [-> _]; unfold phase_life; cbn [with_phase t_phase t_id t_spec t_cancelled].
  - split; [exact Hd|]. exists pe, re. auto.
  - exists pe, re. rewrite Hd. auto.
Qed.

Lemma life_step s m s' : lists_ok s -> table_ok s -> life_ok s -> step s m = Some s' -> life_ok s'.
Proof.
  intros L T Li H. pose proof (step_moved _ _ _ L H) as M. destruct m; cbn [moved] in M.
  - clear M. cbn [step] in H. destruct (0 <? ipc_refs s); [|discriminate]. unfold ipc_transact in H.
    destruct (tx_get_id _ _ _) as [[id nx]|]; [|discriminate]. injection H as <-. destruct Li as [L1 L2].
    split; cbn [count txs atrace]; intros k Hk; rewrite life_app; cbn [life_of filter about]; unfold upd.
    + destruct (Nat.eqb_spec k (count s)) as [->|E].
      * rewrite L2 by lia. rewrite Nat.eqb_refl. unfold phase_life. cbn [t_phase t_id t_spec]. destruct (pool s); reflexivity.
      * destruct (Nat.eqb_spec (count s) k); [congruence|]. rewrite app_nil_r. apply L1. lia.
    + destruct (Nat.eqb_spec (count s) k); [lia|]. rewrite app_nil_r. apply L2. lia.
  - clear M. cbn [step] in H. destruct (0 <? ipc_refs s); [|discriminate]. injection H as <-.
    assert (Ht : life_ok (add_event s (CancelCalled id))).
    { destruct Li as [L1 L2]. split; cbn [add_event count txs atrace]; intros k Hk; rewrite life_app; cbn [life_of filter about]; rewrite app_nil_r; auto. }
    unfold ipc_cancel. destruct (id =? 0); [exact Ht|]. destruct (table_lookup (tx_table s) id) as [k|]; [|exact Ht].
    destruct Ht as [L1 L2]. split; cbn [set_tx count txs]; [|exact L2]. intros j Hj. unfold upd. destruct (Nat.eqb_spec j k) as [->|E]; [|auto].
    specialize (L1 _ Hj). cbn [add_event txs atrace set_tx] in L1 |- *. unfold phase_life in *. cbn [t_phase t_id t_spec t_cancelled].
    destruct (t_phase (txs s k)); tauto.
  - cbn [step] in H. destruct (0 <? ipc_refs s); [|discriminate]. injection H as <-. destruct Li; split; auto.
  - cbn [step] in H. destruct (app_refs s); [discriminate|]. injection H as <-. unfold ipc_unref.
    destruct (_ =? 0); destruct Li as [L1 L2]; split; auto; cbn [add_event set_refs count txs atrace]; intros k Hk; rewrite life_app; cbn [life_of filter about]; rewrite app_nil_r; auto.
  - cbn [step] in H. injection H as <-. destruct Li; split; auto.
  - destruct M as (r & Hr & M).
    assert (Hk : (k < count s)%nat) by (destruct (_ && _); [|destruct M as (p & fin & M & _)]; exact (ch_lt _ _ _ _ _ M)).
    pose proof (lf_old _ Li _ Hk) as Hl. unfold phase_life in Hl. rewrite Hr in Hl. destruct Hl as [Hl Hc].
    destruct (t_cancelled (txs s k)) eqn:Hcc; cbn [negb andb] in M;
      [|destruct (has_reply (t_spec (txs s k))) eqn:Hhr; cbn [andb] in M].
    + destruct M as (p & fin & M & Hf). eapply change_life; [exact Li|exact M| |].
      * intros j Hj. change (Gone k :: fin) with ([Gone k] ++ fin). rewrite life_app, (over_other k fin (has_destroy (t_spec (txs s k))) (ipc_refs s - 1)); [|destruct (has_destroy _); tauto|exact Hj].
        rewrite app_nil_r. revert j Hj. about_other.
      * rewrite Hl. replace (Started k (t_id (txs s k)) (t_spec (txs s k)) :: match r with Some v => [Exec k; ExecEnd k v] | None => [] end)
          with (Started k (t_id (txs s k)) (t_spec (txs s k)) :: match r with Some v => [Exec k; ExecEnd k v] | None => [] end ++ []) by now rewrite app_nil_r.
        cbn [app]. rewrite <- app_assoc. eapply over_life; [|exact Hf]. destruct r as [v|]; [right; exists v; auto|left; auto].
    + cbv zeta in M. eapply change_life; [exact Li|exact M| |].
      * about_other.
      * rewrite Hl. destruct r as [v|]; [|specialize (Hc eq_refl); congruence].
        cbn [life_of filter about]. rewrite Nat.eqb_refl. unfold phase_life. cbn [with_phase t_phase t_id t_spec]. split; [reflexivity|exact Hhr].
    + destruct M as (p & fin & M & Hf). eapply change_life; [exact Li|exact M| |].
      * intros j Hj. change (Gone k :: fin) with ([Gone k] ++ fin). rewrite life_app, (over_other k fin (has_destroy (t_spec (txs s k))) (ipc_refs s - 1)); [|destruct (has_destroy _); tauto|exact Hj].
        rewrite app_nil_r. revert j Hj. about_other.
      * rewrite Hl. replace (Started k (t_id (txs s k)) (t_spec (txs s k)) :: match r with Some v => [Exec k; ExecEnd k v] | None => [] end)
          with (Started k (t_id (txs s k)) (t_spec (txs s k)) :: match r with Some v => [Exec k; ExecEnd k v] | None => [] end ++ []) by now rewrite app_nil_r.
        cbn [app]. rewrite <- app_assoc. eapply over_life; [|exact Hf]. destruct r as [v|]; [right; exists v; auto|left; auto].
  - destruct M as (k & [(r & p & fin & Hr & M & Hf)|(Hr & M)]);
    pose proof (lf_old _ Li _ (ch_lt _ _ _ _ _ M)) as Hl; unfold phase_life in Hl; rewrite Hr in Hl; destruct Hl as [Hl Hc].
    + eapply change_life; [exact Li|exact M| |].
      * intros j Hj. change (ReplyEnd k :: Gone k :: fin) with ([ReplyEnd k; Gone k] ++ fin). rewrite life_app, (over_other k fin (has_destroy (t_spec (txs s k))) (ipc_refs s - 1)); [|destruct (has_destroy _); tauto|exact Hj].
        rewrite app_nil_r. revert j Hj. about_other.
      * rewrite Hl. change (ReplyEnd k :: Gone k :: fin) with ([ReplyEnd k] ++ Gone k :: fin). rewrite life_app.
        replace (life_of k [ReplyEnd k]) with [ReplyEnd k] by (cbn; now rewrite Nat.eqb_refl).
        apply (over_life k (txs s k) p fin (ipc_refs s - 1) [Exec k; ExecEnd k r] [Reply k r; ReplyEnd k]); [|exact Hf]. right. exists r. auto.
    + eapply change_life; [exact Li|exact M| |].
      * intros j Hj. destruct (ipc_refs s - 1 =? 0); revert j Hj; about_other.
      * destruct Hc as (pe & re & Hm & Hc). rewrite Hc. unfold phase_life. cbn [with_phase t_phase t_id t_spec]. exists pe, re. split; [exact Hm|].
        rewrite Hl. replace (life_of k (DestroyEnd k :: (if ipc_refs s - 1 =? 0 then [IpcFreed] else []))) with [DestroyEnd k]
          by (destruct (ipc_refs s - 1 =? 0); cbn; now rewrite Nat.eqb_refl).
        cbn [app]. rewrite <- !app_assoc. reflexivity.
  - destruct M as (k & p & Hr & Hp & M). pose proof (lf_old _ Li _ (ch_lt _ _ _ _ _ M)) as Hl. unfold phase_life in Hl. rewrite Hr in Hl.
    eapply change_life; [exact Li|exact M| |].
    + destruct (t_cancelled (txs s k)); about_other.
    + rewrite Hl. subst p. unfold phase_life. cbn [with_phase t_phase t_id t_spec t_cancelled]. destruct (t_cancelled (txs s k)); cbn [negb].
      * split; [reflexivity|auto].
      * cbn [life_of filter about]. rewrite Nat.eqb_refl. split; [reflexivity|discriminate].
  - destruct M as (c & Hr & M). pose proof (lf_old _ Li _ (ch_lt _ _ _ _ _ M)) as Hl. unfold phase_life in Hl. rewrite Hr in Hl. destruct Hl as [Hl Hc].
    eapply change_life; [exact Li|exact M| |].
    + destruct c; about_other.
    + rewrite Hl. unfold phase_life. cbn [with_phase t_phase t_id t_spec t_cancelled]. destruct c.
      * cbn [life_of filter about]. rewrite Nat.eqb_refl. split; [reflexivity|discriminate].
      * split; [reflexivity|auto].
  - cbn [step] in H. destruct (_ && _); [|discriminate]. injection H as <-.
    destruct Li as [L1 L2]. split; cbn [count txs atrace]; intros k Hk; rewrite life_app; cbn [life_of filter about]; rewrite app_nil_r; auto.
  - destruct M as (_ & r & p & fin & Hr & M & Hf). pose proof (lf_old _ Li _ (ch_lt _ _ _ _ _ M)) as Hl. unfold phase_life in Hl. rewrite Hr in Hl. destruct Hl as [Hl Hc].
    eapply change_life; [exact Li|exact M| |].
    * intros j Hj. change (Gone k :: fin) with ([Gone k] ++ fin). rewrite life_app, (over_other k fin (has_destroy (t_spec (txs s k))) (ipc_refs s - 1)); [|destruct (has_destroy _); tauto|exact Hj].
      rewrite app_nil_r. revert j Hj. about_other.
    * rewrite Hl. replace (Started k (t_id (txs s k)) (t_spec (txs s k)) :: match r with Some v => [Exec k; ExecEnd k v] | None => [] end)
        with (Started k (t_id (txs s k)) (t_spec (txs s k)) :: match r with Some v => [Exec k; ExecEnd k v] | None => [] end ++ []) by now rewrite app_nil_r.
      cbn [app]. rewrite <- app_assoc. eapply over_life; [|exact Hf]. destruct r as [v|]; [right; exists v; auto|left; auto].
Qed.

(* ------------------------------------------------------------------ *)
(* What a step does to everything else *)
Definition over_events (k : nat) (e : aev) : Prop := e = ReplyEnd k \/ e = Gone k \/ e = Destroy k \/ e = DestroyEnd k \/ e = IpcFreed.

Inductive step_kind (s s' : astate) : move -> list aev -> Prop :=
| SkNew f id (Kpos : ipc_refs s > 0) (Kcount : count s' = S (count s)) (Kpool : pool s' = pool s) (Kapp : app_refs s' = app_refs s) (Krefs : ipc_refs s' = ipc_refs s + 1)
    (Kold : forall j, (j < count s)%nat -> txs s' j = txs s j)
    (Knew : txs s' (count s) = {| t_id := id; t_spec := f; t_cancelled := false; t_phase := if pool s then Queued else Lost |})
    (Kid : ~ In id (map fst (tx_table s))) : step_kind s s' (Transact f) [Started (count s) id f]
| SkCancel id (Kpos : ipc_refs s > 0) (Kcount : count s' = count s) (Kpool : pool s' = pool s) (Kapp : app_refs s' = app_refs s) (Krefs : ipc_refs s' = ipc_refs s)
    (Ksame : forall j, t_phase (txs s' j) = t_phase (txs s j) /\ t_spec (txs s' j) = t_spec (txs s j) /\ t_id (txs s' j) = t_id (txs s j))
    (Kcancel : forall j, (j < count s)%nat -> (t_cancelled (txs s' j) = true <-> t_cancelled (txs s j) = true \/ In (id, j) (tx_table s))) :
    step_kind s s' (Cancel id) [CancelCalled id]
| SkSame m (Kwhich : m = Ref \/ m = Tick) (Kcount : count s' = count s) (Kpool : pool s' = pool s) (Ktxs : txs s' = txs s)
    (Krefs : ipc_refs s' - Z.of_nat (app_refs s') = ipc_refs s - Z.of_nat (app_refs s))
    (Kpos : (m = Ref -> ipc_refs s > 0) /\ (m = Tick -> ipc_refs s' = ipc_refs s) /\ ipc_refs s' >= ipc_refs s) : step_kind s s' m []
| SkUnref (Kcount : count s' = count s) (Kpool : pool s' = pool s) (Ktxs : txs s' = txs s) (Kapp : app_refs s = S (app_refs s')) (Krefs : ipc_refs s' = ipc_refs s - 1) :
    step_kind s s' Unref (if ipc_refs s - 1 =? 0 then [IpcFreed] else [])
| SkExit (Kpos : ipc_refs s > 0) (Kcount : count s' = count s) (Kpool : pool s = true) (Kpool' : pool s' = false) (Ktxs : txs s' = txs s)
    (Kapp : app_refs s' = S (app_refs s)) (Krefs : ipc_refs s' = ipc_refs s + 1) :
    step_kind s s' Exit [Exiting]
| SkChange m k p es (Kch : change s s' k p es)
    (Kgone : alive (t_phase (txs s k)) = true -> alive p = false ->
      ((exists r, t_phase (txs s k) = Ready r) /\ (t_cancelled (txs s k) = true \/ has_reply (t_spec (txs s k)) = false \/ (pool s = false /\ exists fin, es = Gone k :: fin))) \/
      (exists r, t_phase (txs s k) = InReply r))
    (Kfreed : freed p = true -> In (Gone k) es \/ In (DestroyEnd k) es)
    (Kes : es = [] \/ es = [Exec k] \/ (exists r, es = [ExecEnd k r]) \/
      (exists r, es = [Reply k r] /\ t_cancelled (txs s k) = false) \/
      (exists pre fin, es = pre ++ fin /\ (forall e, In e pre -> over_events k e /\ e <> IpcFreed) /\ fin = (if freed p && (ipc_refs s - 1 =? 0) then [IpcFreed] else [])))
    (Kexec : In (Exec k) es -> t_cancelled (txs s k) = false)
    (Kwhich : match m with Dispatch _ | Return | Work | Finish _ _ => True | ExitCancel _ => pool s = false | _ => False end)
    (Knf : t_phase (txs s k) <> Freed) (Knl : t_phase (txs s k) <> Lost) (Kpnl : p <> Lost) (Kdead : alive (t_phase (txs s k)) = false -> alive p = false) :
    step_kind s s' m es.

Lemma step_is s m s' : lists_ok s -> table_ok s -> step s m = Some s' -> exists es, atrace s' = atrace s ++ es /\ step_kind s s' m es.
Proof.
  intros L T H. pose proof (step_moved _ _ _ L H) as M0. pose proof M0 as M. destruct m; cbn [moved] in M.
  - cbn [step] in H. destruct (Z.ltb_spec 0 (ipc_refs s)); [|discriminate]. unfold ipc_transact in H.
    destruct (tx_get_id _ _ _) as [[id nx]|] eqn:Hg; [|discriminate]. apply tx_get_id_spec in Hg; [|apply (tb_next _ T)].
    injection H as <-. exists [Started (count s) id f]. split; [reflexivity|].
    apply SkNew; cbn [count pool app_refs ipc_refs txs]; auto; try lia.
    + intros j Hj. apply upd_other. lia.
    + apply upd_same.
    + tauto.
  - cbn [step] in H. destruct (Z.ltb_spec 0 (ipc_refs s)); [|discriminate]. injection H as <-. exists [CancelCalled id].
    unfold ipc_cancel. destruct (Z.eqb_spec id 0) as [->|E].
    + split; [reflexivity|]. apply SkCancel; cbn [add_event count pool app_refs ipc_refs txs]; auto; try lia. intros j Hj. split; [tauto|]. intros [?|X]; [assumption|].
      apply (tb_in _ T) in X. destruct X as (_ & X & _). pose proof (tb_ids _ T _ Hj). lia.
    + destruct (table_lookup (tx_table s) id) as [k|] eqn:Hl.
      * apply lookup_in in Hl; [|apply (tb_keys _ T)]. split; [reflexivity|].
        apply SkCancel; cbn [add_event set_tx count pool app_refs ipc_refs txs]; auto; try lia.
        -- intros j. unfold upd. destruct (Nat.eqb_spec j k) as [->|]; auto.
        -- intros j Hj. unfold upd. destruct (Nat.eqb_spec j k) as [->|Hn]; cbn [t_cancelled]; [tauto|]. split; [tauto|]. intros [?|X]; [assumption|].
           exfalso. apply Hn. apply (lookup_in _ _ _ (tb_keys _ T)) in X, Hl. congruence.
      * split; [reflexivity|]. apply SkCancel; cbn [add_event set_tx count pool app_refs ipc_refs txs]; auto; try lia. intros j Hj. split; [tauto|]. intros [?|X]; [assumption|].
        apply (lookup_in _ _ _ (tb_keys _ T)) in X. congruence.
  - cbn [step] in H. destruct (Z.ltb_spec 0 (ipc_refs s)); [|discriminate]. injection H as <-. exists []. split; [symmetry; apply app_nil_r|].
    apply SkSame; cbn [set_refs count pool txs ipc_refs app_refs]; auto; [lia|]. split; [intros _; lia|]. split; [discriminate|lia].
  - cbn [step] in H. destruct (app_refs s) as [|n] eqn:Ha; [discriminate|]. injection H as <-. unfold ipc_unref.
    exists (if ipc_refs s - 1 =? 0 then [IpcFreed] else []). split.
    + destruct (_ =? 0); cbn [add_event set_refs atrace]; [reflexivity|symmetry; apply app_nil_r].
    + destruct (_ =? 0) eqn:E; [|]; pose proof (SkUnref s) as X; rewrite E in X; apply X; reflexivity || assumption.
  - cbn [step] in H. injection H as <-. exists []. split; [symmetry; apply app_nil_r|]. apply SkSame; cbn [count pool txs ipc_refs app_refs]; auto. split; [discriminate|]. split; [auto|lia].
  - destruct M as (r & Hr & M). destruct (t_cancelled (txs s k)) eqn:Hc; cbn [negb andb] in M; [|destruct (has_reply (t_spec (txs s k))) eqn:Hhr; cbn [andb] in M].
    2:{ cbv zeta in M. exists [Reply k match r with Some r => r | None => 0 end]. split; [apply (ch_trace _ _ _ _ _ M)|]. eapply SkChange; [exact M|try rewrite Hr; try discriminate; eauto 8|cbn [In]; try discriminate; auto| | | | | | |]; try rewrite Hr; try discriminate; auto.
        - right. right. right. left. eauto. }
    all: destruct M as (p & fin & M & Hf); exists (Gone k :: fin); split; [apply (ch_trace _ _ _ _ _ M)|]; destruct (has_destroy _); destruct Hf as [-> ->];
      (eapply SkChange; [exact M|try rewrite Hr; try discriminate; eauto 8|cbn [In]; try discriminate; auto| | | | | | |]; try rewrite Hr; try discriminate; auto).
    all: try solve [right; right; right; right; exists [Gone k; Destroy k], []; split; [reflexivity|]; split; [|reflexivity]; intros e [<-|[<-|[]]]; unfold over_events; split; (tauto || discriminate)].
    all: try solve [right; right; right; right; exists [Gone k], (if ipc_refs s - 1 =? 0 then [IpcFreed] else []); split; [reflexivity|]; split; [|reflexivity]; intros e [<-|[]]; unfold over_events; split; (tauto || discriminate)].
    all: cbn [In]; try solve [intros [?|[?|[]]]; discriminate]; intros [?|X]; try discriminate; (destruct (_ =? 0); [destruct X as [X|[]]; discriminate|destruct X]).
  - destruct M as (k & [(r & p & fin & Hr & M & Hf)|(Hr & M)]); eexists; (split; [apply (ch_trace _ _ _ _ _ M)|]).
    + destruct (has_destroy _); destruct Hf as [-> ->]; (eapply SkChange; [exact M|try rewrite Hr; try discriminate; eauto 8|cbn [In]; try discriminate; auto| | | | | | |]; try rewrite Hr; try discriminate; auto).
      * right; right; right; right; exists [ReplyEnd k; Gone k; Destroy k], []; split; [reflexivity|]; split; [|reflexivity]; intros e [<-|[<-|[<-|[]]]]; unfold over_events; split; (tauto || discriminate).
      * cbn [In]. intros [?|[?|[?|[]]]]; discriminate.
      * right; right; right; right; exists [ReplyEnd k; Gone k], (if ipc_refs s - 1 =? 0 then [IpcFreed] else []); split; [reflexivity|]; split; [|reflexivity]; intros e [<-|[<-|[]]]; unfold over_events; split; (tauto || discriminate).
      * cbn [In]. intros [?|[?|X]]; try discriminate. (destruct (_ =? 0); [destruct X as [X|[]]; discriminate|destruct X]).
    + eapply SkChange; [exact M|try rewrite Hr; try discriminate; eauto 8|cbn [In]; try discriminate; auto| | | | | | |]; try rewrite Hr; try discriminate; auto.
      * right; right; right; right; exists [DestroyEnd k], (if ipc_refs s - 1 =? 0 then [IpcFreed] else []); split; [reflexivity|]; split; [|reflexivity]; intros e [<-|[]]; unfold over_events; split; (tauto || discriminate).
      * cbn [In]. intros [?|X]; try discriminate. (destruct (_ =? 0); [destruct X as [X|[]]; discriminate|destruct X]).
  - destruct M as (k & p & Hr & Hp & M). eexists; (split; [apply (ch_trace _ _ _ _ _ M)|]).
    eapply SkChange; [exact M|try rewrite Hr; try discriminate; eauto 8|cbn [In]; try discriminate; auto| | | | | | |]; subst p; try rewrite Hr; try discriminate; auto; destruct (t_cancelled (txs s k)); auto. intros [].
  - destruct M as (c & Hr & M). eexists; (split; [apply (ch_trace _ _ _ _ _ M)|]).
    eapply SkChange; [exact M|try rewrite Hr; try discriminate; eauto 8|cbn [In]; try discriminate; auto| | | | | | |]; try rewrite Hr; try discriminate; auto; destruct c; eauto 6. 
    + intros [X|[]]; discriminate.
    + intros [].
  - cbn [step] in H. destruct (pool s) eqn:Hp; [|discriminate]. destruct (Z.ltb_spec 0 (ipc_refs s)) as [Hi|]; [|discriminate]. cbn [andb] in H.
    destruct (_ && _); [|discriminate]. injection H as <-. exists [Exiting]. split; [reflexivity|]. apply SkExit; auto; lia.
  - destruct M as (Hpl & r & p & fin & Hr & M & Hf). eexists; (split; [apply (ch_trace _ _ _ _ _ M)|]).
    destruct (has_destroy _); destruct Hf as [-> ->]; (eapply SkChange; [exact M|try rewrite Hr; try discriminate; eauto 8|cbn [In]; try discriminate; auto| | | | | | |]; try rewrite Hr; try discriminate; auto).
    + right; right; right; right; exists [Gone k; Destroy k], []; split; [reflexivity|]; split; [|reflexivity]; intros e [<-|[<-|[]]]; unfold over_events; split; (tauto || discriminate).
    + cbn [In]. intros [?|[?|[]]]; discriminate.
    + right; right; right; right; exists [Gone k], (if ipc_refs s - 1 =? 0 then [IpcFreed] else []); split; [reflexivity|]; split; [|reflexivity]; intros e [<-|[]]; unfold over_events; split; (tauto || discriminate).
    + cbn [In]. intros [?|X]; try discriminate. (destruct (_ =? 0); [destruct X as [X|[]]; discriminate|destruct X]).
Qed.
