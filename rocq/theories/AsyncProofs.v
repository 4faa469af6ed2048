From Verif Require Import Base AsyncModel AsyncSpec.

Lemma upd_same {A} (f : nat -> A) i v : upd f i v i = v.
Proof. unfold upd. now rewrite Nat.eqb_refl. Qed.
Lemma upd_other {A} (f : nat -> A) i v j : j <> i -> upd f i v j = f j.
Proof. intros H. unfold upd. destruct (Nat.eqb_spec j i); [contradiction|reflexivity]. Qed.

Definition alive (p : phase) : bool := match p with InDestroy | Freed => false | _ => true end.
Definition freed (p : phase) : bool := match p with Freed => true | _ => false end.
Definition queued (p : phase) : Prop := p = Queued.
Definition is_ready (p : phase) : Prop := match p with Ready _ => True | _ => False end.
Definition on_stack (p : phase) : Prop := match p with InReply _ | InDestroy => True | _ => False end.
Definition with_phase (t : atx) (p : phase) : atx :=
  {| t_id := t_id t; t_spec := t_spec t; t_cancelled := t_cancelled t; t_phase := p |}.

(* ------------------------------------------------------------------ *)
(* One transaction changes its phase *)
Record change (s s' : astate) (k : nat) (p : phase) (es : list aev) : Prop := {
  ch_lt : (k < count s)%nat;
  ch_count : count s' = count s;
  ch_pool : pool s' = pool s;
  ch_tx : forall j, txs s' j = if Nat.eqb j k then with_phase (txs s k) p else txs s j;
  ch_table : tx_table s' = if alive (t_phase (txs s k)) && negb (alive p) then table_remove (tx_table s) (t_id (txs s k)) else tx_table s;
  ch_next : next_id s' = next_id s;
  ch_queue : (forall j, j <> k -> (In j (queue s') <-> In j (queue s))) /\ (In k (queue s') <-> queued p) /\ NoDup (queue s');
  ch_ready : (forall j, j <> k -> (In j (ready s') <-> In j (ready s))) /\ (In k (ready s') <-> is_ready p) /\ NoDup (ready s');
  ch_stack : (forall j, j <> k -> (In j (stack s') <-> In j (stack s))) /\ (In k (stack s') <-> on_stack p) /\ NoDup (stack s');
  ch_app : app_refs s' = app_refs s;
  ch_refs : ipc_refs s' = ipc_refs s - (if freed p then 1 else 0);
  ch_trace : atrace s' = atrace s ++ es
}.

(* The lists contain what they should *)
Record lists_ok (s : astate) : Prop := {
  lo_q : NoDup (queue s);
  lo_r : NoDup (ready s);
  lo_s : NoDup (stack s);
  lo_queue : forall k, In k (queue s) <-> (k < count s)%nat /\ queued (t_phase (txs s k));
  lo_ready : forall k, In k (ready s) <-> (k < count s)%nat /\ is_ready (t_phase (txs s k));
  lo_stack : forall k, In k (stack s) <-> (k < count s)%nat /\ on_stack (t_phase (txs s k));
  lo_none : forall k, (count s <= k)%nat -> t_phase (txs s k) = Freed
}.

Lemma change_lists s s' k p es : lists_ok s -> change s s' k p es -> lists_ok s'.
Proof.
  intros L C. destruct L, C. destruct ch_queue0 as (Q1 & Q2 & Q3), ch_ready0 as (R1 & R2 & R3), ch_stack0 as (S1 & S2 & S3).
  split; auto.
  - intros j. rewrite ch_count0, ch_tx0. destruct (Nat.eqb_spec j k) as [->|E]; [|rewrite Q1; auto].
    cbn [t_phase with_phase]. tauto.
  - intros j. rewrite ch_count0, ch_tx0. destruct (Nat.eqb_spec j k) as [->|E]; [|rewrite R1; auto].
    cbn [t_phase with_phase]. tauto.
  - intros j. rewrite ch_count0, ch_tx0. destruct (Nat.eqb_spec j k) as [->|E]; [|rewrite S1; auto].
    cbn [t_phase with_phase]. tauto.
  - intros j Hj. rewrite ch_count0 in Hj. rewrite ch_tx0. destruct (Nat.eqb_spec j k) as [->|E]; [lia|auto].
Qed.

Lemma tx_free_change s k s0 : (k < count s)%nat -> alive (t_phase (txs s k)) = true ->
  (forall j, In j (queue s) <-> In j (queue s0) /\ j <> k) -> (forall j, In j (ready s) <-> In j (ready s0) /\ j <> k) -> (forall j, In j (stack s) <-> In j (stack s0) /\ j <> k) ->
  NoDup (queue s) -> NoDup (ready s) -> NoDup (stack s) ->
  count s = count s0 -> pool s = pool s0 -> txs s = txs s0 -> tx_table s = tx_table s0 -> next_id s = next_id s0 -> app_refs s = app_refs s0 -> ipc_refs s = ipc_refs s0 ->
  forall es, atrace s = atrace s0 ++ es ->
  exists p fin, change s0 (tx_free s k) k p (es ++ Gone k :: fin) /\
    if has_destroy (t_spec (txs s k)) then p = InDestroy /\ fin = [Destroy k]
    else p = Freed /\ fin = if ipc_refs s - 1 =? 0 then [IpcFreed] else [].
Proof.
  intros Hk Hal HQ HR HS NQ NR NS Hc Hpo Ht Hta Hn Ha Hi es He. unfold tx_free.
  destruct (has_destroy (t_spec (txs s k))).
  - exists InDestroy, [Destroy k]. split; [|auto].
    split; cbn [add_event set_work set_phase set_tx set_table count pool txs tx_table next_id queue ready stack app_refs ipc_refs atrace]; try congruence.
    + intros j. unfold upd, with_phase. rewrite Ht. reflexivity.
    + cbn [alive]. rewrite <- Ht, Hal, Hta. reflexivity.
    + split; [intros j Hj; rewrite HQ; tauto|]. split; [rewrite HQ; unfold queued; split; [tauto|discriminate]|auto].
    + split; [intros j Hj; rewrite HR; tauto|]. split; [rewrite HR; cbn; tauto|auto].
    + split; [intros j Hj; cbn [In]; rewrite HS; firstorder congruence|]. split; [cbn; tauto|]. apply NoDup_cons; [rewrite HS; tauto|auto].
    + cbn [freed]. lia.
    + rewrite He, <- !app_assoc. reflexivity.
  - exists Freed. unfold tx_free_end, ipc_unref. cbn [ipc_refs set_phase set_tx add_event set_table set_refs app_refs].
    exists (if ipc_refs s - 1 =? 0 then [IpcFreed] else []). split; [|auto].
    destruct (ipc_refs s - 1 =? 0);
    (split; cbn [add_event set_work set_phase set_tx set_table set_refs count pool txs tx_table next_id queue ready stack app_refs ipc_refs atrace]; try congruence;
    [ intros j; unfold upd, with_phase; rewrite Ht; reflexivity
    | cbn [alive]; rewrite <- Ht, Hal, Hta; reflexivity
    | split; [intros j Hj; rewrite HQ; tauto|]; split; [rewrite HQ; unfold queued; split; [tauto|discriminate]|auto]
    | split; [intros j Hj; rewrite HR; tauto|]; split; [rewrite HR; cbn; tauto|auto]
    | split; [intros j Hj; rewrite HS; tauto|]; split; [rewrite HS; cbn; tauto|auto]
    | cbn [freed]; lia
    | rewrite He, <- ?app_assoc; reflexivity ]).
Qed.

Lemma in_remove_iff (k j : nat) l : In j (remove Nat.eq_dec k l) <-> In j l /\ j <> k.
Proof. split; [apply in_remove|intros [H1 H2]; apply in_in_remove; auto]. Qed.
Lemma nodup_remove (k : nat) l : NoDup l -> NoDup (remove Nat.eq_dec k l).
Proof.
  induction 1 as [|x l Hx Hl IH]; [constructor|]. cbn [remove]. destruct (Nat.eq_dec k x); [exact IH|].
  constructor; [rewrite in_remove_iff; tauto|exact IH].
Qed.

Lemma NoDup_snoc {A} (l : list A) x : NoDup l -> ~ In x l -> NoDup (l ++ [x]).
Proof.
  induction 1 as [|y l Hy Hl IH]; intros Hx; [constructor; [exact Hx|constructor]|].
  cbn [app]. constructor; [rewrite in_app_iff; cbn [In]; intros [?|[?|[]]]; [contradiction|subst; apply Hx; left; reflexivity]|].
  apply IH. intros ?; apply Hx; right; assumption.
Qed.

(* What each move of the second kind does *)
Definition moved (s : astate) (m : move) (s' : astate) : Prop :=
  match m with
  | Work => exists k p, t_phase (txs s k) = Queued /\ p = Executing (negb (t_cancelled (txs s k))) /\
      change s s' k p (if t_cancelled (txs s k) then [] else [Exec k])
  | Finish k r => exists c, t_phase (txs s k) = Executing c /\
      change s s' k (Ready (if c then Some r else None)) (if c then [ExecEnd k r] else [])
  | Dispatch k => exists result, t_phase (txs s k) = Ready result /\
      if negb (t_cancelled (txs s k)) && has_reply (t_spec (txs s k)) then
        let r := match result with Some r => r | None => 0 end in change s s' k (InReply r) [Reply k r]
      else exists p fin, change s s' k p (Gone k :: fin) /\
        if has_destroy (t_spec (txs s k)) then p = InDestroy /\ fin = [Destroy k]
        else p = Freed /\ fin = if ipc_refs s - 1 =? 0 then [IpcFreed] else []
  | Return => exists k,
      (exists r p fin, t_phase (txs s k) = InReply r /\ change s s' k p (ReplyEnd k :: Gone k :: fin) /\
        if has_destroy (t_spec (txs s k)) then p = InDestroy /\ fin = [Destroy k]
        else p = Freed /\ fin = if ipc_refs s - 1 =? 0 then [IpcFreed] else []) \/
      (t_phase (txs s k) = InDestroy /\ change s s' k Freed (DestroyEnd k :: if ipc_refs s - 1 =? 0 then [IpcFreed] else []))
  | ExitCancel k => pool s = false /\ exists result p fin, t_phase (txs s k) = Ready result /\ change s s' k p (Gone k :: fin) /\
        if has_destroy (t_spec (txs s k)) then p = InDestroy /\ fin = [Destroy k]
        else p = Freed /\ fin = if ipc_refs s - 1 =? 0 then [IpcFreed] else []
  | _ => True
  end.

Lemma step_moved s m s' : lists_ok s -> step s m = Some s' -> moved s m s'.
Proof.
  intros L H. destruct L. destruct m; cbn [step] in H; try exact I; cbn [moved].
  - (* Dispatch *)
    destruct (t_phase (txs s k)) as [| |result| | | |] eqn:Hp; try discriminate.
    destruct (in_dec Nat.eq_dec k (ready s)) as [Hin|]; [|discriminate]. injection H as <-.
    exists result. split; [reflexivity|]. unfold tx_done.
    pose proof (proj1 (lo_ready0 k) Hin) as [Hk _].
    destruct (negb (t_cancelled (txs s k)) && has_reply (t_spec (txs s k))).
    + split; cbn [add_event set_work set_phase set_tx set_table count pool txs tx_table next_id queue ready stack app_refs ipc_refs atrace]; auto.
      * cbn [alive negb]. rewrite Bool.andb_false_r. reflexivity.
      * split; [tauto|]. split; [rewrite lo_queue0, Hp; unfold queued; split; [intros [_ ?]; discriminate|discriminate]|auto].
      * split; [intros j Hj; rewrite in_remove_iff; tauto|]. split; [rewrite in_remove_iff; cbn; tauto|]. apply nodup_remove; auto.
      * split; [intros j Hj; cbn [In]; firstorder congruence|]. split; [cbn; tauto|]. apply NoDup_cons; [|auto]. rewrite lo_stack0, Hp. cbn. tauto.
      * cbn [freed]. lia.
    + pose proof (tx_free_change (set_work s (queue s) (remove Nat.eq_dec k (ready s)) (stack s)) k s) as X.
      cbn [set_work count pool txs tx_table next_id queue ready stack app_refs ipc_refs atrace] in X.
      apply X with (es := []); auto.
      * now rewrite Hp.
      * intros j. split; [intros Hj; split; [exact Hj|]|tauto]. intros ->. apply lo_queue0 in Hj. rewrite Hp in Hj. destruct Hj as [_ Hj]. discriminate Hj.
      * intros j. rewrite in_remove_iff. tauto.
      * intros j. split; [intros Hj; split; [exact Hj|]|tauto]. intros ->. apply lo_stack0 in Hj. rewrite Hp in Hj. cbn in Hj. tauto.
      * apply nodup_remove; auto.
      * now rewrite app_nil_r.
  - (* Return *)
    destruct (stack s) as [|k st] eqn:Hst; [discriminate|]. exists k.
    pose proof (proj1 (lo_stack0 k) ltac:(left; reflexivity)) as [Hk _].
    apply NoDup_cons_iff in lo_s0. destruct lo_s0 as [Hns Nst].
    destruct (t_phase (txs s k)) as [| | |r| | |] eqn:Hp; try discriminate; injection H as <-.
    + left.
      pose proof (tx_free_change (add_event (set_work s (queue s) (ready s) st) (ReplyEnd k)) k s) as X.
      cbn [set_work add_event count pool txs tx_table next_id queue ready stack app_refs ipc_refs atrace] in X.
      destruct (X Hk ltac:(now rewrite Hp)) with (es := [ReplyEnd k]) as (p & fin & HX & HX2); auto.
      * intros j. split; [intros Hj; split; [exact Hj|]|tauto]. intros ->. apply lo_queue0 in Hj. rewrite Hp in Hj. destruct Hj as [_ Hj]. discriminate Hj.
      * intros j. split; [intros Hj; split; [exact Hj|]|tauto]. intros ->. apply lo_ready0 in Hj. rewrite Hp in Hj. cbn in Hj. tauto.
      * intros j. rewrite Hst. cbn [In]. split; [intros Hj; split; [auto|intros ->; contradiction]|]. intros [[<-|Hj] Hj2]; [contradiction|exact Hj].
      * exists r, p, fin. auto.
    + right. split; [reflexivity|]. unfold tx_free_end, ipc_unref.
      cbn [ipc_refs set_phase set_tx add_event set_table set_refs app_refs set_work].
      destruct (ipc_refs s - 1 =? 0);
      (split; cbn [add_event set_work set_phase set_tx set_table set_refs count pool txs tx_table next_id queue ready stack app_refs ipc_refs atrace]; auto;
      try solve [rewrite Hp; reflexivity];
      try solve [split; [tauto|]; split; [rewrite lo_queue0, Hp; unfold queued; split; [intros [_ ?]; discriminate|discriminate]|auto]];
      try solve [split; [tauto|]; split; [rewrite lo_ready0, Hp; cbn; tauto|auto]];
      try solve [split; [intros j Hj; rewrite Hst; cbn [In]; split; [auto|intros [?|?]; [congruence|auto]]|]; split; [cbn; tauto|auto]];
      try solve [rewrite <- ?app_assoc; reflexivity]).
  - (* Work *)
    destruct (queue s) as [|k q] eqn:Hq; [discriminate|]. pose proof (proj1 (lo_queue0 k) ltac:(left; reflexivity)) as [Hk Hp].
    apply NoDup_cons_iff in lo_q0. destruct lo_q0 as [Hnq Nq]. unfold queued in Hp.
    exists k, (Executing (negb (t_cancelled (txs s k)))). split; [exact Hp|]. split; [reflexivity|].
    destruct (t_cancelled (txs s k)); injection H as <-; cbn [negb];
    (split; cbn [add_event set_work set_phase set_tx set_table set_refs count pool txs tx_table next_id queue ready stack app_refs ipc_refs atrace]; auto;
      try solve [cbn [alive negb]; rewrite Bool.andb_false_r; reflexivity];
      try solve [split; [intros j Hj; rewrite Hq; cbn [In]; split; [auto|intros [?|?]; [congruence|auto]]|]; split; [unfold queued; split; [contradiction|discriminate]|auto]];
      try solve [split; [tauto|]; split; [rewrite lo_ready0, Hp; cbn; tauto|auto]];
      try solve [split; [tauto|]; split; [rewrite lo_stack0, Hp; cbn; tauto|auto]];
      try solve [cbn [freed]; lia];
      try solve [rewrite ?app_nil_r; reflexivity]).
  - (* Finish *)
    destruct (t_phase (txs s k)) as [|c| | | | |] eqn:Hp; try discriminate. exists c. split; [reflexivity|].
    assert (Hk : (k < count s)%nat) by (destruct (Nat.lt_ge_cases k (count s)) as [?|Hge]; [assumption|]; rewrite (lo_none0 _ Hge) in Hp; discriminate).
    destruct c; injection H as <-;
    (split; cbn [add_event set_work set_phase set_tx set_table set_refs count pool txs tx_table next_id queue ready stack app_refs ipc_refs atrace]; auto;
      try solve [cbn [alive negb]; rewrite Bool.andb_false_r; reflexivity];
      try solve [split; [tauto|]; split; [rewrite lo_queue0, Hp; unfold queued; split; [intros [_ ?]; discriminate|discriminate]|auto]];
      try solve [split; [intros j Hj; rewrite in_app_iff; cbn [In]; firstorder congruence|]; split; [rewrite in_app_iff; cbn; tauto|];
       apply NoDup_snoc; [exact lo_r0|rewrite lo_ready0, Hp; cbn; tauto]];
      try solve [split; [tauto|]; split; [rewrite lo_stack0, Hp; cbn; tauto|auto]];
      try solve [cbn [freed]; lia];
      try solve [rewrite ?app_nil_r; reflexivity]).
  - (* ExitCancel *)
    destruct (pool s) eqn:Hpool; [discriminate|]. destruct (stack s) as [|] eqn:Hst; [|discriminate].
    destruct (t_phase (txs s k)) as [| |result| | | |] eqn:Hp; try discriminate.
    destruct (in_dec Nat.eq_dec k (ready s)) as [Hin|]; [|discriminate]. injection H as <-. split; [reflexivity|]. exists result.
    pose proof (proj1 (lo_ready0 k) Hin) as [Hk _].
    pose proof (tx_free_change (set_work s (queue s) (remove Nat.eq_dec k (ready s)) []) k s) as X.
    cbn [set_work count pool txs tx_table next_id queue ready stack app_refs ipc_refs atrace] in X.
    destruct (X Hk ltac:(now rewrite Hp)) with (es := @nil aev) as (p & fin & HX & HX2); auto.
    * intros j. split; [intros Hj; split; [exact Hj|]|tauto]. intros ->. apply lo_queue0 in Hj. rewrite Hp in Hj. destruct Hj as [_ Hj]. discriminate Hj.
    * intros j. rewrite in_remove_iff. tauto.
    * intros j. rewrite Hst. cbn [In]. tauto.
    * apply nodup_remove; auto.
    * now rewrite app_nil_r.
    * exists p, fin. split; [reflexivity|]. split; [exact HX|exact HX2].
Qed.

Lemma moved_lists s m s' : lists_ok s -> moved s m s' ->
  match m with Work | Finish _ _ | Dispatch _ | Return | ExitCancel _ => lists_ok s' | _ => True end.
Proof.
  intros L M. destruct m; try exact I; cbn [moved] in M.
  - destruct M as (r & _ & M). destruct (_ && _); [|destruct M as (p & fin & M & _)]; eapply change_lists; eauto.
  - destruct M as (k & [(r & p & fin & _ & M & _)|(_ & M)]); eapply change_lists; eauto.
  - destruct M as (k & p & _ & _ & M). eapply change_lists; eauto.
  - destruct M as (c & _ & M). eapply change_lists; eauto.
  - destruct M as (_ & r & p & fin & _ & M & _). eapply change_lists; eauto.
Qed.

Lemma lists_step s m s' : lists_ok s -> step s m = Some s' -> lists_ok s'.
Proof.
  intros L H. pose proof (step_moved _ _ _ L H) as M. pose proof (moved_lists _ _ _ L M) as M2.
  destruct m; try exact M2; clear M M2; cbn [step] in H.
  - destruct (0 <? ipc_refs s); [|discriminate]. unfold ipc_transact in H.
    destruct (tx_get_id _ _ _) as [[id nx]|]; [|discriminate]. injection H as <-. destruct L.
    assert (Hnew : forall (P : phase -> Prop) j, (forall p, ~ P Freed) -> (count s <= j)%nat -> P (t_phase (txs s j)) -> False)
      by (intros P j HP Hj Hx; rewrite (lo_none0 _ Hj) in Hx; exact (HP Freed Hx)).
    split; cbn [queue ready stack count txs]; auto.
    + destruct (pool s); [|auto]. apply NoDup_snoc; [auto|]. rewrite lo_queue0. lia.
    + intros k. unfold upd. destruct (Nat.eqb_spec k (count s)) as [->|E].
      * cbn [t_phase]. destruct (pool s); [rewrite in_app_iff; cbn [In]; unfold queued; intuition lia|].
        rewrite lo_queue0. unfold queued. split; [lia|intros [_ ?]; discriminate].
      * destruct (pool s); [rewrite in_app_iff; cbn [In]|]; rewrite lo_queue0; intuition lia.
    + intros k. rewrite lo_ready0. unfold upd. destruct (Nat.eqb_spec k (count s)) as [->|E]; [|intuition lia].
      cbn [t_phase]. destruct (pool s); cbn; intuition lia.
    + intros k. rewrite lo_stack0. unfold upd. destruct (Nat.eqb_spec k (count s)) as [->|E]; [|intuition lia].
      cbn [t_phase]. destruct (pool s); cbn; intuition lia.
    + intros k Hk. unfold upd. destruct (Nat.eqb_spec k (count s)) as [->|E]; [lia|]. apply lo_none0. lia.
  - destruct (0 <? ipc_refs s); [|discriminate]. injection H as <-. unfold ipc_cancel.
    destruct (id =? 0); [destruct L; split; auto|]. destruct (table_lookup (tx_table s) id) as [k|]; [|destruct L; split; auto].
    assert (Hp : forall j, t_phase (upd (txs s) k {| t_id := t_id (txs s k); t_spec := t_spec (txs s k); t_cancelled := true; t_phase := t_phase (txs s k) |} j) = t_phase (txs s j)).
    { intros j. unfold upd. destruct (Nat.eqb_spec j k) as [->|E]; reflexivity. }
    destruct L. split; cbn [set_tx add_event queue ready stack count txs]; auto; intros j; rewrite Hp; auto.
  - destruct (0 <? ipc_refs s); [|discriminate]. injection H as <-. destruct L; split; auto.
  - destruct (app_refs s); [discriminate|]. injection H as <-. unfold ipc_unref. destruct (_ =? 0); destruct L; split; auto.
  - injection H as <-. destruct L; split; auto.
  - destruct (_ && _); [|discriminate]. injection H as <-. destruct L; split; auto.
Qed.

(* ------------------------------------------------------------------ *)
(* The table and the ids *)
Record table_ok (s : astate) : Prop := {
  tb_in : forall id k, In (id, k) (tx_table s) <-> (k < count s)%nat /\ id = t_id (txs s k) /\ alive (t_phase (txs s k)) = true;
  tb_keys : NoDup (map fst (tx_table s));
  tb_ids : forall k, (k < count s)%nat -> 0 < t_id (txs s k) < 2 ^ 32;
  tb_next : 0 <= next_id s < 2 ^ 32
}.

Lemma u32_range v : 0 <= u32 v < 2 ^ 32.
Proof. unfold u32. apply Z.mod_pos_bound. lia. Qed.

Lemma tx_new_id_range n id n' : 0 <= n < 2 ^ 32 -> tx_new_id n = (id, n') -> 0 < id < 2 ^ 32 /\ 0 <= n' < 2 ^ 32.
Proof.
  intros Hn. unfold tx_new_id. pose proof (u32_range n). pose proof (u32_range (n + 1)). pose proof (u32_range (n + 2)).
  destruct (Z.eqb_spec (u32 n) 0) as [E|E]; intros [= <- <-]; [|lia]. split; [|lia].
  assert (n = 0) by (unfold u32 in E; rewrite Z.mod_small in E; lia). subst n. vm_compute. split; reflexivity.
Qed.

Lemma in_table_false table id : in_table table id = false <-> ~ In id (map fst table).
Proof.
  unfold in_table. rewrite <- Bool.not_true_iff_false, existsb_exists, in_map_iff.
  split; intros H X; apply H.
  - destruct X as ((i, k) & <- & X). exists (i, k). split; [exact X|]. apply Z.eqb_refl.
  - destruct X as ((i, k) & X & E). apply Z.eqb_eq in E. exists (i, k). auto.
Qed.

Lemma tx_get_id_spec fuel table n id n' : 0 <= n < 2 ^ 32 -> tx_get_id fuel table n = Some (id, n') ->
  0 < id < 2 ^ 32 /\ 0 <= n' < 2 ^ 32 /\ ~ In id (map fst table).
Proof.
  revert n. induction fuel as [|fuel IH]; [discriminate|]. intros n Hn. cbn [tx_get_id].
  destruct (tx_new_id n) as [i n1] eqn:Hi. pose proof (tx_new_id_range _ _ _ Hn Hi) as [H1 H2].
  destruct (in_table table i) eqn:Ht; [apply IH; exact H2|]. intros [= <- <-]. apply in_table_false in Ht. auto.
Qed.

Lemma remove_fst table id : forall e, In e (table_remove table id) <-> In e table /\ fst e <> id.
Proof.
  intros e. unfold table_remove. rewrite filter_In. destruct (Z.eqb_spec (fst e) id); cbn; intuition congruence.
Qed.
Lemma remove_keys table id : NoDup (map fst table) -> NoDup (map fst (table_remove table id)).
Proof.
  induction table as [|e table IH]; [auto|]. cbn [map]. intros H. apply NoDup_cons_iff in H. destruct H as [H1 H2].
  cbn [table_remove filter]. destruct (negb _); [|apply IH; exact H2]. cbn [map]. apply NoDup_cons; [|apply IH; exact H2].
  intros X. apply H1. apply in_map_iff in X. destruct X as (x & E & X). apply filter_In in X. apply in_map_iff. exists x. tauto.
Qed.

Lemma change_table s s' k p es : table_ok s -> change s s' k p es -> (alive p = true -> alive (t_phase (txs s k)) = true) -> table_ok s'.
Proof.
  intros T C Hal. destruct T, C. split.
  - intros id j. rewrite ch_count0, ch_tx0, ch_table0. destruct (Nat.eqb_spec j k) as [->|E].
    + cbn [with_phase t_id t_phase]. destruct (alive (t_phase (txs s k))) eqn:Ha; cbn [andb].
      * destruct (alive p); cbn [negb]; [rewrite tb_in0, Ha; tauto|]. rewrite remove_fst, tb_in0. cbn [fst]. intuition congruence.
      * rewrite tb_in0, Ha. destruct (alive p); [specialize (Hal eq_refl); discriminate|]. intuition congruence.
    + destruct (_ && _) eqn:Ha; [|apply tb_in0]. rewrite remove_fst, tb_in0. cbn [fst]. split; [tauto|].
      intros (H1 & H2 & H3). split; [auto|]. intros H4. apply Bool.andb_true_iff in Ha. destruct Ha as [Ha _].
      (* two entries with the same key *)
      assert (X1 : In (id, j) (tx_table s)) by (apply tb_in0; auto).
      assert (X2 : In (id, k) (tx_table s)) by (apply tb_in0; auto).
      clear - X1 X2 tb_keys0 E. induction (tx_table s) as [|e l IH]; [destruct X1|]. cbn [map] in tb_keys0. apply NoDup_cons_iff in tb_keys0.
      destruct tb_keys0 as [N1 N2]. destruct X1 as [->|X1], X2 as [X2|X2].
      * congruence.
      * apply N1. cbn [fst]. apply in_map_iff. exists (id, k). auto.
      * subst e. apply N1. cbn [fst]. apply in_map_iff. exists (id, j). auto.
      * exact (IH N2 X1 X2).
  - rewrite ch_table0. destruct (_ && _); [apply remove_keys|]; exact tb_keys0.
  - intros j. rewrite ch_count0, ch_tx0. destruct (Nat.eqb_spec j k) as [->|E]; cbn [with_phase t_id]; apply tb_ids0.
  - rewrite ch_next0. exact tb_next0.
Qed.

Lemma lookup_in table id k : NoDup (map fst table) -> (table_lookup table id = Some k <-> In (id, k) table).
Proof.
  intros N. unfold table_lookup. split.
  - destruct (find _ table) as [[i j]|] eqn:Hf; [|discriminate]. apply find_some in Hf. destruct Hf as [H1 H2]. apply Z.eqb_eq in H2. cbn [fst snd] in *.
    intros [= <-]. subst. exact H1.
  - intros Hin. destruct (find (fun e => fst e =? id) table) as [[i j]|] eqn:Hf.
    + apply find_some in Hf. destruct Hf as [H1 H2]. apply Z.eqb_eq in H2. cbn [fst snd] in *. subst i. f_equal.
      revert N H1 Hin. clear. induction table as [|e l IH]; [intros _ []|]. cbn [map]. intros N. apply NoDup_cons_iff in N. destruct N as [N1 N2].
      intros [->|X1] [X2|X2].
      * congruence.
      * exfalso. apply N1. apply in_map_iff. exists (id, k). auto.
      * subst e. exfalso. apply N1. apply in_map_iff. exists (id, j). auto.
      * exact (IH N2 X1 X2).
    + exfalso. apply (find_none _ _ Hf) in Hin. cbn [fst] in Hin. rewrite Z.eqb_refl in Hin. discriminate.
Qed.

Lemma table_step s m s' : lists_ok s -> table_ok s -> step s m = Some s' -> table_ok s'.
Proof.
  intros L T H. pose proof (step_moved _ _ _ L H) as M. destruct m; cbn [moved] in M.
  - clear M. cbn [step] in H. destruct (0 <? ipc_refs s); [|discriminate]. unfold ipc_transact in H.
    destruct (tx_get_id _ _ _) as [[id nx]|] eqn:Hid; [|discriminate]. injection H as <-. destruct T.
    apply tx_get_id_spec in Hid; [|exact tb_next0]. destruct Hid as (Hid & Hnx & Hnot).
    assert (Hsame : table_remove (tx_table s) id = tx_table s).
    { clear - Hnot. induction (tx_table s) as [|e l IH]; [reflexivity|]. cbn [table_remove filter].
      destruct (Z.eqb_spec (fst e) id) as [E|E]; [exfalso; apply Hnot; left; exact E|]. cbn [negb]. f_equal. apply IH. intros X. apply Hnot. right. exact X. }
    split; cbn [tx_table count txs next_id]; rewrite ?Hsame.
    + intros i k. cbn [In]. unfold upd. destruct (Nat.eqb_spec k (count s)) as [->|E].
      * cbn [t_id t_phase]. rewrite tb_in0. destruct (pool s); cbn [alive]; (split; [intros [[= <-]|?]; intuition lia|intros (_ & -> & _); left; reflexivity]).
      * rewrite tb_in0. split; [intros [[= <- <-]|?]; intuition lia|]. intros ?. right. intuition lia.
    + cbn [map fst]. apply NoDup_cons; [exact Hnot|exact tb_keys0].
    + intros k Hk. unfold upd. destruct (Nat.eqb_spec k (count s)) as [->|E]; [exact Hid|]. apply tb_ids0. lia.
    + exact Hnx.
  - clear M. cbn [step] in H. destruct (0 <? ipc_refs s); [|discriminate]. injection H as <-. unfold ipc_cancel.
    destruct (id =? 0); [destruct T; split; auto|]. destruct (table_lookup (tx_table s) id) as [k|]; [|destruct T; split; auto].
    assert (Hp : forall j, t_phase (upd (txs s) k {| t_id := t_id (txs s k); t_spec := t_spec (txs s k); t_cancelled := true; t_phase := t_phase (txs s k) |} j) = t_phase (txs s j)
      /\ t_id (upd (txs s) k {| t_id := t_id (txs s k); t_spec := t_spec (txs s k); t_cancelled := true; t_phase := t_phase (txs s k) |} j) = t_id (txs s j)).
    { intros j. unfold upd. destruct (Nat.eqb_spec j k) as [->|E]; split; reflexivity. }
    destruct T. split; cbn [set_tx add_event tx_table count txs next_id]; auto.
    + intros i j. destruct (Hp j) as [-> ->]. apply tb_in0.
    + intros j. destruct (Hp j) as [_ ->]. apply tb_ids0.
  - cbn [step] in H. destruct (0 <? ipc_refs s); [|discriminate]. injection H as <-. destruct T; split; auto.
  - cbn [step] in H. destruct (app_refs s); [discriminate|]. injection H as <-. unfold ipc_unref. destruct (_ =? 0); destruct T; split; auto.
  - cbn [step] in H. injection H as <-. destruct T; split; auto. cbn [next_id].
    destruct (tx_new_id (next_id s)) as [i n] eqn:E. apply tx_new_id_range in E; [|exact tb_next0]. cbn [snd]. lia.
  - destruct M as (r & Hr & M). destruct (_ && _); [|destruct M as (p & fin & M & _)]; eapply change_table; eauto; intros; rewrite Hr; reflexivity.
  - destruct M as (k & [(r & p & fin & Hr & M & _)|(Hr & M)]); eapply change_table; eauto; intros; [rewrite Hr; reflexivity|discriminate].
  - destruct M as (k & p & Hr & _ & M). eapply change_table; eauto; intros; rewrite Hr; reflexivity.
  - destruct M as (c & Hr & M). eapply change_table; eauto; intros; rewrite Hr; reflexivity.
  - cbn [step] in H. destruct (_ && _); [|discriminate]. injection H as <-. destruct T; split; auto.
  - destruct M as (_ & r & p & fin & Hr & M & _). eapply change_table; eauto; intros; rewrite Hr; reflexivity.
Qed.
