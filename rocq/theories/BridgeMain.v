(* What follows for the user of a bridge. *)
From Verif Require Import Base BridgeModel BridgeSpec BridgeProofs BridgeInv BridgeTrack.
Local Open Scope nat_scope.

Lemma in_proxies s i p : In p (proxies_of s i) <->
  p < nproxies s /\ px_if (proxies s p) = i /\ px_dropped (proxies s p) = false.
Proof.
  unfold proxies_of. rewrite filter_In, in_seq, andb_true_iff, Nat.eqb_eq, negb_true_iff. intuition lia.
Qed.
Lemma in_names s i k : In k (names_of s i) <->
  k < npnames s /\ pn_if (pnames s k) = i /\ pn_released (pnames s k) = false.
Proof.
  unfold names_of. rewrite filter_In, in_seq, andb_true_iff, Nat.eqb_eq, negb_true_iff. intuition lia.
Qed.
Lemma single (l : list nat) (x : option nat) : NoDup l -> (forall y, In y l <-> x = Some y) ->
  l = match x with Some y => [y] | None => [] end.
Proof.
  intros N H. destruct x as [x|].
  - destruct l as [|a l]; [exfalso; apply (proj2 (H x) eq_refl)|].
    pose proof (proj1 (H a) (or_introl eq_refl)) as E. injection E as ->.
    destruct l as [|b l]; [reflexivity|]. exfalso. pose proof (proj1 (H b) (or_intror (or_introl eq_refl))) as E.
    injection E as ->. inversion N; subst. apply H2. left. reflexivity.
  - destruct l as [|a l]; [reflexivity|]. discriminate (proj1 (H a) (or_introl eq_refl)).
Qed.
Lemma proxies_are s i : good s -> proxies_of s i = match bi_proxy (ifs s i) with Some p => [p] | None => [] end.
Proof.
  intros [W _ _]. apply single; [apply NoDup_filter, seq_NoDup|]. intro p. rewrite in_proxies. split.
  - intros (A & <- & B). exact (w_px' s W p A B).
  - intro E. destruct (w_px s W i p E) as (A & B & C). auto.
Qed.
Lemma names_are s i : good s -> names_of s i = match bi_name (ifs s i) with Some p => [p] | None => [] end.
Proof.
  intros [W _ _]. apply single; [apply NoDup_filter, seq_NoDup|]. intro p. rewrite in_names. split.
  - intros (A & <- & B). exact (w_nm' s W p A B).
  - intro E. destruct (w_nm s W i p E) as (A & B & C & _). auto.
Qed.
Theorem one_each s i : reach s ->
  (proxies_of s i = [] /\ names_of s i = []) \/
  exists p k, proxies_of s i = [p] /\ names_of s i = [k] /\ pn_proxy (pnames s k) = p /\ pn_name (pnames s k) = src_name s.
Proof.
  intro R. apply reach_good in R. rewrite (proxies_are s i R), (names_are s i R).
  destruct (g_neat s R i) as [_ N]. destruct (bi_proxy (ifs s i)), (bi_name (ifs s i)) eqn:E; try tauto.
  right. eexists _, _. split; [reflexivity|]. split; [reflexivity|]. split; [exact N|].
  apply (w_nm s (g_weak s R) i _ E).
Qed.

Lemma offered_is s i o : good s ->
  offered s i o <-> exists p, bi_proxy (ifs s i) = Some p /\ px_obj (proxies s p) = o.
Proof.
  intro G. pose proof G as [W NS N]. split.
  - intros (p & k & A & B & C & D). exists p. split; [|rewrite B; reflexivity].
    pose proof (w_px' s W p A) as X. rewrite B in X. exact (X eq_refl).
  - intros (p & E & <-). destruct (N i) as [_ X]. rewrite E in X.
    destruct (bi_name (ifs s i)) as [k|] eqn:F; [|tauto].
    destruct (w_px s W i p E) as (A & B & C). destruct (w_nm s W i k F) as (A' & B' & C' & D').
    exists p, k. split; [exact A|]. split; [destruct (proxies s p); cbn in *; congruence|].
    split; [exact A'|]. destruct (pnames s k); cbn in *; congruence.
Qed.
Theorem exactly s l i : runs init l s -> bridged s i -> settled s -> forall o, offered s i o <-> available s i o.
Proof.
  intros R B [Q E] o. pose proof (runs_track _ _ _ R track_init) as [G Wd P T].
  rewrite (offered_is s i o G). unfold available. split.
  - intros (p & X & Y). destruct (bi_obj (ifs s i)) as [m|] eqn:O.
    + destruct (p_px s i (P i) m O) as (p' & X' & Y'). assert (p' = p) by congruence. subst p'. subst o.
      destruct (p_obj s i (P i) m O) as [[_ [Z|Z]]|[_ (id & _ & Z)]].
      * congruence.
      * rewrite Q in Z. destruct Z.
      * rewrite E in Z. destruct Z.
    + exfalso. apply (p_ob s i (P i)); [congruence|exact O].
  - intro C. destruct (bi_obj (ifs s i)) as [m|] eqn:O.
    + destruct (Nat.eq_dec m o) as [->|X].
      * destruct (p_px s i (P i) o O) as (p' & X' & Y'). exists p'. auto.
      * exfalso. destruct (T i B o C) as (q1 & q2 & Z & _); [congruence|]. rewrite Q in Z. destruct q1; discriminate Z.
    + exfalso. destruct (T i B o C) as (q1 & q2 & Z & _); [congruence|]. rewrite Q in Z. destruct q1; discriminate Z.
Qed.

Lemma runs_app a l b l' c : runs a l b -> runs b l' c -> runs a (l ++ l') c.
Proof. induction 1; cbn; auto. intro R. econstructor; eauto. Qed.
(* The same bridge, and the same registered services *)
Definition unmoved (s s' : state) : Prop :=
  life_ s' = life_ s /\ ifaces s' = ifaces s /\ dest_name s' = dest_name s /\ current s' = current s.
Lemma unmoved_refl s : unmoved s s.
Proof. repeat split. Qed.
Lemma unmoved_trans a b c : unmoved a b -> unmoved b c -> unmoved a c.
Proof. intros (A & B & C & D) (E & F & G & H). repeat split; congruence. Qed.
Lemma drain_emit n : forall s, length (emitting s) = n -> track s ->
  exists l s', runs s l s' /\ Forall working l /\ emitting s' = [] /\ queue s' = queue s /\ unmoved s s'.
Proof.
  induction n as [|n I]; intros s L K.
  - exists [], s. split; [constructor|]. split; [constructor|]. destruct (emitting s); [auto using unmoved_refl|discriminate L].
  - destruct (emitting s) as [|id r] eqn:E; [discriminate L|].
    destruct (emit_track s id r K E) as (a & H & Ka & A1 & A2 & A3 & A4 & A5 & A6).
    destruct (I a) as (l & s' & R & F & B1 & B2 & B3); [rewrite A1; injection L as L; exact L|exact Ka|].
    exists (MEmit :: l), s'. split; [econstructor; [exact Logic.I|exact H|exact R]|]. split; [constructor; [exact Logic.I|exact F]|].
    split; [exact B1|]. split; [congruence|]. apply (unmoved_trans s a); [repeat split; assumption|exact B3].
Qed.
Lemma deliver_unmoved s x q f s' : queue s = x :: q -> good s -> step s (MDeliver 0 f) = Ok s' ->
  queue s' = q /\ unmoved s s'.
Proof.
  intros Q G H. cbn [step] in H. rewrite Q in H. cbn [nth_error] in H. unfold remove_nth in H. cbn [firstn skipn app] in H.
  set (a := set_world s (nobjs s) (gone s) (current s) q) in *.
  assert (Ga : good a) by (apply (good_eq s); auto; reflexivity). destruct x as [n|o].
  - destruct (registered_good a n f Ga) as [E|(t & E & _ & S)]; [congruence|]. assert (t = s') by congruence. subst t.
    split; [exact (sm_queue _ _ S)|]. repeat split; apply S.
  - injection H as <-. unfold died. destruct (dead a o); repeat split.
Qed.
Lemma drain n : forall s, length (queue s) = n -> track s ->
  exists l s', runs s l s' /\ Forall working l /\ settled s' /\ unmoved s s'.
Proof.
  induction n as [|n I]; intros s L K; destruct (drain_emit _ s eq_refl K) as (l & a & R & F & E & Q & U).
  - exists l, a. split; [exact R|]. split; [exact F|]. split; [|exact U]. split; [|exact E]. rewrite Q. destruct (queue s); [reflexivity|discriminate L].
  - pose proof (runs_track _ _ _ R K) as Ka. destruct (queue a) as [|x q] eqn:QA; [rewrite <- Q in L; discriminate L|].
    set (f := fun i => current a (fqname a i)).
    assert (X : exists b, step a (MDeliver 0 f) = Ok b).
    { cbn [step]. rewrite QA. cbn [nth_error]. unfold remove_nth. cbn [firstn skipn app]. destruct x as [m|o]; [|eauto].
      destruct (deliver_reg a m q f Ka E QA) as (b & H & _); [intro; reflexivity|]. eauto. }
    destruct X as (b & H). destruct (deliver_unmoved a x q f b QA (k_good a Ka) H) as [B1 B2].
    assert (OD : orderly a (MDeliver 0 f)) by (split; [reflexivity|]; split; [exact E|intro; reflexivity]).
    pose proof (orderly_step a _ b Ka OD H) as Kb.
    destruct (I b) as (l' & s' & R' & F' & S' & U'); [rewrite B1; rewrite <- Q in L; injection L as L; exact L|exact Kb|].
    exists (l ++ MDeliver 0 f :: l')%list, s'. split; [apply (runs_app s l a); [exact R|econstructor; eassumption]|].
    split; [apply Forall_app; split; [exact F|constructor; [exact Logic.I|exact F']]|]. split; [exact S'|].
    apply (unmoved_trans s a); [exact U|]. apply (unmoved_trans a b); assumption.
Qed.
Theorem follows l s i : runs init l s -> bridged s i ->
  exists l' s', runs s l' s' /\ Forall working l' /\ settled s' /\ forall o, offered s' i o <-> available s i o.
Proof.
  intros R B. destruct (drain _ s eq_refl (runs_track _ _ _ R track_init)) as (l' & s' & R' & F & S & (U1 & U2 & U3 & U4)).
  exists l', s'. do 3 (split; [assumption|]). intro o.
  rewrite (exactly s' (l ++ l') i); [|exact (runs_app _ _ _ _ _ R R')| |exact S].
  - unfold available, fqname. rewrite U2, U3, U4. reflexivity.
  - destruct B. split; congruence.
Qed.

Theorem never_crashes l : run init l <> Crash.
Proof. destruct (run_good l init good_init) as [E|(s & E & _)]; congruence. Qed.

Theorem nothing_left s : reach s -> life_ s = Freed ->
  handlers s = [] /\ (forall o, refs s o = 0%Z) /\ (forall i, bi_watch (ifs s i) = false) /\
  (forall p, p < nproxies s -> px_dropped (proxies s p) = true) /\
  (forall k, k < npnames s -> pn_released (pnames s k) = true).
Proof.
  intros R L. apply reach_good in R. destruct R as [W NS N].
  assert (D : forall i, ifs s i = Bi false None None None None) by (intro i; apply (w_idle s W); left; congruence).
  assert (H : handlers s = []).
  { destruct (handlers s) as [|h r] eqn:E; [reflexivity|]. destruct (w_h s W h) as (A & _); [rewrite E; left; reflexivity|].
    rewrite D in A. discriminate A. }
  split; [exact H|]. split; [intro o; rewrite (w_refs s W), H; reflexivity|]. split; [intro i; rewrite D; reflexivity|].
  split; intros p A.
  - destruct (px_dropped (proxies s p)) eqn:X; [reflexivity|]. pose proof (w_px' s W p A X) as Y. rewrite D in Y. discriminate Y.
  - destruct (pn_released (pnames s p)) eqn:X; [reflexivity|]. pose proof (w_nm' s W p A X) as Y. rewrite D in Y. discriminate Y.
Qed.

(* One object is referenced, and has the handler, exactly as many times as interfaces are attached to it *)
Theorem one_handler_each s i : reach s ->
  length (filter (fun h => Nat.eqb (h_if h) i) (handlers s)) <= 1 /\
  forall o, refs s o = Z.of_nat (length (filter (fun h => Nat.eqb (h_obj h) o) (handlers s))).
Proof.
  intro R. apply reach_good in R. destruct R as [W _ _]. split; [|apply W].
  assert (NoDup (map h_id (filter (fun h => Nat.eqb (h_if h) i) (handlers s)))) as N by apply NoDup_map_filter, W.
  destruct (filter _ (handlers s)) as [|a [|b r]] eqn:E; cbn; try lia. exfalso.
  assert (A : In a (handlers s) /\ h_if a = i).
  { rewrite <- (Nat.eqb_eq (h_if a)). apply (filter_In (fun h => Nat.eqb (h_if h) i)). rewrite E. left. reflexivity. }
  assert (B : In b (handlers s) /\ h_if b = i).
  { rewrite <- (Nat.eqb_eq (h_if b)). apply (filter_In (fun h => Nat.eqb (h_if h) i)). rewrite E. right. left. reflexivity. }
  destruct A as [A A'], B as [B B']. destruct (w_h s W a A) as (_ & X & _). destruct (w_h s W b B) as (_ & Y & _).
  cbn in N. inversion N; subst. apply H1. left. congruence.
Qed.

(* Without new registrations nothing starts to be offered *)
Definition no_reg_note (s : state) : Prop := forall n, ~ In (NReg n) (queue s).
Lemma in_remove_nth {A} k (l : list A) x : In x (remove_nth k l) -> In x l.
Proof.
  unfold remove_nth. intro H. apply in_app_or in H. destruct H as [H|H].
  - rewrite <- (firstn_skipn k l). apply in_or_app. left. exact H.
  - rewrite <- (firstn_skipn (S k) l). apply in_or_app. right. exact H.
Qed.
Lemma quiet_step s m s' i : good s -> life_ s <> Before -> no_reg_note s -> bi_proxy (ifs s i) = None -> no_registration m ->
  step s m = Ok s' -> life_ s' <> Before /\ no_reg_note s' /\ bi_proxy (ifs s' i) = None.
Proof.
  intros G L Q P N H. destruct m as [n o nt|o nt|k f|o| |a b l w f| |k|k]; cbn [step] in H.
  - destruct N.
  - destruct (_ && _); [|discriminate H]. injection H as <-. split; [exact L|]. split; [|exact P].
    intros n X. cbn in X. destruct nt; [|exact (Q n X)]. apply in_app_or in X. destruct X as [X|[X|[]]]; [exact (Q n X)|discriminate X].
  - destruct (nth_error (queue s) k) as [x|] eqn:E; [|discriminate H]. destruct x as [n|o].
    + exfalso. exact (Q n (nth_error_In _ _ E)).
    + injection H as <-. unfold died. destruct (dead _ o); (split; [exact L|]; split; [|exact P]);
        intros n X; apply (Q n); exact (in_remove_nth _ _ _ X).
  - destruct (gone s o); [|discriminate H]. injection H as <-. unfold died. destruct (dead s o); (split; [exact L|]; split; [exact Q|exact P]).
  - unfold emit in H. destruct (emitting s) as [|id r]; [discriminate H|]. set (a := set_dying s (dead s) r) in *.
    destruct (find _ (handlers a)) as [h|]; [|injection H as <-; auto].
    destruct (life_ a) eqn:LA; try discriminate H.
    assert (Ga : good a) by (apply (good_eq s); auto; reflexivity).
    destruct (deactivate_good a (h_if h) Ga) as (t & E & _ & S & O & I). assert (t = s') by congruence. subst t.
    split; [rewrite (sm_life _ _ S); exact L|]. split; [intros n X; rewrite (sm_queue _ _ S) in X; exact (Q n X)|].
    destruct (Nat.eq_dec i (h_if h)) as [->|X]; [rewrite I; reflexivity|]. rewrite (O i X). exact P.
  - unfold bridge_new2 in H. destruct (life_ s); [congruence|discriminate H|discriminate H].
  - destruct (bridge_free_good s G) as [E|(t & E & _ & LT & S & D)]; [congruence|]. assert (t = s') by congruence. subst t.
    split; [congruence|]. split; [intros n X; rewrite (sm_queue _ _ S) in X; exact (Q n X)|]. rewrite D. reflexivity.
  - destruct (_ && _); [|discriminate H]. injection H as <-. auto.
  - destruct (existsb _ _); [|discriminate H]. injection H as <-. auto.
Qed.
Theorem stays_withdrawn l : forall s i s', reach s -> life_ s <> Before -> queue s = [] -> proxies_of s i = [] ->
  Forall no_registration l -> run s l = Ok s' -> forall o, ~ offered s' i o.
Proof.
  assert (K : forall s i s', good s -> life_ s <> Before -> no_reg_note s -> bi_proxy (ifs s i) = None ->
    Forall no_registration l -> run s l = Ok s' -> good s' /\ bi_proxy (ifs s' i) = None).
  { induction l as [|m l I]; intros s i s' G L Q P F H; cbn [run] in H; [injection H as <-; auto|].
    inversion F; subst. destruct (step_good s m G) as [E|(t & E & Gt)]; rewrite E in H; [discriminate H|]. cbn [bind] in H.
    destruct (quiet_step s m t i G L Q P H2 E) as (A & B & C). apply (I t); assumption. }
  intros s i s' R L Q P F H o X. apply reach_good in R. rewrite (proxies_are s i R) in P.
  destruct (K s i s' R L) as [G' P']; auto.
  - intros n Y. rewrite Q in Y. destruct Y.
  - destruct (bi_proxy (ifs s i)); [discriminate P|reflexivity].
  - apply (offered_is s' i o G') in X. destruct X as (p & X & _). congruence.
Qed.

(* Registrations with the source *)
Lemma entry_same_or s m s' i : good s -> step s m = Ok s' -> entry s' i <> entry s i ->
  exists k, m = MFinish k /\ In k (running s) /\ pn_if (pnames s k) = i /\ entry s' i = Some (pn_proxy (pnames s k)) /\
    pnames s' = pnames s /\ proxies s' = proxies s /\ npnames s' = npnames s /\ nproxies s' = nproxies s /\ src_name s' = src_name s /\
    ifs s' = ifs s.
Proof.
  intros G H N. destruct m as [n o nt|o nt|k f|o| |a b l w f| |k|k]; cbn [step] in H.
  - destruct (_ && _); [|discriminate H]. injection H as <-. exfalso. apply N. reflexivity.
  - destruct (_ && _); [|discriminate H]. injection H as <-. exfalso. apply N. reflexivity.
  - exfalso. destruct (nth_error (queue s) k) as [x|] eqn:E; [|discriminate H].
    set (a := set_world s (nobjs s) (gone s) (current s) (remove_nth k (queue s))) in *.
    assert (Ga : good a) by (apply (good_eq s); auto; reflexivity). destruct x as [n|o].
    + destruct (registered_good a n f Ga) as [X|(t & X & _ & S)]; [congruence|]. assert (t = s') by congruence. subst t.
      apply N. rewrite (sm_entry _ _ S). reflexivity.
    + injection H as <-. apply N. unfold died. destruct (dead a o); reflexivity.
  - exfalso. destruct (gone s o); [|discriminate H]. injection H as <-. apply N. unfold died. destruct (dead s o); reflexivity.
  - exfalso. unfold emit in H. destruct (emitting s) as [|id r]; [discriminate H|]. set (a := set_dying s (dead s) r) in *.
    destruct (find _ (handlers a)) as [h|]; [|injection H as <-; apply N; reflexivity].
    destruct (life_ a) eqn:LA; try discriminate H.
    assert (Ga : good a) by (apply (good_eq s); auto; reflexivity).
    destruct (deactivate_good a (h_if h) Ga) as (t & E & _ & S & O & I). assert (t = s') by congruence. subst t.
    apply N. rewrite (sm_entry _ _ S). reflexivity.
  - exfalso. unfold bridge_new2 in H. destruct (life_ s) eqn:LS; try discriminate H.
    destruct (match a with None => b | x => x end) as [a'|]; [|injection H as <-; apply N; reflexivity].
    destruct (match b with None => Some a' | x => x end) as [b'|]; [|injection H as <-; apply N; reflexivity].
    destruct l as [|x r]; [injection H as <-; apply N; reflexivity|]. revert H.
    set (l := x :: r). set (s0 := set_life (set_given s l a' b') Live). intro H.
    assert (G0 : good s0) by (apply good_life; [exact G|congruence]).
    destruct (for_all_ind (fun k t => good t /\ same s0 t /\ forall i, k <= i -> ifs t i = Bi false None None None None)
             (fun s i => interface_new s i (w i) (f i)) (length l) 0 s0) as [X|(t & X & (H1 & H2 & H3))].
    + intros j t J (Gt & St & It).
      destruct (interface_new_good t j (w j) (f j) Gt) as [Y|(t' & Y & Gt' & St' & Ot')]; auto.
      * apply (bridged_same s0); [exact St|]. split; [reflexivity|exact (proj2 J)].
      * right. exists t'. split; [exact Y|]. split; [exact Gt'|]. split; [eapply same_trans; eassumption|].
        intros i0 I0. rewrite Ot' by lia. apply It. lia.
    + split; [exact G0|]. split; [apply same_refl|]. intros i0 _. apply (w_idle s (g_weak s G)). left. congruence.
    + congruence.
    + assert (t = s') by congruence. subst t. apply N. rewrite (sm_entry _ _ H2). reflexivity.
  - exfalso. destruct (bridge_free_good s G) as [E|(t & E & _ & LT & S & D)]; [congruence|]. assert (t = s') by congruence. subst t.
    apply N. rewrite (sm_entry _ _ S). reflexivity.
  - destruct (_ && _); [|discriminate H]. injection H as <-. exfalso. apply N. reflexivity.
  - destruct (existsb _ _) eqn:E; [|discriminate H]. injection H as <-. exists k. cbn in *. split; [reflexivity|].
    apply existsb_exists in E. destruct E as (x & A & B). apply Nat.eqb_eq in B. subst x. split; [exact A|].
    unfold upd in *. destruct (Nat.eqb_spec i (pn_if (pnames s k))); [subst|congruence]. auto 10.
Qed.
Theorem listed s m s' i : reach s -> step s m = Ok s' -> entry s' i <> entry s i ->
  (forall k, In k (running s) -> k < npnames s /\ pn_released (pnames s k) = false) ->
  exists p, entry s' i = Some p /\ offered s' i (px_obj (proxies s' p)) /\ px_dropped (proxies s' p) = false.
Proof.
  intros R H N K. apply reach_good in R.
  destruct (entry_same_or s m s' i R H N) as (k & -> & A & B & C & D & E & F1 & F2 & F3 & F4).
  destruct (K k A) as [K1 K2]. pose proof (w_nm' s (g_weak s R) k K1 K2) as X. rewrite B in X.
  destruct (g_neat s R i) as [_ Y]. rewrite X in Y. destruct (bi_proxy (ifs s i)) as [p|] eqn:P; [|tauto].
  exists p. split; [congruence|]. destruct (step_good s (MFinish k) R) as [Z|(t & Z & Gt)]; [congruence|].
  assert (t = s') by congruence. subst t. split.
  - apply (offered_is s' i _ Gt). exists p. split; [congruence|reflexivity].
  - rewrite E. exact (proj2 (proj2 (w_px s (g_weak s R) i p P))).
Qed.
Theorem once_listed l : forall s s' i, reach s -> entry s i <> None -> run s l = Ok s' -> entry s' i <> None.
Proof.
  assert (K : forall s s' i, good s -> entry s i <> None -> run s l = Ok s' -> entry s' i <> None).
  { induction l as [|m l I]; intros s s' i G E H; cbn [run] in H; [injection H as <-; exact E|].
    destruct (step_good s m G) as [X|(t & X & Gt)]; rewrite X in H; [discriminate H|]. cbn [bind] in H.
    apply (I t); auto. assert (D : entry t i = entry s i \/ entry t i <> entry s i) by 
      (destruct (entry t i) as [a|], (entry s i) as [b|]; try (right; congruence); try (left; reflexivity);
       destruct (Nat.eq_dec a b); [left|right]; congruence).
    destruct D as [Y|Y]; [congruence|].
    destruct (entry_same_or s m t i G X Y) as (k & _ & _ & _ & Z & _). congruence. }
  intros s s' i R. apply K, reach_good, R.
Qed.

(* Names *)
Theorem new_names s src dest l w f s' : reach s -> life_ s = Before -> step s (MNew src dest l w f) = Ok s' ->
  (life_ s' = Live <-> l <> [] /\ (src <> None \/ dest <> None)) /\
  (life_ s' = Live -> ifaces s' = l /\
     Some (src_name s') = (match src with None => dest | x => x end) /\
     Some (dest_name s') = (match dest with None => src | x => x end)).
Proof.
  intros R LB H. apply reach_good in R. cbn [step] in H. unfold bridge_new2 in H. rewrite LB in H.
  destruct (match src with None => dest | x => x end) as [a'|] eqn:EA.
  2:{ injection H as <-. rewrite LB. split; [split; [discriminate|]|discriminate]. intros [_ [X|X]]; destruct src, dest; congruence. }
  destruct (match dest with None => Some a' | x => x end) as [b'|] eqn:EB; [|destruct dest; discriminate EB].
  destruct l as [|x r].
  { injection H as <-. rewrite LB. split; [split; [discriminate|]|discriminate]. intros [X _]. congruence. }
  revert H. set (l := x :: r). set (s0 := set_life (set_given s l a' b') Live). intro H.
  assert (G0 : good s0) by (apply good_life; [exact R|congruence]).
  destruct (for_all_ind (fun k t => good t /\ same s0 t /\ forall i, k <= i -> ifs t i = Bi false None None None None)
             (fun s i => interface_new s i (w i) (f i)) (length l) 0 s0) as [X|(t & X & (H1 & H2 & H3))].
  - intros j t J (Gt & St & It).
    destruct (interface_new_good t j (w j) (f j) Gt) as [Y|(t' & Y & Gt' & St' & Ot')]; auto.
    + apply (bridged_same s0); [exact St|]. split; [reflexivity|exact (proj2 J)].
    + right. exists t'. split; [exact Y|]. split; [exact Gt'|]. split; [eapply same_trans; eassumption|].
      intros i0 I0. rewrite Ot' by lia. apply It. lia.
  - split; [exact G0|]. split; [apply same_refl|]. intros i0 _. apply (w_idle s (g_weak s R)). left. congruence.
  - congruence.
  - assert (t = s') by congruence. subst t. rewrite (sm_life _ _ H2), (sm_ifaces _ _ H2), (sm_src _ _ H2), (sm_dest _ _ H2).
    cbn [s0 set_life set_given life_ ifaces src_name dest_name]. split.
    + split; [|reflexivity]. intros _. split; [discriminate|]. destruct src; [left; discriminate|].
      destruct dest; [right; discriminate|discriminate EA].
    + intros _. split; [reflexivity|]. split; [reflexivity|]. rewrite <- EB. destruct dest; [reflexivity|]. destruct src; congruence.
Qed.
