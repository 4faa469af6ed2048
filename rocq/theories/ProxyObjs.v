(* Proofs about references to proxies and to remote objects *)
From Verif Require Import Base ObjModel TxModel ProxyConv BlockModel BlockRun BlockEnds ProxyModel.

Arguments owner_dec : simpl never.
Arguments rowner_dec : simpl never.

Definition tally (f : pev -> bool) (t : list pev) : nat := length (filter f t).
Definition is_gone (p : nat) (e : pev) : bool := match e with EGone j => Nat.eqb j p | _ => false end.
Definition is_created (p : nat) (e : pev) : bool := match e with ECreated j => Nat.eqb j p | _ => false end.
Definition is_acquire (p : nat) (e : pev) : bool := match e with EAcquire j => Nat.eqb j p | _ => false end.
Definition is_release (p : nat) (e : pev) : bool := match e with ERelease j => Nat.eqb j p | _ => false end.

Lemma tally_app f t1 t2 : tally f (t1 ++ t2) = (tally f t1 + tally f t2)%nat.
Proof. unfold tally. now rewrite filter_app, app_length. Qed.

Lemma updk_same {A} (f : key -> A) q v : updk f q v q = v.
Proof. unfold updk, key_eqb. now rewrite !Nat.eqb_refl. Qed.
Lemma key_eqb_spec a b : key_eqb a b = true <-> a = b.
Proof.
  unfold key_eqb. destruct a, b. cbn. rewrite andb_true_iff, !Nat.eqb_eq. split; [intros [-> ->]; auto|now intros [= -> ->]].
Qed.
Lemma updk_other {A} (f : key -> A) q v j : j <> q -> updk f q v j = f j.
Proof. unfold updk. intros N. destruct (key_eqb j q) eqn:E; auto. now apply key_eqb_spec in E. Qed.

Lemma take1_some {A} (dec : forall a b : A, {a = b} + {a <> b}) x : forall l l', take1 dec x l = Some l' ->
  In x l /\ (forall y, In y l -> y = x \/ In y l') /\ (forall y, In y l' -> In y l) /\
  (forall y, count_occ dec l y = (count_occ dec l' y + if dec x y then 1 else 0)%nat).
Proof.
  induction l as [|y l IH]; cbn [take1]; [discriminate|]. intros l'. destruct (dec x y) as [->|N].
  - intros [= <-]. split; [now left|]. split; [intros z [->|H]; auto|]. split; [intros z H; now right|].
    intros z. cbn. destruct (dec y z); lia.
  - destruct (take1 dec x l) as [l1|]; [|discriminate]. intros [= <-]. destruct (IH l1 eq_refl) as (H1 & H2 & H3 & H4).
    split; [now right|]. split; [|split].
    + intros z [->|H]; [right; now left|]. destruct (H2 z H); [now left|right; now right].
    + intros z [->|H]; [now left|right; auto].
    + intros z. cbn. rewrite (H4 z). destruct (dec y z); lia.
Qed.
Lemma take1_in {A} (dec : forall a b : A, {a = b} + {a <> b}) x l : In x l -> exists l', take1 dec x l = Some l'.
Proof.
  induction l as [|y l IH]; [intros []|]. cbn. intros H. destruct (dec x y); [eauto|]. destruct H as [->|H]; [contradiction|].
  destruct (IH H) as (l' & ->). eauto.
Qed.

Lemma palive_in s p : palive s p = true <-> exists o, In (o, p) (prefs s).
Proof.
  unfold palive. rewrite existsb_exists. split.
  - intros ([o j] & H & E). apply Nat.eqb_eq in E. cbn in E. subst j. eauto.
  - intros (o & H). exists (o, p). split; auto. apply Nat.eqb_refl.
Qed.
Lemma ralive_in s r : ralive s r = true <-> exists o, In (o, r) (rrefs s).
Proof.
  unfold ralive. rewrite existsb_exists. split.
  - intros ([o j] & H & E). apply Nat.eqb_eq in E. cbn in E. subst j. eauto.
  - intros (o & H). exists (o, r). split; auto. apply Nat.eqb_refl.
Qed.
Lemma owned_in s o p : owned s o p = true <-> In (o, p) (prefs s).
Proof.
  unfold owned. rewrite existsb_exists. split.
  - intros (x & H & E). destruct (owner_dec x (o, p)); [now subst|discriminate].
  - intros H. exists (o, p). split; auto. now destruct (owner_dec (o, p) (o, p)).
Qed.
Lemma rowned_in s o r : rowned s o r = true <-> In (o, r) (rrefs s).
Proof.
  unfold rowned. rewrite existsb_exists. split.
  - intros (x & H & E). destruct (rowner_dec x (o, r)); [now subst|discriminate].
  - intros H. exists (o, r). split; auto. now destruct (rowner_dec (o, r) (o, r)).
Qed.

Definition cnt (s : pstate) (o : owner) (p : nat) : nat := count_occ owner_dec (prefs s) (o, p).
Definition rcnt (s : pstate) (o : rowner) (r : nat) : nat := count_occ rowner_dec (rrefs s) (o, r).
Lemma cnt_in s o p : (0 < cnt s o p)%nat <-> In (o, p) (prefs s).
Proof. unfold cnt. symmetry. apply count_occ_In. Qed.
Lemma rcnt_in s o r : (0 < rcnt s o r)%nat <-> In (o, r) (rrefs s).
Proof. unfold rcnt. symmetry. apply count_occ_In. Qed.

(* Where the objects and their references are *)
Record objs (s : pstate) : Prop := {
  o_p : forall o p, In (o, p) (prefs s) -> (p < nprx s)%nat;
  o_r : forall o r, In (o, r) (rrefs s) -> (r < nrem s)%nat;
  o_link : forall p, palive s p = true -> In (RProxy p, p_remote (prx s p)) (rrefs s);
  o_back : forall p r, In (RProxy p, r) (rrefs s) -> palive s p = true /\ r = p_remote (prx s p);
  o_one : forall p r, (rcnt s (RProxy p) r <= 1)%nat;
  o_listed : forall r, r_listed (rem s r) = true -> ralive s r = true;
  o_unique : forall r1 r2, r_listed (rem s r1) = true -> r_listed (rem s r2) = true ->
    r_ipc (rem s r1) = r_ipc (rem s r2) -> r_handle (rem s r1) = r_handle (rem s r2) -> r1 = r2;
  o_conv : forall ri h li r p, In (EConvert ri h li r p) (ptrace s) ->
    (p < nprx s)%nat /\ p_remote (prx s p) = r /\ p_ipc (prx s p) = li /\
    (r < nrem s)%nat /\ r_ipc (rem s r) = ri /\ r_handle (rem s r) = h;
  o_gone : forall p, tally (is_gone p) (ptrace s) = (if Nat.ltb p (nprx s) && negb (palive s p) then 1%nat else 0%nat);
  o_created : forall p, tally (is_created p) (ptrace s) = (if Nat.ltb p (nprx s) then 1%nat else 0%nat);
  o_acquire : forall p, tally (is_acquire p) (ptrace s) = (if p_acquired (prx s p) then 1%nat else 0%nat);
  o_release : forall p, tally (is_release p) (ptrace s) =
    (if p_acquired (prx s p) && negb (palive s p) then 1%nat else 0%nat);
  o_fresh : forall p, (nprx s <= p)%nat -> p_acquired (prx s p) = false
}.

(* Objects are the same as before and in the same places, and nothing else is changed *)
Record grows (s s' : pstate) : Prop := {
  g_bs : bs s' = bs s;
  g_ptxs : ptxs s' = ptxs s;
  g_outs : outs s' = outs s;
  g_nrem : (nrem s <= nrem s')%nat;
  g_nprx : (nprx s <= nprx s')%nat;
  g_rem : forall r, (r < nrem s)%nat -> r_ipc (rem s' r) = r_ipc (rem s r) /\ r_handle (rem s' r) = r_handle (rem s r);
  g_prx : forall p, (p < nprx s)%nat -> p_ipc (prx s' p) = p_ipc (prx s p) /\ p_remote (prx s' p) = p_remote (prx s p);
  g_trace : exists l, ptrace s' = ptrace s ++ l
}.
Lemma grows_refl s : grows s s.
Proof. split; auto. exists []. now rewrite app_nil_r. Qed.
Lemma grows_trans a b c : grows a b -> grows b c -> grows a c.
Proof.
  intros [A1 A2 A3 A4 A5 A6 A7 (l1 & A8)] [B1 B2 B3 B4 B5 B6 B7 (l2 & B8)]. split; try congruence; try lia.
  - intros r H. destruct (A6 r H), (B6 r ltac:(lia)). split; congruence.
  - intros p H. destruct (A7 p H), (B7 p ltac:(lia)). split; congruence.
  - exists (l1 ++ l2). now rewrite B8, A8, app_assoc.
Qed.

(* Only these fields matter *)
Lemma objs_same s s' : objs s -> rem s' = rem s -> nrem s' = nrem s -> prx s' = prx s -> nprx s' = nprx s ->
  rrefs s' = rrefs s -> prefs s' = prefs s -> ptrace s' = ptrace s -> objs s'.
Proof.
  intros [H1 H2 H3 H4 H5 H6 H7 H8 H9 H10 H11 H12 H13] E1 E2 E3 E4 E5 E6 E7.
  split; unfold palive, ralive, rcnt in *; rewrite ?E1, ?E2, ?E3, ?E4, ?E5, ?E6, ?E7; auto.
Qed.

Definition quiet (e : pev) : bool :=
  match e with EArrive _ _ | EKept _ _ _ | EForward _ _ _ _ _ | ERefuse _ _ | ESent _ _ _ _ _ _ | EReplied _ _ _ => true | _ => false end.
Lemma objs_quiet s e : objs s -> quiet e = true -> objs (emit s e).
Proof.
  intros [H1 H2 H3 H4 H5 H6 H7 H8 H9 H10 H11 H12 H13] Q.
  split; unfold palive, ralive, rcnt in *; cbn [emit rem nrem prx nprx rrefs prefs ptrace]; auto;
    try (intros p; rewrite tally_app; (replace (tally _ [e]) with 0%nat by now destruct e); rewrite Nat.add_0_r; auto; fail).
  intros ri h li r p H. apply in_app_or in H as [H|[H|[]]]; [now apply H8 in H|]. subst e. discriminate.
Qed.
Lemma grows_emit s e : grows s (emit s e).
Proof. split; auto. exists [e]. reflexivity. Qed.

Lemma rref_objs s o r : objs s -> (r < nrem s)%nat -> (forall p, o <> RProxy p) -> objs (rref s o r).
Proof.
  intros [H1 H2 H3 H4 H5 H6 H7 H8 H9 H10 H11 H12 H13] R N.
  split; unfold palive, ralive, rcnt in *; cbn [rref set_rrefs rem nrem prx nprx rrefs prefs ptrace]; auto.
  - intros o' r' [[= <- <-]|H]; eauto.
  - intros p H. right. auto.
  - intros p r' [[= -> _]|H]; [now destruct (N p)|auto].
  - intros p r'. cbn. destruct (rowner_dec (o, r) (RProxy p, r')) as [[= -> _]|]; [now destruct (N p)|auto].
  - intros r' H. cbn. rewrite (H6 r' H). apply orb_true_r.
Qed.
Lemma rref_grows s o r : grows s (rref s o r).
Proof. split; auto. exists []. now rewrite app_nil_r. Qed.

Lemma unlist_ralive s r x : ralive (set_rem s r x) = ralive s.
Proof. reflexivity. Qed.

(* A reference which isn't that of a proxy is dropped *)
Lemma runref_objs s o r : objs s -> In (o, r) (rrefs s) -> (forall p, o <> RProxy p) ->
  exists s', runref s o r = Ok s' /\ objs s' /\ grows s s' /\ prefs s' = prefs s /\ ptrace s' = ptrace s /\
    prx s' = prx s /\ nprx s' = nprx s /\ nrem s' = nrem s /\ (forall j, r_dead (rem s' j) = r_dead (rem s j)) /\
    (forall o' j, rcnt s o' j = (rcnt s' o' j + if rowner_dec (o, r) (o', j) then 1 else 0)%nat).
Proof.
  intros [H1 H2 H3 H4 H5 H6 H7 H8 H9 H10 H11 H12 H13] H N. unfold runref.
  destruct (take1_in rowner_dec (o, r) (rrefs s) H) as (l & E). rewrite E.
  destruct (take1_some rowner_dec _ _ _ E) as (_ & T2 & T3 & T4).
  assert (LINK : forall p r', In (RProxy p, r') (rrefs s) -> In (RProxy p, r') l).
  { intros p r' X. destruct (T2 _ X) as [Y|X']; auto. exfalso. apply (N p). congruence. }
  assert (ONE : forall p r', (count_occ rowner_dec l (RProxy p, r') <= 1)%nat).
  { intros p r'. pose proof (H5 p r') as X. unfold rcnt in X. rewrite (T4 (RProxy p, r')) in X. lia. }
  assert (OTHER : forall r', r' <> r -> ralive s r' = true -> existsb (fun x => Nat.eqb (snd x) r') l = true).
  { intros r' NE X. apply ralive_in in X as (o' & X). destruct (T2 _ X) as [[= -> ->]|X']; [contradiction|].
    apply existsb_exists. exists (o', r'). split; auto. apply Nat.eqb_refl. }
  destruct (ralive (set_rrefs s l) r) eqn:A.
  - eexists. split; [reflexivity|]. split; [|split; [split; auto; exists []; now rewrite app_nil_r|]; repeat split; auto; intros; apply T4].
    split; unfold palive, ralive, rcnt in *; cbn [set_rrefs rem nrem prx nprx rrefs prefs ptrace] in *; auto.
    + intros o' r' X. apply (H2 o'). auto.
    + intros r' X. destruct (Nat.eq_dec r' r) as [->|NE]; [exact A|]. apply OTHER; auto.
  - eexists. split; [reflexivity|]. split; [|split; [|repeat split; auto]].
    + split; unfold palive, ralive, rcnt in *; cbn [set_rrefs set_rem rem nrem prx nprx rrefs prefs ptrace] in *; auto.
      * intros o' r' X. apply (H2 o'). auto.
      * intros r'. destruct (upd_case (rem s) r (r_set_listed (rem s r) false) r') as [[-> ->]|[NE ->]]; [discriminate|].
        intros X. apply OTHER; auto.
      * intros r1 r2. destruct (upd_case (rem s) r (r_set_listed (rem s r) false) r1) as [[-> ->]|[NE ->]]; [discriminate|].
        destruct (upd_case (rem s) r (r_set_listed (rem s r) false) r2) as [[-> ->]|[NE2 ->]]; [discriminate|]. apply H7.
      * intros ri h li r' p X. destruct (H8 _ _ _ _ _ X) as (X1 & X2 & X3 & X4 & X5 & X6).
        destruct (upd_case (rem s) r (r_set_listed (rem s r) false) r') as [[-> ->]|[NE ->]]; cbn; auto 10.
    + split; auto; [|exists []; now rewrite app_nil_r].
      intros r' _. cbn. destruct (upd_case (rem s) r (r_set_listed (rem s r) false) r') as [[-> ->]|[NE ->]]; auto.
    + intros j. cbn. destruct (upd_case (rem s) r (r_set_listed (rem s r) false) j) as [[-> ->]|[NE ->]]; auto.
    + intros. apply T4.
Qed.

Lemma pref_objs s o p : objs s -> palive s p = true ->
  exists s', pref s o p = Ok s' /\ objs s' /\ grows s s' /\ rrefs s' = rrefs s /\ rem s' = rem s /\ nrem s' = nrem s /\
    ptrace s' = ptrace s /\ prx s' = prx s /\ nprx s' = nprx s /\ (forall j, palive s' j = palive s j) /\
    (forall o' j, cnt s' o' j = (cnt s o' j + if owner_dec (o, p) (o', j) then 1 else 0)%nat).
Proof.
  intros [H1 H2 H3 H4 H5 H6 H7 H8 H9 H10 H11 H12 H13] A. unfold pref. rewrite A. eexists. split; [reflexivity|].
  assert (AL : forall j, palive (set_prefs s ((o, p) :: prefs s)) j = palive s j).
  { intros j. unfold palive. cbn. destruct (Nat.eqb_spec p j) as [->|]; [|reflexivity]. symmetry. exact A. }
  split; [|split; [split; auto; exists []; now rewrite app_nil_r|]; repeat split; auto;
    intros o' j; unfold cnt; cbn; destruct (owner_dec (o, p) (o', j)); lia].
  split; try setoid_rewrite AL; cbn [set_prefs rem nrem prx nprx rrefs prefs ptrace]; auto.
  intros o' p' [[= <- <-]|X]; eauto. apply palive_in in A as (o' & A). eauto.
Qed.

(* A reference to a proxy is dropped *)
Lemma punref_objs s o p : objs s -> In (o, p) (prefs s) ->
  exists s', punref s o p = Ok s' /\ objs s' /\ grows s s' /\ nrem s' = nrem s /\ prx s' = prx s /\ nprx s' = nprx s /\
    (forall j, j <> p -> palive s' j = palive s j) /\ (palive s' p = true -> ptrace s' = ptrace s) /\
    (palive s' p = true \/ In (EGone p) (ptrace s')) /\
    (forall j, r_dead (rem s' j) = r_dead (rem s j)) /\
    (forall r, rcnt s' RTemp r = rcnt s RTemp r) /\ (forall r, rcnt s' RApp r = rcnt s RApp r) /\
    (forall o' j, cnt s o' j = (cnt s' o' j + if owner_dec (o, p) (o', j) then 1 else 0)%nat).
Proof.
  intros O H. pose proof O as [H1 H2 H3 H4 H5 H6 H7 H8 H9 H10 H11 H12 H13]. unfold punref.
  destruct (take1_in owner_dec (o, p) (prefs s) H) as (l & E). rewrite E.
  destruct (take1_some owner_dec _ _ _ E) as (_ & T2 & T3 & T4).
  assert (ALS : palive s p = true) by (apply palive_in; eauto).
  assert (OTHER : forall j, j <> p -> palive (set_prefs s l) j = palive s j).
  { intros j NE. apply Bool.eq_iff_eq_true. rewrite !palive_in. cbn [set_prefs prefs]. split; intros (o' & X); exists o'.
    - auto.
    - destruct (T2 _ X) as [[= -> ->]|X']; [contradiction|auto]. }
  destruct (palive (set_prefs s l) p) eqn:A.
  - eexists. split; [reflexivity|].
    assert (AL : forall j, palive (set_prefs s l) j = palive s j).
    { intros j. destruct (Nat.eq_dec j p) as [->|NE]; [congruence|auto]. }
    split; [|split; [split; auto; exists []; now rewrite app_nil_r|]; repeat split; auto; intros; apply T4].
    split; try setoid_rewrite AL; cbn [set_prefs rem nrem prx nprx rrefs prefs ptrace]; eauto.
  - pose proof (H3 p ALS) as LK. pose proof (H1 _ _ H) as PN. set (r := p_remote (prx s p)) in *.
    set (s2 := if p_acquired (prx s p) then emit (set_prefs s l) (ERelease p) else set_prefs s l).
    assert (F : rem s2 = rem s /\ nrem s2 = nrem s /\ prx s2 = prx s /\ nprx s2 = nprx s /\ rrefs s2 = rrefs s /\ prefs s2 = l /\
      bs s2 = bs s /\ ptxs s2 = ptxs s /\ outs s2 = outs s).
    { unfold s2. destruct (p_acquired (prx s p)); cbn; auto 10. }
    destruct F as (F1 & F2 & F3 & F4 & F5 & F6 & F7 & F8 & F9).
    unfold runref. change (rrefs (emit s2 (EGone p))) with (rrefs s2). rewrite F5.
    destruct (take1_in rowner_dec (RProxy p, r) (rrefs s) LK) as (rl & RE). rewrite RE.
    destruct (take1_some rowner_dec _ _ _ RE) as (_ & R2 & R3 & R4).
    set (s3 := set_rrefs (emit s2 (EGone p)) rl).
    set (s4 := if ralive s3 r then s3 else set_rem s3 r (r_set_listed (rem s3 r) false)).
    assert (G1 : nrem s4 = nrem s /\ prx s4 = prx s /\ nprx s4 = nprx s /\ rrefs s4 = rl /\ prefs s4 = l /\ ptrace s4 = ptrace s2 ++ [EGone p] /\
       bs s4 = bs s /\ ptxs s4 = ptxs s /\ outs s4 = outs s).
    { unfold s4. destruct (ralive s3 r); cbn; rewrite ?F2, ?F3, ?F4, ?F6, ?F7, ?F8, ?F9; auto 10. }
    destruct G1 as (G1 & G2 & G3 & G4 & G5 & G6 & G7 & G8 & G9).
    assert (GR : forall j, r_ipc (rem s4 j) = r_ipc (rem s j) /\ r_handle (rem s4 j) = r_handle (rem s j) /\
      r_dead (rem s4 j) = r_dead (rem s j) /\ (r_listed (rem s4 j) = true -> r_listed (rem s j) = true /\ (j = r -> ralive s3 r = true))).
    { intros j. unfold s4. destruct (ralive s3 r) eqn:RA; cbn [set_rem rem]; change (rem s3) with (rem s2); rewrite F1; [auto 10|].
      destruct (upd_case (rem s) r (r_set_listed (rem s r) false) j) as [[-> ->]|[NE ->]]; cbn; auto 10.
      repeat split; auto; discriminate. }
    assert (AL4 : forall j, palive s4 j = palive (set_prefs s l) j) by (intros j; unfold palive; now rewrite G5).
    assert (RA : forall j, ralive s4 j = ralive s3 j) by (intros j; unfold ralive; now rewrite G4).
    assert (R2S : ptrace s2 = ptrace s ++ (if p_acquired (prx s p) then [ERelease p] else [])).
    { unfold s2. destruct (p_acquired (prx s p)); cbn; auto. now rewrite app_nil_r. }
    exists s4. split. { unfold s4. now destruct (ralive s3 r). }
    split; [|split; [|repeat split]].
    + split.
      * rewrite G5, G3. intros o' j X. eapply H1; eauto.
      * rewrite G4, G1. intros o' j X. eapply H2; eauto.
      * intros j. rewrite AL4, G2, G4. intros X. destruct (Nat.eq_dec j p) as [->|NE]; [congruence|]. rewrite OTHER in X by auto.
        destruct (R2 _ (H3 j X)) as [[= -> _]|Y]; [contradiction|exact Y].
      * intros j r'. rewrite AL4, G2, G4. intros X. destruct (H4 j r' (R3 _ X)) as [Y1 Y2].
        destruct (Nat.eq_dec j p) as [->|NE]; [|now rewrite OTHER].
        exfalso. pose proof (H5 p r) as C. unfold rcnt in C. rewrite (R4 (RProxy p, r)) in C.
        destruct (rowner_dec (RProxy p, r) (RProxy p, r)); [|congruence]. subst r'. fold r in X.
        apply (count_occ_In rowner_dec) in X. lia.
      * intros j r'. unfold rcnt. rewrite G4. pose proof (H5 j r') as C. unfold rcnt in C. rewrite (R4 (RProxy j, r')) in C. lia.
      * intros j X. rewrite RA. destruct (GR j) as (_ & _ & _ & Y). destruct (Y X) as (Y1 & Y2).
        destruct (Nat.eq_dec j r) as [->|NE]; [auto|]. apply H6 in Y1. apply ralive_in in Y1 as (o' & Y1). apply ralive_in.
        exists o'. cbn. destruct (R2 _ Y1) as [[= _ ->]|Z]; [contradiction|exact Z].
      * intros r1 r2 L1 L2. destruct (GR r1) as (A1 & A2 & A3 & A4), (GR r2) as (B1 & B2 & B3 & B4). rewrite A1, A2, B1, B2.
        apply A4 in L1 as [L1 _]. apply B4 in L2 as [L2 _]. now apply H7.
      * intros ri h li r' j X. rewrite G1, G2, G3. rewrite G6, R2S in X.
        assert (Y : In (EConvert ri h li r' j) (ptrace s)).
        { apply in_app_or in X as [X|[X|[]]]; [|discriminate]. apply in_app_or in X as [X|X]; auto.
          destruct (p_acquired (prx s p)); [destruct X as [X|[]]; discriminate|destruct X]. }
        destruct (H8 _ _ _ _ _ Y) as (Y1 & Y2 & Y3 & Y4 & Y5 & Y6). destruct (GR r') as (Z1 & Z2 & _). rewrite Z1, Z2. auto 10.
      * intros j. rewrite G6, R2S, !tally_app, G3, AL4, (H9 j).
        replace (tally (is_gone j) (if p_acquired (prx s p) then [ERelease p] else [])) with 0%nat
          by (now destruct (p_acquired (prx s p))).
        replace (tally (is_gone j) [EGone p]) with (if Nat.eqb p j then 1%nat else 0%nat)
          by (unfold tally; cbn; now destruct (Nat.eqb p j)).
        destruct (Nat.eqb_spec p j) as [->|NE].
        -- rewrite A, ALS. destruct (Nat.ltb_spec j (nprx s)); cbn; lia.
        -- rewrite OTHER by auto. lia.
      * intros j. rewrite G6, R2S, !tally_app, G3, (H10 j).
        replace (tally (is_created j) (if p_acquired (prx s p) then [ERelease p] else [])) with 0%nat
          by (now destruct (p_acquired (prx s p))). unfold tally. cbn. lia.
      * intros j. rewrite G6, R2S, !tally_app, G2, (H11 j).
        replace (tally (is_acquire j) (if p_acquired (prx s p) then [ERelease p] else [])) with 0%nat
          by (now destruct (p_acquired (prx s p))). unfold tally. cbn. lia.
      * intros j. rewrite G6, R2S, !tally_app, G2, AL4, (H12 j).
        change (tally (is_release j) [EGone p]) with 0%nat.
        replace (tally (is_release j) (if p_acquired (prx s p) then [ERelease p] else []))
          with (if p_acquired (prx s p) && Nat.eqb p j then 1%nat else 0%nat)
          by (unfold tally; destruct (p_acquired (prx s p)); cbn; auto; now destruct (Nat.eqb p j)).
        destruct (Nat.eq_dec j p) as [->|NE].
        -- rewrite A, ALS, Nat.eqb_refl. now destruct (p_acquired (prx s p)).
        -- rewrite OTHER, (proj2 (Nat.eqb_neq p j) (not_eq_sym NE)), andb_false_r by auto. lia.
      * rewrite G3, G2. exact H13.
    + split; rewrite ?G1, ?G2, ?G3; auto.
      * intros j _. destruct (GR j) as (X1 & X2 & _). auto.
      * exists ((if p_acquired (prx s p) then [ERelease p] else []) ++ [EGone p]). now rewrite G6, R2S, app_assoc.
    + exact G1.
    + exact G2.
    + exact G3.
    + intros j NE. rewrite AL4. auto.
    + rewrite AL4, A. discriminate.
    + right. rewrite G6. apply in_or_app. right. now left.
    + intros j. apply GR.
    + intros j. unfold rcnt. rewrite G4, (R4 (RTemp, j)). destruct (rowner_dec (RProxy p, r) (RTemp, j)); [discriminate|lia].
    + intros j. unfold rcnt. rewrite G4, (R4 (RApp, j)). destruct (rowner_dec (RProxy p, r) (RApp, j)); [discriminate|lia].
    + intros o' j. unfold cnt. rewrite G5. apply T4.
Qed.
