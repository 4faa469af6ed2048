(* Proofs about watches of HIDL service managers *)
From Verif Require Import Base PollModel PollProofs HwModel HwSpec.

Lemma upd_same A (f : nat -> A) i x : upd f i x i = x.
Proof. unfold upd. rewrite Nat.eqb_refl. reflexivity. Qed.
Lemma upd_other A (f : nat -> A) i x j : j <> i -> upd f i x j = f j.
Proof. intros H. unfold upd. destruct (Nat.eqb_spec j i); congruence. Qed.
Lemma updn_same A (f : bytes -> A) i x : updn f i x i = x.
Proof. unfold updn. destruct (str_eqbP i i); congruence. Qed.
Lemma updn_other A (f : bytes -> A) i x j : j <> i -> updn f i x j = f j.
Proof. intros H. unfold updn. destruct (str_eqbP j i); congruence. Qed.

Definition pending (p : phase) : bool := match p with Destroyed => false | _ => true end.
Definition under_way (p : phase) : bool := match p with Queued | Performed => true | _ => false end.
Definition b2z (b : bool) : Z := if b then 1 else 0.
Record good (w : watch) (o : obj) (c : call) : Prop := {
  g_cb : w_callback w = true -> w_alive w = true;
  g_handler : o_handler o = w_callback w;
  g_refs : o_refs o = b2z (w_callback w) + b2z (pending (c_phase c));
  g_active : under_way (c_phase c) = true -> c_cancelled c = false ->
             w_alive w = true /\ w_callback w = true /\ w_tx w = true;
  g_ofreed : o_freed o = if o_alive o then 0%nat else 1%nat;
  g_cfreed : c_freed c = if pending (c_phase c) then 0%nat else 1%nat;
  g_wfreed : w_freed w = if w_alive w then 0%nat else 1%nat;
}.
Definition fresh (w : watch) (o : obj) (c : call) : Prop :=
  w_alive w = false /\ w_callback w = false /\ w_freed w = 0%nat /\ o = Obj 0 false false 0 /\
  c = Call Destroyed false 0.
Record Inv (s : state) : Prop := {
  i_good : forall i, (i < count s)%nat -> good (watches s i) (objs s i) (calls s i);
  i_fresh : forall i, (count s <= i)%nat -> fresh (watches s i) (objs s i) (calls s i);
  i_table : forall n i, table s n = Some i -> (i < count s)%nat /\ w_alive (watches s i) = true /\ w_name (watches s i) = n;
  i_alive : forall i, w_alive (watches s i) = true -> table s (w_name (watches s i)) = Some i;
}.
Definition same_but (s s' : state) (i : nat) : Prop :=
  forall j, j <> i -> watches s' j = watches s j /\ objs s' j = objs s j /\ calls s' j = calls s j.
Definition frame (s s' : state) : Prop :=
  count s' = count s /\ present s' = present s /\ trace s' = trace s.

Lemma free_ok s i : good (watches s i) (objs s i) (calls s i) -> w_alive (watches s i) = true ->
  exists s', watch_free s i = Ok s' /\ frame s s' /\ table s' = table s /\ same_but s s' i /\
    good (watches s' i) (objs s' i) (calls s' i) /\
    watches s' i = Watch (w_name (watches s i)) false false false (S (w_freed (watches s i))) /\
    c_phase (calls s' i) = c_phase (calls s i) /\
    (c_cancelled (calls s i) = true -> c_cancelled (calls s' i) = true) /\
    o_kernel (objs s' i) = o_kernel (objs s i).
Proof.
  intros G A. unfold watch_free. rewrite A.
  destruct G as [Gcb Gh Gr Ga Go Gc Gw].
  destruct (w_callback (watches s i)) eqn:CB.
  - unfold obj_drop. assert (Ha : o_alive (objs s i) = true).
    { unfold o_alive. rewrite Gr. unfold b2z. destruct (pending _); reflexivity. }
    rewrite Ha. unfold obj_unref. cbn [objs set_obj]. rewrite upd_same. cbn [o_refs o_kernel o_handler o_freed].
    assert (Hp : (0 <? o_refs (objs s i)) = true) by (rewrite Gr; unfold b2z; destruct (pending _); reflexivity).
    rewrite Hp. cbn [bind]. eexists. split; [reflexivity|].
    unfold client_cancel.
    cbn [calls set_obj].
    destruct (w_tx (watches s i)) eqn:TX; [destruct (c_phase (calls s i)) eqn:PH|];
    (split; [repeat split|]); (split; [reflexivity|]);
    (split; [intros j Hj; cbn -[upd]; rewrite ?upd_other by assumption; auto|]);
    cbn -[upd Z.leb Z.sub]; rewrite ?upd_same, ?PH; cbn -[Z.leb Z.sub];
    (split; [|split; [reflexivity|split; [reflexivity|split; auto]]]);
    constructor; cbn -[Z.leb Z.sub]; auto; try congruence;
    try (rewrite Gr, ?PH; cbn [pending]; change (b2z true) with 1; lia);
    try (rewrite ?PH; cbn; intros; destruct Ga as (?&?&?); auto; congruence);
    try (unfold o_alive in *; cbn -[Z.leb Z.sub]; rewrite Go, Gr, ?PH; unfold b2z;
         destruct (o_kernel (objs s i)); try destruct (pending (c_phase (calls s i))); reflexivity);
    try (rewrite Gc, ?PH; reflexivity); try (rewrite Gw, A; reflexivity).
  - cbn [bind]. eexists. split; [reflexivity|].
    assert (NU : under_way (c_phase (calls s i)) = true -> c_cancelled (calls s i) = true).
    { intros U. destruct (c_cancelled (calls s i)); auto. destruct (Ga U eq_refl) as (_&?&_). discriminate. }
    unfold client_cancel.
    destruct (w_tx (watches s i)) eqn:TX; [destruct (c_phase (calls s i)) eqn:PH|];
    (split; [repeat split|]); (split; [reflexivity|]);
    (split; [intros j Hj; cbn -[upd]; rewrite ?upd_other by assumption; auto|]);
    cbn -[upd Z.leb Z.sub]; rewrite ?upd_same, ?PH; cbn -[Z.leb Z.sub];
    (split; [|split; [reflexivity|split; [reflexivity|split; auto]]]);
    constructor; cbn -[Z.leb Z.sub]; rewrite ?PH; auto; try congruence;
    try (rewrite Gr, ?PH; cbn; lia);
    try (intros U1 U2; rewrite NU in U2 by (rewrite ?PH; auto); discriminate);
    try (rewrite Gw, A; reflexivity).
Qed.

Record removed (s s' : state) (n : bytes) : Prop := {
  r_frame : frame s s';
  r_table : forall m, table s' m = if str_eqb m n then None else table s m;
  r_name : forall j, w_name (watches s' j) = w_name (watches s j);
  r_cb : forall j, w_callback (watches s' j) = w_callback (watches s j) && negb (str_eqb (w_name (watches s j)) n);
  r_phase : forall j, c_phase (calls s' j) = c_phase (calls s j);
  r_kernel : forall j, o_kernel (objs s' j) = o_kernel (objs s j);
}.
Lemma str_eqb_true a b : str_eqb a b = true <-> a = b.
Proof. destruct (str_eqbP a b); split; congruence. Qed.
Lemma str_eqb_same a : str_eqb a a = true.
Proof. apply str_eqb_true; reflexivity. Qed.
Lemma str_eqb_false a b : a <> b -> str_eqb a b = false.
Proof. destruct (str_eqbP a b); congruence. Qed.

Lemma cb_alive s : Inv s -> forall i, w_callback (watches s i) = true -> w_alive (watches s i) = true.
Proof.
  intros H i C. destruct (Nat.lt_ge_cases i (count s)) as [L|L].
  - exact (g_cb _ _ _ (i_good s H i L) C).
  - destruct (i_fresh s H i L) as (?&?&_). congruence.
Qed.

Lemma remove_ok s n : Inv s -> exists s', table_remove s n = Ok s' /\ Inv s' /\ removed s s' n.
Proof.
  intros H. unfold table_remove. destruct (table s n) as [i|] eqn:T.
  - destruct (i_table s H n i T) as (Hi & A & Nm).
    destruct (free_ok (set_table s n None) i) as (s' & E & F & Tb & Sb & G & W & P & _ & K);
      [exact (i_good s H i Hi)|exact A|].
    cbn [set_table watches objs calls count] in *.
    exists s'. split; [exact E|]. destruct F as (F1 & F2 & F3). cbn [set_table count present trace table] in *.
    assert (Sj : forall j, j <> i -> watches s' j = watches s j /\ objs s' j = objs s j /\ calls s' j = calls s j)
      by (intros j Hj; exact (Sb j Hj)).
    split.
    + constructor.
      * intros j Hj. rewrite F1 in Hj. destruct (Nat.eq_dec j i) as [->|Ne]; [exact G|].
        destruct (Sj j Ne) as (-> & -> & ->). exact (i_good s H j Hj).
      * intros j Hj. rewrite F1 in Hj. assert (Ne : j <> i) by lia.
        destruct (Sj j Ne) as (-> & -> & ->). exact (i_fresh s H j Hj).
      * intros m j Hm. rewrite Tb in Hm. unfold updn in Hm. destruct (str_eqbP m n) as [->|Nn]; [discriminate|].
        destruct (i_table s H m j Hm) as (L & Aj & Nj). rewrite F1.
        assert (Ne : j <> i) by (intros ->; congruence). destruct (Sj j Ne) as (-> & _). auto.
      * intros j Hj. destruct (Nat.eq_dec j i) as [->|Ne]; [rewrite W in Hj; discriminate|].
        destruct (Sj j Ne) as (Ew & _). rewrite Ew in *. rewrite Tb.
        pose proof (i_alive s H j Hj) as Tj. rewrite updn_other; [exact Tj|]. intros Eq. rewrite Eq in Tj. congruence.
    + constructor; [repeat split; assumption| | | | |].
      * intros m. rewrite Tb. reflexivity.
      * intros j. destruct (Nat.eq_dec j i) as [->|Ne]; [rewrite W; reflexivity|]. destruct (Sj j Ne) as (-> & _). reflexivity.
      * intros j. destruct (Nat.eq_dec j i) as [->|Ne].
        -- rewrite W, Nm, str_eqb_same. cbn. rewrite Bool.andb_false_r. reflexivity.
        -- destruct (Sj j Ne) as (-> & _).
           destruct (w_callback (watches s j)) eqn:C; [|reflexivity].
           rewrite str_eqb_false; [reflexivity|]. intros Eq.
           pose proof (i_alive s H j (cb_alive s H j C)) as Tj. rewrite Eq in Tj. congruence.
      * intros j. destruct (Nat.eq_dec j i) as [->|Ne]; [exact P|]. destruct (Sj j Ne) as (_ & _ & ->). reflexivity.
      * intros j. destruct (Nat.eq_dec j i) as [->|Ne]; [exact K|]. destruct (Sj j Ne) as (_ & -> & _). reflexivity.
  - exists s. split; [reflexivity|]. split; [exact H|]. constructor; try reflexivity; [repeat split| |].
    + intros m. destruct (str_eqbP m n) as [->|]; auto.
    + intros j. destruct (w_callback (watches s j)) eqn:C; [|reflexivity].
      rewrite str_eqb_false; [reflexivity|]. intros Eq.
      pose proof (i_alive s H j (cb_alive s H j C)) as Tj. rewrite Eq in Tj. congruence.
Qed.

Fixpoint among (l : list bytes) (n : bytes) : bool :=
  match l with [] => false | m :: r => str_eqb n m || among r n end.
Lemma among_in l n : among l n = true <-> In n l.
Proof.
  induction l as [|m r IH]; cbn; [split; [discriminate|tauto]|].
  rewrite Bool.orb_true_iff, IH, str_eqb_true. split; intros [->|?]; auto.
Qed.
Record removed_all (s s' : state) (l : list bytes) : Prop := {
  ra_frame : frame s s';
  ra_table : forall m, table s' m = if among l m then None else table s m;
  ra_name : forall j, w_name (watches s' j) = w_name (watches s j);
  ra_cb : forall j, w_callback (watches s' j) = w_callback (watches s j) && negb (among l (w_name (watches s j)));
  ra_phase : forall j, c_phase (calls s' j) = c_phase (calls s j);
  ra_kernel : forall j, o_kernel (objs s' j) = o_kernel (objs s j);
}.
Lemma remove_all_ok l : forall s, Inv s -> exists s', remove_all s l = Ok s' /\ Inv s' /\ removed_all s s' l.
Proof.
  induction l as [|n r IH]; intros s H; cbn [remove_all].
  - exists s. split; [reflexivity|]. split; [exact H|]. constructor; try reflexivity; [repeat split|].
    intros j. cbn. rewrite Bool.andb_true_r. reflexivity.
  - destruct (remove_ok s n H) as (s1 & E1 & H1 & R1). rewrite E1. cbn [bind].
    destruct (IH s1 H1) as (s2 & E2 & H2 & R2). exists s2. split; [exact E2|]. split; [exact H2|].
    destruct R1 as [(a1&a2&a3) b1 b2 b3 b4 b5], R2 as [(c1&c2&c3) d1 d2 d3 d4 d5].
    constructor.
    + repeat split; congruence.
    + intros m. rewrite d1, b1. cbn [among]. destruct (str_eqb m n), (among r m); reflexivity.
    + intros j. congruence.
    + intros j. rewrite d3, b3, b2. cbn [among]. destruct (w_callback (watches s j)), (str_eqb (w_name (watches s j)) n), (among r _); reflexivity.
    + intros j. congruence.
    + intros j. congruence.
Qed.

Record Hist (s : state) : Prop := {
  h_use : forall i n, in_use (trace s) i n <-> (w_callback (watches s i) = true /\ w_name (watches s i) = n);
  h_watched : forall n, watched (trace s) n <-> table s n <> None;
  h_present : present s = false -> forall n, table s n = None;
  h_sent : forall i, (times_sent (trace s) i <= 1)%nat;
  h_unsent : forall i, c_phase (calls s i) = Queued \/ c_phase (calls s i) = Refused \/ (count s <= i)%nat ->
             times_sent (trace s) i = 0%nat;
  h_acc : forall i n, In (EvWatch n i true) (trace s) -> (i < count s)%nat /\ c_phase (calls s i) <> Refused;
  h_ref : forall i n, In (EvWatch n i false) (trace s) -> (i < count s)%nat /\ c_phase (calls s i) = Refused;
  h_all : forall i, (i < count s)%nat -> exists ok, In (EvWatch (w_name (watches s i)) i ok) (trace s);
}.

Definition alloc (s : state) (n : bytes) : state :=
  State (upd (watches s) (count s) (Watch n true false true 0)) (upd (objs s) (count s) (Obj 1 false true 0))
        (calls s) (S (count s)) (table s) (present s) (trace s).
Record replaced (s s' : state) (n : bytes) : Prop := {
  p_count : count s' = S (count s);
  p_present : present s' = present s;
  p_trace : trace s' = trace s;
  p_table : forall m, table s' m = if str_eqb m n then Some (count s) else table s m;
  p_new : watches s' (count s) = Watch n true false true 0 /\ objs s' (count s) = Obj 1 false true 0 /\
          calls s' (count s) = calls s (count s);
  p_good : forall j, (j < count s)%nat -> good (watches s' j) (objs s' j) (calls s' j);
  p_fresh : forall j, (count s < j)%nat -> fresh (watches s' j) (objs s' j) (calls s' j);
  p_name : forall j, j <> count s -> w_name (watches s' j) = w_name (watches s j);
  p_alive : forall j, j <> count s -> w_alive (watches s' j) = w_alive (watches s j) && negb (str_eqb (w_name (watches s j)) n);
  p_cb : forall j, j <> count s -> w_callback (watches s' j) = w_callback (watches s j) && negb (str_eqb (w_name (watches s j)) n);
  p_phase : forall j, c_phase (calls s' j) = c_phase (calls s j);
  p_kernel : forall j, j <> count s -> o_kernel (objs s' j) = o_kernel (objs s j);
}.
Lemma replace_ok s n : Inv s -> exists s', table_replace (alloc s n) n (count s) = Ok s' /\ replaced s s' n.
Proof.
  intros H. unfold table_replace. cbn [alloc table].
  assert (Ba : forall j, table s n <> Some j -> w_alive (watches s j) = true -> str_eqb (w_name (watches s j)) n = false).
  { intros j T A. apply str_eqb_false. intros Eq. pose proof (i_alive s H j A) as Tj. rewrite Eq in Tj. congruence. }
  destruct (table s n) as [i|] eqn:T.
  - destruct (i_table s H n i T) as (Hi & A & Nm).
    assert (Wi : watches (alloc s n) i = watches s i /\ objs (alloc s n) i = objs s i /\ calls (alloc s n) i = calls s i).
    { cbn -[upd]. rewrite !upd_other by lia. auto. }
    destruct Wi as (Wi & Oi & Ci).
    destruct (free_ok (set_table (alloc s n) n (Some (count s))) i) as (s' & E & F & Tb & Sb & G & W & P & _ & K).
    { cbn [set_table watches objs calls]. rewrite Wi, Oi, Ci. exact (i_good s H i Hi). }
    { cbn [set_table watches]. rewrite Wi. exact A. }
    exists s'. split; [exact E|]. destruct F as (F1 & F2 & F3).
    cbn [set_table watches objs calls count present trace table] in *. rewrite Wi, ?Oi, ?Ci in *.
    assert (Sj : forall j, j <> i -> watches s' j = watches (alloc s n) j /\ objs s' j = objs (alloc s n) j /\ calls s' j = calls s j)
      by (intros j Hj; exact (Sb j Hj)).
    assert (Sk : forall j, j <> i -> j <> count s -> watches s' j = watches s j /\ objs s' j = objs s j /\ calls s' j = calls s j).
    { intros j Hj Hk. destruct (Sj j Hj) as (-> & -> & ->). cbn -[upd]. rewrite !upd_other by assumption. auto. }
    constructor; auto.
    + intros m. rewrite Tb. reflexivity.
    + destruct (Sj (count s)) as (-> & -> & ->); [lia|]. cbn -[upd]. rewrite !upd_same. auto.
    + intros j Hj. destruct (Nat.eq_dec j i) as [->|Ne]; [exact G|].
      destruct (Sk j Ne) as (-> & -> & ->); [lia|]. exact (i_good s H j Hj).
    + intros j Hj. destruct (Sk j) as (-> & -> & ->); [lia|lia|]. apply (i_fresh s H). lia.
    + intros j Hj. destruct (Nat.eq_dec j i) as [->|Ne]; [rewrite W; reflexivity|].
      destruct (Sk j Ne Hj) as (-> & _). reflexivity.
    + intros j Hj. destruct (Nat.eq_dec j i) as [->|Ne].
      * rewrite W, Nm, str_eqb_same, Bool.andb_false_r. reflexivity.
      * destruct (Sk j Ne Hj) as (-> & _). destruct (w_alive (watches s j)) eqn:Aj; [|reflexivity].
        rewrite Ba; auto. congruence.
    + intros j Hj. destruct (Nat.eq_dec j i) as [->|Ne].
      * rewrite W, Nm, str_eqb_same, Bool.andb_false_r. reflexivity.
      * destruct (Sk j Ne Hj) as (-> & _). destruct (w_callback (watches s j)) eqn:Aj; [|reflexivity].
        rewrite Ba; auto; [congruence|]. apply cb_alive; assumption.
    + intros j. destruct (Nat.eq_dec j i) as [->|Ne]; [exact P|]. destruct (Sj j Ne) as (_ & _ & ->). reflexivity.
    + intros j Hj. destruct (Nat.eq_dec j i) as [->|Ne]; [exact K|]. destruct (Sk j Ne Hj) as (_ & -> & _). reflexivity.
  - eexists. split; [reflexivity|].
    assert (Sk : forall j, j <> count s -> watches (alloc s n) j = watches s j /\ objs (alloc s n) j = objs s j).
    { intros j Hk. cbn -[upd]. rewrite !upd_other by assumption. auto. }
    constructor; cbn [set_table watches objs calls count present trace table]; auto.
    + cbn -[upd]. rewrite !upd_same. auto.
    + intros j Hj. destruct (Sk j) as (-> & ->); [lia|]. exact (i_good s H j Hj).
    + intros j Hj. destruct (Sk j) as (-> & ->); [lia|]. apply (i_fresh s H). lia.
    + intros j Hj. destruct (Sk j Hj) as (-> & _). reflexivity.
    + intros j Hj. destruct (Sk j Hj) as (-> & _). destruct (w_alive (watches s j)) eqn:Aj; [|reflexivity].
      rewrite Ba; auto. congruence.
    + intros j Hj. destruct (Sk j Hj) as (-> & _). destruct (w_callback (watches s j)) eqn:Aj; [|reflexivity].
      rewrite Ba; auto; [congruence|]. apply cb_alive; assumption.
    + intros j Hj. destruct (Sk j Hj) as (_ & ->). reflexivity.
Qed.

Lemma watch_prep s n accept : Inv s ->
  exists s1, hidl_watch s n accept =
    (if accept then Ok (say s1 (EvWatch n (count s) true))
     else HwModel.bind (table_remove s1 n) (fun s2 => Ok (say s2 (EvWatch n (count s) false)))) /\
  Inv s1 /\ count s1 = S (count s) /\ present s1 = present s /\ trace s1 = trace s /\
  (forall m, table s1 m = if str_eqb m n then Some (count s) else table s m) /\
  (w_callback (watches s1 (count s)) = true /\ w_name (watches s1 (count s)) = n) /\
  c_phase (calls s1 (count s)) = (if accept then Queued else Refused) /\
  (forall j, j <> count s -> w_name (watches s1 j) = w_name (watches s j) /\
     w_callback (watches s1 j) = w_callback (watches s j) && negb (str_eqb (w_name (watches s j)) n) /\
     c_phase (calls s1 j) = c_phase (calls s j)).
Proof.
  intros H. destruct (replace_ok s n H) as (s0 & E & R). unfold hidl_watch.
  change (State (upd (watches s) (count s) (Watch n true false true 0)) (upd (objs s) (count s) (Obj 1 false true 0))
            (calls s) (S (count s)) (table s) (present s) (trace s)) with (alloc s n).
  rewrite E. cbn [HwModel.bind]. destruct R as [Rc Rp Rt Rtb (Rw & Ro & Rcl) Rg Rf Rn Ra Rcb Rph Rk].
  rewrite Ro. change (o_alive (Obj 1 false true 0)) with true. cbv iota. cbn [o_refs o_kernel o_handler o_freed].
  destruct (i_fresh s H (count s) (le_n _)) as (_ & _ & _ & _ & Fc).
  assert (GI : forall s1, count s1 = S (count s) -> table s1 = table s0 ->
     (forall j, j <> count s -> watches s1 j = watches s0 j /\ objs s1 j = objs s0 j /\ calls s1 j = calls s0 j) ->
     good (watches s1 (count s)) (objs s1 (count s)) (calls s1 (count s)) ->
     w_name (watches s1 (count s)) = n -> w_alive (watches s1 (count s)) = true -> Inv s1).
  { intros s1 C Tb Oth G Nm Al. constructor.
    - intros j Hj. destruct (Nat.eq_dec j (count s)) as [->|Ne]; [exact G|].
      destruct (Oth j Ne) as (-> & -> & ->). apply Rg. lia.
    - intros j Hj. destruct (Oth j) as (-> & -> & ->); [lia|]. apply Rf. lia.
    - intros m j Hm. rewrite Tb, Rtb in Hm. destruct (str_eqbP m n) as [->|Nn].
      + injection Hm as <-. split; [lia|]. auto.
      + destruct (i_table s H m j Hm) as (L & A & N). assert (Ne : j <> count s) by lia.
        destruct (Oth j Ne) as (-> & _). rewrite Ra, Rn, A, N, str_eqb_false by assumption. split; [lia|]. auto.
    - intros j Hj. destruct (Nat.eq_dec j (count s)) as [->|Ne].
      + rewrite Nm, Tb, Rtb, str_eqb_same. reflexivity.
      + destruct (Oth j Ne) as (Ew & _). rewrite Ew in *. rewrite Ra in Hj by assumption. rewrite Rn by assumption.
        apply andb_prop in Hj. destruct Hj as (Hj & Nn). apply Bool.negb_true_iff in Nn.
        rewrite Tb, Rtb, Nn. apply (i_alive s H). exact Hj. }
  destruct accept.
  - eexists. split; [reflexivity|]. split.
    { apply GI; cbn -[upd]; auto.
      - intros j Hj. rewrite !upd_other by assumption. auto.
      - rewrite !upd_same. rewrite Rw. cbn. constructor; cbn; auto; discriminate.
      - rewrite upd_same. reflexivity.
      - rewrite upd_same, Rw. reflexivity. }
    cbn -[upd]. rewrite !upd_same, Rw. cbn -[upd]. split; [exact Rc|]. split; [exact Rp|]. split; [exact Rt|].
    split; [exact Rtb|]. split; [auto|]. split; [reflexivity|].
    intros j Hj. rewrite !upd_other by assumption. rewrite Rn, Rcb by assumption. auto.
  - eexists. split; [reflexivity|]. split.
    { apply GI; cbn -[upd]; auto.
      - intros j Hj. rewrite !upd_other by assumption. auto.
      - rewrite !upd_same. rewrite Rw. cbn. constructor; cbn; auto; discriminate.
      - rewrite Rw. reflexivity.
      - rewrite Rw. reflexivity. }
    cbn -[upd]. rewrite !upd_same, Rw. cbn -[upd]. split; [exact Rc|]. split; [exact Rp|]. split; [exact Rt|].
    split; [exact Rtb|]. split; [auto|]. split; [reflexivity|].
    intros j Hj. rewrite !upd_other by assumption. rewrite Rn, Rcb by assumption. auto.
Qed.

Definition All (s : state) : Prop := Inv s /\ Hist s.
Definition fine (m : out) : Prop := match m with Crash => False | Disabled => True | Ok s => All s end.

Lemma inv_say s e : Inv s -> Inv (say s e).
Proof. intros [a b c d]. constructor; assumption. Qed.

Lemma all_watch s n accept : All s -> present s = true -> fine (hidl_watch s n accept).
Proof.
  intros (H & [Hu Hw Hp Hs Hn Ha Hr Hl]) Pr.
  destruct (watch_prep s n accept H) as (s1 & E & H1 & C & P & T & Tb & (Cb & Nm) & Ph & Oth). rewrite E. clear E.
  assert (Phase : forall j, j <> count s -> c_phase (calls s1 j) = c_phase (calls s j)) by (intros j Hj; apply Oth; exact Hj).
  assert (Wn : forall j, j <> count s -> w_name (watches s1 j) = w_name (watches s j)) by (intros j Hj; apply Oth; exact Hj).
  assert (Un : forall i, c_phase (calls s1 i) = Queued \/ c_phase (calls s1 i) = Refused \/ (S (count s) <= i)%nat -> times_sent (trace s) i = 0%nat).
  { intros i Hi. apply Hn. destruct (Nat.eq_dec i (count s)) as [->|Ne]; [lia|]. rewrite (Phase i Ne) in Hi.
    destruct Hi as [?|[?|?]]; auto. right. right. lia. }
  assert (Acc : forall i m, In (EvWatch m i true) (trace s) -> (i < S (count s))%nat /\ c_phase (calls s1 i) <> Refused).
  { intros i m Hi. destruct (Ha i m Hi) as (L & X). rewrite Phase by lia. split; [lia|exact X]. }
  assert (Ref : forall i m, In (EvWatch m i false) (trace s) -> (i < S (count s))%nat /\ c_phase (calls s1 i) = Refused).
  { intros i m Hi. destruct (Hr i m Hi) as (L & X). rewrite Phase by lia. split; [lia|exact X]. }
  destruct accept.
  - split; [apply inv_say; exact H1|]. constructor; cbn [say trace watches table present calls count]; rewrite ?T.
    + intros i m. cbn [in_use]. rewrite Hu. destruct (Nat.eq_dec i (count s)) as [->|Ne].
      * rewrite Cb, Nm. split; [|intros (_ & ->); left; auto].
        intros [(_ & -> & _)|(_ & X & _)]; [auto|].
        destruct (i_fresh s H _ (le_n _)) as (_ & Y & _). congruence.
      * destruct (Oth i Ne) as (-> & -> & _). rewrite Bool.andb_true_iff, Bool.negb_true_iff.
        split.
        -- intros [(? & _)|(Nn & X & Y)]; [congruence|]. rewrite Y. repeat split; auto. apply str_eqb_false. congruence.
        -- intros ((X & Y) & Z). right. subst m. repeat split; auto. intros ->. rewrite str_eqb_same in Y. discriminate.
    + intros m. cbn [watched]. rewrite Hw, Tb. destruct (str_eqbP m n) as [->|Nn].
      * split; [discriminate|auto].
      * split; [intros [(? & _)|(_ & ?)]; [congruence|assumption]|intros; right; auto].
    + intros X. congruence.
    + exact Hs.
    + intros i Hi. rewrite C in Hi. cbn [times_sent]. apply Un. exact Hi.
    + intros i m [Hi|Hi]; rewrite C; [injection Hi as <- <-; rewrite Ph; split; [lia|discriminate]|eauto].
    + intros i m [Hi|Hi]; rewrite C; [discriminate|eauto].
    + intros i Hi. rewrite C in Hi. destruct (Nat.eq_dec i (count s)) as [->|Ne].
      * exists true. rewrite Nm. left; reflexivity.
      * rewrite Wn by assumption. destruct (Hl i) as (ok & X); [lia|]. exists ok. right; exact X.
  - destruct (remove_ok s1 n H1) as (s2 & E & H2 & [(F1 & F2 & F3) R2 R3 R4 R5 R6]). rewrite E. cbn [HwModel.bind].
    split; [apply inv_say; exact H2|]. constructor; cbn [say trace watches table present calls count]; rewrite ?F3, ?T.
    + intros i m. cbn [in_use]. rewrite Hu, R4, R3. destruct (Nat.eq_dec i (count s)) as [->|Ne].
      * rewrite Cb, Nm, str_eqb_same. split; [|intros (? & _); discriminate].
        intros [(_ & _ & ?)|(_ & X & _)]; [congruence|].
        destruct (i_fresh s H _ (le_n _)) as (_ & Y & _). congruence.
      * destruct (Oth i Ne) as (-> & -> & _). rewrite !Bool.andb_true_iff, !Bool.negb_true_iff.
        split.
        -- intros [(? & _)|(Nn & X & Y)]; [congruence|]. rewrite Y. repeat split; auto; apply str_eqb_false; congruence.
        -- intros (((X & Y) & _) & Z). right. subst m. repeat split; auto. intros ->. rewrite str_eqb_same in Y. discriminate.
    + intros m. cbn [watched]. rewrite Hw, R2, Tb. destruct (str_eqbP m n) as [->|Nn].
      * split; [intros [(_ & ?)|(? & _)]; congruence|congruence].
      * split; [intros [(? & _)|(_ & ?)]; [congruence|assumption]|intros; right; auto].
    + intros X. congruence.
    + exact Hs.
    + intros i Hi. rewrite F1, C, R5 in Hi. cbn [times_sent]. apply Un. exact Hi.
    + intros i m [Hi|Hi]; rewrite F1, C, R5; [discriminate|eauto].
    + intros i m [Hi|Hi]; rewrite F1, C, R5; [injection Hi as <- <-; rewrite Ph; split; [lia|reflexivity]|eauto].
    + intros i Hi. rewrite F1, C in Hi. rewrite R3. destruct (Nat.eq_dec i (count s)) as [->|Ne].
      * exists false. rewrite Nm. left; reflexivity.
      * rewrite Wn by assumption. destruct (Hl i) as (ok & X); [lia|]. exists ok. right; exact X.
Qed.

Lemma all_unwatch s n : All s -> fine (hidl_unwatch s n).
Proof.
  intros (H & [Hu Hw Hp Hs Hn Ha Hr Hl]). unfold hidl_unwatch.
  destruct (remove_ok s n H) as (s2 & E & H2 & [(F1 & F2 & F3) R2 R3 R4 R5 R6]). rewrite E. cbn [HwModel.bind].
  split; [apply inv_say; exact H2|]. constructor; cbn [say trace watches table present calls count]; rewrite ?F3.
  - intros i m. cbn [in_use]. rewrite Hu, R4, R3, !Bool.andb_true_iff, !Bool.negb_true_iff. split.
    + intros (Nn & X & Y). rewrite Y. repeat split; auto. apply str_eqb_false; congruence.
    + intros ((X & Y) & Z). subst m. repeat split; auto. intros ->. rewrite str_eqb_same in Y. discriminate.
  - intros m. cbn [watched]. rewrite Hw, R2. destruct (str_eqbP m n) as [->|Nn].
    + split; [intros (? & _); congruence|congruence].
    + split; [intros (_ & ?); assumption|intros; split; auto].
  - intros X m. rewrite R2. rewrite F2 in X. rewrite Hp by assumption. destruct (str_eqb m n); reflexivity.
  - exact Hs.
  - intros i Hi. rewrite F1, R5 in Hi. cbn [times_sent]. apply Hn. exact Hi.
  - intros i m [Hi|Hi]; rewrite F1, R5; [discriminate|eauto].
  - intros i m [Hi|Hi]; rewrite F1, R5; [discriminate|eauto].
  - intros i Hi. rewrite F1 in Hi. rewrite R3. destruct (Hl i) as (ok & X); [lia|]. exists ok. right; exact X.
Qed.

Lemma all_finalize s names : All s -> fine (hidl_finalize s names).
Proof.
  intros (H & [Hu Hw Hp Hs Hn Ha Hr Hl]). unfold hidl_finalize.
  set (l := names ++ map (fun i => w_name (watches s i)) (seq 0 (count s))).
  destruct (remove_all_ok l s H) as (s2 & E & H2 & [(F1 & F2 & F3) R2 R3 R4 R5 R6]). rewrite E. cbn [HwModel.bind].
  assert (Al : forall i, (i < count s)%nat -> among l (w_name (watches s i)) = true).
  { intros i Hi. apply among_in. apply in_or_app. right. apply in_map_iff. exists i. split; [reflexivity|]. apply in_seq. lia. }
  assert (Cb : forall i, w_callback (watches s2 i) = false).
  { intros i. rewrite R4. destruct (Nat.lt_ge_cases i (count s)) as [L|L]; [rewrite (Al i L), Bool.andb_false_r; reflexivity|].
    destruct (i_fresh s H i L) as (_ & -> & _). reflexivity. }
  assert (Tn : forall n, table s2 n = None).
  { intros n. rewrite R2. destruct (among l n) eqn:A; [reflexivity|]. destruct (table s n) as [i|] eqn:T; [|reflexivity].
    destruct (i_table s H n i T) as (L & _ & N). rewrite <- N, Al in A by assumption. discriminate. }
  split.
  { destruct H2 as [a b c d]. constructor; assumption. }
  constructor; cbn [trace watches table present calls count]; rewrite ?F3.
  - intros i m. cbn [in_use]. rewrite Cb. split; [tauto|intros (? & _); discriminate].
  - intros m. cbn [watched]. rewrite Tn. split; [tauto|congruence].
  - intros _. exact Tn.
  - exact Hs.
  - intros i Hi. rewrite F1, R5 in Hi. cbn [times_sent]. apply Hn. exact Hi.
  - intros i m [Hi|Hi]; rewrite F1, R5; [discriminate|eauto].
  - intros i m [Hi|Hi]; rewrite F1, R5; [discriminate|eauto].
  - intros i Hi. rewrite F1 in Hi. rewrite R3. destruct (Hl i) as (ok & X); [lia|]. exists ok. right; exact X.
Qed.

(* moves which only touch what has one number *)
Lemma inv_at s s' i : Inv s -> (i < count s)%nat -> count s' = count s -> table s' = table s -> same_but s s' i ->
  good (watches s' i) (objs s' i) (calls s' i) ->
  w_alive (watches s' i) = w_alive (watches s i) -> w_name (watches s' i) = w_name (watches s i) -> Inv s'.
Proof.
  intros [a b c d] L C T Sb G Al Nm. constructor.
  - intros j Hj. rewrite C in Hj. destruct (Nat.eq_dec j i) as [->|Ne]; [exact G|].
    destruct (Sb j Ne) as (-> & -> & ->). auto.
  - intros j Hj. rewrite C in Hj. destruct (Sb j) as (-> & -> & ->); [lia|]. auto.
  - intros n j Hj. rewrite T in Hj. destruct (c n j Hj) as (X & Y & Z). rewrite C. split; [exact X|].
    destruct (Nat.eq_dec j i) as [->|Ne]; [rewrite Al, Nm; auto|]. destruct (Sb j Ne) as (-> & _). auto.
  - intros j Hj. rewrite T. destruct (Nat.eq_dec j i) as [->|Ne]; [rewrite Al in Hj; rewrite Nm; auto|].
    destruct (Sb j Ne) as (-> & _). destruct (Sb j Ne) as (Ew & _). rewrite Ew in Hj. auto.
Qed.

Lemma phase_used s i : Inv s -> pending (c_phase (calls s i)) = true -> (i < count s)%nat.
Proof.
  intros H P. destruct (Nat.lt_ge_cases i (count s)) as [L|L]; [exact L|].
  destruct (i_fresh s H i L) as (_&_&_&_&Ec). rewrite Ec in P. discriminate.
Qed.

Lemma all_perform s i : All s -> fine (step s (MPerform i)).
Proof.
  intros (H & [Hu Hw Hp Hs Hn Ha Hr Hl]). cbn [step].
  destruct (c_phase (calls s i)) eqn:P; try exact I.
  assert (L : (i < count s)%nat) by (apply phase_used; [exact H|rewrite P; reflexivity]).
  pose proof (i_good s H i L) as [g1 g2 g3 g4 g5 g6 g7].
  assert (A : o_alive (objs s i) = true).
  { unfold o_alive. rewrite g3, P. unfold b2z. destruct (w_callback (watches s i)); reflexivity. }
  rewrite A. rewrite P in *.
  assert (R : (0 <? o_refs (objs s i)) = true) by (rewrite g3; unfold b2z; destruct (w_callback (watches s i)); reflexivity).
  split.
  - eapply (inv_at s _ i); cbn -[upd]; auto.
    + intros j Hj. cbn -[upd]. rewrite !upd_other by assumption. auto.
    + rewrite !upd_same. constructor; cbn; auto. rewrite g5, A. unfold o_alive. cbn. rewrite R. reflexivity.
  - constructor; cbn -[upd]; auto.
    + intros j. destruct (Nat.eqb_spec i j) as [<-|Ne]; [rewrite Hn by auto; lia|apply Hs].
    + intros j Hj. destruct (Nat.eq_dec j i) as [->|Ne].
      * rewrite upd_same in Hj. cbn in Hj. destruct Hj as [?|[?|?]]; try discriminate. lia.
      * rewrite upd_other in Hj by assumption. destruct (Nat.eqb_spec i j); [congruence|]. cbn. auto.
    + intros j m [X|Hj]; [discriminate|]. destruct (Ha j m Hj) as (X & Y). split; [exact X|].
      destruct (Nat.eq_dec j i) as [->|Ne]; [rewrite upd_same; discriminate|rewrite upd_other by assumption; exact Y].
    + intros j m [X|Hj]; [discriminate|]. destruct (Hr j m Hj) as (X & Y). split; [exact X|].
      destruct (Nat.eq_dec j i) as [->|Ne]; [congruence|rewrite upd_other by assumption; exact Y].
    + intros j Hj. destruct (Hl j Hj) as (ok & X). eauto.
Qed.

Lemma all_destroy s i : All s -> fine (step s (MDestroy i)).
Proof.
  intros (H & [Hu Hw Hp Hs Hn Ha Hr Hl]). cbn [step].
  assert (D : pending (c_phase (calls s i)) = true -> c_phase (calls s i) <> Refused -> fine (call_destroy s i)).
  { intros P NR.
    assert (L : (i < count s)%nat) by (apply phase_used; [exact H|exact P]).
    pose proof (i_good s H i L) as [g1 g2 g3 g4 g5 g6 g7]. rewrite P in *.
    unfold call_destroy, obj_unref.
    assert (R : (0 <? o_refs (objs s i)) = true) by (rewrite g3; unfold b2z; destruct (w_callback (watches s i)); reflexivity).
    rewrite R. cbn [HwModel.bind]. split.
    - eapply (inv_at s _ i); cbn -[upd]; auto.
      + intros j Hj. cbn -[upd]. rewrite !upd_other by assumption. auto.
      + rewrite !upd_same. constructor; cbn; auto; try discriminate.
        * rewrite g3. unfold b2z. destruct (w_callback (watches s i)); reflexivity.
        * rewrite g5. unfold o_alive. cbn -[Z.leb Z.sub]. rewrite R, g3. unfold b2z.
          destruct (w_callback (watches s i)), (o_kernel (objs s i)); reflexivity.
    - constructor; cbn -[upd]; auto.
      + intros j Hj. destruct (Nat.eq_dec j i) as [->|Ne].
        * rewrite upd_same in Hj. cbn in Hj. destruct Hj as [?|[?|?]]; try discriminate. lia.
        * rewrite upd_other in Hj by assumption. auto.
      + intros j m Hj. destruct (Ha j m Hj) as (X & Y). split; [exact X|].
        destruct (Nat.eq_dec j i) as [->|Ne]; [rewrite upd_same; discriminate|rewrite upd_other by assumption; exact Y].
      + intros j m Hj. destruct (Hr j m Hj) as (X & Y). split; [exact X|].
        destruct (Nat.eq_dec j i) as [->|Ne]; [congruence|rewrite upd_other by assumption; exact Y]. }
  destruct (c_phase (calls s i)) eqn:P; try exact I; apply D; (reflexivity || discriminate).
Qed.

Lemma all_letgo s i : All s -> fine (step s (MLetGo i)).
Proof.
  intros (H & [Hu Hw Hp Hs Hn Ha Hr Hl]). cbn [step].
  destruct (o_kernel (objs s i)) eqn:K; [|exact I].
  assert (L : (i < count s)%nat).
  { destruct (Nat.lt_ge_cases i (count s)) as [L|L]; [exact L|].
    destruct (i_fresh s H i L) as (_&_&_&Eo&_). rewrite Eo in K. discriminate. }
  pose proof (i_good s H i L) as [g1 g2 g3 g4 g5 g6 g7].
  split.
  - eapply (inv_at s _ i); cbn -[upd]; auto.
    + intros j Hj. cbn -[upd]. rewrite !upd_other by assumption. auto.
    + rewrite !upd_same. constructor; cbn; auto.
      rewrite g5. unfold o_alive. cbn -[Z.leb]. rewrite K, g3, !Bool.orb_true_r, Bool.orb_false_r. unfold b2z.
      destruct (w_callback (watches s i)), (pending (c_phase (calls s i))); reflexivity.
  - constructor; cbn -[upd]; auto.
Qed.

Lemma handler_used s i : All s -> o_handler (objs s i) = true -> w_callback (watches s i) = true /\ present s = true.
Proof.
  intros (H & Hh) O.
  assert (L : (i < count s)%nat).
  { destruct (Nat.lt_ge_cases i (count s)) as [L|L]; [exact L|].
    destruct (i_fresh s H i L) as (_&_&_&Eo&_). rewrite Eo in O. discriminate. }
  pose proof (i_good s H i L) as [g1 g2 g3 g4 g5 g6 g7].
  assert (C : w_callback (watches s i) = true) by congruence. split; [exact C|].
  pose proof (i_alive s H i (g1 C)) as T.
  destruct (present s) eqn:P; [reflexivity|]. rewrite (h_present s Hh P) in T. discriminate.
Qed.
Lemma used_handler s i n : All s -> in_use (trace s) i n -> o_handler (objs s i) = true.
Proof.
  intros (H & Hh) U. apply (h_use s Hh) in U. destruct U as (C & _).
  assert (L : (i < count s)%nat).
  { destruct (Nat.lt_ge_cases i (count s)) as [L|L]; [exact L|].
    destruct (i_fresh s H i L) as (_&E&_). congruence. }
  rewrite (g_handler _ _ _ (i_good s H i L)). exact C.
Qed.

Definition silent (e : event) : Prop := match e with EvRegistered _ | EvAnswered _ _ => True | _ => False end.
Lemma all_say s e : silent e -> All s -> All (say s e).
Proof.
  intros Se (H & [Hu Hw Hp Hs Hn Ha Hr Hl]). split; [apply inv_say; exact H|].
  destruct e; try contradiction; constructor; cbn; auto;
  try (intros j m [X|Hj]; [discriminate|eauto]);
  intros j Hj; destruct (Hl j Hj) as (ok & X); eauto.
Qed.
Lemma all_notify s i iface code text : All s -> fine (step s (MNotify i iface code text)).
Proof.
  intros H. cbn [step]. destruct (o_kernel (objs s i)); [|exact I]. unfold notification.
  destruct (o_handler (objs s i)) eqn:O; [|exact H].
  destruct (handler_used s i H O) as (_ & ->).
  match goal with |- fine (if ?b then _ else _) => destruct b end.
  - destruct text; repeat (apply all_say; [exact I|]); exact H.
  - apply all_say; [exact I|exact H].
Qed.

Lemma all_reply s i a : All s -> fine (step s (MReply i a)).
Proof.
  intros (H & [Hu Hw Hp Hs Hn Ha Hr Hl]). cbn [step].
  destruct (c_phase (calls s i)) eqn:P; try exact I.
  destruct (c_cancelled (calls s i)) eqn:CC; [exact I|].
  assert (L : (i < count s)%nat) by (apply phase_used; [exact H|rewrite P; reflexivity]).
  pose proof (i_good s H i L) as [g1 g2 g3 g4 g5 g6 g7].
  destruct g4 as (A & CB & TX); [rewrite P; reflexivity|exact CC|].
  unfold call_reply. cbn [set_call watches]. rewrite A, CB. rewrite P, CB in *.
  match goal with |- fine (if ?b then _ else _) => destruct b end.
  - split.
    + eapply (inv_at s _ i); cbn -[upd]; auto.
      * intros j Hj. cbn -[upd]. rewrite !upd_other by assumption. auto.
      * rewrite !upd_same. constructor; cbn; auto; try discriminate. rewrite g7, A. reflexivity.
      * rewrite upd_same. auto.
      * rewrite upd_same. auto.
    + constructor; cbn -[upd]; auto.
      * intros j m. rewrite Hu. destruct (Nat.eq_dec j i) as [->|Ne]; [rewrite upd_same, CB; reflexivity|rewrite upd_other by assumption; reflexivity].
      * intros j Hj. destruct (Nat.eq_dec j i) as [->|Ne].
        -- rewrite upd_same in Hj. cbn in Hj. destruct Hj as [?|[?|?]]; try discriminate. lia.
        -- rewrite upd_other in Hj by assumption. auto.
      * intros j m Hj. destruct (Ha j m Hj) as (X & Y). split; [exact X|].
        destruct (Nat.eq_dec j i) as [->|Ne]; [rewrite upd_same; discriminate|rewrite upd_other by assumption; exact Y].
      * intros j m Hj. destruct (Hr j m Hj) as (X & Y). split; [exact X|].
        destruct (Nat.eq_dec j i) as [->|Ne]; [congruence|rewrite upd_other by assumption; exact Y].
      * intros j Hj. destruct (Nat.eq_dec j i) as [->|Ne]; [rewrite upd_same; cbn; auto|rewrite upd_other by assumption; auto].
  - assert (R2 : o_refs (objs s i) = 2) by (rewrite g3; reflexivity).
    unfold obj_drop, obj_unref. cbn [set_watch set_call set_obj objs].
    assert (OA : o_alive (objs s i) = true) by (unfold o_alive; rewrite R2; reflexivity).
    rewrite OA, upd_same. cbn [o_refs o_kernel o_handler o_freed]. rewrite R2.
    change (0 <? 2) with true. change (2 <=? 1) with false. change (2 - 1) with 1. cbn [andb]. cbv iota. cbn [HwModel.bind].
    split.
    + eapply (inv_at s _ i); cbn -[upd]; auto.
      * intros j Hj. cbn -[upd]. rewrite !upd_other by assumption. auto.
      * rewrite !upd_same. constructor; cbn; auto; try discriminate.
        -- rewrite g5, OA. reflexivity.
        -- rewrite g7, A. reflexivity.
      * rewrite upd_same. auto.
      * rewrite upd_same. auto.
    + constructor; cbn -[upd]; auto.
      * intros j m. rewrite Hu. destruct (Nat.eq_dec j i) as [->|Ne].
        -- rewrite upd_same. cbn. split; [tauto|intros (? & _); discriminate].
        -- rewrite !upd_other by assumption. split; [tauto|auto].
      * intros j Hj. destruct (Nat.eq_dec j i) as [->|Ne].
        -- rewrite upd_same in Hj. cbn in Hj. destruct Hj as [?|[?|?]]; try discriminate. lia.
        -- rewrite upd_other in Hj by assumption. auto.
      * intros j m [?|Hj]; [discriminate|]. destruct (Ha j m Hj) as (X & Y). split; [exact X|].
        destruct (Nat.eq_dec j i) as [->|Ne]; [rewrite upd_same; discriminate|rewrite upd_other by assumption; exact Y].
      * intros j m [?|Hj]; [discriminate|]. destruct (Hr j m Hj) as (X & Y). split; [exact X|].
        destruct (Nat.eq_dec j i) as [->|Ne]; [congruence|rewrite upd_other by assumption; exact Y].
      * intros j Hj. destruct (Hl j Hj) as (ok & X). exists ok. right.
        destruct (Nat.eq_dec j i) as [->|Ne]; [rewrite upd_same; cbn; auto|rewrite !upd_other by assumption; auto].
Qed.

Lemma all_step s m : All s -> fine (step s m).
Proof.
  intros H. destruct m as [n accept|n|names|i|i a|i|i iface code text|i].
  - cbn [step]. destruct (present s) eqn:P; [|exact I]. apply all_watch; assumption.
  - cbn [step]. destruct (present s); [|exact I]. apply all_unwatch; assumption.
  - cbn [step]. destruct (present s); [|exact I]. apply all_finalize; assumption.
  - apply all_perform; assumption.
  - apply all_reply; assumption.
  - apply all_destroy; assumption.
  - apply all_notify; assumption.
  - apply all_letgo; assumption.
Qed.
Lemma all_init : All init.
Proof.
  split; constructor; cbn; try (intros; lia); try discriminate; try tauto.
  - intros i _. repeat split.
Qed.
Lemma all_run l : forall s, All s -> fine (run s l).
Proof.
  induction l as [|m r IH]; intros s H; [exact H|]. cbn [run].
  pose proof (all_step s m H) as F. destruct (step s m); cbn [HwModel.bind]; auto; contradiction.
Qed.
Lemma reach l s : run init l = Ok s -> All s.
Proof. intros E. pose proof (all_run l init all_init) as F. rewrite E in F. exact F. Qed.

(* ------------------------------------------------------------------ *)
Lemma no_crash l : run init l <> Crash.
Proof. pose proof (all_run l init all_init) as F. intros E. rewrite E in F. exact F. Qed.

Lemma request_seen l s i iface code text : run init l = Ok s -> o_kernel (objs s i) = true ->
  exists s' seen, step s (MNotify i iface code text) = Ok s' /\ trace s' = seen ++ trace s /\
    seen_of_request (trace s) i iface code text seen.
Proof.
  intros E K. pose proof (reach l s E) as H. cbn [step]. rewrite K. unfold notification.
  destruct (o_handler (objs s i)) eqn:O.
  - destruct (handler_used s i H O) as (C & ->).
    assert (U : exists n, in_use (trace s) i n).
    { exists (w_name (watches s i)). apply (h_use s (proj2 H)). auto. }
    assert (D : match iface with Some f => str_eqb f NOTIFICATION_IFACE | None => false end && (code =? ON_REGISTRATION) = true <->
                iface = Some NOTIFICATION_IFACE /\ code = ON_REGISTRATION).
    { rewrite Bool.andb_true_iff, Z.eqb_eq. destruct iface as [f|]; [rewrite str_eqb_true; split; intros (?&?); split; congruence|].
      split; intros (?&?); discriminate. }
    match goal with |- context[if ?b then _ else _] => destruct b eqn:B end.
    + destruct (proj1 D eq_refl) as (D1 & D2).
      eexists; exists (EvAnswered i 0 :: match text with Some t => [EvRegistered t] | None => [] end).
      split; [reflexivity|]. split; [destruct text; reflexivity|].
      left. split; [exact U|]. left. auto.
    + eexists; exists [EvAnswered i (-1)]. split; [reflexivity|]. split; [reflexivity|].
      left. split; [exact U|]. right. split; [|reflexivity]. intros X. apply D in X. discriminate.
  - exists s, []. split; [reflexivity|]. split; [reflexivity|]. right. split; [|reflexivity].
    intros n U. rewrite (used_handler s i n H U) in O. discriminate.
Qed.

Lemma one_in_use l s i j n : run init l = Ok s -> in_use (trace s) i n -> in_use (trace s) j n -> i = j.
Proof.
  intros E U V. destruct (reach l s E) as (H & Hh). apply (h_use s Hh) in U, V. destruct U as (U1 & U2), V as (V1 & V2).
  pose proof (i_alive s H i (cb_alive s H i U1)) as T1. pose proof (i_alive s H j (cb_alive s H j V1)) as T2.
  rewrite U2 in T1. rewrite V2 in T2. congruence.
Qed.

Lemma used_lt l s i n : run init l = Ok s -> in_use (trace s) i n -> (i < count s)%nat.
Proof.
  intros E U. destruct (reach l s E) as (H & Hh). apply (h_use s Hh) in U. destruct U as (C & _).
  destruct (Nat.lt_ge_cases i (count s)) as [L|L]; [exact L|]. destruct (i_fresh s H i L) as (_&X&_). congruence.
Qed.

Lemma sent_once l s i : run init l = Ok s ->
  (times_sent (trace s) i <= 1)%nat /\ (times_sent (trace s) i = 1%nat -> accepted (trace s) i).
Proof.
  intros E. destruct (reach l s E) as (H & Hh). split; [apply (h_sent s Hh)|]. intros T.
  destruct (Nat.lt_ge_cases i (count s)) as [L|L]; [|rewrite (h_unsent s Hh) in T by auto; discriminate].
  destruct (h_all s Hh i L) as ([|] & X); [eexists; exact X|].
  destruct (h_ref s Hh _ _ X) as (_ & P). rewrite (h_unsent s Hh) in T by auto. discriminate.
Qed.

Lemma not_freed l s i : run init l = Ok s ->
  (exists n, in_use (trace s) i n) \/ o_kernel (objs s i) = true \/ c_phase (calls s i) <> Destroyed ->
  o_freed (objs s i) = 0%nat.
Proof.
  intros E X. destruct (reach l s E) as (H & Hh).
  destruct (Nat.lt_ge_cases i (count s)) as [L|L].
  - pose proof (i_good s H i L) as [g1 g2 g3 g4 g5 g6 g7]. rewrite g5.
    assert (A : o_alive (objs s i) = true); [|rewrite A; reflexivity].
    unfold o_alive. rewrite g3. unfold b2z. destruct X as [(n & U)|[->|P]].
    + apply (h_use s Hh) in U. destruct U as (-> & _). destruct (pending _); reflexivity.
    + apply Bool.orb_true_r.
    + destruct (c_phase (calls s i)); try congruence; destruct (w_callback _); reflexivity.
  - destruct (i_fresh s H i L) as (_&_&_&->&_). reflexivity.
Qed.

Lemma freed_once l s i : run init l = Ok s ->
  (o_freed (objs s i) <= 1)%nat /\ (c_freed (calls s i) <= 1)%nat /\ (w_freed (watches s i) <= 1)%nat.
Proof.
  intros E. destruct (reach l s E) as (H & Hh).
  destruct (Nat.lt_ge_cases i (count s)) as [L|L].
  - pose proof (i_good s H i L) as [g1 g2 g3 g4 g5 g6 g7]. rewrite g5, g6, g7.
    destruct (o_alive _), (pending _), (w_alive _); lia.
  - destruct (i_fresh s H i L) as (_&_&->&->&->). cbn. lia.
Qed.

Lemma all_freed l s i : run init l = Ok s -> quiet s -> (forall n, ~ watched (trace s) n) -> accepted (trace s) i ->
  o_freed (objs s i) = 1%nat /\ c_freed (calls s i) = 1%nat /\ w_freed (watches s i) = 1%nat.
Proof.
  intros E (Q1 & Q2 & Q3) Q4 (n & A). destruct (reach l s E) as (H & Hh).
  destruct (h_acc s Hh i n A) as (L & P).
  assert (D : c_phase (calls s i) = Destroyed) by (destruct (Q1 i); congruence).
  assert (W : w_alive (watches s i) = false).
  { destruct (w_alive (watches s i)) eqn:W; [|reflexivity]. exfalso. apply (Q4 (w_name (watches s i))).
    apply (h_watched s Hh). rewrite (i_alive s H i W). discriminate. }
  pose proof (i_good s H i L) as [g1 g2 g3 g4 g5 g6 g7].
  assert (C : w_callback (watches s i) = false) by (destruct (w_callback (watches s i)); auto; rewrite W in g1; discriminate (g1 eq_refl)).
  rewrite g5, g6, g7, D, W. unfold o_alive. rewrite g3, C, D, (Q2 i). auto.
Qed.

Lemma refused_kept l s i : run init l = Ok s -> refused (trace s) i ->
  o_freed (objs s i) = 0%nat /\ c_freed (calls s i) = 0%nat.
Proof.
  intros E (n & A). destruct (reach l s E) as (H & Hh). destruct (h_ref s Hh i n A) as (L & P).
  split; [apply (not_freed l s i E); right; right; congruence|].
  rewrite (g_cfreed _ _ _ (i_good s H i L)), P. reflexivity.
Qed.
Lemma refused_happens l s n : run init l = Ok s -> present s = true ->
  exists s', step s (MWatch n false) = Ok s' /\ refused (trace s') (count s).
Proof.
  intros E P. destruct (reach l s E) as (H & Hh). cbn [step]. rewrite P.
  destruct (watch_prep s n false H) as (s1 & -> & H1 & _).
  destruct (remove_ok s1 n H1) as (s2 & -> & _). cbn [HwModel.bind]. eexists. split; [reflexivity|].
  exists n. left. reflexivity.
Qed.

(* what a failed registration leaves behind *)
Definition watches_name (n : bytes) (m : move) : Prop := match m with MWatch k _ => k = n | _ => False end.
Lemma step_use s m s' n : All s -> step s m = Ok s' -> ~ watches_name n m -> (forall i, ~ in_use (trace s) i n) ->
  forall i, ~ in_use (trace s') i n.
Proof.
  intros A E W N i. destruct m as [k accept|k|names|j|j a|j|j iface code text|j]; cbn [step] in E.
  - destruct (present s); [|discriminate]. destruct A as (H & Hh).
    destruct (watch_prep s k accept H) as (s1 & E1 & H1 & _ & _ & T & _). rewrite E1 in E. destruct accept.
    + injection E as <-. cbn [say trace in_use]. rewrite T. intros [(_ & ? & _)|(_ & ?)]; [exact (W H0)|exact (N i H0)].
    + destruct (remove_ok s1 k H1) as (s2 & E2 & _ & [(_&_&F) _ _ _ _ _]). rewrite E2 in E. cbn [HwModel.bind] in E.
      injection E as <-. cbn [say trace in_use]. rewrite F, T. intros [(_ & ? & _)|(_ & ?)]; [exact (W H0)|exact (N i H0)].
  - destruct (present s); [|discriminate]. destruct A as (H & Hh). unfold hidl_unwatch in E.
    destruct (remove_ok s k H) as (s2 & E2 & _ & [(_&_&F) _ _ _ _ _]). rewrite E2 in E. cbn [HwModel.bind] in E.
    injection E as <-. cbn [say trace in_use]. rewrite F. intros (_ & ?). exact (N i H0).
  - destruct (present s); [|discriminate]. unfold hidl_finalize in E.
    destruct (remove_all _ _); try discriminate. injection E as <-. cbn. tauto.
  - destruct (c_phase (calls s j)); try discriminate. destruct (o_alive _); try discriminate. injection E as <-. cbn. apply N.
  - destruct (c_phase (calls s j)); try discriminate. destruct (c_cancelled _); try discriminate.
    unfold call_reply in E. cbn [set_call watches] in E. destruct (w_alive (watches s j)); [|discriminate].
    match type of E with (if ?b then _ else _) = _ => destruct b end; [injection E as <-; cbn; apply N|].
    destruct (w_callback (watches s j)).
    + unfold obj_drop, obj_unref in E. destruct (o_alive _); [|discriminate].
      match type of E with HwModel.bind (if ?b then _ else _) _ = _ => destruct b end; [|discriminate].
      injection E as <-. cbn. intros (_ & ?). exact (N i H).
    + injection E as <-. cbn. intros (_ & ?). exact (N i H).
  - assert (X : exists s1, call_destroy s j = Ok s1 /\ s1 = s').
    { destruct (c_phase (calls s j)); try discriminate; eauto. }
    destruct X as (s1 & X & ->). unfold call_destroy, obj_unref in X.
    match type of X with HwModel.bind (if ?b then _ else _) _ = _ => destruct b end; [|discriminate].
    injection X as <-. cbn. apply N.
  - destruct (o_kernel (objs s j)); [|discriminate]. unfold notification in E.
    destruct (o_handler (objs s j)); [|injection E as <-; apply N]. destruct (present s); [|discriminate].
    match type of E with (if ?b then _ else _) = _ => destruct b end; injection E as <-.
    + destruct text; cbn; apply N.
    + cbn. apply N.
  - destruct (o_kernel (objs s j)); [|discriminate]. injection E as <-. apply N.
Qed.
Lemma run_use r : forall s s' n, All s -> run s r = Ok s' -> Forall (fun m => ~ watches_name n m) r ->
  (forall i, ~ in_use (trace s) i n) -> forall i, ~ in_use (trace s') i n.
Proof.
  induction r as [|m r IH]; intros s s' n A E F N; cbn [run] in E; [injection E as <-; exact N|].
  inversion F as [|x y Fm Fr Ex]; subst. destruct (step s m) as [| |s1] eqn:Es; try discriminate.
  pose proof (all_step s m A) as A1. rewrite Es in A1. cbn [HwModel.bind] in E.
  apply (IH s1 s' n A1 E Fr). exact (step_use s m s1 n A Es Fm N).
Qed.

Lemma reply_fails l s i a s1 n : run init l = Ok s -> step s (MReply i a) = Ok s1 -> ~ agreed a ->
  in_use (trace s) i n -> watched (trace s1) n /\ (forall j, ~ in_use (trace s1) j n).
Proof.
  intros E Es Na U. pose proof (reach l s E) as A. pose proof (all_step s (MReply i a) A) as A1. rewrite Es in A1. cbn in A1.
  assert (T : trace s1 = EvFail i :: trace s).
  { cbn [step] in Es. destruct (c_phase (calls s i)); try discriminate. destruct (c_cancelled _); try discriminate.
    unfold call_reply in Es. cbn [set_call watches] in Es. destruct (w_alive (watches s i)); [|discriminate].
    match type of Es with (if ?b then _ else _) = _ => destruct b eqn:B end.
    { exfalso. apply Na. apply andb_prop in B. destruct B as (B1 & B2). destruct (an_status a) as [st|] eqn:Ea; [|discriminate].
      destruct (an_success a) as [ok|] eqn:Eb; [|discriminate]. apply andb_prop in B2. destruct B2 as (B2 & ->).
      apply Z.eqb_eq in B1, B2. subst st. repeat split; assumption. }
    destruct (w_callback (watches s i)).
    - unfold obj_drop, obj_unref in Es. destruct (o_alive _); [|discriminate].
      match type of Es with HwModel.bind (if ?b then _ else _) _ = _ => destruct b end; [|discriminate].
      injection Es as <-. reflexivity.
    - injection Es as <-. reflexivity. }
  rewrite T. split.
  - cbn [watched]. destruct A as (H & Hh). apply (h_watched s Hh). apply (h_use s Hh) in U. destruct U as (C & <-).
    rewrite (i_alive s H i (cb_alive s H i C)). discriminate.
  - intros j. cbn [in_use]. intros (Ne & V). apply Ne. exact (one_in_use l s i j n E U V).
Qed.

(* a name which is watched is listened for unless a registration has failed *)
Lemma listened l s n : run init l = Ok s -> watched (trace s) n -> (forall i, ~ In (EvFail i) (trace s)) ->
  exists i, in_use (trace s) i n.
Proof.
  intros _. induction (trace s) as [|e r IH]; [intros []|]. cbn [watched in_use]. intros W N.
  assert (Nr : forall i, ~ In (EvFail i) r) by (intros i X; apply (N i); right; exact X).
  destruct e as [m j ok|m| |j| | |]; try (exact (IH W Nr)).
  - destruct W as [(-> & ->)|(Ne & W)]; [exists j; auto|]. destruct (IH W Nr) as (i & U). eauto.
  - destruct W as (Ne & W). destruct (IH W Nr) as (i & U). eauto.
  - exfalso. apply (N j). left. reflexivity.
  - contradiction.
Qed.
