(* Proofs about incoming transactions: the whole system *)
From Verif Require Import Base BlockModel BlockSpec BlockProofs BlockWait.

Definition idle_like (t : phase) (s : bstate) : Prop :=
  match t with TIdle | TSent _ => last s = false | TCancel _ _ => stopped s = false | _ => False end.
Definition rests (t : phase) : Prop := match t with TIdle | TSent _ => True | _ => False end.
Definition finished (m : mode) : nat := match m with MAway | MSent => 1%nat | _ => 0%nat end.

Record inv (s : bstate) : Prop := {
  i_cells : forall k, (k < count s)%nat ->
    cell_ok (mode_of (th s) k) (stopped s) (outcome k (btrace s)) (txs s k) (pipes s (x_pipe (txs s k)));
  i_new : forall k e, (count s <= k)%nat -> In e (btrace s) -> about k e = false;
  i_th : forall k, mode_of (th s) k <> MAway -> (k < count s)%nat;
  i_range : forall k, (k < count s)%nat -> (x_pipe (txs s k) < npipes s)%nat;
  i_txfd : forall p, txfd s = Some p -> (p < npipes s)%nat /\ pipes s p <> None;
  i_beyond : forall p, (npipes s <= p)%nat -> pipes s p = None /\ ~ In (PipeClosed p) (btrace s);
  i_apart : forall j k, j <> k -> (j < count s)%nat -> (k < count s)%nat ->
    0 < x_refs (txs s j) -> 0 < x_refs (txs s k) -> x_pipe (txs s j) <> x_pipe (txs s k);
  i_own : forall k p, (k < count s)%nat -> txfd s = Some p -> 0 < x_refs (txs s k) -> x_pipe (txs s k) = p ->
    holds (mode_of (th s) k) = true;
  i_current : forall k, holds (mode_of (th s) k) = true -> txfd s = Some (x_pipe (txs s k));
  i_clean : forall p, txfd s = Some p -> idle_like (th s) s -> pipes s p = Some [];
  i_last : last s = true -> stopped s = true;
  i_stop : stopped s = true <-> In StopCalled (btrace s);
  i_worker : looper s = false -> stopped s = false /\ (rests (th s) -> txfd s = None);
  i_answers : forall t1 k a t2, btrace s = t1 ++ Answered k a :: t2 ->
    (outcome k t1 = Decided a \/ (In StopCalled t1 /\ a = (None, - EFAULT))) /\ ~ In (Dropped k) t1;
  i_dropped : forall k, In (Dropped k) (btrace s) -> mode_of (th s) k = MAway;
  i_final : forall k, (k < count s)%nat -> existsb (is_return k) (btrace s) = final (txs s k);
  i_once : forall k, (k < count s)%nat -> times (is_answer k) (btrace s) = finished (mode_of (th s) k);
  i_freed : forall k, (k < count s)%nat ->
    times (is_tx_freed k) (btrace s) = (if x_refs (txs s k) =? 0 then 1%nat else 0%nat) /\
    times (is_req_freed k) (btrace s) = (if q_refs (txs s k) =? 0 then 1%nat else 0%nat);
  i_closed : forall p, (p < npipes s)%nat ->
    times (is_close p) (btrace s) = match pipes s p with None => 1%nat | Some _ => 0%nat end
}.

Lemma upd_same {A} (f : nat -> A) i v : upd f i v i = v.
Proof. unfold upd. now rewrite Nat.eqb_refl. Qed.
Lemma upd_other {A} (f : nat -> A) i v j : j <> i -> upd f i v j = f j.
Proof. unfold upd. intros H. now rewrite (proj2 (Nat.eqb_neq j i) H). Qed.
Lemma upd_case {A} (f : nat -> A) i v j :
  (j = i /\ upd f i v j = v) \/ (j <> i /\ upd f i v j = f j).
Proof. destruct (Nat.eq_dec j i) as [->|N]; [left|right]; split; auto using upd_same, upd_other. Qed.

Lemma times_app e t1 t2 : times e (t1 ++ t2) = (times e t1 + times e t2)%nat.
Proof. unfold times. now rewrite filter_app, app_length. Qed.

Lemma times_zero f t : (forall e, In e t -> f e = false) -> times f t = 0%nat.
Proof.
  unfold times. induction t as [|x t IH]; intros H; cbn; [reflexivity|].
  rewrite (H x (or_introl eq_refl)). apply IH. intros e He. apply H. now right.
Qed.

Lemma about_one k j e : about k e = true -> j <> k -> about j e = false.
Proof.
  destruct e; cbn; intros H N; try reflexivity; apply Nat.eqb_eq in H; subst;
    apply Nat.eqb_neq; auto.
Qed.

Lemma judge_other j t v : (forall e, In e t -> about j e = false) -> fold_left (judge j) t v = v.
Proof.
  revert v. induction t as [|x t IH]; intros v H; cbn [fold_left]; [reflexivity|].
  rewrite IH; [|intros e He; apply H; now right].
  unfold judge. rewrite (H x); [reflexivity|now left].
Qed.

Lemma answer_about k e : is_answer k e = true -> about k e = true.
Proof. destruct e; cbn; auto; discriminate. Qed.
Lemma return_about k e : is_return k e = true -> about k e = true.
Proof. destruct e; cbn; auto; discriminate. Qed.
Lemma tx_freed_about k e : is_tx_freed k e = true -> about k e = true.
Proof. destruct e; cbn; auto; discriminate. Qed.
Lemma req_freed_about k e : is_req_freed k e = true -> about k e = true.
Proof. destruct e; cbn; auto; discriminate. Qed.

(* What the events of an operation on one transaction are not *)
Section Others.
  Variables (k : nat) (m : mode) (stop : bool) (v : verdict) (c c' : cell) (l : list bev).
  Hypothesis M : moved k m stop v c c' l.

  Lemma mv_other j e : j <> k -> In e l -> about j e = false.
  Proof.
    intros N H. destruct (mv_about _ _ _ _ _ _ _ M _ H) as [A| ->]; [|reflexivity].
    eapply about_one; eauto.
  Qed.
  Lemma mv_no_stop : ~ In StopCalled l.
  Proof. intros H. destruct (mv_about _ _ _ _ _ _ _ M _ H) as [A|A]; discriminate. Qed.
  Lemma mv_no_answer j a : ~ In (Answered j a) l.
  Proof.
    intros H. destruct (mv_about _ _ _ _ _ _ _ M _ H) as [A|A]; [|discriminate].
    cbn in A. apply Nat.eqb_eq in A. subst j. now apply (mv_answer _ _ _ _ _ _ _ M) in H.
  Qed.
  Lemma mv_other_close p : p <> x_pipe (c_tx c) -> ~ In (PipeClosed p) l.
  Proof.
    intros N H. destruct (mv_about _ _ _ _ _ _ _ M _ H) as [A|A]; [discriminate|]. congruence.
  Qed.
End Others.

(* Without references nothing depends on the pipe *)
Lemma cell_ok_dead m stop v t p p' :
  cell_ok m stop v t p -> x_refs t = 0 -> cell_ok m stop v t p'.
Proof.
  intros [H1 H2 H7 H3 H4 H5 H6] E. split; auto; [lia|].
  unfold b2z in H1. destruct m; cbn in *; auto; destruct (cb_alive (x_cb t)), (q_has_tx t); lia.
Qed.

Lemma snoc_split {A} (t l t1 t2 : list A) x :
  t ++ l = t1 ++ x :: t2 -> ~ In x l -> exists t3, t = t1 ++ x :: t3.
Proof.
  revert t. induction t1 as [|y t1 IH]; intros t E N.
  - destruct t as [|z t]; cbn in E; [subst l; exfalso; apply N; now left|]. injection E as -> _. now exists t.
  - destruct t as [|z t]; cbn in E.
    + subst l. exfalso. apply N. right. apply in_or_app. right. now left.
    + injection E as -> E. destruct (IH _ E N) as (t3 & ->). now exists t3.
Qed.

Lemma inv_moved s k m' c l th' fd' :
  inv s -> (k < count s)%nat ->
  moved k m' (stopped s) (outcome k (btrace s)) (get_cell s k) c l ->
  mode_of th' k = m' ->
  (forall j, j <> k -> mode_of th' j = mode_of (th s) j) ->
  fd' = txfd s \/ fd' = None ->
  (forall j, j <> k -> holds (mode_of th' j) = true -> fd' = txfd s) ->
  (holds m' = true -> fd' = Some (x_pipe (txs s k))) ->
  (forall p, fd' = Some p -> x_pipe (txs s k) = p -> 0 < x_refs (c_tx c) -> holds m' = true) ->
  (fd' = Some (x_pipe (txs s k)) -> c_pipe c <> None) ->
  (forall p, fd' = Some p -> idle_like th' s -> upd (pipes s) (x_pipe (txs s k)) (c_pipe c) p = Some []) ->
  finished m' = finished (mode_of (th s) k) ->
  (mode_of (th s) k = MAway -> m' = MAway) ->
  (looper s = false -> rests th' -> fd' = None) ->
  inv (go (put_cell s k c) th' fd').
Proof.
  intros I K M Hm Hj Hfd Hsame Hcur Hown Hpipe Hclean Hfin Hdrop Hwork.
  pose proof (mv_pipe _ _ _ _ _ _ _ M) as XP. cbn [get_cell c_tx] in XP.
  pose proof (mv_frozen _ _ _ _ _ _ _ M) as FZ. cbn [get_cell c_tx c_pipe] in FZ.
  pose proof (mv_freed _ _ _ _ _ _ _ M) as (FR1 & FR2 & FR3 & FR4). cbn [get_cell c_tx] in FR1, FR2, FR3, FR4.
  pose proof (mv_ok _ _ _ _ _ _ _ M) as OK.
  assert (R0 : forall j, (j < count s)%nat -> 0 <= x_refs (txs s j)).
  { intros j J. destruct (i_cells _ I j J) as [H1 _ _ _ _ _ _]. rewrite H1. unfold b2z.
    destruct (holds (mode_of (th s) j)), (cb_alive (x_cb (txs s j))), (q_has_tx (txs s j)); lia. }
  assert (Q0 : forall j, (j < count s)%nat -> 0 <= q_refs (txs s j)).
  { intros j J. destruct (i_cells _ I j J) as [_ H1 H2 _ _ _ _]. rewrite H1. unfold b2z.
    destruct (drives (mode_of (th s) j)), (x_has_req (txs s j) && (0 <? x_refs (txs s j))); lia. }
  assert (R1 : 0 <= x_refs (c_tx c)).
  { destruct OK as [H1 _ _ _ _ _ _]. rewrite H1. unfold b2z.
    destruct (holds m'), (cb_alive (x_cb (c_tx c))), (q_has_tx (c_tx c)); lia. }
  (* the pipe of another transaction which is still there *)
  assert (OP : forall j, j <> k -> (j < count s)%nat -> 0 < x_refs (txs s j) ->
               upd (pipes s) (x_pipe (txs s k)) (c_pipe c) (x_pipe (txs s j)) = pipes s (x_pipe (txs s j))).
  { intros j N J P. destruct (Nat.eq_dec (x_pipe (txs s j)) (x_pipe (txs s k))) as [E|E].
    - destruct (Z.eq_dec (x_refs (txs s k)) 0) as [Z|Z].
      + rewrite E, upd_same. apply FZ. exact Z.
      + exfalso. apply (i_apart _ I j k N J K P); auto. specialize (R0 k K). lia.
    - now rewrite upd_other by auto. }
  split; cbn [go put_cell looper txs count pipes npipes txfd stopped last th btrace].
  - intros j J. destruct (upd_case (txs s) k (c_tx c) j) as [(-> & ->)|(N & ->)].
    + rewrite Hm, XP, upd_same. rewrite outcome_app.
      replace (c_ev c) with l; [exact OK|]. now rewrite (mv_ev _ _ _ _ _ _ _ M).
    + rewrite Hj by auto. rewrite outcome_app, judge_other.
      2:{ intros e He. rewrite (mv_ev _ _ _ _ _ _ _ M) in He. cbn in He. eapply mv_other; eauto. }
      destruct (Z.eq_dec (x_refs (txs s j)) 0) as [Z|Z].
      * eapply cell_ok_dead; [apply (i_cells _ I j J)|exact Z].
      * rewrite OP; auto; [apply (i_cells _ I j J)|]. specialize (R0 j J). lia.
  - intros j e J He. apply in_app_or in He as [He|He]; [now apply (i_new _ I)|].
    rewrite (mv_ev _ _ _ _ _ _ _ M) in He. cbn in He. eapply mv_other; eauto. lia.
  - intros j J. destruct (Nat.eq_dec j k) as [->|N]; [exact K|]. apply (i_th _ I). now rewrite <- Hj by auto.
  - intros j J. destruct (upd_case (txs s) k (c_tx c) j) as [(-> & ->)|(N & ->)]; [rewrite XP|]; now apply (i_range _ I).
  - intros p P. destruct Hfd as [E|E]; [|congruence]. rewrite P in E. symmetry in E.
    destruct (i_txfd _ I _ E) as [P1 P2]. split; auto.
    destruct (upd_case (pipes s) (x_pipe (txs s k)) (c_pipe c) p) as [(-> & ->)|(N & ->)]; auto.
  - intros p P. destruct (i_beyond _ I p P) as [B1 B2].
    pose proof (i_range _ I k K) as R.
    rewrite upd_other by lia. split; auto.
    intros H. apply in_app_or in H as [H|H]; [auto|]. rewrite (mv_ev _ _ _ _ _ _ _ M) in H. cbn in H.
    eapply mv_other_close in H; eauto. cbn. lia.
  - intros i j N I1 J1.
    destruct (upd_case (txs s) k (c_tx c) i) as [(-> & ->)|(N1 & ->)];
    destruct (upd_case (txs s) k (c_tx c) j) as [(-> & ->)|(N2 & ->)]; try contradiction; intros P1 P2; rewrite ?XP.
    + apply (i_apart _ I); auto. destruct (Z.eq_dec (x_refs (txs s k)) 0) as [Z|Z]; [rewrite (FR3 Z) in P1; lia|].
      specialize (R0 k K). lia.
    + apply (i_apart _ I); auto. destruct (Z.eq_dec (x_refs (txs s k)) 0) as [Z|Z]; [rewrite (FR3 Z) in P2; lia|].
      specialize (R0 k K). lia.
    + now apply (i_apart _ I).
  - intros j p J F P E. destruct (upd_case (txs s) k (c_tx c) j) as [(-> & U)|(N & U)]; rewrite U in *.
    + rewrite Hm. apply (Hown p F); [congruence|exact P].
    + rewrite Hj by auto. destruct Hfd as [Hf|Hf]; [|congruence]. rewrite Hf in F. now apply (i_own _ I j p).
  - intros j H. destruct (upd_case (txs s) k (c_tx c) j) as [(-> & U)|(N & U)]; rewrite U.
    + rewrite XP. apply Hcur. now rewrite <- Hm.
    + rewrite (Hsame j N H). apply (i_current _ I). now rewrite <- Hj by auto.
  - exact Hclean.
  - exact (i_last _ I).
  - rewrite (i_stop _ I), in_app_iff. split; [now left|intros [A|A]; [exact A|]].
    rewrite (mv_ev _ _ _ _ _ _ _ M) in A. cbn in A. exfalso. eapply mv_no_stop; eauto.
  - intros W. split; [apply (i_worker _ I W)|auto].
  - intros t1 j a t2 E. apply snoc_split in E as (t3 & E); [now apply (i_answers _ I) in E|].
    rewrite (mv_ev _ _ _ _ _ _ _ M). cbn. eapply mv_no_answer; eauto.
  - intros j D. rewrite (mv_ev _ _ _ _ _ _ _ M) in D. cbn [get_cell c_ev Datatypes.app] in D.
    destruct (Nat.eq_dec j k) as [->|N].
    + apply in_app_or in D as [D|D]; [|rewrite Hm; now apply (mv_dropped _ _ _ _ _ _ _ M)].
      pose proof (i_dropped _ I k D) as E. rewrite E in Hfin.
      rewrite Hm. apply Hdrop. exact E.
    + rewrite Hj by auto. apply in_app_or in D as [D|D]; [now apply (i_dropped _ I)|].
      apply (mv_other _ _ _ _ _ _ _ M j) in D; auto. cbn in D. rewrite Nat.eqb_refl in D. discriminate.
  - intros j J. rewrite existsb_app, (i_final _ I j J), (mv_ev _ _ _ _ _ _ _ M). cbn [get_cell c_ev Datatypes.app].
    destruct (upd_case (txs s) k (c_tx c) j) as [(-> & ->)|(N & ->)].
    + symmetry. exact (mv_final _ _ _ _ _ _ _ M).
    + replace (existsb (is_return j) l) with false; [now rewrite orb_false_r|]. symmetry.
      apply not_true_iff_false. rewrite existsb_exists. intros (e & He & R). apply return_about in R.
      rewrite (mv_other _ _ _ _ _ _ _ M j e N He) in R. discriminate.
  - intros j J. rewrite times_app, (i_once _ I j J), (times_zero _ (c_ev c)).
    2:{ intros e He. rewrite (mv_ev _ _ _ _ _ _ _ M) in He. cbn in He.
        destruct e; cbn; auto. exfalso. eapply mv_no_answer; eauto. }
    rewrite Nat.add_0_r. destruct (Nat.eq_dec j k) as [->|N]; [now rewrite Hm, Hfin|now rewrite Hj].
  - intros j J. rewrite !times_app, (mv_ev _ _ _ _ _ _ _ M). cbn [get_cell c_ev Datatypes.app].
    destruct (i_freed _ I j J) as [-> ->].
    destruct (upd_case (txs s) k (c_tx c) j) as [(-> & ->)|(N & ->)].
    + rewrite FR1, FR2. specialize (R0 k K). specialize (Q0 k K).
      split; tests; cbn; try lia; try (now rewrite FR3 in * by lia); try (now rewrite FR4 in * by lia).
    + rewrite (times_zero _ l), (times_zero _ l); [split; lia| |].
      * intros e He. destruct (is_req_freed j e) eqn:X; auto. apply req_freed_about in X.
        rewrite (mv_other _ _ _ _ _ _ _ M j e N He) in X. discriminate.
      * intros e He. destruct (is_tx_freed j e) eqn:X; auto. apply tx_freed_about in X.
        rewrite (mv_other _ _ _ _ _ _ _ M j e N He) in X. discriminate.
  - intros p P. rewrite times_app, (i_closed _ I p P), (mv_ev _ _ _ _ _ _ _ M). cbn [get_cell c_ev Datatypes.app].
    destruct (upd_case (pipes s) (x_pipe (txs s k)) (c_pipe c) p) as [(-> & ->)|(N & ->)].
    + pose proof (mv_closed _ _ _ _ _ _ _ M) as C. pose proof (mv_none _ _ _ _ _ _ _ M) as C2.
      cbn [get_cell c_tx c_pipe] in C, C2. rewrite C.
      destruct (pipes s (x_pipe (txs s k))); [destruct (c_pipe c); reflexivity|now rewrite C2].
    + rewrite (times_zero _ l); [lia|]. intros e He. destruct e; cbn; auto.
      apply Nat.eqb_neq. intros ->. apply (mv_other_close _ _ _ _ _ _ _ M p); [cbn; auto|exact He].
Qed.

Lemma go_same s : go s (th s) (txfd s) = s.
Proof. destruct s; reflexivity. Qed.

(* The main thread does something with a transaction *)
Lemma inv_main s k c l :
  inv s -> (k < count s)%nat ->
  moved k (mode_of (th s) k) (stopped s) (outcome k (btrace s)) (get_cell s k) c l ->
  inv (put_cell s k c).
Proof.
  intros I K M.
  replace (put_cell s k c) with (go (put_cell s k c) (th s) (txfd s)) by (unfold go, put_cell; destruct s; reflexivity).
  pose proof (mv_frozen _ _ _ _ _ _ _ M) as FZ. cbn [get_cell c_tx c_pipe] in FZ.
  pose proof (mv_freed _ _ _ _ _ _ _ M) as (_ & _ & FR3 & _). cbn [get_cell c_tx] in FR3.
  pose proof (mv_ok _ _ _ _ _ _ _ M) as OK.
  assert (R0 : 0 <= x_refs (txs s k)).
  { destruct (i_cells _ I k K) as [H1 _ _ _ _ _ _]. rewrite H1. unfold b2z.
    destruct (holds (mode_of (th s) k)), (cb_alive (x_cb (txs s k))), (q_has_tx (txs s k)); lia. }
  assert (HP : forall p, txfd s = Some p -> x_pipe (txs s k) = p ->
               x_refs (txs s k) = 0 \/ holds (mode_of (th s) k) = true).
  { intros p F E. destruct (Z.eq_dec (x_refs (txs s k)) 0); [now left|right].
    apply (i_own _ I k p); auto. lia. }
  eapply inv_moved; eauto.
  - apply (i_current _ I).
  - intros p F E P. destruct (HP p F E) as [Z|]; auto. rewrite (FR3 Z) in P. lia.
  - intros F. destruct (HP _ F eq_refl) as [Z|H].
    + rewrite (FZ Z). apply (i_txfd _ I _ F).
    + destruct OK as [H1 _ _ _ _ H5 _]. rewrite H in H1. apply H5.
      rewrite H1. unfold b2z. destruct (cb_alive (x_cb (c_tx c))), (q_has_tx (c_tx c)); lia.
  - intros p F L. destruct (upd_case (pipes s) (x_pipe (txs s k)) (c_pipe c) p) as [(E & ->)|(N & ->)].
    + destruct (HP _ F (eq_sym E)) as [Z|H].
      * rewrite (FZ Z), <- E. now apply (i_clean _ I).
      * exfalso. destruct (th s); cbn in H, L; auto;
          repeat match goal with H : context [Nat.eqb ?a ?b] |- _ => destruct (Nat.eqb a b) end; cbn in H; discriminate.
    + now apply (i_clean _ I).
  - intros W. apply (i_worker _ I W).
Qed.

Lemma mode_other t k j : mode_of t k <> MAway -> j <> k -> mode_of t j = MAway.
Proof.
  intros H N. destruct t; cbn in *; auto; destruct (Nat.eqb_spec k0 k); try congruence;
    subst; destruct (Nat.eqb_spec k j); congruence.
Qed.

Ltac self := rewrite ?Nat.eqb_refl.

(* The thread, while it has the transaction *)
Lemma inv_thread s k m' c l th' fd' :
  inv s -> holds (mode_of (th s) k) = true ->
  moved k m' (stopped s) (outcome k (btrace s)) (get_cell s k) c l ->
  mode_of th' k = m' -> m' <> MAway -> finished m' = 0%nat ->
  (fd' = txfd s /\ holds m' = true) \/
  (fd' = None /\ holds m' = false) \/
  (fd' = txfd s /\ c_pipe c <> None /\ x_refs (c_tx c) = 0 /\ holds m' = false /\
   (stopped s = false -> c_pipe c = Some [])) ->
  inv (go (put_cell s k c) th' fd').
Proof.
  intros I H M Hm Hm' Hf D.
  assert (A : mode_of (th s) k <> MAway) by (intros E; rewrite E in H; discriminate).
  pose proof (i_th _ I k A) as K.
  assert (NR : ~ rests th').
  { intros R. destruct th'; cbn in R, Hm; auto; try (now rewrite <- Hm in Hm').
    destruct (Nat.eqb_spec k0 k); subst; try congruence. discriminate. }
  pose proof (i_current _ I k H) as C.
  pose proof (mv_ok _ _ _ _ _ _ _ M) as OK.
  assert (LC : idle_like th' s -> holds m' = false /\ stopped s = false).
  { intros L. destruct th'; cbn in L, Hm, NR; try tauto.
    destruct (Nat.eqb_spec k0 k); subst; [split; auto|congruence]. }
  eapply inv_moved; eauto.
  - intros j N. rewrite !(mode_other _ k j); auto. congruence.
  - intuition.
  - intros j N Hh. rewrite (mode_other th' k j) in Hh; [discriminate|congruence|auto].
  - intros Hh. destruct D as [(-> & _)|[(-> & X)|(_ & _ & _ & X & _)]]; congruence.
  - intros p F E P. destruct D as [(_ & X)|[(-> & _)|(_ & _ & X & _)]]; [exact X|discriminate|lia].
  - intros F. destruct D as [(_ & X)|[(-> & _)|(_ & X & _)]]; [|discriminate|exact X].
    destruct OK as [H1 _ _ _ _ H5 _]. rewrite X in H1. apply H5. rewrite H1.
    unfold b2z. destruct (cb_alive (x_cb (c_tx c))), (q_has_tx (c_tx c)); lia.
  - intros p F L. destruct (LC L) as [L1 L2].
    destruct D as [(_ & X)|[(-> & _)|(F' & _ & _ & _ & X)]]; [congruence|discriminate|].
    assert (p = x_pipe (txs s k)) as -> by congruence. rewrite upd_same. auto.
  - rewrite Hf. destruct (mode_of (th s) k); cbn in *; congruence.
  - contradiction.
  - contradiction.
Qed.

Lemma put_same s k : inv s -> (k < count s)%nat -> inv (put_cell s k (get_cell s k)).
Proof.
  intros I K. eapply inv_main; eauto. apply still_moved. cbn. now apply (i_cells _ I).
Qed.

(* The answer is sent *)
Lemma inv_end s k a :
  inv s -> th s = TCancel k a -> x_cb (txs s k) <> CbPending ->
  exists s', transact_end s k a = Ok s' /\ inv s'.
Proof.
  intros I T P.
  assert (K : (k < count s)%nat) by (apply (i_th _ I); rewrite T; cbn; now self).
  pose proof (i_cells _ I k K) as CK. rewrite T in CK. cbn [mode_of] in CK. rewrite Nat.eqb_refl in CK.
  assert (MS : mode_of (TSent k) k = MSent) by (cbn; now self).
  assert (MJ : forall j, j <> k -> mode_of (TSent k) j = mode_of (th s) j).
  { intros j N. rewrite T. cbn. now destruct (Nat.eqb_spec k j); [subst; congruence|]. }
  pose proof (not_cancelled _ _ _ _ _ CK P) as CS.
  assert (HA : outcome k (btrace s) = Decided a \/ (In StopCalled (btrace s) /\ a = (None, - EFAULT))).
  { destruct CK as [_ _ _ _ H4 _ H6]. cbn in H6. unfold verdict_ok in H4. destruct H6 as [(X & ->)|(X & ->)].
    - left. now rewrite X in H4.
    - right. split; auto. now apply (i_stop _ I). }
  assert (HD : ~ In (Dropped k) (btrace s)).
  { intros D. apply (i_dropped _ I) in D. rewrite T in D. cbn in D. rewrite Nat.eqb_refl in D. discriminate. }
  assert (NH : forall j, holds (mode_of (th s) j) = false).
  { intros j. rewrite T. cbn. now destruct (Nat.eqb k j). }
  assert (DJ : forall j, In (Dropped j) (btrace s) -> mode_of (TSent k) j = MAway).
  { intros j D. destruct (Nat.eq_dec j k) as [->|N]; [contradiction|]. rewrite (MJ j N). now apply (i_dropped _ I). }
  assert (OA : forall j, outcome j (btrace s ++ [Answered k a]) = outcome j (btrace s)).
  { intros j. rewrite outcome_app. cbn [fold_left]. unfold judge. cbn [about].
    destruct (Nat.eqb k j); auto. now destruct (outcome j (btrace s)). }
  assert (CE : forall pp j p, (0 < x_refs (txs s j) -> pp = pipes s p) -> p = x_pipe (txs s j) -> (j < count s)%nat ->
     cell_ok (mode_of (TSent k) j) (stopped s) (outcome j (btrace s)) (txs s j) pp).
  { intros pp j p E -> J.
    assert (CJ : cell_ok (mode_of (TSent k) j) (stopped s) (outcome j (btrace s)) (txs s j) (pipes s (x_pipe (txs s j)))).
    { destruct (Nat.eq_dec j k) as [->|N]; [now rewrite MS|]. rewrite (MJ j N). now apply (i_cells _ I). }
    destruct (Z.eq_dec (x_refs (txs s j)) 0) as [Z|Z]; [eapply cell_ok_dead; eauto|].
    rewrite E; auto. destruct CJ as [H1 _ _ _ _ _ _]. rewrite H1 in Z |- *. unfold b2z in *.
    destruct (holds (mode_of (TSent k) j)), (cb_alive (x_cb (txs s j))), (q_has_tx (txs s j)); lia. }
  assert (FN : forall t, times (is_answer k) (t ++ [Answered k a]) = S (times (is_answer k) t)).
  { intros t. rewrite times_app. unfold times at 2. cbn. self. cbn. lia. }
  assert (FO : forall j t, j <> k -> times (is_answer j) (t ++ [Answered k a]) = times (is_answer j) t).
  { intros j t N. rewrite times_app. unfold times at 2. cbn. destruct (Nat.eqb_spec k j); [congruence|]. cbn. lia. }
  assert (FX : forall f t, f (Answered k a) = false -> times f (t ++ [Answered k a]) = times f t).
  { intros f t E. rewrite times_app. unfold times at 2. cbn. rewrite E. cbn. lia. }
  unfold transact_end.
  destruct (looper s) eqn:LP.
  - (* a looper keeps its pipe *)
    eexists. split; [reflexivity|].
    split; cbn [looper txs count pipes npipes txfd stopped last th btrace].
    + intros j J. rewrite OA. eapply CE; eauto.
    + intros j e J He. apply in_app_or in He as [He|[<-|[]]]; [now apply (i_new _ I)|]. cbn. apply Nat.eqb_neq. lia.
    + intros j J. destruct (Nat.eq_dec j k) as [->|N]; [exact K|]. rewrite (MJ j N) in J. now apply (i_th _ I).
    + apply (i_range _ I).
    + apply (i_txfd _ I).
    + intros p Q. destruct (i_beyond _ I p Q) as [B1 B2]. split; auto.
      intros H. apply in_app_or in H as [H|[H|[]]]; [auto|discriminate].
    + apply (i_apart _ I).
    + intros j p J F Q E. pose proof (i_own _ I j p J F Q E) as H. rewrite NH in H. discriminate.
    + intros j H. cbn in H. destruct (Nat.eqb k j); discriminate.
    + intros p F L. apply (i_clean _ I _ F). rewrite T. exact L.
    + auto.
    + rewrite (i_stop _ I), in_app_iff. split; [now left|intros [A|[A|[]]]; [exact A|discriminate]].
    + intros; discriminate.
    + intros t1 j b t2 E. destruct t2 as [|x t2].
      * apply app_inj_tail in E as [<- E]. injection E as <- <-. split; [exact HA|exact HD].
      * destruct (exists_last (l := x :: t2)) as (t3 & y & E2); [discriminate|]. rewrite E2 in E.
        rewrite app_comm_cons, app_assoc in E. apply app_inj_tail in E as [E _]. now apply (i_answers _ I) in E.
    + intros j D. apply in_app_or in D as [D|[D|[]]]; [auto|discriminate].
    + intros j J. rewrite existsb_app. cbn. rewrite orb_false_r. now apply (i_final _ I).
    + intros j J. destruct (Nat.eq_dec j k) as [->|N].
      * rewrite FN, (i_once _ I k K), MS, T. cbn. self. reflexivity.
      * rewrite FO, (MJ j N); auto. now apply (i_once _ I).
    + intros j J. rewrite !FX by reflexivity. now apply (i_freed _ I).
    + intros p Q. rewrite FX by reflexivity. now apply (i_closed _ I).
  - destruct (i_worker _ I LP) as [W1 _]. destruct (txfd s) as [p|] eqn:F.
    + (* a worker closes it if it's not in use *)
      destruct (i_txfd _ I p F) as [Q1 Q2]. destruct (pipes s p) as [l|] eqn:PP; [|congruence].
      assert (NU : forall j, (j < count s)%nat -> 0 < x_refs (txs s j) -> x_pipe (txs s j) <> p).
      { intros j J R E. pose proof (i_own _ I j p J F R E) as H. rewrite NH in H. discriminate. }
      assert (OC : forall j, outcome j (btrace s ++ [PipeClosed p]) = outcome j (btrace s)).
      { intros j. now rewrite outcome_app. }
      assert (FC : forall f, f (PipeClosed p) = false -> times f (btrace s ++ [PipeClosed p]) = times f (btrace s)).
      { intros f E. rewrite times_app. unfold times at 2. cbn. rewrite E. cbn. lia. }
      eexists. split; [reflexivity|].
      split; cbn [looper txs count pipes npipes txfd stopped last th btrace].
      * intros j J. rewrite outcome_app, OC, <- outcome_app, OA. eapply CE; [|reflexivity|exact J].
        intros R. rewrite upd_other; auto.
      * intros j e J He. apply in_app_or in He as [He|[<-|[]]].
        -- apply in_app_or in He as [He|[<-|[]]]; [now apply (i_new _ I)|reflexivity].
        -- cbn. apply Nat.eqb_neq. lia.
      * intros j J. destruct (Nat.eq_dec j k) as [->|N]; [exact K|]. rewrite (MJ j N) in J. now apply (i_th _ I).
      * apply (i_range _ I).
      * try rewrite LP; discriminate.
      * intros q Q. destruct (i_beyond _ I q Q) as [B1 B2]. rewrite upd_other by lia. split; auto.
        intros H. apply in_app_or in H as [H|[H|[]]]; [|discriminate].
        apply in_app_or in H as [H|[H|[]]]; [auto|]. injection H as ->. lia.
      * apply (i_apart _ I).
      * try rewrite LP; discriminate.
      * intros j H. cbn in H. destruct (Nat.eqb k j); discriminate.
      * try rewrite LP; discriminate.
      * auto.
      * rewrite (i_stop _ I), !in_app_iff. split; [now auto|intros [[A|[A|[]]]|[A|[]]]; [exact A|discriminate..]].
      * try rewrite LP; auto.
      * intros t1 j b t2 E. destruct t2 as [|x t2].
        -- apply app_inj_tail in E as [<- E]. injection E as <- <-. rewrite OC.
           split; [destruct HA as [HA|[HA1 HA2]]; [now left|right]; split; auto; apply in_or_app; now left|].
           intros D. apply in_app_or in D as [D|[D|[]]]; [auto|discriminate].
        -- destruct (exists_last (l := x :: t2)) as (t3 & y & E2); [discriminate|]. rewrite E2 in E.
           rewrite app_comm_cons, app_assoc in E. apply app_inj_tail in E as [E _].
           apply snoc_split in E as (t4 & E); [now apply (i_answers _ I) in E|]. intros [X|[]]. discriminate.
      * intros j D. apply in_app_or in D as [D|[D|[]]]; [|discriminate].
        apply in_app_or in D as [D|[D|[]]]; [auto|discriminate].
      * intros j J. rewrite !existsb_app. cbn. rewrite !orb_false_r. now apply (i_final _ I).
      * intros j J. destruct (Nat.eq_dec j k) as [->|N].
        -- rewrite FN, FC, (i_once _ I k K), MS, T by reflexivity. cbn. self. reflexivity.
        -- rewrite FO, FC, (MJ j N); auto. now apply (i_once _ I).
      * intros j J. rewrite !FX, !FC by reflexivity. now apply (i_freed _ I).
      * intros q Q. rewrite FX by reflexivity. rewrite times_app. unfold times at 2. cbn [filter is_close].
        rewrite (i_closed _ I q Q). destruct (upd_case (pipes s) p None q) as [(-> & ->)|(N & ->)].
        -- rewrite PP. now self.
        -- destruct (Nat.eqb_spec p q); [congruence|]. cbn. lia.
    + eexists. split; [reflexivity|].
      split; cbn [looper txs count pipes npipes txfd stopped last th btrace]; rewrite ?LP.
      * intros j J. rewrite OA. eapply CE; eauto.
      * intros j e J He. apply in_app_or in He as [He|[<-|[]]]; [now apply (i_new _ I)|]. cbn. apply Nat.eqb_neq. lia.
      * intros j J. destruct (Nat.eq_dec j k) as [->|N]; [exact K|]. rewrite (MJ j N) in J. now apply (i_th _ I).
      * apply (i_range _ I).
      * discriminate.
      * intros p Q. destruct (i_beyond _ I p Q) as [B1 B2]. split; auto.
        intros H. apply in_app_or in H as [H|[H|[]]]; [auto|discriminate].
      * apply (i_apart _ I).
      * discriminate.
      * intros j H. cbn in H. destruct (Nat.eqb k j); discriminate.
      * discriminate.
      * auto.
      * rewrite (i_stop _ I), in_app_iff. split; [now left|intros [A|[A|[]]]; [exact A|discriminate]].
      * auto.
      * intros t1 j b t2 E. destruct t2 as [|x t2].
        -- apply app_inj_tail in E as [<- E]. injection E as <- <-. split; [exact HA|exact HD].
        -- destruct (exists_last (l := x :: t2)) as (t3 & y & E2); [discriminate|]. rewrite E2 in E.
           rewrite app_comm_cons, app_assoc in E. apply app_inj_tail in E as [E _]. now apply (i_answers _ I) in E.
      * intros j D. apply in_app_or in D as [D|[D|[]]]; [auto|discriminate].
      * intros j J. rewrite existsb_app. cbn. rewrite orb_false_r. now apply (i_final _ I).
      * intros j J. destruct (Nat.eq_dec j k) as [->|N].
        -- rewrite FN, (i_once _ I k K), MS, T. cbn. self. reflexivity.
        -- rewrite FO, (MJ j N); auto. now apply (i_once _ I).
      * intros j J. rewrite !FX by reflexivity. now apply (i_freed _ I).
      * intros p Q. rewrite FX by reflexivity. now apply (i_closed _ I).
Qed.

(* A transaction arrives *)
Lemma inv_begin s : inv s -> th s = TIdle -> last s = false -> inv (transact_begin s).
Proof.
  intros I T L.
  assert (NH : forall j, holds (mode_of (th s) j) = false) by (intros j; now rewrite T).
  assert (MA : forall j, mode_of (th s) j = MAway) by (intros j; now rewrite T).
  set (p := match txfd s with Some p => p | None => npipes s end).
  set (ps := match txfd s with Some _ => pipes s | None => upd (pipes s) p (Some []) end).
  set (np := match txfd s with Some _ => npipes s | None => S (npipes s) end).
  assert (PP : ps p = Some []).
  { unfold ps, p. destruct (txfd s) as [q|] eqn:F; [|apply upd_same].
    apply (i_clean _ I q F). rewrite T. exact L. }
  assert (PN : (p < np)%nat).
  { unfold np, p. destruct (txfd s) as [q|] eqn:F; [apply (i_txfd _ I q F)|lia]. }
  assert (NP : (npipes s <= np)%nat) by (unfold np; destruct (txfd s); lia).
  assert (PO : forall q, q <> p -> ps q = pipes s q).
  { intros q N. unfold ps. destruct (txfd s); [reflexivity|now apply upd_other]. }
  assert (FREE : forall j, (j < count s)%nat -> 0 < x_refs (txs s j) -> x_pipe (txs s j) <> p).
  { intros j J R E. unfold p in E. destruct (txfd s) as [q|] eqn:F.
    - pose proof (i_own _ I j q J F R E) as H. rewrite NH in H. discriminate.
    - pose proof (i_range _ I j J). lia. }
  assert (OS : forall j, (j < count s)%nat -> outcome j (btrace s ++ [Arrived (count s)]) = outcome j (btrace s)).
  { intros j J. rewrite outcome_app. apply judge_other. intros e [<-|[]]. cbn. apply Nat.eqb_neq. lia. }
  assert (MO : forall j, j <> count s -> mode_of (TWait1 (count s)) j = MAway).
  { intros j N. cbn. destruct (Nat.eqb_spec (count s) j); [congruence|reflexivity]. }
  assert (FX : forall f, f (Arrived (count s)) = false -> times f (btrace s ++ [Arrived (count s)]) = times f (btrace s)).
  { intros f E. rewrite times_app. unfold times at 2. cbn. rewrite E. cbn. lia. }
  assert (N0 : forall f, (forall e, f e = true -> about (count s) e = true) -> times f (btrace s) = 0%nat).
  { intros f H. apply times_zero. intros e He. destruct (f e) eqn:X; auto. apply H in X.
    rewrite (i_new _ I (count s) e (le_n _) He) in X. discriminate. }
  split; unfold transact_begin; cbn [looper txs count pipes npipes txfd stopped last th btrace]; fold p ps np.
  - intros j J. destruct (upd_case (txs s) (count s)
      {| x_state := SCHEDULED; x_answer := (None, 0); x_refs := 2; x_pipe := p; x_has_req := true;
         q_refs := 2; q_has_tx := false; q_app := 0; x_cb := CbPending |} j) as [(-> & ->)|(N & ->)].
    + cbn [x_pipe mode_of]. rewrite Nat.eqb_refl, PP. rewrite outcome_app.
      unfold outcome. rewrite (judge_other _ (btrace s)) by (intros e He; now apply (i_new _ I)).
      cbn [fold_left]. unfold judge. cbn [about]. rewrite Nat.eqb_refl.
      split; cbn; auto; try lia; try discriminate.
      repeat split; auto. intros [X|X]; discriminate.
    + assert (J' : (j < count s)%nat) by lia. rewrite MO, OS by auto. rewrite <- (MA j).
      destruct (Z.eq_dec (x_refs (txs s j)) 0) as [Z|Z].
      * eapply cell_ok_dead; [apply (i_cells _ I j J')|exact Z].
      * rewrite PO; [apply (i_cells _ I j J')|]. apply FREE; auto.
        destruct (i_cells _ I j J') as [H1 _ _ _ _ _ _]. rewrite H1 in Z |- *. unfold b2z in *.
        destruct (holds (mode_of (th s) j)), (cb_alive (x_cb (txs s j))), (q_has_tx (txs s j)); lia.
  - intros j e J He. apply in_app_or in He as [He|[<-|[]]]; [apply (i_new _ I); auto; lia|]. cbn. apply Nat.eqb_neq. lia.
  - intros j J. destruct (Nat.eq_dec j (count s)) as [->|N]; [lia|]. rewrite MO in J by auto. congruence.
  - intros j J. destruct (upd_case (txs s) (count s)
      {| x_state := SCHEDULED; x_answer := (None, 0); x_refs := 2; x_pipe := p; x_has_req := true;
         q_refs := 2; q_has_tx := false; q_app := 0; x_cb := CbPending |} j) as [(-> & ->)|(N & ->)]; [exact PN|].
    assert (J' : (j < count s)%nat) by lia. pose proof (i_range _ I j J'). lia.
  - intros q [= <-]. split; [exact PN|]. rewrite PP. discriminate.
  - intros q Q. destruct (i_beyond _ I q) as [B1 B2]; [lia|]. rewrite PO by lia. split; auto.
    intros H. apply in_app_or in H as [H|[H|[]]]; [auto|discriminate].
  - intros i j N I1 J1.
    destruct (upd_case (txs s) (count s)
      {| x_state := SCHEDULED; x_answer := (None, 0); x_refs := 2; x_pipe := p; x_has_req := true;
         q_refs := 2; q_has_tx := false; q_app := 0; x_cb := CbPending |} i) as [(-> & ->)|(N1 & ->)];
    destruct (upd_case (txs s) (count s)
      {| x_state := SCHEDULED; x_answer := (None, 0); x_refs := 2; x_pipe := p; x_has_req := true;
         q_refs := 2; q_has_tx := false; q_app := 0; x_cb := CbPending |} j) as [(-> & ->)|(N2 & ->)];
      try contradiction; intros P1 P2; cbn [x_pipe].
    + intros E. apply (FREE j); auto. lia.
    + apply FREE; auto. lia.
    + apply (i_apart _ I); auto; lia.
  - intros j q J [= <-] R E. destruct (Nat.eq_dec j (count s)) as [->|N]; [cbn; now rewrite Nat.eqb_refl|].
    rewrite upd_other in R, E by auto. exfalso. apply (FREE j); auto. lia.
  - intros j H. destruct (Nat.eq_dec j (count s)) as [->|N]; [now rewrite upd_same|].
    rewrite MO in H by auto. discriminate.
  - cbn. contradiction.
  - apply (i_last _ I).
  - rewrite (i_stop _ I), in_app_iff. split; [now left|intros [A|[A|[]]]; [exact A|discriminate]].
  - intros W. split; [apply (i_worker _ I W)|cbn; contradiction].
  - intros t1 j b t2 E. apply snoc_split in E as (t3 & E); [now apply (i_answers _ I) in E|].
    intros [X|[]]. discriminate.
  - intros j D. apply in_app_or in D as [D|[D|[]]]; [|discriminate].
    destruct (Nat.eq_dec j (count s)) as [->|N]; [|now apply MO].
    apply (i_new _ I (count s)) in D; [|lia]. cbn in D. rewrite Nat.eqb_refl in D. discriminate.
  - intros j J. rewrite existsb_app. cbn [existsb is_return]. rewrite orb_false_r.
    destruct (upd_case (txs s) (count s)
      {| x_state := SCHEDULED; x_answer := (None, 0); x_refs := 2; x_pipe := p; x_has_req := true;
         q_refs := 2; q_has_tx := false; q_app := 0; x_cb := CbPending |} j) as [(-> & ->)|(N & ->)].
    + cbn. apply not_true_iff_false. rewrite existsb_exists. intros (e & He & R). apply return_about in R.
      rewrite (i_new _ I (count s) e (le_n _) He) in R. discriminate.
    + apply (i_final _ I). lia.
  - intros j J. rewrite FX by reflexivity. destruct (Nat.eq_dec j (count s)) as [->|N].
    + rewrite N0 by apply answer_about. cbn. now rewrite Nat.eqb_refl.
    + rewrite MO, (i_once _ I j), MA; auto. lia.
  - intros j J. rewrite !FX by reflexivity. destruct (Nat.eq_dec j (count s)) as [->|N].
    + rewrite upd_same. rewrite !N0; [split; reflexivity|apply req_freed_about|apply tx_freed_about].
    + rewrite upd_other by auto. apply (i_freed _ I). lia.
  - intros q Q. rewrite FX by reflexivity. destruct (Nat.eq_dec q p) as [->|N].
    + rewrite PP. apply times_zero. intros e He. destruct e; cbn; auto. apply Nat.eqb_neq. intros ->.
      destruct (Nat.lt_ge_cases p (npipes s)) as [Lt|Ge].
      * pose proof (i_closed _ I p Lt) as C. unfold ps in PP.
        assert (pipes s p = Some []) as E2.
        { destruct (txfd s) as [q|] eqn:F; [exact PP|]. subst p. lia. }
        rewrite E2 in C. unfold times in C.
        assert (In (PipeClosed p) (filter (is_close p) (btrace s))).
        { apply filter_In. split; auto. cbn. apply Nat.eqb_refl. }
        destruct (filter (is_close p) (btrace s)); [contradiction|discriminate].
      * now apply (i_beyond _ I p Ge).
    + rewrite PO by auto. apply (i_closed _ I). unfold np in Q. unfold p in N. destruct (txfd s); lia.
Qed.

Lemma inv_stop s : inv s -> looper s = true ->
  inv {| looper := looper s; txs := txs s; count := count s; pipes := pipes s; npipes := npipes s; txfd := txfd s;
         stopped := true; last := last s; th := th s; btrace := btrace s ++ [StopCalled] |}.
Proof.
  intros I LP.
  assert (OS : forall j, outcome j (btrace s ++ [StopCalled]) = outcome j (btrace s)) by (intros j; now rewrite outcome_app).
  assert (FX : forall f, f StopCalled = false -> times f (btrace s ++ [StopCalled]) = times f (btrace s)).
  { intros f E. rewrite times_app. unfold times at 2. cbn. rewrite E. cbn. lia. }
  split; cbn [looper txs count pipes npipes txfd stopped last th btrace].
  - intros j J. rewrite OS. destruct (i_cells _ I j J) as [H1 H2 H7 H3 H4 H5 H6]. split; auto.
    unfold wait_ok in *. destruct (mode_of (th s) j) as [| | |[]|a|a|]; auto; intuition.
  - intros j e J He. apply in_app_or in He as [He|[<-|[]]]; [apply (i_new _ I); auto|reflexivity].
  - apply (i_th _ I).
  - apply (i_range _ I).
  - apply (i_txfd _ I).
  - intros q Q. destruct (i_beyond _ I q Q) as [B1 B2]. split; auto.
    intros H. apply in_app_or in H as [H|[H|[]]]; [auto|discriminate].
  - apply (i_apart _ I).
  - apply (i_own _ I).
  - apply (i_current _ I).
  - intros p F L. apply (i_clean _ I p F). destruct (th s); cbn in *; auto; discriminate.
  - auto.
  - split; auto. intros _. apply in_or_app. right. now left.
  - rewrite LP. discriminate.
  - intros t1 j b t2 E. apply snoc_split in E as (t3 & E); [now apply (i_answers _ I) in E|].
    intros [X|[]]. discriminate.
  - intros j D. apply in_app_or in D as [D|[D|[]]]; [now apply (i_dropped _ I)|discriminate].
  - intros j J. rewrite existsb_app. cbn [existsb is_return]. rewrite orb_false_r. now apply (i_final _ I).
  - intros j J. rewrite FX by reflexivity. now apply (i_once _ I).
  - intros j J. rewrite !FX by reflexivity. now apply (i_freed _ I).
  - intros j J. rewrite !FX by reflexivity. now apply (i_closed _ I).
Qed.

Lemma inv_initial b : inv (initial b).
Proof.
  split; cbn; try lia; try discriminate; try contradiction; auto.
  - intros [|? ?] k a t2 E; discriminate.
Qed.

Lemma inv_ext s s' :
  looper s' = looper s -> (forall k, txs s' k = txs s k) -> count s' = count s ->
  (forall p, pipes s' p = pipes s p) -> npipes s' = npipes s -> txfd s' = txfd s -> stopped s' = stopped s ->
  last s' = last s -> th s' = th s -> btrace s' = btrace s -> inv s -> inv s'.
Proof.
  destruct s' as [a0 a1 a2 a3 a4 a5 a6 a7 a8 a9]. cbn. intros -> H1 -> H2 -> -> -> -> -> -> I.
  destruct I. split; cbn [looper txs count pipes npipes txfd stopped last th btrace]; intros;
    rewrite ?H1, ?H2 in *; eauto.
Qed.

(* The thread goes on *)
Lemma inv_thread_step s : inv s -> thread_step s = Disabled \/ exists s', thread_step s = Ok s' /\ inv s'.
Proof.
  intros I. unfold thread_step.
  destruct (th s) as [|k|k|k d|k a|k a|k] eqn:T; [now left|..].
  all: assert (K : (k < count s)%nat) by (apply (i_th _ I); rewrite T; cbn; self; discriminate).
  all: pose proof (i_cells _ I k K) as CK; rewrite T in CK; cbn [mode_of] in CK; rewrite Nat.eqb_refl in CK.
  all: assert (MT : mode_of (th s) k = match th s with TIdle => MAway | TWait1 _ => MWait1 | TWait2 _ => MWait2
      | TTake _ d => MTake d | TUnref _ a => MUnref a | TCancel _ a => MCancel a | TSent _ => MSent end)
    by (rewrite T; cbn; now self); rewrite T in MT at 2.
  - destruct (moved_wait1 k (stopped s) (outcome k (btrace s)) (get_cell s k) CK) as [(-> & _)|(c & n & -> & M)]; [now left|].
    right. cbn [bind]. eexists. split; [reflexivity|].
    eapply inv_thread; eauto; try (now rewrite MT).
    + destruct n as [[|]|]; cbn; now self.
    + destruct n as [[|]|]; discriminate.
    + destruct n as [[|]|]; reflexivity.
    + left. split; auto. destruct n as [[|]|]; reflexivity.
  - destruct (moved_wait2 k (stopped s) (outcome k (btrace s)) (get_cell s k) CK) as [(-> & _)|(c & n & -> & M)]; [now left|].
    right. cbn [bind]. eexists. split; [reflexivity|].
    eapply inv_thread; eauto; try (now rewrite MT).
    all: try discriminate; try reflexivity; try (cbn; now self).
  - destruct (take_ok _ _ _ _ _ CK) as [R CK2]. destruct (Z.leb_spec (x_refs (txs s k)) 0); [lia|]. right.
    eexists. split; [reflexivity|].
    pose proof (still_moved k _ _ _ (get_cell s k) CK2) as M.
    assert (E : inv (go (put_cell s k (get_cell s k)) (TUnref k (if d then x_answer (txs s k) else (None, - EFAULT))) (txfd s))).
    { eapply inv_thread; eauto; try (now rewrite MT); try discriminate; try reflexivity; try (cbn; now self); try (now left). }
    assert (X : forall j, upd (txs s) k (txs s k) j = txs s j).
    { intros j. destruct (upd_case (txs s) k (txs s k) j) as [(-> & ->)|(_ & ->)]; reflexivity. }
    assert (Y : forall j, upd (pipes s) (x_pipe (txs s k)) (pipes s (x_pipe (txs s k))) j = pipes s j).
    { intros j. destruct (upd_case (pipes s) (x_pipe (txs s k)) (pipes s (x_pipe (txs s k))) j) as [(-> & ->)|(_ & ->)]; reflexivity. }
    refine (inv_ext _ _ _ _ _ _ _ _ _ _ _ _ E); try reflexivity; intros; symmetry; cbn; auto using app_nil_r.
  - destruct (moved_drop k a _ _ (get_cell s k) CK) as (c & d & l & -> & M & EP & Ed & R & CL). cbn [bind]. right.
    eexists. split; [reflexivity|].
    eapply inv_thread; eauto; try (now rewrite MT).
    all: try discriminate; try reflexivity; try (cbn; now self).
    + right. destruct d; [right|left; auto]. symmetry in Ed. apply Z.eqb_eq in Ed.
      split; [reflexivity|]. rewrite EP. split; [|repeat split; auto].
      cbn [get_cell c_pipe c_tx] in *. now apply (ok_pipe _ _ _ _ _ CK).
  - right. destruct (x_cb (txs s k)) eqn:CB; cbn [bind].
    2-4: apply inv_end; auto; congruence.
    destruct (moved_cancelled k a _ _ (get_cell s k) CK CB) as (c & l & E & M).
    unfold on_cell. rewrite E. cbn [bind].
    assert (I2 : inv (put_cell s k c)) by (eapply inv_main; eauto; rewrite MT; eauto).
    apply inv_end; auto.
    cbn [put_cell txs]. rewrite upd_same.
    revert E. unfold callback_gone, tx_unref. cbn. destruct (x_refs (txs s k) <=? 0); [discriminate|].
    destruct (x_refs (txs s k) - 1 =? 0).
    + unfold pipe_close; cbn. destruct (pipes s (x_pipe (txs s k))); cbn; [|discriminate].
      destruct (x_has_req (txs s k)); cbn; [unfold req_unref_by_tx; cbn|]; tests; try discriminate;
        destruct (q_has_tx (txs s k)); cbn; try discriminate;
        intros X; injection X as <-; cbn; discriminate.
    + cbn. intros X; injection X as <-; cbn; discriminate.
  - right. destruct (moved_sent k _ _ (get_cell s k) CK) as (c & l & E & M).
    unfold on_cell. rewrite E. cbn [bind]. eexists. split; [reflexivity|].
    pose proof (mv_frozen _ _ _ _ _ _ _ M) as FZ. cbn [get_cell c_tx c_pipe] in FZ.
    pose proof (mv_freed _ _ _ _ _ _ _ M) as (_ & _ & FR3 & _). cbn [get_cell c_tx] in FR3.
    assert (HP : forall p, txfd s = Some p -> x_pipe (txs s k) = p -> x_refs (txs s k) = 0).
    { intros p F E2. destruct (Z.eq_dec (x_refs (txs s k)) 0) as [|Z]; auto. exfalso.
      assert (R : 0 < x_refs (txs s k)).
      { destruct CK as [H1 _ _ _ _ _ _]. rewrite H1 in Z |- *. unfold b2z in *. cbn in *.
        destruct (cb_alive (x_cb (txs s k))), (q_has_tx (txs s k)); lia. }
      pose proof (i_own _ I k p K F R E2) as H. rewrite MT in H. discriminate. }
    cbn [put_cell txfd].
    eapply inv_moved; eauto; cbn [holds]; try discriminate.
    + intros j N. rewrite (mode_other (th s) k j); auto. rewrite MT. discriminate.
    + intros p F E2 R. rewrite (FR3 (HP p F E2)) in R. lia.
    + intros F. rewrite (FZ (HP _ F eq_refl)). apply (i_txfd _ I _ F).
    + intros p F L. destruct (upd_case (pipes s) (x_pipe (txs s k)) (c_pipe c) p) as [(E2 & ->)|(N & ->)].
      * rewrite (FZ (HP _ F (eq_sym E2))), <- E2. apply (i_clean _ I); auto. now rewrite T.
      * apply (i_clean _ I); auto. now rewrite T.
    + now rewrite MT.
    + intros W _. apply (i_worker _ I W). now rewrite T.
Qed.

Lemma on_cell_inv s k f :
  inv s ->
  (forall v, cell_ok (mode_of (th s) k) (stopped s) v (txs s k) (pipes s (x_pipe (txs s k))) ->
     f (get_cell s k) = Disabled \/
     exists c l, f (get_cell s k) = Ok c /\ moved k (mode_of (th s) k) (stopped s) v (get_cell s k) c l) ->
  (if Nat.ltb k (count s) then on_cell s k f else Disabled) = Disabled \/
  exists s', (if Nat.ltb k (count s) then on_cell s k f else Disabled) = Ok s' /\ inv s'.
Proof.
  intros I H. destruct (Nat.ltb_spec k (count s)) as [K|K]; [|now left].
  unfold on_cell. destruct (H _ (i_cells _ I k K)) as [->|(c & l & -> & M)]; [now left|].
  right. eexists. split; [reflexivity|]. eapply inv_main; eauto.
Qed.

Theorem inv_step s m : inv s -> step s m = Disabled \/ exists s', step s m = Ok s' /\ inv s'.
Proof.
  intros I. unfold step. destruct m as [| |k|k a|k|k|k|k|k a|].
  - destruct (th s) eqn:T; auto. destruct (last s) eqn:L; auto. right. eexists. split; [reflexivity|]. now apply inv_begin.
  - now apply inv_thread_step.
  - apply on_cell_inv; auto. intros v C. change (c_tx (get_cell s k)) with (txs s k).
    destruct (x_cb (txs s k)) eqn:CB; auto. right. now apply moved_begin.
  - apply on_cell_inv; auto. intros v C. change (c_tx (get_cell s k)) with (txs s k).
    destruct (x_cb (txs s k)) eqn:CB; auto. right. now apply moved_end.
  - apply on_cell_inv; auto. intros v C. change (c_tx (get_cell s k)) with (txs s k).
    destruct (x_cb (txs s k)) eqn:CB; auto. right. now apply moved_gone.
  - apply on_cell_inv; auto. intros v C. change (c_tx (get_cell s k)) with (txs s k).
    destruct (usable (txs s k)) eqn:U; auto. right. now apply moved_ref.
  - apply on_cell_inv; auto. intros v C. change (c_tx (get_cell s k)) with (txs s k).
    destruct (Z.ltb_spec 0 (q_app (txs s k))); auto. right. now apply moved_unref.
  - apply on_cell_inv; auto. intros v C. change (c_tx (get_cell s k)) with (txs s k).
    destruct (usable (txs s k)) eqn:U; auto. right. now apply moved_block.
  - apply on_cell_inv; auto. intros v C. change (c_tx (get_cell s k)) with (txs s k).
    destruct (usable (txs s k)) eqn:U; auto. right. now apply moved_complete.
  - destruct (looper s) eqn:LP, (stopped s); cbn; auto. right. eexists. split; [reflexivity|].
    pose proof (inv_stop s I LP) as X. now rewrite LP in X.
Qed.

Theorem inv_run l : forall s, inv s -> run s l = Disabled \/ exists s', run s l = Ok s' /\ inv s'.
Proof.
  induction l as [|m l IH]; intros s I; cbn [run].
  - right. now exists s.
  - destruct (inv_step s m I) as [->|(s1 & -> & I1)]; cbn [bind]; auto.
Qed.
