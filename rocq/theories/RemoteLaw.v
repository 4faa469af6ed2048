(* The commands of every object are lawful in every run *)
From Verif Require Import Base RemoteModel RemoteSpec RemoteProofs.
From Coq Require Import Lia.

Lemma law_run_app o t u w :
  law_run o w (t ++ u) = match law_run o w t with Some w1 => law_run o w1 u | None => None end.
Proof.
  revert w. induction t as [|e r IH]; intro w; cbn [List.app law_run]; [reflexivity|].
  destruct (law_step o w e) as [w1|]; [apply IH|reflexivity].
Qed.
Lemma law_run_say o t e w :
  law_run o w (t ++ [e]) = match law_run o w t with Some w1 => law_step o w1 e | None => None end.
Proof.
  rewrite law_run_app. destruct (law_run o w t) as [w1|]; [|reflexivity]. cbn [law_run].
  destruct (law_step o w1 e); reflexivity.
Qed.

Definition busy (m : mphase) (o : nat) : option bool :=
  match m with
  | MInvalidate i cb | MSignal i cb => if Nat.eqb i o then Some cb else None
  | _ => None
  end.

Definition law_of (x : robj) (b : option bool) (sg : bool) : law :=
  if gone x then {| acq := false; watched := false; signalled := sg; freed := true |}
  else
    {| acq := ro_acquired x;
       watched := if ro_dead x then match b with Some true => true | _ => false end else true;
       signalled := if ro_dead x then match b with Some _ => false | None => true end else false;
       freed := false |}.

Definition agrees (s : state) (o : nat) (w : law) : Prop :=
  if Nat.ltb o (count s) then exists sg, w = law_of (objs s o) (busy (main s) o) sg else w = law0.

Definition lawinv (s : state) : Prop :=
  (forall o, exists w, law_run o law0 (trace s) = Some w /\ agrees s o w) /\
  (forall o, ro_dead (objs s o) = true -> ro_acquired (objs s o) = false) /\
  (forall o, busy (main s) o <> None -> ro_dead (objs s o) = true).

Lemma lawinv_initial : lawinv initial.
Proof.
  split; [|split].
  - intro o. exists law0. split; reflexivity.
  - intros o _. reflexivity.
  - intros o H. contradiction H. reflexivity.
Qed.

(* Steps which change nothing that matters *)
Lemma lawinv_same s s1 :
  lawinv s ->
  (forall o, gone (objs s1 o) = gone (objs s o) /\ ro_dead (objs s1 o) = ro_dead (objs s o) /\
             ro_acquired (objs s1 o) = ro_acquired (objs s o) /\ busy (main s1) o = busy (main s) o) ->
  count s1 = count s ->
  (forall o, law_run o law0 (trace s1) = law_run o law0 (trace s)) ->
  lawinv s1.
Proof.
  intros [A [B C]] E EC ET. split; [|split].
  - intro o. destruct (A o) as [w [P Q]]. exists w. rewrite ET. split; [exact P|].
    unfold agrees in *. rewrite EC. destruct (Nat.ltb o (count s)); [|exact Q].
    destruct (E o) as [E1 [E2 [E3 E4]]]. unfold law_of in *. rewrite E1, E2, E3, E4. exact Q.
  - intro o. destruct (E o) as [E1 [E2 [E3 E4]]]. rewrite E2, E3. apply B.
  - intro o. destruct (E o) as [E1 [E2 [E3 E4]]]. rewrite E2, E4. apply C.
Qed.

(* Steps which change one object *)
Lemma lawinv_change s s1 o :
  lawinv s ->
  (forall i, i <> o -> objs s1 i = objs s i /\ busy (main s1) i = busy (main s) i /\
             law_run i law0 (trace s1) = law_run i law0 (trace s)) ->
  count s1 = count s -> (o < count s)%nat ->
  (forall sg, law_run o law0 (trace s) = Some (law_of (objs s o) (busy (main s) o) sg) ->
              exists sg1, law_run o law0 (trace s1) = Some (law_of (objs s1 o) (busy (main s1) o) sg1)) ->
  (ro_dead (objs s1 o) = true -> ro_acquired (objs s1 o) = false) ->
  (busy (main s1) o <> None -> ro_dead (objs s1 o) = true) ->
  lawinv s1.
Proof.
  intros [A [B C]] E EC L ET ED EB. split; [|split].
  - intro i. destruct (A i) as [w [P Q]]. destruct (Nat.eq_dec i o) as [->|N].
    + unfold agrees in Q. destruct (Nat.ltb_spec o (count s)) as [L1|L1]; [|lia].
      destruct Q as [sg ->]. destruct (ET sg P) as [sg1 P1]. eexists. split; [exact P1|].
      unfold agrees. rewrite EC. destruct (Nat.ltb_spec o (count s)) as [L2|L2]; [|lia]. exists sg1. reflexivity.
    + destruct (E i N) as [E1 [E2 E3]]. exists w. rewrite E3. split; [exact P|].
      unfold agrees in *. rewrite EC, E1, E2. exact Q.
  - intro i. destruct (Nat.eq_dec i o) as [->|N]; [exact ED|]. destruct (E i N) as [E1 [E2 E3]]. rewrite E1. apply B.
  - intro i. destruct (Nat.eq_dec i o) as [->|N]; [exact EB|]. destruct (E i N) as [E1 [E2 E3]]. rewrite E1, E2. apply C.
Qed.

Lemma not_gone s o : acct s -> 0 < ro_refs (objs s o) -> gone (objs s o) = false.
Proof.
  intros [C _] R. destruct (C o) as [_ [_ P]]. unfold gone. destruct (ro_phase (objs s o)); auto. lia.
Qed.

Lemma law_done o t h w : law_run o w (t ++ [EvDone h]) = law_run o w t.
Proof. rewrite law_run_say. destruct (law_run o w t); reflexivity. Qed.

Ltac lawred :=
  rewrite ?law_run_say;
  repeat match goal with H : law_run ?o law0 ?t = Some _ |- _ => rewrite H; clear H end;
  cbn [law_step acq watched signalled freed law_of gone law0];
  rewrite ?Nat.eqb_refl.

Lemma law_got o t h i c w :
  law_run o law0 t = Some w -> (i = o -> freed w = false) -> law_run o law0 (t ++ [EvGot h i c]) = Some w.
Proof. intros E F. rewrite law_run_say, E. cbn [law_step]. destruct (Nat.eqb_spec i o) as [EI|]; [rewrite (F EI)|]; reflexivity. Qed.

Lemma law_other_say o t e w :
  (forall v, law_step o v e = Some v) -> law_run o w (t ++ [e]) = law_run o w t.
Proof. intro H. rewrite law_run_say. destruct (law_run o w t) as [v|]; [apply H|reflexivity]. Qed.

Ltac other N :=
  repeat (rewrite law_other_say;
          [|let v := fresh in intro v; cbn [law_step];
            match goal with |- context [Nat.eqb ?a ?b] => destruct (Nat.eqb_spec a b); [congruence|reflexivity]
                          | |- _ => reflexivity end]).

Lemma lawinv_refs s o s1 p :
  lawinv s -> acct s ->
  gone (objs s o) = false -> p <> PGone ->
  (exists n, objs s1 = upd (objs s) o (with_phase (with_refs (objs s o) n) p)) ->
  (forall i, busy (main s1) i = busy (main s) i) -> count s1 = count s ->
  (forall i, law_run i law0 (trace s1) = law_run i law0 (trace s)) -> lawinv s1.
Proof.
  intros I A G P [n E] EM EC ET. apply (lawinv_same s); auto.
  intro i. rewrite E, EM. unfold upd. destruct (Nat.eqb_spec i o) as [->|N]; auto.
  sproj. repeat split; auto. rewrite G. unfold gone. sproj. destruct p; auto. contradiction.
Qed.

Lemma with_refs_phase x n : with_refs x n = with_phase (with_refs x n) (ro_phase x).
Proof. destruct x. reflexivity. Qed.
Lemma with_phase_refs x p : with_phase x p = with_phase (with_refs x (ro_refs x)) p.
Proof. destruct x. reflexivity. Qed.
Lemma gone_phase x : gone x = false -> ro_phase x <> PGone.
Proof. unfold gone. destruct (ro_phase x); congruence. Qed.

Lemma lawinv_obj_ref s o s0 s1 s2 :
  lawinv s -> acct s -> objs s0 = objs s -> obj_ref s0 o = Ok s1 ->
  objs s2 = objs s1 -> (forall i, busy (main s2) i = busy (main s) i) -> count s2 = count s ->
  (forall i, law_run i law0 (trace s2) = law_run i law0 (trace s)) -> lawinv s2.
Proof.
  intros I A E0 E E1 EM EC ET. destruct (obj_ref_frame _ _ _ E) as [L E2]. rewrite E0 in L.
  pose proof (not_gone s o A L) as G.
  apply (lawinv_refs s o s2 (ro_phase (objs s o)) I A G (gone_phase _ G)); auto.
  exists (ro_refs (objs s o) + 1). rewrite E1, E2. sproj. rewrite E0, <- with_refs_phase. reflexivity.
Qed.
Lemma lawinv_obj_unref s o s0 s1 s2 :
  lawinv s -> acct s -> objs s0 = objs s -> obj_unref s0 o = Ok s1 ->
  objs s2 = objs s1 -> (forall i, busy (main s2) i = busy (main s) i) -> count s2 = count s ->
  (forall i, law_run i law0 (trace s2) = law_run i law0 (trace s)) -> lawinv s2.
Proof.
  intros I A E0 E E1 EM EC ET. destruct (obj_unref_frame _ _ _ E) as [L E2]. rewrite E0 in L, E2.
  pose proof (not_gone s o A L) as G.
  destruct (1 <? ro_refs (objs s o)).
  - apply (lawinv_refs s o s2 (ro_phase (objs s o)) I A G (gone_phase _ G)); auto.
    exists (ro_refs (objs s o) - 1). rewrite E1, E2. sproj. rewrite E0, <- with_refs_phase. reflexivity.
  - apply (lawinv_refs s o s2 PDispose I A G); auto; [discriminate|].
    exists (ro_refs (objs s o)). rewrite E1, E2. sproj. rewrite E0, <- with_phase_refs. reflexivity.
Qed.

Lemma busy_none_mref s o : mref (main s) o = 0 -> busy (main s) o = None.
Proof. unfold mref, busy. destruct (main s); auto; destruct (Nat.eqb _ _); auto; discriminate. Qed.


Lemma lawinv_get s h md s1 : acct s -> lawinv s -> obj_get s h md = Ok s1 -> lawinv s1.
Proof.
  intros A I E. unfold obj_get in E. destruct (table s h) as [o|] eqn:ET.
  - destruct (obj_ref s o) as [| |s2] eqn:ER; try discriminate. cbn [bind] in E. apply ok_inj in E.
    destruct (obj_ref_frame _ _ _ ER) as [L E2]. pose proof (not_gone s o A L) as G.
    apply (lawinv_obj_ref s o s s2 s1 I A eq_refl ER); subst s1; subst s2; sproj; auto.
    intro i. destruct I as [IA _]. destruct (IA i) as [w [P Q]]. rewrite P. apply law_got; [exact P|].
    intros <-. unfold agrees in Q.
    destruct (Nat.ltb_spec o (count s)) as [L1|L1]; [|subst w; reflexivity].
    destruct Q as [sg ->]. unfold law_of. rewrite G. reflexivity.
  - apply ok_inj in E. destruct I as [IA [IB IC]].
    assert (EC : count s1 = Datatypes.S (count s)) by (subst s1; unfold obj_new; destruct md; reflexivity).
    assert (EM : main s1 = main s) by (subst s1; unfold obj_new; destruct md; reflexivity).
    assert (EO : forall i, i <> count s -> objs s1 i = objs s i).
    { intros i N. subst s1. unfold obj_new. destruct md; sproj; apply upd_neq, N. }
    assert (EB : busy (main s) (count s) = None).
    { apply busy_none_mref. destruct A as [C [T F]]. destruct (C (count s)) as [X [Y W]].
      rewrite (F (count s) (le_n _)) in Y, W. cbn [dref] in Y.
      pose proof (occ_nonneg (count s) (queue s)). pose proof (mref_nonneg (main s) (count s)). lia. }
    split; [|split].
    + intro i. destruct (IA i) as [w [P Q]]. destruct (Nat.eq_dec i (count s)) as [->|N].
      * unfold agrees in Q. destruct (Nat.ltb_spec (count s) (count s)) as [L1|L1]; [lia|]. subst w.
        assert (X : law_run (count s) law0 (trace s1) =
                    Some (law_of (objs s1 (count s)) (busy (main s1) (count s)) false)).
        { rewrite EM, EB. clear EM EC EO. subst s1. unfold obj_new. destruct md; sproj; rewrite ?upd_eq; unfold gone; sproj; lawred; reflexivity. }
        eexists. split; [exact X|]. unfold agrees. rewrite EC.
        destruct (Nat.ltb_spec (count s) (Datatypes.S (count s))) as [L2|L2]; [|lia]. exists false. reflexivity.
      * exists w. split.
        { rewrite <- P. subst s1. unfold obj_new. destruct md; sproj; other N; reflexivity. }
        unfold agrees in *. rewrite EC, EM, EO by exact N.
        destruct (Nat.ltb_spec i (count s)) as [L1|L1], (Nat.ltb_spec i (Datatypes.S (count s))) as [L2|L2];
          try lia; exact Q.
    + intro i. destruct (Nat.eq_dec i (count s)) as [->|N]; [|rewrite EO by exact N; apply IB].
      subst s1. unfold obj_new. destruct md; sproj; rewrite ?upd_eq; sproj; auto; discriminate.
    + intro i. rewrite EM. destruct (Nat.eq_dec i (count s)) as [->|N]; [rewrite EB; congruence|].
      rewrite EO by exact N. apply IC.
Qed.

Lemma lawinv_dispose s o s1 :
  acct s -> lawinv s -> (o < count s)%nat -> dispose_step s o = Ok s1 -> lawinv s1.
Proof.
  intros A I L E. unfold dispose_step in E.
  assert (NB : ro_refs (objs s o) = 0 -> busy (main s) o = None).
  { intro Z0. apply busy_none_mref. destruct A as [C _]. destruct (C o) as [X [Y _]].
    pose proof (occ_nonneg o (queue s)). pose proof (mref_nonneg (main s) o).
    destruct (ro_phase (objs s o)); cbn [dref] in *; lia. }
  destruct (ro_phase (objs s o)) eqn:EP; try discriminate.
  - apply ok_inj in E.
    apply (lawinv_refs s o s1 PDisposed I A); try (subst s1; destruct (_ =? _); reflexivity).
    + unfold gone. rewrite EP. reflexivity.
    + discriminate.
    + exists (ro_refs (objs s o)). subst s1. rewrite <- with_phase_refs. destruct (_ =? _); reflexivity.
  - assert (G : gone (objs s o) = false) by (unfold gone; rewrite EP; reflexivity).
    destruct (_ =? 0); apply ok_inj in E.
    + apply (lawinv_refs s o s1 PFinal I A G); try (subst s1; reflexivity); [discriminate|].
      eexists. subst s1. reflexivity.
    + apply (lawinv_refs s o s1 PLive I A G); try (subst s1; reflexivity); [discriminate|].
      eexists. subst s1. reflexivity.
  - assert (G : gone (objs s o) = false) by (unfold gone; rewrite EP; reflexivity).
    apply ok_inj in E. apply (lawinv_refs s o s1 PFinal2 I A G); try (subst s1; reflexivity); [discriminate|].
    exists (ro_refs (objs s o)). subst s1. rewrite <- with_phase_refs. reflexivity.
  - assert (G : gone (objs s o) = false) by (unfold gone; rewrite EP; reflexivity).
    assert (B : busy (main s) o = None).
    { apply NB. destruct A as [C _]. destruct (C o) as [_ [_ W]]. rewrite EP in W. exact W. }
    apply ok_inj in E.
    assert (EM : main s1 = main s) by (subst s1; destruct (ro_dead _), (ro_acquired _); reflexivity).
    assert (EO : objs s1 = upd (objs s) o (with_phase (objs s o) PGone))
      by (subst s1; destruct (ro_dead _), (ro_acquired _); reflexivity).
    apply (lawinv_change s s1 o I).
    + intros i N. rewrite EM, EO, upd_neq by exact N. split; [reflexivity|]. split; [reflexivity|].
      subst s1. destruct (ro_dead _), (ro_acquired _); sproj; other N; reflexivity.
    + subst s1. destruct (ro_dead _), (ro_acquired _); reflexivity.
    + exact L.
    + intros sg P. rewrite EM, EO, upd_eq, B. rewrite B in P. unfold law_of in P. rewrite G in P.
      subst s1. destruct (ro_dead _), (ro_acquired _); sproj; lawred; unfold law_of, gone; sproj; eexists; reflexivity.
    + rewrite EO, upd_eq. sproj. destruct I as [_ [IB _]]. apply IB.
    + rewrite EM, B. congruence.
Qed.

Lemma lawinv_callback s s1 : acct s -> lawinv s -> callback s = Ok s1 -> lawinv s1.
Proof.
  intros A I E. unfold callback in E. destruct (main s) eqn:EM; try discriminate.
  destruct (queue s) as [|o q] eqn:EQ; [discriminate|].
  change (objs (set_queue s q) o) with (objs s o) in E.
  destruct (Z.leb_spec (ro_refs (objs s o)) 0) as [L|L]; [discriminate|].
  pose proof (not_gone s o A L) as G. pose proof (counted_pos s o A L) as LC.
  destruct (ro_dead (objs s o)) eqn:ED.
  - destruct (obj_unref_frame _ _ _ E) as [_ E2].
    apply (lawinv_obj_unref s o (set_queue s q) s1 s1 I A eq_refl E); auto; rewrite E2; reflexivity.
  - apply ok_inj in E.
    assert (EM1 : main s1 = MInvalidate o true) by (subst s1; destruct (ro_acquired _); reflexivity).
    assert (EO : objs s1 = upd (objs s) o (with_life (objs s o) true false (ro_node (objs s o))))
      by (subst s1; destruct (ro_acquired _); reflexivity).
    apply (lawinv_change s s1 o I).
    + intros i N. rewrite EM, EM1, EO, upd_neq by exact N. split; [reflexivity|].
      split; [cbn [busy]; destruct (Nat.eqb_spec o i); [congruence|reflexivity]|].
      subst s1. destruct (ro_acquired _); sproj; other N; reflexivity.
    + subst s1. destruct (ro_acquired _); reflexivity.
    + exact LC.
    + intros sg P. rewrite EM in P. rewrite EM1, EO, upd_eq. unfold law_of in P. rewrite G, ED in P.
      exists false. unfold law_of. change (gone (with_life (objs s o) true false (ro_node (objs s o)))) with (gone (objs s o)).
      rewrite G. cbn [busy]. rewrite Nat.eqb_refl. sproj.
      subst s1. destruct (ro_acquired (objs s o)); sproj; lawred; reflexivity.
    + rewrite EO, upd_eq. reflexivity.
    + rewrite EO, upd_eq. reflexivity.
Qed.

Lemma lawinv_suicide s o s1 : acct s -> lawinv s -> suicide s o = Ok s1 -> lawinv s1.
Proof.
  intros A I E. unfold suicide in E. destruct (main s) eqn:EM; try discriminate.
  destruct (Z.leb_spec (ro_refs (objs s o)) 0) as [L|L]; [discriminate|].
  pose proof (not_gone s o A L) as G. pose proof (counted_pos s o A L) as LC.
  destruct (ro_dead (objs s o)) eqn:ED; apply ok_inj in E; [subst s1; exact I|].
  assert (EM1 : main s1 = MInvalidate o false) by (subst s1; destruct (ro_acquired _); reflexivity).
  assert (EO : objs s1 = upd (objs s) o (with_life (objs s o) true false (ro_node (objs s o))))
    by (subst s1; destruct (ro_acquired _); reflexivity).
  apply (lawinv_change s s1 o I).
  - intros i N. rewrite EM, EM1, EO, upd_neq by exact N. split; [reflexivity|].
    split; [cbn [busy]; destruct (Nat.eqb_spec o i); [congruence|reflexivity]|].
    subst s1. destruct (ro_acquired _); sproj; other N; reflexivity.
  - subst s1. destruct (ro_acquired _); reflexivity.
  - exact LC.
  - intros sg P. rewrite EM in P. rewrite EM1, EO, upd_eq. unfold law_of in P. rewrite G, ED in P.
    exists false. unfold law_of. change (gone (with_life (objs s o) true false (ro_node (objs s o)))) with (gone (objs s o)).
    rewrite G. cbn [busy]. rewrite Nat.eqb_refl. sproj.
    subst s1. destruct (ro_acquired (objs s o)); sproj; lawred; reflexivity.
  - rewrite EO, upd_eq. reflexivity.
  - rewrite EO, upd_eq. reflexivity.
Qed.

Lemma lawinv_reanimate s o s1 : acct s -> lawinv s -> reanimate s o = Ok s1 -> lawinv s1.
Proof.
  intros A I E. unfold reanimate in E. destruct (main s) eqn:EM; try discriminate.
  destruct (Z.leb_spec (ro_refs (objs s o)) 0) as [L|L]; [discriminate|].
  pose proof (not_gone s o A L) as G. pose proof (counted_pos s o A L) as LC.
  destruct (ro_dead (objs s o)) eqn:ED; [|apply ok_inj in E; subst s1; exact I].
  destruct (_ && _); apply ok_inj in E; [|subst s1; exact I].
  apply (lawinv_change s s1 o I).
  - intros i N. subst s1. sproj. rewrite upd_neq by exact N. split; [reflexivity|]. split; [reflexivity|].
    other N. reflexivity.
  - subst s1. reflexivity.
  - exact LC.
  - intros sg P. rewrite EM in P. unfold law_of in P. rewrite G, ED in P. cbn [busy] in P.
    destruct I as [_ [IB _]]. rewrite (IB o ED) in P.
    exists false. subst s1. sproj. rewrite upd_eq. unfold law_of.
    change (gone (with_life (objs s o) false true (kr_node (kern s (ro_handle (objs s o)))))) with (gone (objs s o)).
    rewrite G. sproj. lawred. reflexivity.
  - subst s1. sproj. rewrite upd_eq. sproj. discriminate.
  - subst s1. sproj. rewrite EM. cbn [busy]. congruence.
Qed.

Lemma lawinv_main s s1 : acct s -> lawinv s -> main_step s = Ok s1 -> lawinv s1.
Proof.
  intros A I E. unfold main_step in E. destruct (main s) as [|o cb|o cb|o] eqn:EM; try discriminate.
  - apply ok_inj in E. apply (lawinv_same s); auto; subst s1; destruct (_ && _); sproj; try reflexivity;
      rewrite EM; auto.
  - assert (LR : 0 < ro_refs (objs s o)).
    { destruct A as [C _]. destruct (C o) as [X [Y W]]. rewrite EM in Y. cbn [mref] in Y. rewrite Nat.eqb_refl in Y.
      pose proof (occ_nonneg o (queue s)). destruct (ro_phase (objs s o)); cbn [dref] in *; lia. }
    pose proof (not_gone s o A LR) as G. pose proof (counted_pos s o A LR) as LC.
    assert (ED : ro_dead (objs s o) = true).
    { destruct I as [_ [_ IC]]. apply IC. rewrite EM. cbn [busy]. rewrite Nat.eqb_refl. discriminate. }
    assert (EO : objs s1 = objs s) by (destruct cb; apply ok_inj in E; subst s1; reflexivity).
    assert (EB : forall i, busy (main s1) i = None) by (intro i; destruct cb; apply ok_inj in E; subst s1; reflexivity).
    apply (lawinv_change s s1 o I).
    + intros i N. rewrite EO, EB, EM. split; [reflexivity|].
      split; [cbn [busy]; destruct (Nat.eqb_spec o i); [congruence|reflexivity]|].
      destruct cb; apply ok_inj in E; subst s1; sproj; other N; reflexivity.
    + destruct cb; apply ok_inj in E; subst s1; reflexivity.
    + exact LC.
    + intros sg P. rewrite EB, EO. rewrite EM in P. cbn [busy] in P. rewrite Nat.eqb_refl in P.
      unfold law_of in *. rewrite G, ED in *. exists false.
      destruct cb; apply ok_inj in E; subst s1; sproj; lawred; reflexivity.
    + rewrite EO. destruct I as [_ [IB _]]. apply IB.
    + rewrite EB. congruence.
  - destruct (obj_unref s o) as [| |s2] eqn:EU; try discriminate. cbn [bind] in E. apply ok_inj in E.
    destruct (obj_unref_frame _ _ _ EU) as [LR E2].
    apply (lawinv_obj_unref s o s s2 s1 I A eq_refl EU); subst s1; subst s2; sproj; auto.
    rewrite EM. reflexivity.
Qed.

Lemma lawinv_dead_binder s h s1 : acct s -> lawinv s -> dead_binder s h = Ok s1 -> lawinv s1.
Proof.
  intros A I E. unfold dead_binder in E. destruct (remove_one h (inflight s)) as [l|]; [|discriminate].
  sproj. destruct (table s h) as [o|] eqn:ET.
  - destruct (obj_ref (set_inflight s l) o) as [| |s2] eqn:ER; try discriminate. cbn [bind] in E.
    destruct (obj_ref (set_held s2 o (held s2 o + 1)) o) as [| |s3] eqn:ER2; try discriminate.
    cbn [bind] in E. apply ok_inj in E.
    destruct (obj_ref_frame _ _ _ ER) as [L E2].
    destruct (obj_ref_frame _ _ _ ER2) as [L2 E3].
    assert (A2 : acct (set_held s2 o (held s2 o + 1))).
    { apply (acct_ref s o (set_inflight s l) s2 _ A eq_refl ER); subst s2; sproj; try reflexivity.
      + intros i N. neq_upd.
      + rewrite upd_eq. destruct A as [C _]. destruct (C o). lia.
      + rewrite upd_eq. lia. }
    assert (I2 : lawinv (set_held s2 o (held s2 o + 1))).
    { apply (lawinv_obj_ref s o (set_inflight s l) s2 _ I A eq_refl ER); subst s2; sproj; auto. }
    apply (lawinv_obj_ref _ o _ s3 s1 I2 A2 eq_refl ER2); subst s1; subst s3; sproj; auto.
  - apply ok_inj in E. subst s1. apply (lawinv_same s _ I); auto. intro i. sproj. apply law_done.
Qed.

Lemma lawinv_step s m s1 : acct s -> lawinv s -> step s m = Ok s1 -> lawinv s1.
Proof.
  intros A I E. destruct m as [h md|o|o|o|h| |o| |o|h|h|h]; cbn [step] in E.
  - apply (lawinv_get s h md s1 A I E).
  - destruct (0 <? held s o); [|discriminate].
    destruct (obj_ref s o) as [| |s2] eqn:ER; try discriminate. cbn [bind] in E. apply ok_inj in E.
    destruct (obj_ref_frame _ _ _ ER) as [_ E2].
    apply (lawinv_obj_ref s o s s2 s1 I A eq_refl ER); subst s1; subst s2; sproj; auto.
  - destruct (0 <? held s o); [|discriminate].
    destruct (obj_unref_frame _ _ _ E) as [_ E2].
    apply (lawinv_obj_unref s o (set_held s o (held s o - 1)) s1 s1 I A eq_refl E); auto; rewrite E2; reflexivity.
  - destruct (Nat.ltb_spec o (count s)) as [L|L]; [|discriminate]. apply (lawinv_dispose s o s1 A I L E).
  - apply (lawinv_dead_binder s h s1 A I E).
  - apply (lawinv_callback s s1 A I E).
  - destruct (0 <? held s o); [|discriminate]. apply (lawinv_suicide s o s1 A I E).
  - apply (lawinv_main s s1 A I E).
  - destruct (0 <? held s o); [|discriminate]. apply (lawinv_reanimate s o s1 A I E).
  - apply ok_inj in E. subst s1. apply (lawinv_same s _ I); auto.
  - destruct (kr_dead (kern s h)); [|discriminate]. destruct (kr_watch (kern s h)); try discriminate.
    apply ok_inj in E. subst s1. apply (lawinv_same s _ I); auto.
  - destruct (unused s h); [|discriminate]. apply ok_inj in E. subst s1. apply (lawinv_same s _ I); auto.
Qed.

Lemma lawinv_run l s s1 : acct s -> lawinv s -> run s l = Ok s1 -> lawinv s1.
Proof.
  revert s. induction l as [|m r IH]; intros s A I E; cbn [run] in E.
  - apply ok_inj in E. subst s1. exact I.
  - destruct (step s m) as [| |s2] eqn:ES; try discriminate. cbn [bind] in E.
    apply (IH s2 (acct_step s m s2 A ES) (lawinv_step s m s2 A I ES) E).
Qed.

Lemma always_lawful l s o : run initial l = Ok s -> lawful o (trace s).
Proof.
  intros E H. destruct (lawinv_run l initial s acct_initial lawinv_initial E) as [IA _].
  destruct (IA o) as [w [P _]]. congruence.
Qed.
