(* Deaths reach the objects which they are meant for *)
From Verif Require Import Base RemoteModel RemoteSpec RemoteProofs RemoteLaw RemoteCareful.
From Coq Require Import Lia.

Lemma run_app l l2 s s1 : run s l = Ok s1 -> run s (l ++ l2) = run s1 l2.
Proof.
  revert s. induction l as [|m r IH]; intros s E; cbn [run List.app] in *.
  - apply ok_inj in E. subst s1. reflexivity.
  - destruct (step s m) as [| |s2]; try discriminate. cbn [bind] in *. apply IH, E.
Qed.

(* moves of the driver, and of the threads of the library *)
Definition internal (m : move) : bool :=
  match m with Tell _ | DeadBinder _ | Callback | Main => true | _ => false end.

Definition says (s s1 : state) (o : nat) : Prop := exists t, trace s1 = trace s ++ t /\ In (EvDeath o) t.

Lemma says_trans s s0 s1 s2 t :
  forall o, trace s0 = trace s ++ t -> says s0 s1 o -> (exists u, trace s2 = trace s1 ++ u) -> says s s2 o.
Proof.
  intros o E0 [t1 [E1 H]] [u E2]. exists (t ++ t1 ++ u). rewrite E2, E1, E0, <- !app_assoc.
  split; [reflexivity|]. rewrite !in_app_iff. auto.
Qed.

Lemma head_refs s o : acct s -> 0 < occ o (queue s) + mref (main s) o -> 0 < ro_refs (objs s o).
Proof.
  intros [C _] H. destruct (C o) as [X [Y W]]. destruct (ro_phase (objs s o)); cbn [dref] in *; lia.
Qed.

Lemma unref_ok s o : 0 < ro_refs (objs s o) -> exists s1, obj_unref s o = Ok s1 /\
  (forall i, ro_dead (objs s1 i) = ro_dead (objs s i)) /\ queue s1 = queue s /\ main s1 = main s /\ trace s1 = trace s.
Proof.
  intro L. unfold obj_unref. destruct (Z.leb_spec (ro_refs (objs s o)) 0) as [|_]; [lia|].
  destruct (1 <? ro_refs (objs s o)); eexists; (split; [reflexivity|]); sproj; (split; [|auto]);
    intro i; unfold upd; destruct (Nat.eqb_spec i o) as [->|]; reflexivity.
Qed.

Ltac runm := cbn [run bind step].

(* the main thread finishes what it does *)
Lemma finish s o : acct s -> lawinv s -> ro_dead (objs s o) = false -> 0 < occ o (queue s) ->
  exists l s1 t, forallb internal l = true /\ run s l = Ok s1 /\ main s1 = MIdle /\ queue s1 = queue s /\
                 ro_dead (objs s1 o) = false /\ trace s1 = trace s ++ t.
Proof.
  intros A LI D Q.
  assert (DR : forall s i, acct s -> main s = MDrop i -> ro_dead (objs s o) = false ->
    exists s1, step s Main = Ok s1 /\ main s1 = MIdle /\ queue s1 = queue s /\
               ro_dead (objs s1 o) = false /\ trace s1 = trace s).
  { clear. intros s i A EM D. cbn [step]. unfold main_step. rewrite EM.
    assert (L : 0 < ro_refs (objs s i)).
    { apply (head_refs s i A). rewrite EM. cbn [mref]. rewrite Nat.eqb_refl. pose proof (occ_nonneg i (queue s)). lia. }
    destruct (unref_ok s i L) as [s1 [E [F1 [F2 [F3 F4]]]]]. rewrite E. cbn [bind].
    eexists. split; [reflexivity|]. sproj. rewrite F1, F2, F4. auto. }
  assert (SG : forall s i cb, acct s -> main s = MSignal i cb -> ro_dead (objs s o) = false ->
    exists l s1 t, forallb internal l = true /\ run s l = Ok s1 /\ main s1 = MIdle /\ queue s1 = queue s /\
                   ro_dead (objs s1 o) = false /\ trace s1 = trace s ++ t).
  { clear A LI D Q s. intros s i cb A EM D. destruct cb.
    - set (s1 := set_main (say (say s (EvDone (ro_handle (objs s i)))) (EvDeath i)) (MDrop i)).
      assert (E1 : step s Main = Ok s1) by (cbn [step]; unfold main_step; rewrite EM; reflexivity).
      destruct (DR s1 i (acct_step s Main s1 A E1) eq_refl D) as [s2 [E2 [F1 [F2 [F3 F4]]]]].
      exists [Main; Main], s2, [EvDone (ro_handle (objs s i)); EvDeath i]. split; [reflexivity|].
      split; [cbn [run]; rewrite E1; cbn [bind]; rewrite E2; reflexivity|].
      split; [exact F1|]. split; [exact F2|]. split; [exact F3|]. rewrite F4. unfold s1. sproj.
      rewrite <- app_assoc. reflexivity.
    - eexists [Main], _, [EvDeath i]. split; [reflexivity|].
      split; [cbn [run step]; unfold main_step; rewrite EM; reflexivity|]. sproj. auto. }
  destruct (main s) as [|i cb|i cb|i] eqn:EM.
  - exists [], s, []. rewrite app_nil_r. auto 10.
  - set (s1 := set_main (if cb && (ro_handle (objs s i) =? SM_HANDLE) then s
                         else invalidate s (ro_handle (objs s i))) (MSignal i cb)).
    assert (E1 : step s Main = Ok s1) by (cbn [step]; unfold main_step; rewrite EM; reflexivity).
    assert (EO : objs s1 = objs s /\ queue s1 = queue s /\ trace s1 = trace s)
      by (unfold s1; destruct (_ && _); auto).
    destruct EO as [EO [EQ ET]].
    destruct (SG s1 i cb (acct_step s Main s1 A E1) eq_refl) as [l [s2 [t [P1 [P2 [P3 [P4 [P5 P6]]]]]]]];
      [rewrite EO; exact D|].
    exists (Main :: l), s2, t. split; [exact P1|]. split; [cbn [run]; rewrite E1; cbn [bind]; exact P2|].
    split; [exact P3|]. split; [congruence|]. split; [exact P5|]. congruence.
  - apply (SG s i cb A EM D).
  - destruct (DR s i A EM D) as [s1 [E1 [F1 [F2 [F3 F4]]]]]. exists [Main], s1, []. split; [reflexivity|].
    split; [cbn [run]; rewrite E1; reflexivity|]. rewrite app_nil_r. auto.
Qed.

Lemma drain n : forall s o, length (queue s) = n ->
  acct s -> lawinv s -> main s = MIdle -> ro_dead (objs s o) = false -> 0 < occ o (queue s) ->
  exists l s1, forallb internal l = true /\ run s l = Ok s1 /\ says s s1 o.
Proof.
  induction n as [|n IH]; intros s o EL A LI EM D Q.
  - destruct (queue s); [cbn [occ] in Q; lia|discriminate].
  - destruct (queue s) as [|i q] eqn:EQ; [discriminate|].
    assert (L : 0 < ro_refs (objs s i)).
    { apply (head_refs s i A). rewrite EQ. cbn [occ]. rewrite Nat.eqb_refl. pose proof (occ_nonneg i q).
      pose proof (mref_nonneg (main s) i). lia. }
    destruct (ro_dead (objs s i)) eqn:DI.
    + (* nothing to do for it *)
      destruct (unref_ok (set_queue s q) i L) as [s1 [E1 [F1 [F2 [F3 F4]]]]].
      assert (ES : step s Callback = Ok s1).
      { cbn [step]. unfold callback. rewrite EM, EQ. change (objs (set_queue s q) i) with (objs s i). rewrite DI.
        destruct (Z.leb_spec (ro_refs (objs s i)) 0); [lia|]. exact E1. }
      assert (NI : i <> o) by (intros ->; congruence).
      cbn [occ] in Q. destruct (Nat.eqb_spec i o) as [|_]; [contradiction|].
      destruct (IH s1 o) as [l [s2 [P1 [P2 P3]]]].
      * rewrite F2. sproj. cbn [length] in EL. lia.
      * apply (acct_step s Callback s1 A ES).
      * apply (lawinv_step s Callback s1 A LI ES).
      * rewrite F3. exact EM.
      * rewrite F1. exact D.
      * rewrite F2. sproj. lia.
      * exists (Callback :: l), s2. split; [exact P1|]. split; [cbn [run]; rewrite ES; exact P2|].
        destruct P3 as [t [T1 T2]]. exists t. rewrite T1, F4. auto.
    + (* it dies *)
      assert (ES : exists s1 t, step s Callback = Ok s1 /\ main s1 = MInvalidate i true /\ queue s1 = q /\
                 trace s1 = trace s ++ t /\ (forall j, j <> i -> objs s1 j = objs s j)).
      { cbn [step]. unfold callback. rewrite EM, EQ. change (objs (set_queue s q) i) with (objs s i). rewrite DI.
        destruct (Z.leb_spec (ro_refs (objs s i)) 0); [lia|].
        destruct (ro_acquired (objs s i)).
        - eexists _, [_]. split; [reflexivity|]. sproj. split; [reflexivity|]. split; [reflexivity|].
          split; [reflexivity|]. intros j N. rewrite upd_neq by exact N. reflexivity.
        - eexists _, []. split; [reflexivity|]. sproj. rewrite app_nil_r. split; [reflexivity|]. split; [reflexivity|].
          split; [reflexivity|]. intros j N. rewrite upd_neq by exact N. reflexivity. }
      destruct ES as [s1 [t [ES [M1 [Q1 [T1 O1]]]]]].
      pose proof (acct_step s Callback s1 A ES) as A1. pose proof (lawinv_step s Callback s1 A LI ES) as LI1.
      destruct (Nat.eq_dec i o) as [->|NI].
      * set (s2 := set_main (if true && (ro_handle (objs s1 o) =? SM_HANDLE) then s1
                         else invalidate s1 (ro_handle (objs s1 o))) (MSignal o true)).
        assert (E2 : step s1 Main = Ok s2) by (cbn [step]; unfold main_step; rewrite M1; reflexivity).
        assert (T2 : trace s2 = trace s1) by (unfold s2; destruct (_ && _); reflexivity).
        eexists [Callback; Main; Main], _. split; [reflexivity|].
        split. { cbn [run]. rewrite ES. cbn [bind]. rewrite E2. cbn [bind step]. unfold main_step.
                 change (main s2) with (MSignal o true). reflexivity. }
        exists (t ++ [EvDone (ro_handle (objs s2 o)); EvDeath o]). sproj. rewrite T2, T1, <- !app_assoc.
        split; [reflexivity|]. rewrite in_app_iff. right. right. left. reflexivity.
      * cbn [occ] in Q. destruct (Nat.eqb_spec i o) as [|_]; [contradiction|].
        destruct (finish s1 o A1 LI1) as [l [s2 [u [P1 [P2 [P3 [P4 [P5 P6]]]]]]]].
        { rewrite O1 by (intro; congruence). exact D. }
        { rewrite Q1. lia. }
        assert (A2 : acct s2) by apply (acct_run l s1 s2 A1 P2).
        assert (LI2 : lawinv s2) by apply (lawinv_run l s1 s2 A1 LI1 P2).
        destruct (IH s2 o) as [l2 [s3 [R1 [R2 R3]]]]; auto.
        { rewrite P4, Q1. cbn [length] in EL. lia. }
        { rewrite P4, Q1. lia. }
        exists (Callback :: l ++ l2), s3. split; [cbn [forallb internal andb]; rewrite forallb_app, P1, R1; reflexivity|].
        split; [cbn [run]; rewrite ES; cbn [bind]; rewrite (run_app l l2 s1 s2 P2); exact R2|].
        destruct R3 as [w [W1 W2]]. exists (t ++ u ++ w). rewrite W1, P6, T1, <- !app_assoc.
        split; [reflexivity|]. rewrite !in_app_iff. auto.
Qed.

Lemma queued_dies s o : acct s -> lawinv s -> ro_dead (objs s o) = false -> 0 < occ o (queue s) ->
  exists l s1, forallb internal l = true /\ run s l = Ok s1 /\ says s s1 o.
Proof.
  intros A LI D Q. destruct (finish s o A LI D Q) as [l [s1 [t [P1 [P2 [P3 [P4 [P5 P6]]]]]]]].
  destruct (drain (length (queue s1)) s1 o eq_refl (acct_run l s s1 A P2) (lawinv_run l s s1 A LI P2) P3 P5)
    as [l2 [s2 [R1 [R2 R3]]]]; [rewrite P4; exact Q|].
  exists (l ++ l2), s2. split; [rewrite forallb_app, P1, R1; reflexivity|].
  split; [rewrite (run_app l l2 s s1 P2); exact R2|].
  destruct R3 as [w [W1 W2]]. exists (t ++ w). rewrite W1, P6, <- app_assoc. split; [reflexivity|].
  rewrite in_app_iff. auto.
Qed.

Lemma remove_one_some h l : In h l -> exists r, remove_one h l = Some r.
Proof.
  induction l as [|x t IH]; intro H; [contradiction|]. cbn [remove_one].
  destruct (Z.eqb_spec x h) as [->|N]; [eexists; reflexivity|].
  destruct H as [H|H]; [contradiction|]. destruct (IH H) as [r E]. rewrite E. eexists. reflexivity.
Qed.

Lemma inflight_dies s o : acct s -> lawinv s -> ro_dead (objs s o) = false ->
  table s (ro_handle (objs s o)) = Some o -> 0 < ro_refs (objs s o) -> 0 < occz (ro_handle (objs s o)) (inflight s) ->
  exists l s1, forallb internal l = true /\ run s l = Ok s1 /\ says s s1 o.
Proof.
  intros A LI D T L Q. destruct (remove_one_some _ _ (occz_in _ _ Q)) as [r ER].
  assert (ES : exists s1, step s (DeadBinder (ro_handle (objs s o))) = Ok s1 /\ trace s1 = trace s /\
               ro_dead (objs s1 o) = false /\ 0 < occ o (queue s1)).
  { cbn [step]. unfold dead_binder. rewrite ER. sproj. rewrite T. unfold obj_ref. sproj.
    destruct (Z.leb_spec (ro_refs (objs s o)) 0); [lia|]. cbn [bind]. sproj. rewrite upd_eq. sproj.
    destruct (Z.leb_spec (ro_refs (objs s o) + 1) 0); [lia|]. cbn [bind]. eexists. split; [reflexivity|]. sproj.
    rewrite upd_eq. sproj. split; [reflexivity|]. split; [exact D|]. rewrite occ_app. cbn [occ]. rewrite Nat.eqb_refl.
    pose proof (occ_nonneg o (queue s)). lia. }
  destruct ES as [s1 [ES [E1 [E2 E3]]]].
  destruct (queued_dies s1 o (acct_step _ _ _ A ES) (lawinv_step _ _ _ A LI ES) E2 E3) as [l [s2 [P1 [P2 P3]]]].
  exists (DeadBinder (ro_handle (objs s o)) :: l), s2. split; [exact P1|].
  split; [cbn [run]; rewrite ES; exact P2|]. destruct P3 as [t [T1 T2]]. exists t. rewrite T1, E1. auto.
Qed.

Lemma held_in_table s o : good s -> 0 < held s o ->
  ro_dead (objs s o) = false \/ ro_handle (objs s o) = SM_HANDLE ->
  table s (ro_handle (objs s o)) = Some o.
Proof.
  intros [A LI I CA] H D. pose proof (refs_there s o A (held_pos s o A H)) as TH.
  destruct (c_found s I o TH D) as [X|X]; [exact X|]. exfalso.
  apply (held_stays s o A); [|exact X]. pose proof (occ_nonneg o (queue s)). pose proof (mref_nonneg (main s) o). lia.
Qed.

Lemma death_comes s o : good s -> 0 < held s o -> ro_dead (objs s o) = false ->
  kr_dead (kern s (ro_handle (objs s o))) = true ->
  exists l s1, forallb internal l = true /\ run s l = Ok s1 /\ says s s1 o.
Proof.
  intros G H D KD. pose proof (held_in_table s o G H (or_introl D)) as T. destruct G as [A LI I CA].
  pose proof (held_pos s o A H) as L. pose proof (refs_there s o A L) as TH.
  destruct (c_kern s I o TH D) as [_ [[K1 [K2 K3]]|[K1 [K2 [K3|[K3 _]]]]]].
  - assert (ES : exists s1, step s (Tell (ro_handle (objs s o))) = Ok s1 /\ objs s1 = objs s /\ table s1 = table s /\
                 trace s1 = trace s /\ inflight s1 = inflight s ++ [ro_handle (objs s o)]).
    { cbn [step]. rewrite KD, K1. eexists. split; [reflexivity|]. auto. }
    destruct ES as [s1 [ES [E1 [E2 [E3 E4]]]]].
    destruct (inflight_dies s1 o (acct_step _ _ _ A ES) (lawinv_step _ _ _ A LI ES)) as [l [s2 [P1 [P2 P3]]]];
      rewrite ?E1, ?E2, ?E4; auto.
    { rewrite occz_app. cbn [occz]. rewrite Z.eqb_refl. pose proof (occz_nonneg (ro_handle (objs s o)) (inflight s)). lia. }
    exists (Tell (ro_handle (objs s o)) :: l), s2. split; [exact P1|].
    split; [cbn [run]; rewrite ES; exact P2|]. destruct P3 as [t [T1 T2]]. exists t. rewrite T1, E3. auto.
  - destruct (Z.eq_dec (occ o (queue s)) 0) as [Q|Q].
    + apply (inflight_dies s o A LI D T L). lia.
    + apply (queued_dies s o A LI D). pose proof (occ_nonneg o (queue s)). lia.
  - exfalso. apply (held_stays s o A); [|exact K3]. pose proof (occ_nonneg o (queue s)). pose proof (mref_nonneg (main s) o). lia.
Qed.

(* the other way around: who dies is dead *)
Lemma callback_dead s s1 o : good s -> step s Callback = Ok s1 ->
  ro_dead (objs s o) = false -> ro_dead (objs s1 o) = true ->
  kr_dead (kern s (ro_handle (objs s o))) = true /\ ro_node (objs s o) = kr_node (kern s (ro_handle (objs s o))).
Proof.
  intros [A LI I CA] E D0 D1. cbn [step] in E. unfold callback in E. destruct (main s) eqn:EM; try discriminate.
  destruct (queue s) as [|i q] eqn:EQ; [discriminate|].
  change (objs (set_queue s q) i) with (objs s i) in E.
  destruct (Z.leb_spec (ro_refs (objs s i)) 0) as [|L]; [discriminate|].
  destruct (ro_dead (objs s i)) eqn:DI.
  - destruct (unref_ok (set_queue s q) i L) as [s2 [E2 [F _]]]. rewrite E2 in E. apply ok_inj in E. subst s2.
    rewrite F in D1. sproj. congruence.
  - assert (i = o).
    { destruct (Nat.eq_dec i o) as [|N]; [assumption|]. exfalso. apply ok_inj in E.
      assert (X : objs s1 o = objs s o) by (subst s1; destruct (ro_acquired _); sproj; apply upd_neq; intro; congruence).
      congruence. }
    subst i. pose proof (refs_there s o A L) as TH. destruct (c_kern s I o TH D0) as [K1 [[_ [_ K3]]|[_ [K3 _]]]].
    + rewrite EQ in K3. cbn [occ] in K3. rewrite Nat.eqb_refl in K3. pose proof (occ_nonneg o q). lia.
    + auto.
Qed.

Lemma unref_dead s o s1 : obj_unref s o = Ok s1 -> forall i, ro_dead (objs s1 i) = ro_dead (objs s i).
Proof.
  intros E i. destruct (obj_unref_frame _ _ _ E) as [_ ->]. sproj. unfold upd.
  destruct (Nat.eqb_spec i o) as [->|]; [|reflexivity]. destruct (1 <? _); reflexivity.
Qed.
Lemma ref_dead s o s1 : obj_ref s o = Ok s1 -> forall i, ro_dead (objs s1 i) = ro_dead (objs s i).
Proof.
  intros E i. destruct (obj_ref_frame _ _ _ E) as [_ ->]. sproj. unfold upd.
  destruct (Nat.eqb_spec i o) as [->|]; reflexivity.
Qed.

Lemma dies_by s m s1 o : acct s -> step s m = Ok s1 ->
  ro_dead (objs s o) = false -> ro_dead (objs s1 o) = true -> m = Callback \/ m = Suicide o \/ (count s <= o)%nat.
Proof.
  intros A E D0 D1. destruct m as [h md|i|i|i|h| |i| |i|h|h|h]; cbn [step] in E; try (left; reflexivity).
  - unfold obj_get in E. destruct (table s h) as [i|].
    + destruct (obj_ref s i) as [| |s2] eqn:ER; try discriminate. cbn [bind] in E. apply ok_inj in E. subst s1.
      sproj. rewrite (ref_dead _ _ _ ER) in D1. congruence.
    + apply ok_inj in E. destruct (Nat.lt_ge_cases o (count s)) as [L|L]; [|auto]. exfalso.
      assert (X : objs s1 o = objs s o).
      { subst s1. unfold obj_new. destruct md; sproj; apply upd_neq; lia. }
      congruence.
  - destruct (0 <? held s i); [|discriminate]. destruct (obj_ref s i) as [| |s2] eqn:ER; try discriminate.
    cbn [bind] in E. apply ok_inj in E. subst s1. sproj. rewrite (ref_dead _ _ _ ER) in D1. congruence.
  - destruct (0 <? held s i); [|discriminate]. rewrite (unref_dead _ _ _ E) in D1. sproj. congruence.
  - destruct (Nat.ltb i (count s)); [|discriminate]. exfalso.
    assert (X : ro_dead (objs s1 o) = ro_dead (objs s o)); [|congruence].
    unfold dispose_step in E. destruct (ro_phase (objs s i)); try discriminate.
    + apply ok_inj in E. subst s1. destruct (_ =? _); sproj; unfold upd; destruct (Nat.eqb_spec o i) as [->|]; reflexivity.
    + destruct (_ =? 0); apply ok_inj in E; subst s1; sproj; unfold upd; destruct (Nat.eqb_spec o i) as [->|]; reflexivity.
    + apply ok_inj in E. subst s1. sproj; unfold upd; destruct (Nat.eqb_spec o i) as [->|]; reflexivity.
    + apply ok_inj in E. subst s1. sproj; unfold upd; destruct (Nat.eqb_spec o i) as [->|N]; sproj;
        destruct (ro_dead (objs s i)), (ro_acquired (objs s i)); reflexivity.
  - exfalso. assert (X : ro_dead (objs s1 o) = ro_dead (objs s o)); [|congruence].
    unfold dead_binder in E. destruct (remove_one h (inflight s)) as [l|]; [|discriminate]. sproj.
    destruct (table s h) as [i|]; [|apply ok_inj in E; subst s1; reflexivity].
    destruct (obj_ref (set_inflight s l) i) as [| |s2] eqn:ER; try discriminate. cbn [bind] in E.
    destruct (obj_ref (set_held s2 i (held s2 i + 1)) i) as [| |s3] eqn:ER2; try discriminate.
    cbn [bind] in E. apply ok_inj in E. subst s1. sproj. rewrite (ref_dead _ _ _ ER2). sproj.
    rewrite (ref_dead _ _ _ ER). reflexivity.
  - destruct (0 <? held s i); [|discriminate]. destruct (Nat.eq_dec i o) as [->|N]; [auto|]. exfalso.
    assert (X : objs s1 o = objs s o); [|congruence].
    unfold suicide in E. destruct (main s); try discriminate. destruct (_ <=? 0); [discriminate|].
    destruct (ro_dead (objs s i)); apply ok_inj in E; subst s1; [reflexivity|].
    destruct (ro_acquired _); sproj; apply upd_neq; intro; congruence.
  - exfalso. assert (X : ro_dead (objs s1 o) = ro_dead (objs s o)); [|congruence].
    unfold main_step in E. destruct (main s) as [|i cb|i cb|i]; try discriminate.
    + apply ok_inj in E. subst s1. destruct (_ && _); reflexivity.
    + destruct cb; apply ok_inj in E; subst s1; reflexivity.
    + destruct (obj_unref s i) as [| |s2] eqn:EU; try discriminate. cbn [bind] in E. apply ok_inj in E. subst s1.
      sproj. apply (unref_dead _ _ _ EU).
  - exfalso. destruct (0 <? held s i); [|discriminate]. unfold reanimate in E. destruct (main s); try discriminate.
    destruct (_ <=? 0); [discriminate|]. destruct (ro_dead (objs s i)) eqn:DI; [|apply ok_inj in E; subst s1; congruence].
    destruct (_ && _); apply ok_inj in E; subst s1; sproj; [|congruence].
    revert D1. unfold upd. destruct (Nat.eqb_spec o i) as [->|]; sproj; congruence.
  - apply ok_inj in E. subst s1. sproj. congruence.
  - destruct (kr_dead (kern s h)); [|discriminate]. destruct (kr_watch (kern s h)); try discriminate.
    apply ok_inj in E. subst s1. sproj. congruence.
  - destruct (unused s h); [|discriminate]. apply ok_inj in E. subst s1. sproj. congruence.
Qed.
