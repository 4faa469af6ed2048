(* Invariants of the runs of RemoteModel.v *)
From Verif Require Import Base RemoteModel RemoteSpec.
From Coq Require Import Lia.

Fixpoint occ (o : nat) (l : list nat) : Z :=
  match l with [] => 0 | x :: r => (if Nat.eqb x o then 1 else 0) + occ o r end.
Lemma occ_app o a b : occ o (a ++ b) = occ o a + occ o b.
Proof. induction a as [|x r IH]; cbn [List.app occ]; lia. Qed.
Lemma occ_nonneg o l : 0 <= occ o l.
Proof. induction l as [|x r IH]; cbn [occ]; [lia|destruct (Nat.eqb x o); lia]. Qed.

Definition mref (m : mphase) (o : nat) : Z :=
  match m with
  | MInvalidate i _ | MSignal i _ | MDrop i => if Nat.eqb i o then 1 else 0
  | MIdle => 0
  end.
Definition dref (p : phase) : Z := match p with PDispose | PDisposed => 1 | _ => 0 end.

(* Reference counts *)
Definition counted (s : state) (o : nat) : Prop :=
  let x := objs s o in
  0 <= held s o /\
  ro_refs x = held s o + occ o (queue s) + mref (main s) o + dref (ro_phase x) /\
  match ro_phase x with
  | PLive => 1 <= ro_refs x
  | PDispose | PDisposed => True
  | _ => ro_refs x = 0
  end.
Definition tabled (s : state) : Prop :=
  forall h o, table s h = Some o ->
    (o < count s)%nat /\ ro_handle (objs s o) = h /\
    ro_phase (objs s o) <> PFinal2 /\ ro_phase (objs s o) <> PGone.
Definition fresh (s : state) : Prop :=
  forall o, (count s <= o)%nat -> ro_phase (objs s o) = PGone.

Definition acct (s : state) : Prop := (forall o, counted s o) /\ tabled s /\ fresh s.

Ltac sproj := cbn [objs count table held queue inflight main kern trace set_obj set_table set_held
  set_queue set_inflight set_main set_kern say invalidate k_acquire k_release k_request k_clear
  ro_handle ro_dead ro_acquired ro_refs ro_phase ro_node with_refs with_phase with_life] in *.

Lemma upd_eq {A} (f : nat -> A) i v : upd f i v i = v.
Proof. unfold upd. rewrite Nat.eqb_refl. reflexivity. Qed.
Lemma upd_neq {A} (f : nat -> A) i v j : j <> i -> upd f i v j = f j.
Proof. unfold upd. intro N. destruct (Nat.eqb_spec j i); [contradiction|reflexivity]. Qed.
Lemma zupd_eq {A} (f : Z -> A) i v : zupd f i v i = v.
Proof. unfold zupd. rewrite Z.eqb_refl. reflexivity. Qed.
Lemma zupd_neq {A} (f : Z -> A) i v j : j <> i -> zupd f i v j = f j.
Proof. unfold zupd. intro N. destruct (Z.eqb_spec j i); [contradiction|reflexivity]. Qed.

(* What matters for the counts: the shape of the change *)
Lemma acct_same s s1 :
  acct s -> objs s1 = objs s -> count s1 = count s -> table s1 = table s -> held s1 = held s ->
  queue s1 = queue s -> main s1 = main s -> acct s1.
Proof.
  intros [C [T F]] E1 E2 E3 E4 E5 E6. split; [|split].
  - intro o. unfold counted. rewrite E1, E4, E5, E6. apply C.
  - intros h o. rewrite E1, E2, E3. apply T.
  - intro o. rewrite E1, E2. apply F.
Qed.

(* One object changes, and the table only loses entries *)
Lemma acct_change s s1 o :
  acct s ->
  (forall i, i <> o -> objs s1 i = objs s i /\ held s1 i = held s i /\
             occ i (queue s1) = occ i (queue s) /\ mref (main s1) i = mref (main s) i) ->
  count s1 = count s -> (o < count s)%nat ->
  (forall h i, table s1 h = Some i -> table s h = Some i) ->
  ro_handle (objs s1 o) = ro_handle (objs s o) ->
  counted s1 o ->
  (ro_phase (objs s1 o) = PFinal2 \/ ro_phase (objs s1 o) = PGone ->
   forall h, table s1 h <> Some o) ->
  acct s1.
Proof.
  intros [C [T F]] O EC L TB EH CO PH. split; [|split].
  - intro i. destruct (Nat.eq_dec i o) as [->|N]; [exact CO|].
    destruct (O i N) as [A [B [D E]]]. unfold counted. rewrite A, B, D, E. apply C.
  - intros h i H. destruct (T h i (TB h i H)) as [P [Q [R U]]]. rewrite EC.
    split; [exact P|]. destruct (Nat.eq_dec i o) as [->|N].
    + split; [congruence|]. split; intro X; [apply (PH (or_introl X) h H)|apply (PH (or_intror X) h H)].
    + destruct (O i N) as [A _]. rewrite A. auto.
  - intros i Hi. rewrite EC in Hi. destruct (Nat.eq_dec i o) as [->|N]; [lia|].
    destruct (O i N) as [A _]. rewrite A. apply F, Hi.
Qed.

Lemma counted_pos s o : acct s -> 0 < ro_refs (objs s o) -> (o < count s)%nat.
Proof.
  intros [C [T F]] R. destruct (Nat.lt_ge_cases o (count s)) as [L|G]; [exact L|].
  destruct (C o) as [_ [_ P]]. rewrite (F o G) in P. lia.
Qed.
Lemma held_pos s o : acct s -> 0 < held s o -> 0 < ro_refs (objs s o).
Proof.
  intros [C [T F]] H. destruct (C o) as [A [E P]].
  pose proof (occ_nonneg o (queue s)).
  assert (0 <= mref (main s) o) by (unfold mref; destruct (main s); try destruct (Nat.eqb _ _); lia).
  destruct (ro_phase (objs s o)); cbn [dref] in *; lia.
Qed.

Ltac others o :=
  let i := fresh "i" in let N := fresh "N" in
  intros i N; sproj; rewrite ?upd_neq by exact N; repeat split; auto.

Lemma mref_nonneg m o : 0 <= mref m o.
Proof. unfold mref. destruct m; try destruct (Nat.eqb _ _); lia. Qed.

(* the counts of an object whose reference goes to somebody *)
Lemma acct_ref s o s0 s1 s2 :
  acct s -> objs s0 = objs s -> obj_ref s0 o = Ok s1 ->
  (forall i, i <> o -> held s2 i = held s i /\ occ i (queue s2) = occ i (queue s) /\
                       mref (main s2) i = mref (main s) i) ->
  0 <= held s2 o ->
  held s2 o + occ o (queue s2) + mref (main s2) o = held s o + occ o (queue s) + mref (main s) o + 1 ->
  objs s2 = objs s1 -> count s2 = count s -> table s2 = table s -> acct s2.
Proof.
  intros A E0 E O P Q E1 E2 E3. unfold obj_ref in E. rewrite E0 in E.
  destruct (Z.leb_spec (ro_refs (objs s o)) 0) as [L|L]; [discriminate|].
  apply (f_equal (fun z => match z with Ok y => y | _ => s end)) in E. cbn beta iota in E. subst s1. sproj.
  rewrite E0 in E1.
  apply (acct_change s s2 o A).
  - intros i N. rewrite E1, upd_neq by exact N. destruct (O i N) as [? [? ?]]. auto.
  - exact E2.
  - apply (counted_pos s o A L).
  - intros h i. rewrite E3. auto.
  - rewrite E1, upd_eq. reflexivity.
  - destruct A as [C [T F]]. destruct (C o) as [X [Y W]]. unfold counted. rewrite E1, upd_eq. sproj.
    split; [exact P|]. split; [lia|].
    destruct (ro_phase (objs s o)); lia.
  - rewrite E1, upd_eq. sproj. intros [G|G] h; rewrite E3; destruct A as [C [T F]]; intro H;
      destruct (T h o H) as [_ [_ [U V]]]; contradiction.
Qed.

(* the counts of an object whose reference is dropped *)
Lemma acct_unref s o s0 s1 s2 :
  acct s -> objs s0 = objs s -> obj_unref s0 o = Ok s1 ->
  (forall i, i <> o -> held s2 i = held s i /\ occ i (queue s2) = occ i (queue s) /\
                       mref (main s2) i = mref (main s) i) ->
  0 <= held s2 o ->
  held s2 o + occ o (queue s2) + mref (main s2) o = held s o + occ o (queue s) + mref (main s) o - 1 ->
  objs s2 = objs s1 -> count s2 = count s -> table s2 = table s -> acct s2.
Proof.
  intros A E0 E O P Q E1 E2 E3. unfold obj_unref in E. rewrite E0 in E.
  destruct (Z.leb_spec (ro_refs (objs s o)) 0) as [L|L]; [discriminate|].
  assert (LC := counted_pos s o A L).
  pose proof (occ_nonneg o (queue s2)). pose proof (mref_nonneg (main s2) o).
  destruct (Z.ltb_spec 1 (ro_refs (objs s o))) as [G|G];
    apply (f_equal (fun z => match z with Ok y => y | _ => s end)) in E; cbn beta iota in E; subst s1; sproj;
    rewrite E0 in E1.
  - apply (acct_change s s2 o A).
    + intros i N. rewrite E1, upd_neq by exact N. destruct (O i N) as [? [? ?]]. auto.
    + exact E2.
    + exact LC.
    + intros h i. rewrite E3. auto.
    + rewrite E1, upd_eq. reflexivity.
    + destruct A as [C [T F]]. destruct (C o) as [X [Y W]]. unfold counted. rewrite E1, upd_eq. sproj.
      split; [exact P|]. split; [lia|].
      destruct (ro_phase (objs s o)); cbn [dref] in *; lia.
    + rewrite E1, upd_eq. sproj. intros [G1|G1] h; rewrite E3; destruct A as [C [T F]]; intro W;
        destruct (T h o W) as [_ [_ [U V]]]; contradiction.
  - assert (PH : ro_phase (objs s o) = PLive).
    { destruct A as [C [T F]]. destruct (C o) as [X [Y W]].
      destruct (ro_phase (objs s o)); cbn [dref] in *; try lia; reflexivity. }
    apply (acct_change s s2 o A).
    + intros i N. rewrite E1, upd_neq by exact N. destruct (O i N) as [? [? ?]]. auto.
    + exact E2.
    + exact LC.
    + intros h i. rewrite E3. auto.
    + rewrite E1, upd_eq. reflexivity.
    + destruct A as [C [T F]]. destruct (C o) as [X [Y W]]. unfold counted. rewrite E1, upd_eq. sproj.
      rewrite PH in Y, W. cbn [dref] in *. split; [exact P|]. split; [lia|exact Logic.I].
    + rewrite E1, upd_eq. sproj. intros [G1|G1]; discriminate.
Qed.

Lemma ok_inj (a b : state) : Ok a = Ok b -> a = b.
Proof. intro E. inversion E. reflexivity. Qed.

Lemma obj_ref_frame s o s1 : obj_ref s o = Ok s1 ->
  0 < ro_refs (objs s o) /\ s1 = set_obj s o (with_refs (objs s o) (ro_refs (objs s o) + 1)).
Proof.
  unfold obj_ref. destruct (Z.leb_spec (ro_refs (objs s o)) 0) as [L|L]; [discriminate|].
  intro E. split; [exact L|]. symmetry. apply ok_inj, E.
Qed.
Lemma obj_unref_frame s o s1 : obj_unref s o = Ok s1 ->
  0 < ro_refs (objs s o) /\
  s1 = set_obj s o (if 1 <? ro_refs (objs s o) then with_refs (objs s o) (ro_refs (objs s o) - 1)
                    else with_phase (objs s o) PDispose).
Proof.
  unfold obj_unref. destruct (Z.leb_spec (ro_refs (objs s o)) 0) as [L|L]; [discriminate|].
  destruct (1 <? ro_refs (objs s o)); intro E; (split; [exact L|]); symmetry; apply ok_inj, E.
Qed.

Ltac neq_upd := rewrite ?upd_neq by assumption; auto.

Lemma acct_get s h m s1 : acct s -> obj_get s h m = Ok s1 -> acct s1.
Proof.
  intros A E. unfold obj_get in E. destruct (table s h) as [o|] eqn:ET.
  - destruct (obj_ref s o) as [| |s2] eqn:ER; try discriminate. cbn [bind] in E. apply ok_inj in E.
    destruct (obj_ref_frame _ _ _ ER) as [L E2].
    apply (acct_ref s o s s2 s1 A eq_refl ER); subst s1; subst s2; sproj; try reflexivity.
    + intros i N. neq_upd.
    + rewrite upd_eq. destruct A as [C _]. destruct (C o). lia.
    + rewrite upd_eq. lia.
  - apply ok_inj in E. destruct A as [C [T F]].
    assert (EH : forall i, held s1 i = if Nat.eqb i (count s) then 1 else held s i).
    { intro i. subst s1. unfold obj_new. destruct m; reflexivity. }
    assert (EO : forall i, i <> count s -> objs s1 i = objs s i).
    { intros i N. subst s1. unfold obj_new. destruct m; sproj; apply upd_neq, N. }
    assert (EN : ro_refs (objs s1 (count s)) = 1 /\ ro_phase (objs s1 (count s)) = PLive /\
                 ro_handle (objs s1 (count s)) = h).
    { subst s1. unfold obj_new. destruct m; sproj; rewrite upd_eq; sproj; auto. }
    assert (EQ : queue s1 = queue s /\ main s1 = main s /\ count s1 = Datatypes.S (count s)).
    { subst s1. unfold obj_new. destruct m; sproj; auto. }
    assert (ETB : forall z, table s1 z = if z =? h then Some (count s) else table s z).
    { intro z. subst s1. unfold obj_new. destruct m; reflexivity. }
    destruct EQ as [EQ [EM EC]]. destruct EN as [N1 [N2 N3]].
    split; [|split].
    + intro i. unfold counted. rewrite EH, EQ, EM. destruct (Nat.eqb_spec i (count s)) as [->|N].
      * rewrite N1, N2. cbn [dref]. destruct (C (count s)) as [X [Y W]].
        rewrite (F (count s) (le_n _)) in Y, W. cbn [dref] in Y.
        pose proof (occ_nonneg (count s) (queue s)). pose proof (mref_nonneg (main s) (count s)). lia.
      * rewrite EO by exact N. apply C.
    + intros z i. rewrite ETB, EC. destruct (Z.eqb_spec z h) as [->|N].
      * intro X. apply (f_equal (fun v => match v with Some y => y | None => 0%nat end)) in X.
        cbn beta iota in X. subst i. rewrite N2, N3. split; [lia|]. split; [reflexivity|]. split; discriminate.
      * intro X. destruct (T z i X) as [P [Q R]]. split; [lia|]. rewrite EO by lia. auto.
    + intros i. rewrite EC. intro L. rewrite EO by lia. apply F. lia.
Qed.

Lemma remove_one_in h l r : remove_one h l = Some r -> In h l.
Proof.
  revert r. induction l as [|x t IH]; intros r; cbn [remove_one]; [discriminate|].
  destruct (Z.eqb_spec x h) as [->|N]; [intros _; left; reflexivity|].
  destruct (remove_one h t) as [r1|]; [|discriminate]. intros _. right. apply (IH r1 eq_refl).
Qed.

Lemma acct_dead_binder s h s1 : acct s -> dead_binder s h = Ok s1 -> acct s1.
Proof.
  intros A E. unfold dead_binder in E. destruct (remove_one h (inflight s)) as [l|]; [|discriminate].
  sproj. destruct (table s h) as [o|] eqn:ET.
  - destruct (obj_ref (set_inflight s l) o) as [| |s2] eqn:ER; try discriminate. cbn [bind] in E.
    destruct (obj_ref (set_held s2 o (held s2 o + 1)) o) as [| |s3] eqn:ER2; try discriminate.
    cbn [bind] in E. apply ok_inj in E.
    destruct (obj_ref_frame _ _ _ ER) as [L E2].
    destruct (obj_ref_frame _ _ _ ER2) as [L2 E3].
    assert (A2 : acct (set_held s2 o (held s2 o + 1))).
    { apply (acct_ref s o (set_inflight s l) s2 _ A eq_refl ER); subst s2; sproj; try reflexivity.
      + intros i N. neq_upd.
      + rewrite upd_eq. destruct A as [C _]. destruct (C o). lia.
      + rewrite upd_eq. lia. }
    apply (acct_ref _ o _ s3 s1 A2 eq_refl ER2); subst s1; subst s3; sproj; try reflexivity.
    + intros i N. rewrite occ_app. cbn [occ]. destruct (Nat.eqb_spec o i); [congruence|]. split; [|split]; auto; lia.
    + destruct A2 as [C _]. destruct (C o) as [X _]. exact X.
    + rewrite occ_app. cbn [occ]. rewrite Nat.eqb_refl. lia.
  - apply ok_inj in E. subst s1. apply (acct_same s); auto.
Qed.

Lemma acct_life s o d a n s1 :
  acct s -> (o < count s)%nat ->
  objs s1 = upd (objs s) o (with_life (objs s o) d a n) -> count s1 = count s -> table s1 = table s ->
  (forall i, i <> o -> held s1 i = held s i /\ occ i (queue s1) = occ i (queue s) /\
                       mref (main s1) i = mref (main s) i) ->
  0 <= held s1 o ->
  held s1 o + occ o (queue s1) + mref (main s1) o = held s o + occ o (queue s) + mref (main s) o ->
  acct s1.
Proof.
  intros A L E1 E2 E3 O P Q. apply (acct_change s s1 o A).
  - intros i N. rewrite E1, upd_neq by exact N. destruct (O i N) as [? [? ?]]. auto.
  - exact E2.
  - exact L.
  - intros h i. rewrite E3. auto.
  - rewrite E1, upd_eq. reflexivity.
  - destruct A as [C _]. destruct (C o) as [X [Y W]]. unfold counted. rewrite E1, upd_eq. sproj.
    split; [exact P|]. split; [lia|exact W].
  - rewrite E1, upd_eq. sproj. intros [G|G] h; rewrite E3; destruct A as [C [T F]]; intro W;
      destruct (T h o W) as [_ [_ [U V]]]; contradiction.
Qed.

Lemma acct_callback s s1 : acct s -> callback s = Ok s1 -> acct s1.
Proof.
  intros A E. unfold callback in E. destruct (main s) eqn:EM; try discriminate.
  destruct (queue s) as [|o q] eqn:EQ; [discriminate|].
  change (objs (set_queue s q) o) with (objs s o) in E.
  destruct (Z.leb_spec (ro_refs (objs s o)) 0) as [L|L]; [discriminate|].
  destruct (ro_dead (objs s o)).
  - destruct (obj_unref_frame _ _ _ E) as [_ E2].
    apply (acct_unref s o (set_queue s q) s1 s1 A eq_refl E); try reflexivity.
    + intros i N. rewrite E2. sproj. rewrite EM, EQ. cbn [occ].
      destruct (Nat.eqb_spec o i); [congruence|]. split; [|split]; auto; lia.
    + rewrite E2. sproj. destruct A as [C _]. destruct (C o) as [X _]. exact X.
    + rewrite E2. sproj. rewrite EM, EQ. cbn [occ]. rewrite Nat.eqb_refl. lia.
    + rewrite E2. reflexivity.
    + rewrite E2. reflexivity.
  - apply ok_inj in E.
    apply (acct_life s o true false (ro_node (objs s o)) s1 A (counted_pos s o A L)); subst s1;
      destruct (ro_acquired (objs s o)); sproj; try reflexivity.
    all: try (intros i N; rewrite EM, EQ; cbn [occ mref]; destruct (Nat.eqb_spec o i); [congruence|];
              split; [|split]; auto; lia).
    all: try (destruct A as [C _]; destruct (C o) as [X _]; exact X).
    all: rewrite EM, EQ; cbn [occ mref]; rewrite Nat.eqb_refl; lia.
Qed.

Lemma acct_suicide s o s1 : acct s -> 0 < held s o -> suicide s o = Ok s1 -> acct s1.
Proof.
  intros A H E. unfold suicide in E. destruct (main s) eqn:EM; try discriminate.
  destruct (Z.leb_spec (ro_refs (objs s o)) 0) as [L|L]; [discriminate|].
  destruct (ro_dead (objs s o)).
  - apply ok_inj in E. subst s1. exact A.
  - apply ok_inj in E.
    apply (acct_life s o true false (ro_node (objs s o)) s1 A (counted_pos s o A L)); subst s1;
      destruct (ro_acquired (objs s o)); sproj; try reflexivity.
    all: try (intros i N; rewrite EM; cbn [mref]; rewrite upd_neq by exact N; destruct (Nat.eqb_spec o i); [congruence|];
              split; [|split]; auto; lia).
    all: try (rewrite upd_eq; lia).
    all: rewrite EM, upd_eq; cbn [mref]; rewrite Nat.eqb_refl; lia.
Qed.

Lemma acct_reanimate s o s1 : acct s -> 0 < held s o -> reanimate s o = Ok s1 -> acct s1.
Proof.
  intros A H E. unfold reanimate in E. destruct (main s) eqn:EM; try discriminate.
  destruct (Z.leb_spec (ro_refs (objs s o)) 0) as [L|L]; [discriminate|].
  destruct (ro_dead (objs s o)); [|apply ok_inj in E; subst s1; exact A].
  destruct ((ro_handle (objs s o) =? SM_HANDLE) && negb (kr_dead (kern s (ro_handle (objs s o)))));
    apply ok_inj in E; [|subst s1; exact A].
  apply (acct_life s o false true (kr_node (kern s (ro_handle (objs s o)))) s1 A (counted_pos s o A L));
    subst s1; sproj; try reflexivity; auto; lia.
Qed.

Lemma acct_invalidate s h : acct s -> acct (invalidate s h).
Proof.
  intros [C [T F]]. split; [|split].
  - intro o. exact (C o).
  - intros z o. sproj. unfold zupd. destruct (z =? h); [discriminate|]. apply T.
  - exact F.
Qed.

Lemma acct_main s s1 : acct s -> main_step s = Ok s1 -> acct s1.
Proof.
  intros A E. unfold main_step in E. destruct (main s) as [|o cb|o cb|o] eqn:EM; try discriminate.
  - apply ok_inj in E.
    set (si := if cb && (ro_handle (objs s o) =? SM_HANDLE) then s else invalidate s (ro_handle (objs s o))) in *.
    assert (A2 : acct si) by (unfold si; destruct (_ && _); [exact A|apply acct_invalidate, A]).
    assert (EM2 : main si = MInvalidate o cb) by (unfold si; destruct (_ && _); exact EM).
    clearbody si. subst s1. destruct A2 as [C [T F]].
    split; [|split; [exact T|exact F]]. intro i. specialize (C i). unfold counted in *. rewrite EM2 in C. exact C.
  - destruct cb; apply ok_inj in E; subst s1; destruct A as [C [T F]].
    + split; [|split; [exact T|exact F]]. intro i. specialize (C i). unfold counted in *. rewrite EM in C. exact C.
    + split; [|split; [exact T|exact F]]. intro i. specialize (C i). unfold counted in *. rewrite EM in C. sproj.
      unfold upd. cbn [mref] in *. rewrite (Nat.eqb_sym i o). destruct (Nat.eqb_spec o i) as [<-|N]; [|exact C].
      destruct C as [X [Y W]]. split; [lia|]. split; [lia|exact W].
  - destruct (obj_unref s o) as [| |s2] eqn:EU; try discriminate. cbn [bind] in E. apply ok_inj in E.
    destruct (obj_unref_frame _ _ _ EU) as [_ E2].
    apply (acct_unref s o s s2 s1 A eq_refl EU); subst s1; subst s2; sproj; try reflexivity.
    + intros i N. rewrite EM. cbn [mref]. destruct (Nat.eqb_spec o i); [congruence|]. auto.
    + destruct A as [C _]. destruct (C o) as [X _]. exact X.
    + rewrite EM. cbn [mref]. rewrite Nat.eqb_refl. lia.
Qed.

Lemma acct_dispose s o s1 : acct s -> (o < count s)%nat -> dispose_step s o = Ok s1 -> acct s1.
Proof.
  intros A L E. unfold dispose_step in E. pose proof A as [C [T F]]. destruct (C o) as [X [Y W]].
  destruct (ro_phase (objs s o)) eqn:EP; try discriminate; cbn [dref] in *.
  - apply ok_inj in E.
    apply (acct_change s s1 o A); subst s1; destruct (ro_refs (objs s o) =? 1); sproj.
    all: try solve [intros i N; rewrite upd_neq by exact N; auto].
    all: try reflexivity; try exact L; auto.
    all: try (intros h i; unfold zupd; destruct (h =? _); [discriminate|auto]).
    all: try (rewrite upd_eq; reflexivity).
    all: try (unfold counted; sproj; rewrite upd_eq; sproj; cbn [dref]; lia).
    all: try (rewrite upd_eq; sproj; intros [G|G]; discriminate).
  - destruct (Z.eqb_spec (ro_refs (objs s o) - 1) 0) as [Z0|Z0]; apply ok_inj in E.
    + apply (acct_change s s1 o A); subst s1; sproj.
      all: try solve [intros i N; rewrite upd_neq by exact N; auto].
      all: try reflexivity; try exact L; auto.
      all: try (rewrite upd_eq; reflexivity).
      all: try (unfold counted; sproj; rewrite upd_eq; sproj; cbn [dref]; lia).
      all: try (rewrite upd_eq; sproj; intros [G|G]; discriminate).
    + pose proof (occ_nonneg o (queue s)). pose proof (mref_nonneg (main s) o).
      apply (acct_change s s1 o A); subst s1; sproj.
      all: try solve [intros i N; rewrite upd_neq by exact N; auto].
      all: try reflexivity; try exact L; auto.
      all: try (rewrite upd_eq; reflexivity).
      all: try (unfold counted; sproj; rewrite upd_eq; sproj; cbn [dref]; lia).
      all: try (rewrite upd_eq; sproj; intros [G|G]; discriminate).
  - apply ok_inj in E.
    apply (acct_change s s1 o A); subst s1; sproj.
    all: try solve [intros i N; rewrite upd_neq by exact N; auto].
    all: try reflexivity; try exact L; auto.
    all: try (intros h i; unfold zupd; destruct (h =? _); [discriminate|auto]).
    all: try (rewrite upd_eq; reflexivity).
    all: try (unfold counted; sproj; rewrite upd_eq; sproj; cbn [dref]; lia).
    intros _ h. unfold zupd. destruct (Z.eqb_spec h (ro_handle (objs s o))) as [->|N]; [discriminate|].
    intro H. destruct (T h o H) as [_ [Q _]]. congruence.
  - apply ok_inj in E.
    apply (acct_change s s1 o A); subst s1; destruct (ro_dead (objs s o)), (ro_acquired (objs s o)); sproj.
    all: try solve [intros i N; rewrite upd_neq by exact N; auto].
    all: try reflexivity; try exact L; auto.
    all: try (rewrite upd_eq; reflexivity).
    all: try (unfold counted; sproj; rewrite upd_eq; sproj; cbn [dref]; lia).
    all: intros _ h H; destruct (T h o H) as [_ [_ [Q _]]]; congruence.
Qed.

Lemma acct_step s m s1 : acct s -> step s m = Ok s1 -> acct s1.
Proof.
  intros A E. destruct m as [h md|o|o|o|h| |o| |o|h|h|h]; cbn [step] in E.
  - apply (acct_get s h md s1 A E).
  - destruct (Z.ltb_spec 0 (held s o)) as [H|H]; [|discriminate].
    destruct (obj_ref s o) as [| |s2] eqn:ER; try discriminate. cbn [bind] in E. apply ok_inj in E.
    destruct (obj_ref_frame _ _ _ ER) as [_ E2].
    apply (acct_ref s o s s2 s1 A eq_refl ER); subst s1; subst s2; sproj; try reflexivity.
    + intros i N. neq_upd.
    + rewrite upd_eq. lia.
    + rewrite upd_eq. lia.
  - destruct (Z.ltb_spec 0 (held s o)) as [H|H]; [|discriminate].
    destruct (obj_unref_frame _ _ _ E) as [_ E2].
    apply (acct_unref s o (set_held s o (held s o - 1)) s1 s1 A eq_refl E); try reflexivity; rewrite E2; sproj; try reflexivity.
    + intros i N. neq_upd.
    + rewrite upd_eq. lia.
    + rewrite upd_eq. lia.
  - destruct (Nat.ltb_spec o (count s)) as [L|L]; [|discriminate]. apply (acct_dispose s o s1 A L E).
  - apply (acct_dead_binder s h s1 A E).
  - apply (acct_callback s s1 A E).
  - destruct (Z.ltb_spec 0 (held s o)) as [H|H]; [|discriminate]. apply (acct_suicide s o s1 A H E).
  - apply (acct_main s s1 A E).
  - destruct (Z.ltb_spec 0 (held s o)) as [H|H]; [|discriminate]. apply (acct_reanimate s o s1 A H E).
  - apply ok_inj in E. subst s1. apply (acct_same s); auto.
  - destruct (kr_dead (kern s h)); [|discriminate]. destruct (kr_watch (kern s h)); try discriminate.
    apply ok_inj in E. subst s1. apply (acct_same s); auto.
  - destruct (unused s h); [|discriminate]. apply ok_inj in E. subst s1. apply (acct_same s); auto.
Qed.

Lemma acct_initial : acct initial.
Proof.
  split; [|split].
  - intro o. unfold counted. cbn. lia.
  - intros h o H. discriminate.
  - intros o _. reflexivity.
Qed.

Lemma acct_run l s s1 : acct s -> run s l = Ok s1 -> acct s1.
Proof.
  revert s. induction l as [|m r IH]; intros s A E; cbn [run] in E.
  - apply ok_inj in E. subst s1. exact A.
  - destruct (step s m) as [| |s2] eqn:ES; try discriminate. cbn [bind] in E.
    apply (IH s2 (acct_step s m s2 A ES) E).
Qed.
