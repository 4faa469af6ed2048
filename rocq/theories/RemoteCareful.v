(* Histories in which handles are not mixed up *)
From Verif Require Import Base RemoteModel RemoteSpec RemoteProofs RemoteLaw.
From Coq Require Import Lia.

Fixpoint occz (h : Z) (l : list Z) : Z :=
  match l with [] => 0 | x :: r => (if x =? h then 1 else 0) + occz h r end.
Lemma occz_app h a b : occz h (a ++ b) = occz h a + occz h b.
Proof. induction a as [|x r IH]; cbn [List.app occz]; lia. Qed.
Lemma occz_nonneg h l : 0 <= occz h l.
Proof. induction l as [|x r IH]; cbn [occz]; [lia|destruct (x =? h); lia]. Qed.
Lemma occz_notin h l : existsb (Z.eqb h) l = false -> occz h l = 0.
Proof.
  induction l as [|x r IH]; cbn [existsb occz]; [reflexivity|]. rewrite (Z.eqb_sym x h).
  destruct (h =? x); cbn [orb]; [discriminate|]. intro H. rewrite IH by exact H. reflexivity.
Qed.
Lemma occz_in h l : 0 < occz h l -> In h l.
Proof.
  induction l as [|x r IH]; cbn [occz]; [lia|]. destruct (Z.eqb_spec x h) as [->|N]; [left; reflexivity|].
  intro H. right. apply IH. lia.
Qed.
Lemma occz_remove h l r : remove_one h l = Some r ->
  forall z, occz z l = occz z r + (if z =? h then 1 else 0).
Proof.
  revert r. induction l as [|x t IH]; intros r; cbn [remove_one]; [discriminate|].
  destruct (Z.eqb_spec x h) as [->|N].
  - intros E z. apply (f_equal (fun v => match v with Some y => y | None => [] end)) in E. cbn beta iota in E.
    subst r. cbn [occz]. rewrite (Z.eqb_sym h z). lia.
  - destruct (remove_one h t) as [r1|]; [|discriminate]. intros E z.
    apply (f_equal (fun v => match v with Some y => y | None => [] end)) in E. cbn beta iota in E.
    subst r. cbn [occz]. rewrite (IH r1 eq_refl z). lia.
Qed.

Definition there (s : state) (o : nat) : Prop := (o < count s)%nat /\ gone (objs s o) = false.
(* the last reference is being dropped, and nobody can find the object *)
Definition leaving (x : robj) : Prop :=
  match ro_phase x with
  | PFinal | PFinal2 => True
  | PDisposed => ro_refs x = 1
  | _ => False
  end.

Record cinv (s : state) : Prop := {
  c_unique : forall a b, there s a -> there s b -> ro_handle (objs s a) = ro_handle (objs s b) -> a = b;
  c_found : forall o, there s o -> ro_dead (objs s o) = false \/ ro_handle (objs s o) = SM_HANDLE ->
    table s (ro_handle (objs s o)) = Some o \/ leaving (objs s o);
  c_live : forall h o, table s h = Some o -> ro_phase (objs s o) <> PFinal;
  c_kern : forall o, there s o -> ro_dead (objs s o) = false ->
    let h := ro_handle (objs s o) in
    ro_node (objs s o) = kr_node (kern s h) /\
    ((kr_watch (kern s h) = WSet /\ occz h (inflight s) = 0 /\ occ o (queue s) = 0) \/
     (kr_watch (kern s h) = WSent /\ kr_dead (kern s h) = true /\
      (occz h (inflight s) + occ o (queue s) = 1 \/
       (leaving (objs s o) /\ occz h (inflight s) <= 1 /\ occ o (queue s) = 0))));
  c_set : forall h, kr_watch (kern s h) = WSet ->
    exists o, there s o /\ ro_dead (objs s o) = false /\ ro_handle (objs s o) = h;
  c_dead : forall o, there s o -> ro_dead (objs s o) = true -> ro_handle (objs s o) = SM_HANDLE ->
    occz SM_HANDLE (inflight s) = 0 /\ occ o (queue s) = 0;
  c_sent : forall h, kr_watch (kern s h) = WSent -> kr_dead (kern s h) = true;
  c_main : forall o, main s = MInvalidate o false -> ro_handle (objs s o) <> SM_HANDLE
}.

Lemma cinv_initial : cinv initial.
Proof.
  constructor.
  - intros a b [L _]. cbn in L. lia.
  - intros o [L _]. cbn in L. lia.
  - intros h o H. discriminate.
  - intros o [L _]. cbn in L. lia.
  - intros h H. discriminate.
  - intros o [L _]. cbn in L. lia.
  - intros h H. discriminate.
  - intros o H. discriminate.
Qed.

Lemma calm_at s o : calm s = true -> there s o -> ro_phase (objs s o) = PDisposed ->
  table s (ro_handle (objs s o)) = Some o -> 2 <= ro_refs (objs s o).
Proof.
  intros C [L _] P T. unfold calm in C. rewrite forallb_forall in C.
  specialize (C o). rewrite in_seq in C. specialize (C ltac:(lia)). rewrite P, T, Nat.eqb_refl in C.
  cbn [negb orb] in C. destruct (Z.leb_spec 2 (ro_refs (objs s o))); [assumption|discriminate].
Qed.

Lemma in_table_refs s h o : acct s -> cinv s -> table s h = Some o -> 0 < ro_refs (objs s o).
Proof.
  intros [C [T F]] I H. destruct (T h o H) as [L [E [P Q]]]. destruct (C o) as [X [Y W]].
  pose proof (c_live s I h o H).
  pose proof (occ_nonneg o (queue s)). pose proof (mref_nonneg (main s) o).
  destruct (ro_phase (objs s o)); cbn [dref] in *; try lia; congruence.
Qed.

Lemma in_table_there s h o : acct s -> table s h = Some o -> there s o /\ ro_handle (objs s o) = h.
Proof.
  intros [C [T F]] H. destruct (T h o H) as [L [E [P Q]]]. split; [|exact E]. split; [exact L|].
  unfold gone. destruct (ro_phase (objs s o)); auto. congruence.
Qed.

Lemma in_table_stays s h o : acct s -> cinv s -> calm s = true -> table s h = Some o -> ~ leaving (objs s o).
Proof.
  intros A I CA H X. destruct (in_table_there s h o A H) as [TH EH].
  pose proof (c_live s I h o H) as NF. destruct A as [C [T F]]. destruct (T h o H) as [_ [_ [P Q]]].
  unfold leaving in X. destruct (ro_phase (objs s o)) eqn:EP; try contradiction; try congruence.
  rewrite <- EH in H. pose proof (calm_at s o CA TH EP H). lia.
Qed.

Lemma held_stays s o : acct s -> 0 < held s o + occ o (queue s) + mref (main s) o -> ~ leaving (objs s o).
Proof.
  intros [C _] H X. destruct (C o) as [Y [Z W]]. unfold leaving in X.
  destruct (ro_phase (objs s o)); cbn [dref] in *; try contradiction; lia.
Qed.

(* The rest of what a step doesn't touch *)
Definition same_rest (s s1 : state) : Prop :=
  count s1 = count s /\ table s1 = table s /\ inflight s1 = inflight s /\ kern s1 = kern s /\
  (forall o, main s1 = MInvalidate o false -> main s = MInvalidate o false).

(* References come and go *)
Lemma cinv_refs s s1 o :
  acct s -> cinv s -> calm s = true -> same_rest s s1 -> there s o ->
  (exists n p, objs s1 = upd (objs s) o (with_phase (with_refs (objs s o) n) p) /\ p <> PGone /\
               (table s (ro_handle (objs s o)) = Some o -> p <> PFinal) /\
               (leaving (objs s o) -> leaving (with_phase (with_refs (objs s o) n) p))) ->
  (forall i, occ i (queue s1) = occ i (queue s) \/
             ro_dead (objs s i) = true /\ occ i (queue s1) <= occ i (queue s)) ->
  cinv s1.
Proof.
  intros A I CA [EC [ET [EI [EK EM]]]] TH [n [p [EO [NG [NF LV]]]]] EQ.
  assert (FH : forall i, ro_handle (objs s1 i) = ro_handle (objs s i) /\ ro_dead (objs s1 i) = ro_dead (objs s i) /\
                         ro_node (objs s1 i) = ro_node (objs s i)).
  { intro i. rewrite EO. unfold upd. destruct (Nat.eqb_spec i o) as [->|N]; auto. }
  assert (FT : forall i, there s1 i <-> there s i).
  { intro i. unfold there. rewrite EC, EO. unfold upd. destruct (Nat.eqb_spec i o) as [->|N]; [|tauto].
    destruct TH as [TL TG]. unfold gone at 1. sproj. split; intros [X Y]; (split; [exact X|]); auto.
    destruct p; auto. contradiction. }
  assert (FL : forall i, leaving (objs s i) -> leaving (objs s1 i)).
  { intro i. rewrite EO. unfold upd. destruct (Nat.eqb_spec i o) as [->|N]; auto. }
  constructor.
  - intros a b TA TB. rewrite FT in TA, TB. destruct (FH a) as [Fa _]. destruct (FH b) as [Fb _].
    rewrite Fa, Fb. apply (c_unique s I a b TA TB).
  - intros i TI. rewrite FT in TI. destruct (FH i) as [F1 [F2 F3]]. rewrite F1, F2, ET. intro D.
    destruct (c_found s I i TI D) as [X|X]; [left; exact X|right; apply FL, X].
  - intros h i. rewrite ET. intro H. rewrite EO. unfold upd.
    destruct (Nat.eqb_spec i o) as [->|N]; [|apply (c_live s I h i H)]. sproj. apply NF.
    destruct (in_table_there s h o A H) as [_ EH]. rewrite EH. exact H.
  - intros i TI. rewrite FT in TI. destruct (FH i) as [F1 [F2 F3]]. rewrite F1, F2, F3, EK, EI. intro D.
    destruct (EQ i) as [Q|[Q _]]; [|congruence]. rewrite Q.
    destruct (c_kern s I i TI D) as [K1 K2]. split; [exact K1|].
    destruct K2 as [K2|[K2 [K3 K4]]]; [left; exact K2|right]. split; [exact K2|]. split; [exact K3|].
    destruct K4 as [K4|[K4 K5]]; [left; exact K4|right]. split; [apply FL, K4|exact K5].
  - intro h. rewrite EK. intro H. destruct (c_set s I h H) as [i [X [Y W]]]. exists i.
    rewrite FT. destruct (FH i) as [F1 [F2 F3]]. rewrite F1, F2. auto.
  - intros i TI. rewrite FT in TI. destruct (FH i) as [F1 [F2 F3]]. rewrite F1, F2, EI. intros D H.
    destruct (c_dead s I i TI D H) as [X Y]. split; [exact X|]. pose proof (occ_nonneg i (queue s1)).
    destruct (EQ i) as [Q|[_ Q]]; lia.
  - intro h. rewrite EK. apply (c_sent s I h).
  - intros i H. destruct (FH i) as [F1 _]. rewrite F1. apply (c_main s I), EM, H.
Qed.

Lemma refs_there s o : acct s -> 0 < ro_refs (objs s o) -> there s o.
Proof. intros A L. split; [apply (counted_pos s o A L)|apply (not_gone s o A L)]. Qed.

Lemma phase_not_final s o : acct s -> 0 < ro_refs (objs s o) -> ro_phase (objs s o) <> PGone /\ ro_phase (objs s o) <> PFinal.
Proof.
  intros [C _] L. destruct (C o) as [X [Y W]]. destruct (ro_phase (objs s o)); split; try discriminate; lia.
Qed.

Lemma cinv_obj_ref s o s0 s1 s2 :
  acct s -> cinv s -> calm s = true -> ~ leaving (objs s o) -> objs s0 = objs s -> obj_ref s0 o = Ok s1 ->
  objs s2 = objs s1 -> same_rest s s2 -> queue s2 = queue s -> cinv s2.
Proof.
  intros A I CA NL E0 E E1 SR EQ. destruct (obj_ref_frame _ _ _ E) as [L E2]. rewrite E0 in L, E2.
  destruct (phase_not_final s o A L) as [P1 P2].
  apply (cinv_refs s s2 o A I CA SR (refs_there s o A L)).
  - exists (ro_refs (objs s o) + 1), (ro_phase (objs s o)). rewrite E1, E2. sproj. rewrite E0, <- with_refs_phase.
    split; [reflexivity|]. split; [exact P1|]. split; [intros _; exact P2|]. intro; contradiction.
  - intro i. left. rewrite EQ. reflexivity.
Qed.

Lemma cinv_obj_unref s o s0 s1 s2 :
  acct s -> cinv s -> calm s = true -> ~ leaving (objs s o) -> objs s0 = objs s -> obj_unref s0 o = Ok s1 ->
  objs s2 = objs s1 -> same_rest s s2 ->
  (forall i, occ i (queue s2) = occ i (queue s) \/
             ro_dead (objs s i) = true /\ occ i (queue s2) <= occ i (queue s)) -> cinv s2.
Proof.
  intros A I CA NL E0 E E1 SR EQ. destruct (obj_unref_frame _ _ _ E) as [L E2]. rewrite E0 in L, E2.
  destruct (phase_not_final s o A L) as [P1 P2].
  apply (cinv_refs s s2 o A I CA SR (refs_there s o A L)); [|exact EQ].
  destruct (1 <? ro_refs (objs s o)).
  - exists (ro_refs (objs s o) - 1), (ro_phase (objs s o)). rewrite E1, E2. sproj. rewrite E0, <- with_refs_phase.
    split; [reflexivity|]. split; [exact P1|]. split; [intros _; exact P2|]. intro; contradiction.
  - exists (ro_refs (objs s o)), PDispose. rewrite E1, E2. sproj. rewrite E0, <- with_phase_refs.
    split; [reflexivity|]. split; [discriminate|]. split; [discriminate|]. intro; contradiction.
Qed.

(* An object begins or ends its life, or goes away: other objects have other handles *)
Lemma cinv_life s s1 o :
  acct s -> cinv s -> there s o ->
  count s1 = count s -> table s1 = table s -> inflight s1 = inflight s ->
  (forall i, i <> o -> objs s1 i = objs s i /\ occ i (queue s1) = occ i (queue s)) ->
  (forall z, z <> ro_handle (objs s o) -> kern s1 z = kern s z) ->
  ro_handle (objs s1 o) = ro_handle (objs s o) ->
  (gone (objs s1 o) = false -> ro_phase (objs s1 o) = ro_phase (objs s o) /\ ro_refs (objs s1 o) = ro_refs (objs s o)) ->
  (forall i, main s1 = MInvalidate i false -> ro_handle (objs s1 i) <> SM_HANDLE) ->
  (* what is known about the object afterwards *)
  let h := ro_handle (objs s o) in
  (gone (objs s1 o) = false -> ro_dead (objs s1 o) = false \/ h = SM_HANDLE ->
   table s h = Some o \/ leaving (objs s o)) ->
  (table s h = Some o -> gone (objs s1 o) = false) ->
  (gone (objs s1 o) = false -> ro_dead (objs s1 o) = false ->
    ro_node (objs s1 o) = kr_node (kern s1 h) /\ kr_watch (kern s1 h) = WSet /\ occz h (inflight s) = 0 /\ occ o (queue s1) = 0) ->
  (kr_watch (kern s1 h) = WSet -> gone (objs s1 o) = false /\ ro_dead (objs s1 o) = false) ->
  (gone (objs s1 o) = false -> ro_dead (objs s1 o) = true -> h = SM_HANDLE ->
   occz SM_HANDLE (inflight s) = 0 /\ occ o (queue s1) = 0) ->
  (kr_watch (kern s1 h) = WSent -> kr_dead (kern s1 h) = true) ->
  cinv s1.
Proof.
  intros A I TH EC ET EI EO EK EH EP EM h HF HT HK HS HD HW.
  assert (FT : forall i, there s1 i -> there s i).
  { intros i [X Y]. destruct (Nat.eq_dec i o) as [->|N]; [exact TH|]. destruct (EO i N) as [Q _].
    split; [rewrite <- EC; exact X|]. rewrite <- Q. exact Y. }
  assert (OH : forall i, there s i -> i <> o -> ro_handle (objs s i) <> h).
  { intros i X N Q. apply N, (c_unique s I i o X TH Q). }
  assert (FHi : forall i, ro_handle (objs s1 i) = ro_handle (objs s i)).
  { intro i. destruct (Nat.eq_dec i o) as [->|N]; [exact EH|]. destruct (EO i N) as [Q _]. rewrite Q. reflexivity. }
  constructor.
  - intros a b TA TB. rewrite !FHi. apply (c_unique s I a b (FT a TA) (FT b TB)).
  - intros i TI D. rewrite FHi, ET. destruct (Nat.eq_dec i o) as [->|N].
    + destruct TI as [_ G]. rewrite EH in D. destruct (HF G D) as [X|X]; [left; exact X|right].
      destruct (EP G) as [P1 P2]. unfold leaving in *. rewrite P1, P2. exact X.
    + destruct (EO i N) as [Q _]. rewrite Q in *. apply (c_found s I i (FT i TI) D).
  - intros z i. rewrite ET. intro H. destruct (Nat.eq_dec i o) as [->|N].
    + destruct (in_table_there s z o A H) as [_ Q]. subst z. destruct (EP (HT H)) as [P1 _]. rewrite P1.
      apply (c_live s I _ o H).
    + destruct (EO i N) as [Q _]. rewrite Q. apply (c_live s I z i H).
  - intros i TI D. cbv zeta. rewrite FHi, EI. destruct (Nat.eq_dec i o) as [->|N].
    + destruct TI as [_ G]. destruct (HK G D) as [K1 [K2 [K3 K4]]]. split; [exact K1|]. left. auto.
    + destruct (EO i N) as [Q1 Q2]. rewrite Q1 in *. rewrite Q2, EK by (apply OH; [apply FT, TI|exact N]).
      apply (c_kern s I i (FT i TI) D).
  - intros z H. destruct (Z.eq_dec z h) as [->|N].
    + destruct (HS H) as [G D]. exists o. split; [|auto]. split; [rewrite EC; apply TH|exact G].
    + rewrite EK in H by exact N. destruct (c_set s I z H) as [i [X [Y W]]].
      assert (NI : i <> o) by (intros ->; unfold h in N; congruence).
      destruct (EO i NI) as [Q _]. exists i. unfold there. rewrite EC, Q. auto.
  - intros i TI D. rewrite FHi, EI. intro H. destruct (Nat.eq_dec i o) as [->|N].
    + destruct TI as [_ G]. apply (HD G D H).
    + destruct (EO i N) as [Q1 Q2]. rewrite Q1 in *. rewrite Q2. apply (c_dead s I i (FT i TI) D H).
  - intros z. destruct (Z.eq_dec z h) as [->|N]; [exact HW|]. rewrite EK by exact N. apply (c_sent s I z).
  - exact EM.
Qed.

Lemma cinv_callback s s1 : acct s -> cinv s -> calm s = true -> callback s = Ok s1 -> cinv s1.
Proof.
  intros A I CA E. unfold callback in E. destruct (main s) eqn:EM; try discriminate.
  destruct (queue s) as [|o q] eqn:EQ; [discriminate|].
  change (objs (set_queue s q) o) with (objs s o) in E.
  destruct (Z.leb_spec (ro_refs (objs s o)) 0) as [L|L]; [discriminate|].
  pose proof (refs_there s o A L) as TH.
  assert (OC : 1 <= occ o (queue s)).
  { rewrite EQ. cbn [occ]. rewrite Nat.eqb_refl. pose proof (occ_nonneg o q). lia. }
  assert (NL : ~ leaving (objs s o)).
  { apply (held_stays s o A). destruct A as [C _]. destruct (C o) as [X _]. pose proof (mref_nonneg (main s) o). lia. }
  destruct (ro_dead (objs s o)) eqn:ED.
  - destruct (obj_unref_frame _ _ _ E) as [_ E2].
    apply (cinv_obj_unref s o (set_queue s q) s1 s1 A I CA NL eq_refl E); auto; rewrite E2; sproj.
    + split; [reflexivity|]. split; [reflexivity|]. split; [reflexivity|]. split; [reflexivity|]. intros i X. exact X.
    + intro i. rewrite EQ. cbn [occ]. destruct (Nat.eqb_spec o i) as [<-|N]; [right; split; [exact ED|lia]|left; lia].
  - apply ok_inj in E. destruct (c_kern s I o TH ED) as [K1 K2]. cbv zeta in K2.
    destruct K2 as [[_ [_ K2]]|[K2 [K3 [K4|[K4 _]]]]]; [lia| |contradiction].
    assert (EM1 : main s1 = MInvalidate o true) by (subst s1; destruct (ro_acquired _); reflexivity).
    assert (EO : objs s1 = upd (objs s) o (with_life (objs s o) true false (ro_node (objs s o))))
      by (subst s1; destruct (ro_acquired _); reflexivity).
    assert (EQ1 : queue s1 = q) by (subst s1; destruct (ro_acquired _); reflexivity).
    assert (EKh : kr_watch (kern s1 (ro_handle (objs s o))) = WSent /\ kr_dead (kern s1 (ro_handle (objs s o))) = true).
    { subst s1. destruct (ro_acquired _); sproj; rewrite ?zupd_eq; cbn; auto. }
    rewrite EQ in K4. cbn [occ] in K4. rewrite Nat.eqb_refl in K4.
    pose proof (occ_nonneg o q). pose proof (occz_nonneg (ro_handle (objs s o)) (inflight s)).
    apply (cinv_life s s1 o A I TH).
    + subst s1. destruct (ro_acquired _); reflexivity.
    + subst s1. destruct (ro_acquired _); reflexivity.
    + subst s1. destruct (ro_acquired _); reflexivity.
    + intros i N. rewrite EO, EQ1, EQ, upd_neq by exact N. cbn [occ].
      destruct (Nat.eqb_spec o i); [congruence|]. split; [reflexivity|lia].
    + intros z N. subst s1. destruct (ro_acquired _); sproj; rewrite ?zupd_neq by exact N; reflexivity.
    + rewrite EO, upd_eq. reflexivity.
    + intros _. rewrite EO, upd_eq. split; reflexivity.
    + intros i H1. rewrite EM1 in H1. discriminate.
    + intros _ D. rewrite EO, upd_eq in D. sproj. destruct D as [D|D]; [discriminate|].
      apply (c_found s I o TH). right. exact D.
    + intros _. rewrite EO, upd_eq. apply TH.
    + intros _ D. rewrite EO, upd_eq in D. sproj. discriminate.
    + intro W. destruct EKh as [E1 _]. congruence.
    + intros _ _ HZ. rewrite EQ1. rewrite HZ in *. lia.
    + intros _. apply EKh.
Qed.

Lemma cinv_suicide s o s1 : acct s -> cinv s -> ro_handle (objs s o) <> SM_HANDLE ->
  suicide s o = Ok s1 -> cinv s1.
Proof.
  intros A I NH E. unfold suicide in E. destruct (main s) eqn:EM; try discriminate.
  destruct (Z.leb_spec (ro_refs (objs s o)) 0) as [L|L]; [discriminate|].
  pose proof (refs_there s o A L) as TH.
  destruct (ro_dead (objs s o)) eqn:ED; apply ok_inj in E; [subst s1; exact I|].
  assert (EM1 : main s1 = MInvalidate o false) by (subst s1; destruct (ro_acquired _); reflexivity).
  assert (EO : objs s1 = upd (objs s) o (with_life (objs s o) true false (ro_node (objs s o))))
    by (subst s1; destruct (ro_acquired _); reflexivity).
  assert (EKh : kr_watch (kern s1 (ro_handle (objs s o))) = WNone).
  { subst s1. destruct (ro_acquired _); sproj; rewrite ?zupd_eq; cbn; auto. }
  apply (cinv_life s s1 o A I TH).
  - subst s1. destruct (ro_acquired _); reflexivity.
  - subst s1. destruct (ro_acquired _); reflexivity.
  - subst s1. destruct (ro_acquired _); reflexivity.
  - intros i N. rewrite EO, upd_neq by exact N. split; [reflexivity|]. subst s1. destruct (ro_acquired _); reflexivity.
  - intros z N. subst s1. destruct (ro_acquired _); sproj; rewrite ?zupd_neq by exact N; reflexivity.
  - rewrite EO, upd_eq. reflexivity.
  - intros _. rewrite EO, upd_eq. split; reflexivity.
  - intros i H1. rewrite EM1 in H1. assert (o = i) by congruence. subst i. rewrite EO, upd_eq. exact NH.
  - intros _ D. rewrite EO, upd_eq in D. sproj. destruct D as [D|D]; [discriminate|contradiction].
  - intros _. rewrite EO, upd_eq. apply TH.
  - intros _ D. rewrite EO, upd_eq in D. sproj. discriminate.
  - intro W. congruence.
  - intros _ _ H0. contradiction.
  - intro W. congruence.
Qed.

Lemma cinv_reanimate s o s1 : acct s -> cinv s -> reanimate s o = Ok s1 -> cinv s1.
Proof.
  intros A I E. unfold reanimate in E. destruct (main s) eqn:EM; try discriminate.
  destruct (Z.leb_spec (ro_refs (objs s o)) 0) as [L|L]; [discriminate|].
  pose proof (refs_there s o A L) as TH.
  destruct (ro_dead (objs s o)) eqn:ED; [|apply ok_inj in E; subst s1; exact I].
  destruct (Z.eqb_spec (ro_handle (objs s o)) SM_HANDLE) as [EH|NH]; cbn [andb] in E;
    [|apply ok_inj in E; subst s1; exact I].
  destruct (kr_dead (kern s (ro_handle (objs s o)))) eqn:KD; cbn [negb] in E; apply ok_inj in E; [subst s1; exact I|].
  destruct (c_dead s I o TH ED EH) as [D1 D2].
  assert (W : kr_watch (kern s (ro_handle (objs s o))) = WNone).
  { destruct (kr_watch (kern s (ro_handle (objs s o)))) eqn:EW; [reflexivity| |].
    - destruct (c_set s I _ EW) as [i [X [Y Z]]]. rewrite (c_unique s I i o X TH Z) in Y. congruence.
    - rewrite (c_sent s I _ EW) in KD. discriminate. }
  apply (cinv_life s s1 o A I TH); subst s1; sproj.
  - reflexivity.
  - reflexivity.
  - reflexivity.
  - intros i N. rewrite upd_neq by exact N. auto.
  - intros z N. rewrite !zupd_neq by exact N. reflexivity.
  - rewrite upd_eq. reflexivity.
  - intros _. rewrite upd_eq. split; reflexivity.
  - intros i H. rewrite EM in H. discriminate.
  - intros _ _. apply (c_found s I o TH). right. exact EH.
  - intros _. rewrite upd_eq. apply TH.
  - intros _ _. rewrite upd_eq, !zupd_eq. cbn. rewrite W. rewrite EH. auto.
  - intros _. rewrite upd_eq. split; [apply TH|reflexivity].
  - intros _ D. rewrite upd_eq in D. discriminate.
  - rewrite !zupd_eq. cbn. rewrite W. discriminate.
Qed.

(* The handle is removed from the table *)
Lemma cinv_invalidate s s1 h p :
  acct s -> cinv s ->
  objs s1 = objs s -> count s1 = count s -> table s1 = zupd (table s) h None ->
  inflight s1 = inflight s -> queue s1 = queue s -> kern s1 = kern s -> main s1 = p ->
  (forall i, p = MInvalidate i false -> main s = MInvalidate i false) ->
  (forall o, there s o -> ro_handle (objs s o) = h ->
             ro_dead (objs s o) = false \/ h = SM_HANDLE -> leaving (objs s o)) ->
  cinv s1.
Proof.
  intros A I EO EC ET EI EQ EK EM MM HL. constructor; unfold there; rewrite ?EO, ?EC, ?EI, ?EQ, ?EK.
  - apply (c_unique s I).
  - intros o TH D. rewrite ET. unfold zupd. destruct (Z.eqb_spec (ro_handle (objs s o)) h) as [Q|N].
    + right. apply (HL o TH Q). rewrite <- Q. exact D.
    + apply (c_found s I o TH D).
  - intros z i. rewrite ET. unfold zupd. destruct (z =? h); [discriminate|]. apply (c_live s I).
  - apply (c_kern s I).
  - apply (c_set s I).
  - apply (c_dead s I).
  - apply (c_sent s I).
  - intros o H. apply (c_main s I). apply MM. congruence.
Qed.

Lemma cinv_mainphase s p : cinv s -> (forall i, p <> MInvalidate i false) -> cinv (set_main s p).
Proof. intros [] N. constructor; auto. intros o H. sproj. exfalso. apply (N o H). Qed.

Lemma cinv_main s s1 : acct s -> lawinv s -> cinv s -> calm s = true -> main_step s = Ok s1 -> cinv s1.
Proof.
  intros A LI I CA E. unfold main_step in E. destruct (main s) as [|o cb|o cb|o] eqn:EM; try discriminate.
  - assert (LR : 0 < ro_refs (objs s o)).
    { destruct A as [C _]. destruct (C o) as [X [Y W]]. rewrite EM in Y. cbn [mref] in Y. rewrite Nat.eqb_refl in Y.
      pose proof (occ_nonneg o (queue s)). destruct (ro_phase (objs s o)); cbn [dref] in *; lia. }
    pose proof (refs_there s o A LR) as TH.
    assert (ED : ro_dead (objs s o) = true).
    { destruct LI as [_ [_ IC]]. apply IC. rewrite EM. cbn [busy]. rewrite Nat.eqb_refl. discriminate. }
    apply ok_inj in E. destruct (cb && (ro_handle (objs s o) =? SM_HANDLE)) eqn:EB.
    + subst s1. apply cinv_mainphase; [exact I|discriminate].
    + apply (cinv_invalidate s s1 (ro_handle (objs s o)) (MSignal o cb) A I); try (subst s1; reflexivity).
      * discriminate.
      * intros i TI EH [D|D]; rewrite (c_unique s I i o TI TH EH) in *; [congruence|].
        exfalso. destruct cb; cbn [andb] in EB; [rewrite D, Z.eqb_refl in EB; discriminate|].
        apply (c_main s I o EM D).
  - destruct cb; apply ok_inj in E; subst s1.
    + destruct I. constructor; auto. discriminate.
    + destruct I. constructor; auto. discriminate.
  - destruct (obj_unref s o) as [| |s2] eqn:EU; try discriminate. cbn [bind] in E. apply ok_inj in E.
    destruct (obj_unref_frame _ _ _ EU) as [LR E2].
    assert (NL : ~ leaving (objs s o)).
    { apply (held_stays s o A). rewrite EM. cbn [mref]. rewrite Nat.eqb_refl.
      destruct A as [C _]. destruct (C o) as [X _]. pose proof (occ_nonneg o (queue s)). lia. }
    apply (cinv_obj_unref s o s s2 s1 A I CA NL eq_refl EU); subst s1; subst s2; sproj; auto.
    split; [reflexivity|]. split; [reflexivity|]. split; [reflexivity|]. split; [reflexivity|]. discriminate.
Qed.

Lemma cinv_dispose s o s1 :
  acct s -> cinv s -> calm s = true -> (o < count s)%nat -> dispose_step s o = Ok s1 -> cinv s1.
Proof.
  intros A I CA L E. unfold dispose_step in E.
  pose proof A as [C [T F]].
  destruct (C o) as [X [Y W]].
  pose proof (occ_nonneg o (queue s)) as OQ. pose proof (mref_nonneg (main s) o) as OM.
  destruct (ro_phase (objs s o)) eqn:EP; try discriminate; cbn [dref] in *.
  - assert (TH : there s o) by (split; [exact L|unfold gone; rewrite EP; reflexivity]).
    destruct (Z.eqb_spec (ro_refs (objs s o)) 1) as [R1|R1].
    + (* removed from the table *)
      apply ok_inj in E.
      assert (I1 : cinv (set_obj s o (with_phase (objs s o) PDisposed))).
      { apply (cinv_refs s _ o A I CA); sproj.
        - split; [reflexivity|]. split; [reflexivity|]. split; [reflexivity|]. split; [reflexivity|]. auto.
        - exact TH.
        - exists (ro_refs (objs s o)), PDisposed. rewrite <- with_phase_refs.
          split; [reflexivity|]. split; [discriminate|]. split; [discriminate|].
          unfold leaving. rewrite EP. tauto.
        - intro i. left. reflexivity. }
      assert (A1 : acct (set_obj s o (with_phase (objs s o) PDisposed))).
      { apply (acct_change s _ o A); sproj.
        all: try solve [intros i N; rewrite upd_neq by exact N; auto].
        all: try reflexivity; try exact L; auto.
        all: try (rewrite upd_eq; reflexivity).
        all: try (unfold counted; sproj; rewrite upd_eq; sproj; cbn [dref]; lia).
        rewrite upd_eq; sproj; intros [G|G]; discriminate. }
      apply (cinv_invalidate _ s1 (ro_handle (objs s o)) (main s) A1 I1); try (subst s1; reflexivity); sproj.
      * auto.
      * intros i TI EH D.
        assert (EI : i = o).
        { apply (c_unique _ I1 i o TI); sproj.
          - unfold there. sproj. rewrite upd_eq. split; [exact L|reflexivity].
          - rewrite EH, upd_eq. reflexivity. }
        subst i. rewrite upd_eq. unfold leaving. sproj. exact R1.
    + apply ok_inj in E. apply (cinv_refs s s1 o A I CA); subst s1; sproj.
      * split; [reflexivity|]. split; [reflexivity|]. split; [reflexivity|]. split; [reflexivity|]. auto.
      * exact TH.
      * exists (ro_refs (objs s o)), PDisposed. rewrite <- with_phase_refs.
        split; [reflexivity|]. split; [discriminate|]. split; [discriminate|].
        unfold leaving. rewrite EP. tauto.
      * intro i. left. reflexivity.
  - assert (TH : there s o) by (split; [exact L|unfold gone; rewrite EP; reflexivity]).
    destruct (Z.eqb_spec (ro_refs (objs s o) - 1) 0) as [R1|R1]; apply ok_inj in E.
    + apply (cinv_refs s s1 o A I CA); subst s1; sproj.
      * split; [reflexivity|]. split; [reflexivity|]. split; [reflexivity|]. split; [reflexivity|]. auto.
      * exact TH.
      * exists 0, PFinal. split; [reflexivity|]. split; [discriminate|]. split.
        -- intro HT. pose proof (calm_at s o CA TH EP HT). lia.
        -- intros _. exact Logic.I.
      * intro i. left. reflexivity.
    + apply (cinv_refs s s1 o A I CA); subst s1; sproj.
      * split; [reflexivity|]. split; [reflexivity|]. split; [reflexivity|]. split; [reflexivity|]. auto.
      * exact TH.
      * exists (ro_refs (objs s o) - 1), PLive. split; [reflexivity|]. split; [discriminate|]. split; [discriminate|].
        unfold leaving. rewrite EP. intro. lia.
      * intro i. left. reflexivity.
  - assert (TH : there s o) by (split; [exact L|unfold gone; rewrite EP; reflexivity]).
    apply ok_inj in E.
    assert (I1 : cinv (set_obj s o (with_phase (objs s o) PFinal2))).
    { apply (cinv_refs s _ o A I CA); sproj.
      - split; [reflexivity|]. split; [reflexivity|]. split; [reflexivity|]. split; [reflexivity|]. auto.
      - exact TH.
      - exists (ro_refs (objs s o)), PFinal2. rewrite <- with_phase_refs.
        split; [reflexivity|]. split; [discriminate|]. split; [discriminate|]. intros _. exact Logic.I.
      - intro i. left. reflexivity. }
    (* it wasn't in the table anyway *)
    assert (NT : forall z, table s z <> Some o).
    { intros z HT. apply (c_live s I z o HT EP). }
    assert (A1 : acct (set_obj s o (with_phase (objs s o) PFinal2))).
    { apply (acct_change s _ o A); sproj.
      all: try solve [intros i N; rewrite upd_neq by exact N; auto].
      all: try reflexivity; try exact L; auto.
      all: try (rewrite upd_eq; reflexivity).
      unfold counted; sproj; rewrite upd_eq; sproj; cbn [dref]; lia. }
    apply (cinv_invalidate _ s1 (ro_handle (objs s o)) (main s) A1 I1); try (subst s1; reflexivity); sproj.
    + auto.
    + intros i TI EH D.
      assert (EI : i = o).
      { apply (c_unique _ I1 i o TI); sproj.
        - unfold there. sproj. rewrite upd_eq. split; [exact L|reflexivity].
        - rewrite EH, upd_eq. reflexivity. }
      subst i. rewrite upd_eq. exact Logic.I.
  - assert (TH : there s o) by (split; [exact L|unfold gone; rewrite EP; reflexivity]).
    apply ok_inj in E.
    assert (EM : main s1 = main s) by (subst s1; destruct (ro_dead _), (ro_acquired _); reflexivity).
    assert (EO : objs s1 = upd (objs s) o (with_phase (objs s o) PGone))
      by (subst s1; destruct (ro_dead _), (ro_acquired _); reflexivity).
    assert (EKw : kr_watch (kern s1 (ro_handle (objs s o))) =
                  if ro_dead (objs s o) then kr_watch (kern s (ro_handle (objs s o))) else WNone).
    { subst s1; destruct (ro_dead _), (ro_acquired _); sproj; rewrite ?zupd_eq; reflexivity. }
    assert (EKd : kr_dead (kern s1 (ro_handle (objs s o))) = kr_dead (kern s (ro_handle (objs s o)))).
    { subst s1; destruct (ro_dead _), (ro_acquired _); sproj; rewrite ?zupd_eq; reflexivity. }
    assert (EG : gone (objs s1 o) = true) by (rewrite EO, upd_eq; reflexivity).
    apply (cinv_life s s1 o A I TH).
    + subst s1; destruct (ro_dead _), (ro_acquired _); reflexivity.
    + subst s1; destruct (ro_dead _), (ro_acquired _); reflexivity.
    + subst s1; destruct (ro_dead _), (ro_acquired _); reflexivity.
    + intros i N. rewrite EO, upd_neq by exact N. split; [reflexivity|].
      subst s1; destruct (ro_dead _), (ro_acquired _); reflexivity.
    + intros z N. subst s1; destruct (ro_dead _), (ro_acquired _); sproj; rewrite ?zupd_neq by exact N; reflexivity.
    + rewrite EO, upd_eq. reflexivity.
    + congruence.
    + intro i. rewrite EM. intro H. rewrite EO. unfold upd. destruct (Nat.eqb_spec i o) as [->|N]; [|apply (c_main s I i H)].
      apply (c_main s I o H).
    + congruence.
    + intro HT. destruct (T _ o HT) as [_ [_ [Q _]]]. congruence.
    + congruence.
    + rewrite EKw. intro HW. exfalso. destruct (ro_dead (objs s o)) eqn:ED; [|discriminate].
      destruct (c_set s I _ HW) as [i [P [Q R]]]. rewrite (c_unique s I i o P TH R) in Q. congruence.
    + congruence.
    + rewrite EKw, EKd. destruct (ro_dead (objs s o)); [|discriminate]. apply (c_sent s I).
Qed.

Lemma cinv_dead_binder s h s1 : acct s -> cinv s -> calm s = true -> dead_binder s h = Ok s1 -> cinv s1.
Proof.
  intros A I CA E. unfold dead_binder in E. destruct (remove_one h (inflight s)) as [l|] eqn:ER; [|discriminate].
  pose proof (occz_remove h _ _ ER) as OZ. sproj.
  destruct (table s h) as [o|] eqn:ET.
  - destruct (in_table_there s h o A ET) as [TH EH]. pose proof (in_table_stays s h o A I CA ET) as NL.
    pose proof (in_table_refs s h o A I ET) as LR.
    unfold obj_ref in E. sproj.
    destruct (Z.leb_spec (ro_refs (objs s o)) 0) as [Z0|Z0]; [lia|]. cbn [bind] in E. sproj.
    rewrite upd_eq in E. sproj.
    destruct (Z.leb_spec (ro_refs (objs s o) + 1) 0) as [Z1|Z1]; [lia|]. cbn [bind] in E. sproj.
    apply ok_inj in E.
    assert (FO : forall i, ro_handle (objs s1 i) = ro_handle (objs s i) /\ ro_dead (objs s1 i) = ro_dead (objs s i) /\
                           ro_node (objs s1 i) = ro_node (objs s i) /\ ro_phase (objs s1 i) = ro_phase (objs s i)).
    { intro i. subst s1. sproj. unfold upd. destruct (Nat.eqb_spec i o) as [->|N]; auto. }
    assert (FT : forall i, there s1 i <-> there s i).
    { intro i. unfold there, gone. destruct (FO i) as [_ [_ [_ Q]]]. rewrite Q.
      assert (EC : count s1 = count s) by (subst s1; reflexivity). rewrite EC. tauto. }
    assert (FL : forall i, there s i -> leaving (objs s i) -> leaving (objs s1 i)).
    { intros i TI LV. destruct (Nat.eq_dec i o) as [->|N]; [contradiction|]. subst s1. sproj.
      rewrite !upd_neq by exact N. exact LV. }
    assert (EQ : forall i, occ i (queue s1) = occ i (queue s) + (if Nat.eqb o i then 1 else 0)).
    { intro i. subst s1. sproj. rewrite occ_app. cbn [occ]. lia. }
    assert (EI : inflight s1 = l) by (subst s1; reflexivity).
    assert (EK : kern s1 = kern s) by (subst s1; reflexivity).
    assert (ETT : table s1 = table s) by (subst s1; reflexivity).
    assert (EM : main s1 = main s) by (subst s1; reflexivity).
    clear E. constructor.
    + intros a b TA TB. rewrite FT in TA, TB. destruct (FO a) as [Fa _]. destruct (FO b) as [Fb _]. rewrite Fa, Fb.
      apply (c_unique s I a b TA TB).
    + intros i TI D. rewrite FT in TI. destruct (FO i) as [F1 [F2 _]]. rewrite F1, F2 in D. rewrite F1, ETT.
      destruct (c_found s I i TI D) as [Q|Q]; [left; exact Q|right; apply FL; auto].
    + intros z i HT. rewrite ETT in HT. destruct (FO i) as [_ [_ [_ Q]]]. rewrite Q. apply (c_live s I z i HT).
    + intros i TI D. rewrite FT in TI. destruct (FO i) as [F1 [F2 [F3 _]]]. rewrite F2 in D. cbv zeta.
      rewrite F1, F3, EK, EI, EQ. destruct (c_kern s I i TI D) as [K1 K2]. cbv zeta in K2. split; [exact K1|].
      pose proof (OZ (ro_handle (objs s i))) as OZi. pose proof (occz_nonneg (ro_handle (objs s i)) l).
      destruct (Nat.eqb_spec o i) as [<-|N].
      * rewrite EH in *. rewrite Z.eqb_refl in OZi.
        destruct K2 as [[_ [K2 _]]|[K2 [K3 [K4|[K4 _]]]]]; [lia| |contradiction].
        right. split; [exact K2|]. split; [exact K3|]. left. lia.
      * destruct (Z.eqb_spec (ro_handle (objs s i)) h) as [Q|_].
        { exfalso. apply N. apply (c_unique s I o i TH TI). congruence. }
        destruct K2 as [[K2 [K3 K4]]|[K2 [K3 K4]]]; [left; split; [exact K2|]; split; lia|right].
        split; [exact K2|]. split; [exact K3|].
        destruct K4 as [K4|[K4 [K5 K6]]]; [left; lia|right]. split; [apply FL; auto|]. split; lia.
    + intros z. rewrite EK. intro H. destruct (c_set s I z H) as [i [X [Y W]]]. exists i. rewrite FT.
      destruct (FO i) as [F1 [F2 _]]. rewrite F1, F2. auto.
    + intros i TI D HZ. rewrite FT in TI. destruct (FO i) as [F1 [F2 _]]. rewrite F2 in D. rewrite F1 in HZ.
      destruct (c_dead s I i TI D HZ) as [X Y]. rewrite EI, EQ. pose proof (OZ SM_HANDLE) as OZi.
      pose proof (occz_nonneg SM_HANDLE l).
      destruct (Z.eqb_spec SM_HANDLE h) as [Q|N]; [lia|].
      destruct (Nat.eqb_spec o i) as [->|_]; [exfalso; apply N; congruence|]. lia.
    + intros z. rewrite EK. apply (c_sent s I).
    + intros i H. rewrite EM in H. destruct (FO i) as [F1 _]. rewrite F1. apply (c_main s I i H).
  - apply ok_inj in E. subst s1. constructor; unfold there; sproj.
    + apply (c_unique s I).
    + apply (c_found s I).
    + apply (c_live s I).
    + intros i TI D. destruct (c_kern s I i TI D) as [K1 K2]. cbv zeta in *. split; [exact K1|].
      pose proof (OZ (ro_handle (objs s i))) as OZi. pose proof (occz_nonneg (ro_handle (objs s i)) l).
      destruct (Z.eqb_spec (ro_handle (objs s i)) h) as [Q|N].
      * destruct (c_found s I i TI (or_introl D)) as [HT|LV]; [rewrite Q in HT; congruence|].
        destruct K2 as [[K2 [K3 K4]]|[K2 [K3 K4]]]; [lia|right].
        split; [exact K2|]. split; [exact K3|]. right.
        assert (OQ : occ i (queue s) = 0).
        { pose proof (occ_nonneg i (queue s)). destruct (Z.eq_dec (occ i (queue s)) 0) as [|NQ]; [assumption|].
          exfalso. apply (held_stays s i A); [|exact LV]. destruct A as [C _]. destruct (C i) as [X _].
          pose proof (mref_nonneg (main s) i). lia. }
        split; [exact LV|]. split; [|exact OQ]. destruct K4 as [K4|[_ [K5 _]]]; lia.
      * destruct K2 as [[K2 [K3 K4]]|[K2 [K3 K4]]]; [left; split; [exact K2|]; split; lia|right].
        split; [exact K2|]. split; [exact K3|].
        destruct K4 as [K4|[K4 [K5 K6]]]; [left; lia|right]. split; [exact K4|]. split; lia.
    + apply (c_set s I).
    + intros i TI D HZ. destruct (c_dead s I i TI D HZ) as [X Y]. split; [|exact Y].
      pose proof (OZ SM_HANDLE) as OZi. pose proof (occz_nonneg SM_HANDLE l).
      destruct (SM_HANDLE =? h); lia.
    + apply (c_sent s I).
    + apply (c_main s I).
Qed.

Lemma cinv_get s h md s1 : acct s -> cinv s -> calm s = true -> polite s (Get h md) = true ->
  obj_get s h md = Ok s1 -> cinv s1.
Proof.
  intros A I CA PO E. unfold obj_get in E. cbn [polite] in PO. destruct (table s h) as [o|] eqn:ET.
  - destruct (obj_ref s o) as [| |s2] eqn:ER; try discriminate. cbn [bind] in E. apply ok_inj in E.
    destruct (obj_ref_frame _ _ _ ER) as [L E2].
    pose proof (in_table_stays s h o A I CA ET) as NL.
    apply (cinv_obj_ref s o s s2 s1 A I CA NL eq_refl ER); subst s1; subst s2; sproj; auto.
    split; [reflexivity|]. split; [reflexivity|]. split; [reflexivity|]. split; [reflexivity|]. auto.
  - apply andb_prop in PO. destruct PO as [PO PW]. apply andb_prop in PO. destruct PO as [PG PI].
    apply ok_inj in E.
    assert (NG : forall o, there s o -> ro_handle (objs s o) <> h).
    { intros o [L G] Q. rewrite forallb_forall in PG. specialize (PG o). rewrite in_seq in PG.
      specialize (PG ltac:(lia)). rewrite G, Q, Z.eqb_refl in PG. discriminate. }
    assert (NI : occz h (inflight s) = 0).
    { apply occz_notin. destruct (existsb (Z.eqb h) (inflight s)); [discriminate|reflexivity]. }
    assert (NW : kr_watch (kern s h) = WNone) by (destruct (kr_watch (kern s h)); [reflexivity|discriminate|discriminate]).
    assert (NQ : occ (count s) (queue s) = 0).
    { destruct A as [C [T F]]. destruct (C (count s)) as [X [Y W]]. rewrite (F (count s) (le_n _)) in Y, W.
      cbn [dref] in Y. pose proof (occ_nonneg (count s) (queue s)). pose proof (mref_nonneg (main s) (count s)). lia. }
    assert (EC : count s1 = Datatypes.S (count s)) by (subst s1; unfold obj_new; destruct md; reflexivity).
    assert (EM : main s1 = main s) by (subst s1; unfold obj_new; destruct md; reflexivity).
    assert (EQ : queue s1 = queue s) by (subst s1; unfold obj_new; destruct md; reflexivity).
    assert (EI : inflight s1 = inflight s) by (subst s1; unfold obj_new; destruct md; reflexivity).
    assert (EO : forall i, i <> count s -> objs s1 i = objs s i).
    { intros i N. subst s1. unfold obj_new. destruct md; sproj; apply upd_neq, N. }
    assert (EN : ro_handle (objs s1 (count s)) = h /\ ro_phase (objs s1 (count s)) = PLive /\
                 ro_dead (objs s1 (count s)) = (match md with CREATE_DEAD => true | _ => false end) /\
                 ro_node (objs s1 (count s)) = kr_node (kern s h)).
    { subst s1. unfold obj_new. destruct md; sproj; rewrite upd_eq; sproj; auto. }
    assert (ETB : forall z, table s1 z = if z =? h then Some (count s) else table s z).
    { intro z. subst s1. unfold obj_new. destruct md; reflexivity. }
    assert (EK : forall z, z <> h -> kern s1 z = kern s z).
    { intros z N. subst s1. unfold obj_new. destruct md; sproj; rewrite ?zupd_neq by exact N; reflexivity. }
    assert (EKh : kr_node (kern s1 h) = kr_node (kern s h) /\
                  kr_watch (kern s1 h) = (match md with CREATE_DEAD => WNone | _ => WSet end)).
    { subst s1. unfold obj_new. destruct md; sproj; rewrite ?zupd_eq; cbn; rewrite ?NW; auto. }
    destruct EN as [N1 [N2 [N3 N4]]]. destruct EKh as [K1 K2]. clear E.
    assert (FT : forall i, there s1 i -> i <> count s -> there s i).
    { intros i [X Y] N. rewrite EO in Y by exact N. split; [lia|exact Y]. }
    assert (TN : there s1 (count s)).
    { split; [lia|]. unfold gone. rewrite N2. reflexivity. }
    constructor.
    + intros a b TA TB. destruct (Nat.eq_dec a (count s)) as [->|Na], (Nat.eq_dec b (count s)) as [->|Nb]; auto.
      * rewrite N1, EO by exact Nb. intro Q. exfalso. apply (NG b (FT b TB Nb)). congruence.
      * rewrite N1, EO by exact Na. intro Q. exfalso. apply (NG a (FT a TA Na)). congruence.
      * rewrite !EO by assumption. apply (c_unique s I a b (FT a TA Na) (FT b TB Nb)).
    + intros i TI D. rewrite ETB. destruct (Nat.eq_dec i (count s)) as [->|N].
      * rewrite N1, Z.eqb_refl. left. reflexivity.
      * pose proof (FT i TI N) as TJ. rewrite EO in * by exact N.
        destruct (Z.eqb_spec (ro_handle (objs s i)) h) as [Q|_]; [exfalso; apply (NG i TJ Q)|].
        apply (c_found s I i TJ D).
    + intros z i. rewrite ETB. destruct (Z.eqb_spec z h) as [->|NZ].
      * intro Q. assert (i = count s) by congruence. subst i. rewrite N2. discriminate.
      * intro Q. destruct (Nat.eq_dec i (count s)) as [->|N]; [rewrite N2; discriminate|].
        rewrite EO by exact N. apply (c_live s I z i Q).
    + intros i TI D. cbv zeta. rewrite EI, EQ. destruct (Nat.eq_dec i (count s)) as [->|N].
      * rewrite N1, N4, K1, K2. split; [reflexivity|]. left. rewrite N3 in D. destruct md; [discriminate| |]; auto.
      * pose proof (FT i TI N) as TJ. rewrite EO in * by exact N. rewrite EK by (apply NG, TJ). apply (c_kern s I i TJ D).
    + intros z H. destruct (Z.eq_dec z h) as [->|NZ].
      * exists (count s). split; [exact TN|]. rewrite N3, N1. split; [|reflexivity].
        rewrite K2 in H. destruct md; [discriminate| |]; reflexivity.
      * rewrite EK in H by exact NZ. destruct (c_set s I z H) as [i [X [Y W]]]. exists i.
        assert (N : i <> count s) by (destruct X; lia). unfold there. rewrite EO by exact N.
        destruct X as [X1 X2]. split; [split; [lia|exact X2]|]. auto.
    + intros i TI D HZ. rewrite EI, EQ. destruct (Nat.eq_dec i (count s)) as [->|N].
      * rewrite N1 in HZ. rewrite <- HZ. auto.
      * pose proof (FT i TI N) as TJ. rewrite EO in * by exact N. apply (c_dead s I i TJ D HZ).
    + intros z H. destruct (Z.eq_dec z h) as [->|NZ].
      * rewrite K2 in H. destruct md; discriminate.
      * rewrite EK in * by exact NZ. apply (c_sent s I z H).
    + intros i H. rewrite EM in H.
      assert (N : i <> count s).
      { intros ->. destruct A as [C [T F]]. destruct (C (count s)) as [X [Y W]]. rewrite (F (count s) (le_n _)) in Y, W.
        rewrite H in Y. cbn [dref mref] in Y. rewrite Nat.eqb_refl in Y. pose proof (occ_nonneg (count s) (queue s)). lia. }
      rewrite EO by exact N. apply (c_main s I i H).
Qed.

Lemma cinv_step s m s1 :
  acct s -> lawinv s -> cinv s -> calm s = true -> polite s m = true -> step s m = Ok s1 -> cinv s1.
Proof.
  intros A LI I CA PO E. destruct m as [h md|o|o|o|h| |o| |o|h|h|h]; cbn [step] in E.
  - apply (cinv_get s h md s1 A I CA PO E).
  - destruct (Z.ltb_spec 0 (held s o)) as [H|H]; [|discriminate].
    destruct (obj_ref s o) as [| |s2] eqn:ER; try discriminate. cbn [bind] in E. apply ok_inj in E.
    destruct (obj_ref_frame _ _ _ ER) as [_ E2].
    assert (NL : ~ leaving (objs s o)).
    { apply (held_stays s o A). pose proof (occ_nonneg o (queue s)). pose proof (mref_nonneg (main s) o). lia. }
    apply (cinv_obj_ref s o s s2 s1 A I CA NL eq_refl ER); subst s1; subst s2; sproj; auto.
    split; [reflexivity|]. split; [reflexivity|]. split; [reflexivity|]. split; [reflexivity|]. auto.
  - destruct (Z.ltb_spec 0 (held s o)) as [H|H]; [|discriminate].
    destruct (obj_unref_frame _ _ _ E) as [_ E2].
    assert (NL : ~ leaving (objs s o)).
    { apply (held_stays s o A). pose proof (occ_nonneg o (queue s)). pose proof (mref_nonneg (main s) o). lia. }
    apply (cinv_obj_unref s o (set_held s o (held s o - 1)) s1 s1 A I CA NL eq_refl E); auto; rewrite E2; sproj; auto.
    split; [reflexivity|]. split; [reflexivity|]. split; [reflexivity|]. split; [reflexivity|]. auto.
  - destruct (Nat.ltb_spec o (count s)) as [L|L]; [|discriminate]. apply (cinv_dispose s o s1 A I CA L E).
  - apply (cinv_dead_binder s h s1 A I CA E).
  - apply (cinv_callback s s1 A I CA E).
  - destruct (0 <? held s o); [|discriminate]. apply (cinv_suicide s o s1 A I); [|exact E].
    cbn [polite] in PO. destruct (Z.eqb_spec (ro_handle (objs s o)) SM_HANDLE); [discriminate|assumption].
  - apply (cinv_main s s1 A LI I CA E).
  - destruct (0 <? held s o); [|discriminate]. apply (cinv_reanimate s o s1 A I E).
  - (* Dies *)
    apply ok_inj in E. subst s1.
    assert (EK : forall z, kr_node (zupd (kern s) h {| kr_node := kr_node (kern s h); kr_dead := true;
                 kr_strong := kr_strong (kern s h); kr_watch := kr_watch (kern s h) |} z) = kr_node (kern s z) /\
                 kr_watch (zupd (kern s) h {| kr_node := kr_node (kern s h); kr_dead := true;
                 kr_strong := kr_strong (kern s h); kr_watch := kr_watch (kern s h) |} z) = kr_watch (kern s z) /\
                 (kr_dead (kern s z) = true -> kr_dead (zupd (kern s) h {| kr_node := kr_node (kern s h); kr_dead := true;
                 kr_strong := kr_strong (kern s h); kr_watch := kr_watch (kern s h) |} z) = true)).
    { intro z. unfold zupd. destruct (Z.eqb_spec z h) as [->|N]; auto. }
    constructor; unfold there; sproj.
    + apply (c_unique s I).
    + apply (c_found s I).
    + apply (c_live s I).
    + intros i TI D. cbv zeta. destruct (EK (ro_handle (objs s i))) as [E1 [E2 E3]]. rewrite E1, E2.
      destruct (c_kern s I i TI D) as [K1 [K2|[K2 [K3 K4]]]]; (split; [exact K1|]); [left; exact K2|right].
      split; [exact K2|]. split; [apply E3, K3|exact K4].
    + intro z. destruct (EK z) as [E1 [E2 E3]]. rewrite E2. apply (c_set s I z).
    + apply (c_dead s I).
    + intro z. destruct (EK z) as [E1 [E2 E3]]. rewrite E2. intro H. apply E3, (c_sent s I z H).
    + apply (c_main s I).
  - (* Tell *)
    destruct (kr_dead (kern s h)) eqn:KD; [|discriminate]. destruct (kr_watch (kern s h)) eqn:KW; try discriminate.
    apply ok_inj in E. subst s1. destruct (c_set s I h KW) as [o [TH [OD OH]]].
    constructor; unfold there; sproj.
    + apply (c_unique s I).
    + apply (c_found s I).
    + apply (c_live s I).
    + intros i TI D. cbv zeta. destruct (c_kern s I i TI D) as [K1 K2]. cbv zeta in K2.
      rewrite occz_app. cbn [occz]. unfold zupd. rewrite (Z.eqb_sym h (ro_handle (objs s i))).
      destruct (Z.eqb_spec (ro_handle (objs s i)) h) as [Q|N].
      * rewrite Q in *. cbn. split; [exact K1|]. right. split; [reflexivity|]. split; [reflexivity|].
        left. destruct K2 as [[_ [K2 K3]]|[K2 _]]; [lia|congruence].
      * split; [exact K1|]. destruct K2 as [[K2 [K3 K4]]|[K2 [K3 K4]]]; [left; split; [exact K2|]; split; lia|right].
        split; [exact K2|]. split; [exact K3|]. destruct K4 as [K4|[K4 [K5 K6]]]; [left; lia|right].
        split; [exact K4|]. split; lia.
    + intro z. unfold zupd. destruct (Z.eqb_spec z h) as [->|N]; [discriminate|]. apply (c_set s I z).
    + intros i TI D HZ. rewrite occz_app. cbn [occz]. destruct (c_dead s I i TI D HZ) as [X Y].
      destruct (Z.eqb_spec h SM_HANDLE) as [Q|N]; [|lia]. exfalso.
      assert (i = o) by (apply (c_unique s I i o TI TH); congruence). subst i. congruence.
    + intro z. unfold zupd. destruct (Z.eqb_spec z h) as [->|N]; [reflexivity|]. apply (c_sent s I z).
    + apply (c_main s I).
  - (* Reuse *)
    destruct (unused s h) eqn:EU; [|discriminate]. apply ok_inj in E. subst s1.
    assert (ND : forall o, there s o -> ro_handle (objs s o) = h -> ro_dead (objs s o) = true).
    { intros o [L G] Q. unfold unused in EU. apply andb_prop in EU. destruct EU as [_ EU].
      rewrite forallb_forall in EU. specialize (EU o). rewrite in_seq in EU. specialize (EU ltac:(lia)).
      unfold gone in G. rewrite Q, Z.eqb_refl in EU. destruct (ro_phase (objs s o)); try discriminate;
        destruct (ro_dead (objs s o)); auto. }
    constructor; unfold there; sproj.
    + apply (c_unique s I).
    + apply (c_found s I).
    + apply (c_live s I).
    + intros i TI D. cbv zeta. unfold zupd. destruct (Z.eqb_spec (ro_handle (objs s i)) h) as [Q|N].
      * rewrite (ND i TI Q) in D. discriminate.
      * apply (c_kern s I i TI D).
    + intro z. unfold zupd. destruct (Z.eqb_spec z h) as [->|N]; [discriminate|]. apply (c_set s I z).
    + apply (c_dead s I).
    + intro z. unfold zupd. destruct (Z.eqb_spec z h) as [->|N]; [discriminate|]. apply (c_sent s I z).
    + apply (c_main s I).
Qed.

Record good (s : state) : Prop := {
  g_acct : acct s; g_law : lawinv s; g_cinv : cinv s; g_calm : calm s = true }.
Lemma good_initial : good initial.
Proof. constructor; [apply acct_initial|apply lawinv_initial|apply cinv_initial|reflexivity]. Qed.
Lemma good_run l s s1 : good s -> careful s l = true -> run s l = Ok s1 -> good s1.
Proof.
  revert s. induction l as [|m r IH]; intros s G C E; cbn [run careful] in *.
  - apply ok_inj in E. subst s1. exact G.
  - apply andb_prop in C. destruct C as [PO C].
    destruct (step s m) as [| |s2] eqn:ES; try discriminate. cbn [bind] in E.
    apply andb_prop in C. destruct C as [CA C]. destruct G as [A L I K].
    apply (IH s2); [|exact C|exact E].
    constructor; [apply (acct_step s m s2 A ES)|apply (lawinv_step s m s2 A L ES)|
                  apply (cinv_step s m s2 A L I K PO ES)|exact CA].
Qed.

(* Nothing is used after it's freed *)
Lemma good_step_safe s m : good s -> step s m <> Crash.
Proof.
  intros [A L I K] E. destruct m as [h md|o|o|o|h| |o| |o|h|h|h]; cbn [step] in E.
  - unfold obj_get in E. destruct (table s h) as [o|] eqn:ET; [|discriminate].
    pose proof (in_table_refs s h o A I ET). unfold obj_ref in E.
    destruct (Z.leb_spec (ro_refs (objs s o)) 0); [lia|discriminate].
  - destruct (Z.ltb_spec 0 (held s o)) as [H|H]; [|discriminate]. pose proof (held_pos s o A H).
    unfold obj_ref in E. destruct (Z.leb_spec (ro_refs (objs s o)) 0); [lia|discriminate].
  - destruct (Z.ltb_spec 0 (held s o)) as [H|H]; [|discriminate]. pose proof (held_pos s o A H).
    unfold obj_unref in E. sproj. destruct (Z.leb_spec (ro_refs (objs s o)) 0); [lia|].
    destruct (_ <? _); discriminate.
  - destruct (Nat.ltb o (count s)); [|discriminate]. unfold dispose_step in E.
    destruct (ro_phase (objs s o)); try discriminate. destruct (_ =? _); discriminate.
  - unfold dead_binder in E. destruct (remove_one h (inflight s)) as [l|]; [|discriminate]. sproj.
    destruct (table s h) as [o|] eqn:ET; [|discriminate]. pose proof (in_table_refs s h o A I ET) as LR.
    unfold obj_ref in E. sproj. destruct (Z.leb_spec (ro_refs (objs s o)) 0); [lia|]. cbn [bind] in E. sproj.
    rewrite upd_eq in E. sproj. destruct (Z.leb_spec (ro_refs (objs s o) + 1) 0); [lia|discriminate].
  - unfold callback in E. destruct (main s) eqn:EM; try discriminate. destruct (queue s) as [|o q] eqn:EQ; [discriminate|].
    change (objs (set_queue s q) o) with (objs s o) in E.
    assert (LR : 0 < ro_refs (objs s o)).
    { destruct A as [C _]. destruct (C o) as [X [Y W]]. rewrite EM, EQ in Y. cbn [occ mref] in Y. rewrite Nat.eqb_refl in Y.
      pose proof (occ_nonneg o q). destruct (ro_phase (objs s o)); cbn [dref] in *; lia. }
    destruct (Z.leb_spec (ro_refs (objs s o)) 0) as [|]; [lia|].
    destruct (ro_dead (objs s o)); [|discriminate]. unfold obj_unref in E. sproj.
    destruct (Z.leb_spec (ro_refs (objs s o)) 0); [lia|]. destruct (_ <? _); discriminate.
  - destruct (Z.ltb_spec 0 (held s o)) as [H|H]; [|discriminate]. pose proof (held_pos s o A H).
    unfold suicide in E. destruct (main s); try discriminate.
    destruct (Z.leb_spec (ro_refs (objs s o)) 0); [lia|]. destruct (ro_dead (objs s o)); discriminate.
  - unfold main_step in E. destruct (main s) as [|o cb|o cb|o] eqn:EM; try discriminate; [destruct cb; discriminate|].
    assert (LR : 0 < ro_refs (objs s o)).
    { destruct A as [C _]. destruct (C o) as [X [Y W]]. rewrite EM in Y. cbn [mref] in Y. rewrite Nat.eqb_refl in Y.
      pose proof (occ_nonneg o (queue s)). destruct (ro_phase (objs s o)); cbn [dref] in *; lia. }
    unfold obj_unref in E. destruct (Z.leb_spec (ro_refs (objs s o)) 0); [lia|]. destruct (_ <? _); discriminate.
  - destruct (Z.ltb_spec 0 (held s o)) as [H|H]; [|discriminate]. pose proof (held_pos s o A H).
    unfold reanimate in E. destruct (main s); try discriminate.
    destruct (Z.leb_spec (ro_refs (objs s o)) 0); [lia|]. destruct (ro_dead (objs s o)); [|discriminate].
    destruct (_ && _); discriminate.
  - discriminate.
  - destruct (kr_dead (kern s h)); [|discriminate]. destruct (kr_watch (kern s h)); discriminate.
  - destruct (unused s h); discriminate.
Qed.

Lemma careful_safe l s : good s -> careful s l = true -> run s l <> Crash.
Proof.
  revert s. induction l as [|m r IH]; intros s G C; cbn [run careful] in *; [discriminate|].
  apply andb_prop in C. destruct C as [PO C].
  destruct (step s m) as [| |s2] eqn:ES; cbn [bind]; [discriminate|exfalso; apply (good_step_safe s m G ES)|].
  apply andb_prop in C. destruct C as [CA C]. apply (IH s2); [|exact C].
  destruct G as [A L I K].
  constructor; [apply (acct_step s m s2 A ES)|apply (lawinv_step s m s2 A L ES)|
                apply (cinv_step s m s2 A L I K PO ES)|exact CA].
Qed.
