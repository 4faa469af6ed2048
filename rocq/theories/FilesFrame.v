(* What a call changes in CleanupModel *)
From Verif Require Import Base CleanupModel CleanupSpec CleanupProofs CleanupSafe FilesModel.

(* Nothing is opened; descriptors of received data don't change *)
Definition calm (a b : state) (t : list event) : Prop :=
  same_but_conts a b /\
  (forall c k1, at_ (conts b) c = Some k1 -> exists k, at_ (conts a) c = Some k /\ c_fds k1 = c_fds k) /\
  (forall fd, fdt b fd = fdt a fd \/ (fdt b fd = None /\ In (fd, fdt a fd) (closed t))).

Lemma calm_refl a : calm a a [].
Proof. split; [apply sbc_refl|]. split; [eauto|]. intros; left; reflexivity. Qed.

Lemma calm_trans a b c t u : calm a b t -> calm b c u -> calm a c (t ++ u).
Proof.
  intros (A1 & A2 & A3) (B1 & B2 & B3). split; [eapply sbc_trans; eassumption|]. split.
  - intros n k1 Hk. destruct (B2 _ _ Hk) as (k & Hk2 & E2). destruct (A2 _ _ Hk2) as (k0 & Hk0 & E0).
    exists k0. split; [exact Hk0|congruence].
  - intros fd. rewrite closed_app, in_app_iff. destruct (A3 fd) as [Ea|(Ea & Ha)], (B3 fd) as [Eb|(Eb & Hb)].
    + left. congruence.
    + right. split; [exact Eb|]. right. rewrite <- Ea. exact Hb.
    + right. split; [congruence|left; exact Ha].
    + right. split; [exact Eb|left; exact Ha].
Qed.

Lemma calm_close s fd : calm s (fst (do_close s fd)) (snd (do_close s fd)).
Proof.
  cbn [do_close fst snd]. split; [repeat split|]. split; [cbn [set_fdt conts]; eauto|].
  intros x. cbn [set_fdt fdt]. unfold fd_set. destruct (Z.eqb_spec x fd) as [->|]; [|left; reflexivity].
  right. split; [reflexivity|left; reflexivity].
Qed.

Lemma calm_close_all fds : forall s s1 t, close_all s fds = (s1, t) -> calm s s1 t.
Proof.
  induction fds as [|fd r IH]; intros s s1 t; cbn [close_all].
  - intros E. injection E as <- <-. apply calm_refl.
  - pose proof (calm_close s fd) as H. destruct (do_close s fd) as [a u] eqn:E1. cbn [fst snd] in H.
    destruct (close_all a r) as [b v] eqn:E2. intros E. injection E as <- <-.
    eapply calm_trans; [exact H|exact (IH _ _ _ E2)].
Qed.

Lemma calm_conts s c k k1 : at_ (conts s) c = Some k -> c_fds k1 = c_fds k ->
  calm s (set_conts s (set_at (conts s) c (Some k1))) [].
Proof.
  intros Hk E. split; [repeat split|]. split; [|intros; left; reflexivity].
  intros n k2. cbn [set_conts conts]. rewrite at_set_at by (eapply at_lt; exact Hk).
  destruct (Nat.eqb_spec n c) as [->|]; [|eauto]. intros X. injection X as <-. eauto.
Qed.

Lemma calm_ref s c s1 : contents_ref s c = Some s1 -> calm s s1 [].
Proof.
  unfold contents_ref. destruct (at_ (conts s) c) as [k|] eqn:Ek; [|discriminate]. intros X. injection X as <-.
  eapply calm_conts; [exact Ek|reflexivity].
Qed.

Lemma calm_free s c t : closed t = [] -> calm s (set_conts s (set_at (conts s) c None)) t.
Proof.
  intros Ht. split; [repeat split|]. split; [|intros; left; reflexivity].
  intros n k2. cbn [set_conts conts]. destruct (Nat.ltb_spec c (length (conts s))) as [Hl|Hl].
  - rewrite at_set_at by exact Hl. destruct (Nat.eqb_spec n c); [discriminate|eauto].
  - assert (E : forall (l : list (option cont)) k, (length l <= k)%nat -> set_at l k None = l).
    { induction l as [|x l IH]; intros [|k] H; cbn [set_at length] in *; try reflexivity; [lia|].
      rewrite IH by lia. reflexivity. }
    rewrite E by exact Hl. eauto.
Qed.

Lemma calm_unref s c s1 t : contents_unref s c = Some (s1, t) -> calm s s1 t.
Proof.
  unfold contents_unref. destruct (at_ (conts s) c) as [k|] eqn:Ek; [|discriminate]. destruct (_ =? 0).
  - destruct (close_all s (c_fds k)) as [a u] eqn:Ea. intros X. injection X as <- <-.
    eapply calm_trans; [exact (calm_close_all _ _ _ _ Ea)|]. apply calm_free. reflexivity.
  - intros X. injection X as <- <-. eapply calm_conts; [exact Ek|reflexivity].
Qed.

Lemma calm_ev s s1 t i : calm s s1 t -> calm s s1 (EvRan i :: t).
Proof. intros H. exact H. Qed.

Lemma calm_item s i s1 t : run_item s i = Some (s1, t) -> calm s s1 t.
Proof.
  unfold run_item. destruct i as [d p|fd|c|o|p]; try (intros X; injection X as <- <-; apply calm_ev, calm_refl).
  - pose proof (calm_close s fd) as H. destruct (do_close s fd) as [a u]. intros X. injection X as <- <-. exact H.
  - destruct (contents_unref s c) as [[a u]|] eqn:E; [|discriminate]. intros X. injection X as <- <-.
    apply calm_ev. exact (calm_unref _ _ _ _ E).
Qed.

Lemma calm_items l : forall s s1 t, run_items s l = Some (s1, t) -> calm s s1 t.
Proof.
  induction l as [|i l IH]; intros s s1 t; cbn [run_items]; [intros X; injection X as <- <-; apply calm_refl|].
  destruct (run_item s i) as [[a u]|] eqn:E; [|discriminate].
  destruct (run_items a l) as [[b v]|] eqn:E2; [|discriminate]. intros X. injection X as <- <-.
  eapply calm_trans; [exact (calm_item _ _ _ _ E)|exact (IH _ _ _ E2)].
Qed.

Lemma calm_unref_all l : forall s s1 t, unref_all s l = Some (s1, t) -> calm s s1 t.
Proof.
  induction l as [|i l IH]; intros s s1 t; cbn [unref_all]; [intros X; injection X as <- <-; apply calm_refl|].
  destruct (contents_unref s i) as [[a u]|] eqn:E; [|discriminate].
  destruct (unref_all a l) as [[b v]|] eqn:E2; [|discriminate]. intros X. injection X as <- <-.
  eapply calm_trans; [exact (calm_unref _ _ _ _ E)|exact (IH _ _ _ E2)].
Qed.

Lemma calm_ref_all l : forall s s1, ref_all s l = Some s1 -> calm s s1 [].
Proof.
  induction l as [|i l IH]; intros s s1; cbn [ref_all]; [intros X; injection X as <-; apply calm_refl|].
  destruct (contents_ref s i) as [a|] eqn:E; [|discriminate]. intros X.
  change (@nil event) with (@nil event ++ []).
  eapply calm_trans; [exact (calm_ref _ _ _ E)|exact (IH _ _ X)].
Qed.

Lemma calm_append s x b l s1 x1 : append_contents s x b l = Some (s1, x1) -> calm s s1 [].
Proof.
  unfold append_contents. destruct b as [c|].
  - destruct (contents_ref s c) as [a|] eqn:E; [|discriminate]. intros X. injection X as <- <-. exact (calm_ref _ _ _ E).
  - intros X. injection X as <- <-. apply calm_refl.
Qed.

(* The part about descriptors, for whole calls *)
Definition quiet (a b : state) (t : list event) : Prop :=
  (forall c k1, at_ (conts b) c = Some k1 -> exists k, at_ (conts a) c = Some k /\ c_fds k1 = c_fds k) /\
  (forall fd, fdt b fd = fdt a fd \/ (fdt b fd = None /\ In (fd, fdt a fd) (closed t))).

Lemma calm_quiet a b t : calm a b t -> quiet a b t.
Proof. intros (_ & H). exact H. Qed.

Lemma quiet_same a b : conts b = conts a -> fdt b = fdt a -> quiet a b [].
Proof. intros H1 H2. split; [rewrite H1; eauto|]. intros; left; rewrite H2; reflexivity. Qed.

Lemma quiet_pre a a2 b t : conts a2 = conts a -> fdt a2 = fdt a -> quiet a2 b t -> quiet a b t.
Proof. intros H1 H2 [Q1 Q2]. split; [rewrite <- H1; exact Q1|rewrite <- H2; exact Q2]. Qed.

Lemma quiet_post a b b2 t : conts b2 = conts b -> fdt b2 = fdt b -> quiet a b t -> quiet a b2 t.
Proof. intros H1 H2 [Q1 Q2]. split; [rewrite H1; exact Q1|rewrite H2; exact Q2]. Qed.

Lemma quiet_trans a b c t u : quiet a b t -> quiet b c u -> quiet a c (t ++ u).
Proof.
  intros (A2 & A3) (B2 & B3). split.
  - intros n k1 Hk. destruct (B2 _ _ Hk) as (k & Hk2 & E2). destruct (A2 _ _ Hk2) as (k0 & Hk0 & E0).
    exists k0. split; [exact Hk0|congruence].
  - intros fd. rewrite closed_app, in_app_iff. destruct (A3 fd) as [Ea|(Ea & Ha)], (B3 fd) as [Eb|(Eb & Hb)].
    + left. congruence.
    + right. split; [exact Eb|]. right. rewrite <- Ea. exact Hb.
    + right. split; [congruence|left; exact Ha].
    + right. split; [exact Eb|left; exact Ha].
Qed.

Definition opens (o : op) : bool :=
  match o with OAppendFd _ _ (Some _) | OBufNew _ | OAppOpen _ => true | _ => false end.

Lemma step_quiet s o s1 t : opens o = false -> step s o = Done s1 t -> quiet s s1 t.
Proof.
  intros Ho E.
  assert (HA : forall n it, add_item s n it = Done s1 t -> quiet s s1 t).
  { intros n it. unfold add_item. destruct (at_ (msgs s) n); [|discriminate]. intros X. injection X as <- <-.
    apply quiet_same; reflexivity. }
  destruct o as [|n|n|n d p|n d p|n p|n fd dup|n b locals|n b locals|fds|b|b|l b|l|l|fd|fd]; cbn [step opens] in *; try discriminate.
  - injection E as <- <-. apply quiet_same; reflexivity.
  - destruct (at_ (msgs s) n); [|discriminate]. injection E as <- <-. apply quiet_same; reflexivity.
  - destruct (at_ (msgs s) n) as [y|]; [|discriminate]. destruct (_ =? 0); [|injection E as <- <-; apply quiet_same; reflexivity].
    destruct (run_items _ _) as [[s2 t2]|] eqn:E2; [|discriminate]. pose proof (calm_quiet _ _ _ (calm_items _ _ _ _ E2)) as H2.
    assert (H3 : quiet s s2 t2) by (eapply quiet_pre; [| |exact H2]; reflexivity).
    destruct (m_contents y) as [c|]; [|injection E as <- <-; exact H3].
    destruct (contents_unref s2 c) as [[s3 t3]|] eqn:E3; [|discriminate]. injection E as <- <-.
    eapply quiet_trans; [exact H3|exact (calm_quiet _ _ _ (calm_unref _ _ _ _ E3))].
  - destruct n as [n|]; [exact (HA _ _ E)|]. injection E as <- <-. split; [eauto|intros; left; reflexivity].
  - destruct n as [n|]; [exact (HA _ _ E)|]. injection E as <- <-. apply quiet_same; reflexivity.
  - exact (HA _ _ E).
  - destruct dup; [discriminate|]. exact (HA _ _ E).
  - destruct (at_ (msgs s) n) as [y|]; [|discriminate]. destruct (buf_arg s b) as [c|]; [|discriminate].
    destruct (append_contents s y c locals) as [[s2 y2]|] eqn:E2; [|discriminate]. injection E as <- <-.
    eapply quiet_post; [| |exact (calm_quiet _ _ _ (calm_append _ _ _ _ _ _ E2))]; reflexivity.
  - destruct (at_ (msgs s) n) as [y|]; [|discriminate]. destruct (buf_arg s b) as [c|]; [|discriminate].
    destruct (cleanup_reset (m_cleanup y)) as [cl todo].
    destruct (run_items _ _) as [[s2 t2]|] eqn:E2; [|discriminate].
    destruct (append_contents s2 (with_cleanup y cl) c locals) as [[s3 x3]|] eqn:E3; [|discriminate].
    destruct (match m_contents y with Some old => contents_unref s3 old | None => Some (s3, []) end) as [[s4 t4]|] eqn:E4; [|discriminate].
    destruct (match c with Some k => contents_ref s4 k | None => Some s4 end) as [s5|] eqn:E5; [|discriminate].
    injection E as <- <-.
    assert (Q2 : quiet s s2 t2) by (eapply quiet_pre; [| |exact (calm_quiet _ _ _ (calm_items _ _ _ _ E2))]; reflexivity).
    pose proof (calm_quiet _ _ _ (calm_append _ _ _ _ _ _ E3)) as Q3.
    assert (Q4 : quiet s3 s4 t4).
    { destruct (m_contents y) as [old|]; [exact (calm_quiet _ _ _ (calm_unref _ _ _ _ E4))|].
      injection E4 as <- <-. apply quiet_same; reflexivity. }
    assert (Q5 : quiet s4 s5 []).
    { destruct c as [k|]; [exact (calm_quiet _ _ _ (calm_ref _ _ _ E5))|]. injection E5 as <-. apply quiet_same; reflexivity. }
    eapply quiet_post; [reflexivity|reflexivity|].
    pose proof (quiet_trans _ _ _ _ _ (quiet_trans _ _ _ _ _ (quiet_trans _ _ _ _ _ Q2 Q3) Q4) Q5) as Q.
    rewrite !app_nil_r in Q. exact Q.
  - destruct (at_ (bufs s) b) as [c|]; [|discriminate]. destruct (contents_ref s c) as [s2|] eqn:E2; [|discriminate].
    injection E as <- <-. eapply quiet_post; [| |exact (calm_quiet _ _ _ (calm_ref _ _ _ E2))]; reflexivity.
  - destruct (at_ (bufs s) b) as [c|]; [|discriminate].
    destruct (contents_unref _ c) as [[s2 t2]|] eqn:E2; [|discriminate]. injection E as <- <-.
    eapply quiet_pre; [| |exact (calm_quiet _ _ _ (calm_unref _ _ _ _ E2))]; reflexivity.
  - destruct (at_ (bufs s) b) as [c|]; [|discriminate]. destruct (contents_ref s c) as [s2|] eqn:E2; [|discriminate].
    pose proof (calm_quiet _ _ _ (calm_ref _ _ _ E2)) as Q.
    destruct l as [n|]; [destruct (at_ (lists s2) n); [|discriminate]|]; injection E as <- <-;
      (eapply quiet_post; [| |exact Q]; reflexivity).
  - destruct (at_ (lists s) l) as [cs|]; [|discriminate]. destruct (ref_all s cs) as [s2|] eqn:E2; [|discriminate].
    injection E as <- <-. eapply quiet_post; [| |exact (calm_quiet _ _ _ (calm_ref_all _ _ _ E2))]; reflexivity.
  - destruct (at_ (lists s) l) as [cs|]; [|discriminate].
    destruct (unref_all _ cs) as [[s2 t2]|] eqn:E2; [|discriminate]. injection E as <- <-.
    eapply quiet_pre; [| |exact (calm_quiet _ _ _ (calm_unref_all _ _ _ _ E2))]; reflexivity.
  - destruct (fdt s fd) as [[]|] eqn:Ef; try discriminate. injection E as <- <-.
    exact (calm_quiet _ _ _ (calm_close s fd)).
Qed.

(* Descriptors of the application are those which it has opened and hasn't closed *)
Lemma step_app s o s1 t fd : safe s -> step s o = Done s1 t -> opens o = false -> (forall x, o <> OAppClose x) ->
  (fdt s1 fd = Some OwApp <-> fdt s fd = Some OwApp).
Proof.
  intros Hs E Ho Hc. destruct (step_quiet _ _ _ _ Ho E) as [_ Q].
  pose proof (step_safe s o Hs) as H. rewrite E in H. destruct H as (_ & H & _).
  destruct (Q fd) as [Eq|(Eq & Hin)]; [rewrite Eq; reflexivity|]. rewrite Eq. split; [discriminate|].
  intros Ha. rewrite Ha in Hin. destruct (H _ _ Hin) as [(_ & X)|[(m & X & _)|(c & X & _)]]; try discriminate.
  destruct (Hc _ X).
Qed.

(* Messages *)
Lemma step_msgs s o s1 t : step s o = Done s1 t ->
  (length (msgs s) <= length (msgs s1))%nat /\
  (forall m x1, at_ (msgs s1) m = Some x1 -> (m < length (msgs s))%nat -> exists x, at_ (msgs s) m = Some x).
Proof.
  intros E.
  assert (Hsame : msgs s1 = msgs s -> (length (msgs s) <= length (msgs s1))%nat /\
    (forall m x1, at_ (msgs s1) m = Some x1 -> (m < length (msgs s))%nat -> exists x, at_ (msgs s) m = Some x)).
  { intros ->. split; [lia|eauto]. }
  assert (Hput : forall n y z, at_ (msgs s) n = Some y -> msgs s1 = set_at (msgs s) n z ->
    (length (msgs s) <= length (msgs s1))%nat /\
    (forall m x1, at_ (msgs s1) m = Some x1 -> (m < length (msgs s))%nat -> exists x, at_ (msgs s) m = Some x)).
  { intros n y z Hy ->. rewrite length_set_at. split; [lia|]. intros m x1. rewrite at_set_at by (eapply at_lt; exact Hy).
    destruct (Nat.eqb_spec m n) as [->|]; eauto. }
  assert (HA : forall a n it, msgs a = msgs s -> add_item a n it = Done s1 t -> (length (msgs s) <= length (msgs s1))%nat /\
    (forall m x1, at_ (msgs s1) m = Some x1 -> (m < length (msgs s))%nat -> exists x, at_ (msgs s) m = Some x)).
  { intros a n it Ha. unfold add_item. rewrite Ha. destruct (at_ (msgs s) n) as [y|] eqn:Ey; [|discriminate].
    intros X. injection X as <- <-. eapply Hput; [exact Ey|]. cbn [put_msg set_msgs msgs]. rewrite Ha. reflexivity. }
  destruct o as [|n|n|n d p|n d p|n p|n fd dup|n b locals|n b locals|fds|b|b|l b|l|l|fd|fd]; cbn [step] in E.
  - injection E as <- <-. cbn [set_msgs msgs]. rewrite app_length. cbn [length]. split; [lia|].
    intros m x1. rewrite at_app. destruct (Nat.eqb_spec m (length (msgs s))); [lia|eauto].
  - destruct (at_ (msgs s) n) as [y|] eqn:Ey; [|discriminate]. injection E as <- <-.
    eapply Hput; [exact Ey|reflexivity].
  - destruct (at_ (msgs s) n) as [y|] eqn:Ey; [|discriminate].
    destruct (m_refs y - 1 =? 0).
    + destruct (run_items _ _) as [[s2 t2]|] eqn:E2; [|discriminate].
      pose proof (proj1 (proj1 (run_items_same _ _ _ _ E2))) as M2.
      eapply (Hput n y None Ey).
      destruct (m_contents y) as [c|].
      * destruct (contents_unref s2 c) as [[s3 t3]|] eqn:E3; [|discriminate]. injection E as <- <-.
        rewrite (proj1 (proj1 (contents_unref_same _ _ _ _ E3))), M2. reflexivity.
      * injection E as <- <-. rewrite M2. reflexivity.
    + injection E as <- <-. eapply Hput; [exact Ey|reflexivity].
  - destruct n as [n|]; [eapply HA; [reflexivity|exact E]|]. injection E as <- <-. apply Hsame. reflexivity.
  - destruct n as [n|]; [eapply HA; [reflexivity|exact E]|]. injection E as <- <-. apply Hsame. reflexivity.
  - eapply HA; [reflexivity|exact E].
  - destruct dup as [d|].
    + destruct (fdt s d); [discriminate|]. refine (HA _ _ _ _ E). reflexivity.
    + eapply HA; [reflexivity|exact E].
  - destruct (at_ (msgs s) n) as [y|] eqn:Ey; [|discriminate]. destruct (buf_arg s b) as [c|]; [|discriminate].
    destruct (append_contents s y c locals) as [[s2 y2]|] eqn:E2; [|discriminate]. injection E as <- <-.
    pose proof (proj1 (append_contents_msg _ _ _ _ _ _ E2)) as (M2 & _).
    eapply (Hput n y _ Ey). unfold put_msg; cbn [set_msgs msgs]. rewrite M2; reflexivity.
  - destruct (at_ (msgs s) n) as [y|] eqn:Ey; [|discriminate]. destruct (buf_arg s b) as [c|]; [|discriminate].
    destruct (cleanup_reset (m_cleanup y)) as [cl todo].
    destruct (run_items _ _) as [[s2 t2]|] eqn:E2; [|discriminate].
    destruct (append_contents s2 (with_cleanup y cl) c locals) as [[s3 x3]|] eqn:E3; [|discriminate].
    destruct (match m_contents y with Some old => contents_unref s3 old | None => Some (s3, []) end) as [[s4 t4]|] eqn:E4; [|discriminate].
    destruct (match c with Some k => contents_ref s4 k | None => Some s4 end) as [s5|] eqn:E5; [|discriminate].
    injection E as <- <-.
    pose proof (proj1 (proj1 (run_items_same _ _ _ _ E2))) as M2.
    pose proof (proj1 (proj1 (append_contents_msg _ _ _ _ _ _ E3))) as M3.
    assert (M4 : msgs s4 = msgs s3).
    { destruct (m_contents y) as [old|]; [exact (proj1 (proj1 (contents_unref_same _ _ _ _ E4)))|congruence]. }
    assert (M5 : msgs s5 = msgs s4).
    { destruct c as [k|]; [|congruence]. exact (proj1 (contents_ref_same _ _ _ E5)). }
    eapply (Hput n y _ Ey).
    unfold put_msg. cbn [set_msgs msgs]. rewrite M5, M4, M3, M2. unfold put_msg. cbn [set_msgs msgs].
    apply set_at_twice.
  - destruct (_ && _); [|discriminate]. injection E as <- <-. apply Hsame. reflexivity.
  - destruct (at_ (bufs s) b) as [c|]; [|discriminate]. destruct (contents_ref s c) as [s2|] eqn:E2; [|discriminate].
    injection E as <- <-. apply Hsame. exact (proj1 (contents_ref_same _ _ _ E2)).
  - destruct (at_ (bufs s) b) as [c|]; [|discriminate].
    destruct (contents_unref _ c) as [[s2 t2]|] eqn:E2; [|discriminate]. injection E as <- <-.
    apply Hsame. exact (proj1 (proj1 (contents_unref_same _ _ _ _ E2))).
  - destruct (at_ (bufs s) b) as [c|]; [|discriminate]. destruct (contents_ref s c) as [s2|] eqn:E2; [|discriminate].
    pose proof (proj1 (contents_ref_same _ _ _ E2)) as M. apply Hsame.
    destruct l as [n|]; [destruct (at_ (lists s2) n); [|discriminate]|]; injection E as <- <-; exact M.
  - destruct (at_ (lists s) l) as [cs|]; [|discriminate]. destruct (ref_all s cs) as [s2|] eqn:E2; [|discriminate].
    injection E as <- <-. apply Hsame. exact (proj1 (ref_all_same _ _ _ E2)).
  - destruct (at_ (lists s) l) as [cs|]; [|discriminate].
    destruct (unref_all _ cs) as [[s2 t2]|] eqn:E2; [|discriminate]. injection E as <- <-.
    apply Hsame. exact (proj1 (proj1 (unref_all_same _ _ _ _ E2))).
  - destruct (fdt s fd); [discriminate|]. injection E as <- <-. apply Hsame. reflexivity.
  - destruct (fdt s fd) as [[]|]; try discriminate. injection E as <- <-. apply Hsame. reflexivity.
Qed.

Lemma step_kept h s o s1 t m x x1 : refs_ok h s -> step s o = Done s1 t ->
  at_ (msgs s) m = Some x -> at_ (msgs s1) m = Some x1 -> (forall b l, o <> OSetContents m b l) ->
  incl (cleanup_free (m_cleanup x)) (cleanup_free (m_cleanup x1)).
Proof.
  intros R E Hx Hx1 Ho i Hi. destruct (ends h o m) eqn:He.
  - exfalso. destruct o; cbn [ends] in He; try discriminate.
    + apply andb_true_iff in He. destruct He as [He1 He2]. apply Nat.eqb_eq in He1. subst m0. apply Z.eqb_eq in He2.
      cbn [step] in E. rewrite Hx in E. rewrite (proj1 R _ _ Hx), He2 in E. cbn in E.
      destruct (run_items _ _) as [[s2 t2]|] eqn:E2; [|discriminate].
      pose proof (proj1 (proj1 (run_items_same _ _ _ _ E2))) as M2.
      assert (M : msgs s1 = set_at (msgs s) m None).
      { destruct (m_contents x) as [c|].
        * destruct (contents_unref s2 c) as [[s3 t3]|] eqn:E3; [|discriminate]. injection E as <- <-.
          rewrite (proj1 (proj1 (contents_unref_same _ _ _ _ E3))), M2. reflexivity.
        * injection E as <- <-. rewrite M2. reflexivity. }
      rewrite M, at_set_at, Nat.eqb_refl in Hx1 by (eapply at_lt; exact Hx). discriminate.
    + apply Nat.eqb_eq in He. subst m0. eapply Ho. reflexivity.
  - destruct (kept_step h s o s1 t m x i R E Hx Hi He) as (x2 & Hx2 & Hi2). congruence.
Qed.

Lemma step_refs h s o s1 t : refs_ok h s -> step s o = Done s1 t -> refs_ok (h ++ [o]) s1.
Proof. intros R E. exact (proj1 (step_count (ItFree 0) h o [] s s1 t ltac:(discriminate) R E)). Qed.

(* Buffers *)
Definition makes_buffer (o : op) : bool := match o with OBufNew _ | OBufChild _ => true | _ => false end.

Lemma keeps_bufs s o s1 t : makes_buffer o = false -> (forall b, o <> OBufFree b) -> step s o = Done s1 t -> bufs s1 = bufs s.
Proof.
  intros Ho Hf E.
  assert (Hsame : bufs s1 = bufs s -> bufs s1 = bufs s) by auto.
  assert (HA : forall a n it, bufs a = bufs s -> add_item a n it = Done s1 t -> bufs s1 = bufs s).
  { intros a n it Ha. unfold add_item. destruct (at_ (msgs a) n) as [y|] eqn:Ey; [|discriminate].
    intros X. injection X as <- <-. exact Ha. }
  destruct o as [|n|n|n d p|n d p|n p|n fd dup|n b locals|n b locals|fds|b|b|l b|l|l|fd|fd]; cbn [step makes_buffer] in *; try discriminate.
  - injection E as <- <-. apply Hsame. reflexivity.
  - destruct (at_ (msgs s) n) as [y|] eqn:Ey; [|discriminate]. injection E as <- <-. apply Hsame. reflexivity.
  - destruct (at_ (msgs s) n) as [y|] eqn:Ey; [|discriminate].
    destruct (m_refs y - 1 =? 0); [|injection E as <- <-; apply Hsame; reflexivity].
    destruct (run_items _ _) as [[s2 t2]|] eqn:E2; [|discriminate].
    pose proof (proj1 (proj2 (proj1 (run_items_same _ _ _ _ E2)))) as M2.
    destruct (m_contents y) as [c|].
    + destruct (contents_unref s2 c) as [[s3 t3]|] eqn:E3; [|discriminate]. injection E as <- <-.
      apply Hsame. rewrite (proj1 (proj2 (proj1 (contents_unref_same _ _ _ _ E3)))), M2. reflexivity.
    + injection E as <- <-. apply Hsame. rewrite M2. reflexivity.
  - destruct n as [n|]; [apply Hsame; eapply HA; [reflexivity|exact E]|]. injection E as <- <-. apply Hsame. reflexivity.
  - destruct n as [n|]; [apply Hsame; eapply HA; [reflexivity|exact E]|]. injection E as <- <-. apply Hsame. reflexivity.
  - apply Hsame. eapply HA; [reflexivity|exact E].
  - apply Hsame. destruct dup as [d|].
    + destruct (fdt s d); [discriminate|]. refine (HA _ _ _ _ E). reflexivity.
    + eapply HA; [reflexivity|exact E].
  - destruct (at_ (msgs s) n) as [y|] eqn:Ey; [|discriminate]. destruct (buf_arg s b) as [c|]; [|discriminate].
    destruct (append_contents s y c locals) as [[s2 y2]|] eqn:E2; [|discriminate]. injection E as <- <-.
    pose proof (proj1 (append_contents_msg _ _ _ _ _ _ E2)) as (_ & M2 & _). apply Hsame. exact M2.
  - destruct (at_ (msgs s) n) as [y|] eqn:Ey; [|discriminate]. destruct (buf_arg s b) as [c|]; [|discriminate].
    destruct (cleanup_reset (m_cleanup y)) as [cl todo].
    destruct (run_items _ _) as [[s2 t2]|] eqn:E2; [|discriminate].
    destruct (append_contents s2 (with_cleanup y cl) c locals) as [[s3 x3]|] eqn:E3; [|discriminate].
    destruct (match m_contents y with Some old => contents_unref s3 old | None => Some (s3, []) end) as [[s4 t4]|] eqn:E4; [|discriminate].
    destruct (match c with Some k => contents_ref s4 k | None => Some s4 end) as [s5|] eqn:E5; [|discriminate].
    injection E as <- <-.
    pose proof (proj1 (proj2 (proj1 (run_items_same _ _ _ _ E2)))) as M2.
    pose proof (proj1 (proj2 (proj1 (append_contents_msg _ _ _ _ _ _ E3)))) as M3.
    assert (M4 : bufs s4 = bufs s3).
    { destruct (m_contents y) as [old|]; [exact (proj1 (proj2 (proj1 (contents_unref_same _ _ _ _ E4))))|congruence]. }
    assert (M5 : bufs s5 = bufs s4).
    { destruct c as [k|]; [|congruence]. exact (proj1 (proj2 (contents_ref_same _ _ _ E5))). }
    apply Hsame. cbn [put_msg set_msgs bufs]. rewrite M5, M4, M3, M2. reflexivity.
  - destruct (Hf b eq_refl).
  - destruct (at_ (bufs s) b) as [c|]; [|discriminate]. destruct (contents_ref s c) as [s2|] eqn:E2; [|discriminate].
    pose proof (proj1 (proj2 (contents_ref_same _ _ _ E2))) as M. apply Hsame.
    destruct l as [n|]; [destruct (at_ (lists s2) n); [|discriminate]|]; injection E as <- <-; exact M.
  - destruct (at_ (lists s) l) as [cs|]; [|discriminate]. destruct (ref_all s cs) as [s2|] eqn:E2; [|discriminate].
    injection E as <- <-. apply Hsame. exact (proj1 (proj2 (ref_all_same _ _ _ E2))).
  - destruct (at_ (lists s) l) as [cs|]; [|discriminate].
    destruct (unref_all _ cs) as [[s2 t2]|] eqn:E2; [|discriminate]. injection E as <- <-.
    apply Hsame. exact (proj1 (proj2 (proj1 (unref_all_same _ _ _ _ E2)))).
  - destruct (fdt s fd); [discriminate|]. injection E as <- <-. apply Hsame. reflexivity.
  - destruct (fdt s fd) as [[]|]; try discriminate. injection E as <- <-. apply Hsame. reflexivity.
Qed.

Lemma step_bufs s o s1 t : makes_buffer o = false -> step s o = Done s1 t ->
  length (bufs s1) = length (bufs s) /\ forall b c, at_ (bufs s1) b = Some c -> at_ (bufs s) b = Some c.
Proof.
  intros Ho E. assert (H : (exists b, o = OBufFree b) \/ forall b, o <> OBufFree b).
  { destruct o; try (right; discriminate). left; eauto. }
  destruct H as [(b & ->)|H]; [|rewrite (keeps_bufs _ _ _ _ Ho H E); auto]. cbn [step] in E.
  destruct (at_ (bufs s) b) as [c|] eqn:Eb; [|discriminate].
  destruct (contents_unref _ c) as [[s2 t2]|] eqn:E2; [|discriminate]. injection E as <- <-.
  rewrite (proj1 (proj2 (proj1 (contents_unref_same _ _ _ _ E2)))). cbn [set_bufs bufs]. rewrite length_set_at.
  split; [reflexivity|]. intros n k. rewrite at_set_at by (eapply at_lt; exact Eb).
  destruct (Nat.eqb n b); [discriminate|auto].
Qed.

Lemma step_bufs_forward s o s1 t b c : step s o = Done s1 t -> o <> OBufFree b -> at_ (bufs s) b = Some c -> at_ (bufs s1) b = Some c.
Proof.
  intros E Hf Hb. destruct (makes_buffer o) eqn:Ho.
  - destruct o; try discriminate; cbn [step] in E.
    + destruct (_ && _); [|discriminate]. injection E as <- <-. cbn [bufs]. rewrite at_app.
      destruct (Nat.eqb_spec b (length (bufs s))) as [->|]; [|exact Hb]. pose proof (at_lt _ _ _ Hb). lia.
    + destruct (at_ (bufs s) b0) as [k|]; [|discriminate]. destruct (contents_ref s k) as [s2|] eqn:E2; [|discriminate].
      injection E as <- <-. cbn [set_bufs bufs]. rewrite (proj1 (proj2 (contents_ref_same _ _ _ E2))), at_app.
      destruct (Nat.eqb_spec b (length (bufs s))) as [->|]; [|exact Hb]. pose proof (at_lt _ _ _ Hb). lia.
  - assert (H : (exists x, o = OBufFree x) \/ forall x, o <> OBufFree x).
    { destruct o; try (right; discriminate). left; eauto. }
    destruct H as [(x & ->)|H]; [|rewrite (keeps_bufs _ _ _ _ Ho H E); exact Hb]. cbn [step] in E.
    destruct (at_ (bufs s) x) as [k|] eqn:Ex; [|discriminate].
    destruct (contents_unref _ k) as [[s2 t2]|] eqn:E2; [|discriminate]. injection E as <- <-.
    rewrite (proj1 (proj2 (proj1 (contents_unref_same _ _ _ _ E2)))). cbn [set_bufs bufs].
    rewrite at_set_at by (eapply at_lt; exact Ex). destruct (Nat.eqb_spec b x) as [->|]; [congruence|exact Hb].
Qed.

(* A message into which received data was copied refers to that data *)
Lemma append_item s x c locals s1 x1 : append_contents s x (Some c) locals = Some (s1, x1) ->
  In (ItContents c) (cleanup_free (m_cleanup x1)).
Proof.
  assert (Hf : forall l cl j, In j (cleanup_free cl) ->
    In j (cleanup_free (fold_left (fun cl o => cleanup_add cl (Some (ItLocal o))) l cl))).
  { induction l as [|q r IH]; intros cl j Hj; cbn [fold_left]; [exact Hj|]. apply IH.
    destruct cl as [l|]; cbn [cleanup_add cleanup_free] in *; [apply in_app_iff; auto|contradiction]. }
  unfold append_contents. destruct (contents_ref s c); [|discriminate]. intros X. injection X as <- <-.
  cbn [with_cleanup m_cleanup]. apply Hf. destruct (m_cleanup x) as [l|]; cbn [cleanup_add cleanup_free].
  - apply in_app_iff. right. left. reflexivity.
  - left. reflexivity.
Qed.

Lemma copy_holds s m b c locals o s1 t x1 :
  o = OAppendContents m (Some b) locals \/ o = OSetContents m (Some b) locals ->
  at_ (bufs s) b = Some c -> step s o = Done s1 t -> at_ (msgs s1) m = Some x1 ->
  In (ItContents c) (cleanup_free (m_cleanup x1)).
Proof.
  intros Ho Hb Es Hx1.
  destruct Ho as [-> | ->]; cbn [step buf_arg] in Es; rewrite Hb in Es;
    (destruct (at_ (msgs s) m) as [x|] eqn:Ex; [|discriminate]).
  - destruct (append_contents s x (Some c) locals) as [[a2 x2]|] eqn:Ea; [|discriminate]. injection Es as <- <-.
    unfold put_msg in Hx1. cbn [set_msgs msgs] in Hx1.
    rewrite at_set_at, Nat.eqb_refl in Hx1; [injection Hx1 as <-; exact (append_item _ _ _ _ _ _ Ea)|].
    rewrite (proj1 (proj1 (append_contents_msg _ _ _ _ _ _ Ea))). exact (at_lt _ _ _ Ex).
  - destruct (cleanup_reset (m_cleanup x)) as [cl todo].
    destruct (run_items _ _) as [[a2 u2]|] eqn:E3; [|discriminate].
    destruct (append_contents a2 (with_cleanup x cl) (Some c) locals) as [[a3 x3]|] eqn:Ea; [|discriminate].
    destruct (match m_contents x with Some old => contents_unref a3 old | None => Some (a3, []) end) as [[a4 u4]|] eqn:E4; [|discriminate].
    destruct (contents_ref a4 c) as [a5|] eqn:E5; [|discriminate]. injection Es as <- <-.
    unfold put_msg in Hx1. cbn [set_msgs msgs] in Hx1.
    rewrite at_set_at, Nat.eqb_refl in Hx1; [injection Hx1 as <-; cbn [m_cleanup]; exact (append_item _ _ _ _ _ _ Ea)|].
    assert (M4 : msgs a4 = msgs a3).
    { destruct (m_contents x) as [old|]; [exact (proj1 (proj1 (contents_unref_same _ _ _ _ E4)))|congruence]. }
    rewrite (proj1 (contents_ref_same _ _ _ E5)), M4, (proj1 (proj1 (append_contents_msg _ _ _ _ _ _ Ea))),
      (proj1 (proj1 (run_items_same _ _ _ _ E3))). unfold put_msg. cbn [set_msgs msgs]. rewrite length_set_at.
    exact (at_lt _ _ _ Ex).
Qed.
