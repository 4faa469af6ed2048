(* One proxy for each remote object, and which objects are left as they are *)
From Verif Require Import Base BaseLemmas ReaderModel CodecSpec ObjModel ObjReader KernelModel ObjSpec HidlSpec TxModel TxSpec TxProps
  ProxyConv BlockModel BlockSpec BlockProofs BlockRun BlockEnds ProxyModel ProxySpec ProxyBlock ProxyObjs ProxyObjs2 ProxyObjs3 ProxyProofs
  ProxyInv ProxyInv2 ProxyInv3.

(* Nothing new *)
Record fewer (s s' : pstate) : Prop := {
  w_prx : forall j, palive s' j = true -> palive s j = true /\ p_ipc (prx s' j) = p_ipc (prx s j) /\ p_remote (prx s' j) = p_remote (prx s j);
  w_rem : forall r, r_listed (rem s' r) = true -> r_dead (rem s' r) = true -> r_listed (rem s r) = true /\ r_dead (rem s r) = true;
  w_kept : forall ri h li, In (EKept ri h li) (ptrace s') -> In (EKept ri h li) (ptrace s)
}.
Lemma fewer_refl s : fewer s s.
Proof. split; auto. Qed.
Lemma fewer_trans a b c : fewer a b -> fewer b c -> fewer a c.
Proof.
  intros [A1 A2 A3] [B1 B2 B3]. split; auto.
  - intros j H. destruct (B1 j H) as (X1 & X2 & X3), (A1 j (proj1 (B1 j H))) as (Y1 & Y2 & Y3). repeat split; congruence.
  - intros r H D. destruct (B2 r H D). auto.
Qed.
Definition not_kept (x : pev) : bool := match x with EKept _ _ _ => false | _ => true end.
Lemma fewer_emit s x : not_kept x = true -> fewer s (emit s x).
Proof.
  intros K. split; auto. intros ri h li H. cbn in H. apply in_app_or in H as [H|[->|[]]]; auto. discriminate.
Qed.
Lemma fewer_bs s t b : fewer s (set_bs s t b). Proof. split; auto. Qed.
Lemma fewer_ptx s q v : fewer s (set_ptx s q v). Proof. split; auto. Qed.
Lemma fewer_outs s l : fewer s (set_outs s l). Proof. split; auto. Qed.
Lemma fewer_prx s p v : p_ipc v = p_ipc (prx s p) -> p_remote v = p_remote (prx s p) -> fewer s (set_prx s p v).
Proof.
  intros A B. split; auto. intros j H. split; [exact H|]. cbn. destruct (upd_case (prx s) p v j) as [[-> ->]|[N ->]]; auto.
Qed.
Lemma fewer_rem s r v : (r_listed v = true -> r_dead v = true -> r_listed (rem s r) = true /\ r_dead (rem s r) = true) -> fewer s (set_rem s r v).
Proof. intros A. split; auto. cbn. intros j. destruct (upd_case (rem s) r v j) as [[-> ->]|[N ->]]; auto. Qed.
Lemma fewer_runref s o r s' : runref s o r = Ok s' -> fewer s s'.
Proof.
  unfold runref. destruct (take1 rowner_dec (o, r) (rrefs s)) as [l|]; [|discriminate].
  destruct (ralive (set_rrefs s l) r); intros X; apply ok_same in X; subst s'; [split; auto|].
  apply (fewer_trans _ (set_rrefs s l)); [split; auto|]. apply fewer_rem. discriminate.
Qed.
Lemma fewer_pref s o p s' : pref s o p = Ok s' -> fewer s s'.
Proof.
  unfold pref. destruct (palive s p) eqn:A; [|discriminate]. intros X. apply ok_same in X. subst s'. split; auto.
  intros j H. split; auto. revert H. unfold palive. cbn. destruct (Nat.eqb_spec p j) as [->|N]; auto.
Qed.
Lemma fewer_punref s o p s' : punref s o p = Ok s' -> fewer s s'.
Proof.
  unfold punref. destruct (take1 owner_dec (o, p) (prefs s)) as [l|] eqn:T; [|discriminate].
  assert (F : fewer s (set_prefs s l)).
  { split; auto. intros j H. split; auto. apply palive_in in H as (o' & H). apply palive_in. exists o'.
    apply take1_some in T as (_ & _ & T & _). now apply T. }
  destruct (palive (set_prefs s l) p); intros X; [apply ok_same in X; now subst s'|].
  apply (fewer_trans _ _ _ F). apply fewer_runref in X. refine (fewer_trans _ _ _ _ X).
  eapply fewer_trans; [|now apply fewer_emit]. destruct (p_acquired (prx s p)); [now apply fewer_emit|apply fewer_refl].
Qed.
Lemma fewer_release o : forall l s s', release s o l = Ok s' -> fewer s s'.
Proof.
  induction l as [|p l IH]; intros s s'; cbn [release].
  - intros X. apply ok_same in X. subst. apply fewer_refl.
  - destruct (punref s o p) as [| |s1] eqn:E; try discriminate. cbn [bind]. intros X.
    eapply fewer_trans; [exact (fewer_punref _ _ _ _ E)|exact (IH _ _ X)].
Qed.
Lemma fewer_on_bs s t f s' : on_bs s t f = Ok s' -> fewer s s'.
Proof. unfold on_bs. destruct (f (bs s t)) as [| |b]; try discriminate. intros X. apply ok_same in X. subst. apply fewer_bs. Qed.

Lemma when_ok {A} b (m : out A) x : when b m = Ok x -> b = true /\ m = Ok x.
Proof. destruct b; [auto|discriminate]. Qed.

Section closed.
  Context (Q : pstate -> Prop).
  Context (Qf : forall s s', Q s -> fewer s s' -> Q s').
  Context (Qh : forall s o ri li h s' p, objs s -> Q s -> handle_to_local s o ri li h = Ok (s', p) -> Q s').

  Lemma closed_convert o ri li data : forall ob s s' l, objs s -> Q s -> convert_objects s o ri li data ob = Ok (s', l) -> Q s'.
  Proof.
    induction ob as [|x ob IH]; intros s s' l O H; cbn [convert_objects].
    - intros X. apply ok_pair in X as (<- & _). exact H.
    - destruct (decode_binder_handle data x) as [[h|]|f]; [|now apply IH|discriminate].
      destruct (handle_converted s o ri li h O) as (s1 & p & E & V & _). rewrite E. cbn [bind].
      destruct (convert_objects s1 o ri li data ob) as [| |[s2 l2]] eqn:C; try discriminate. cbn [bind].
      intros X. apply ok_pair in X as (<- & _). eapply IH; [exact (v_objs _ _ _ V)| |exact C]. eapply Qh; eauto.
  Qed.
  Lemma closed_copy o ri li msg s s' l : objs s -> Q s ->
    match msg with Some (data, ob) => convert_objects s o ri li data ob | None => Ok (s, []) end = Ok (s', l) -> Q s'.
  Proof.
    intros O H. destruct msg as [[data ob]|]; [now apply closed_convert|]. intros X. apply ok_pair in X as (<- & _). exact H.
  Qed.

  Definition plain (m : pmove) : Prop :=
    match m with PNew _ _ => False | PGetRemote _ _ true => False | _ => True end.

  Lemma closed_step e s m s' : pinv e s -> plain m -> Q s -> pstep e s m = Ok s' -> Q s'.
  Proof.
    intros P M H. destruct m; cbn [pstep plain] in *; try contradiction; intros E.
    - (* PArrive *)
      apply when_ok in E as (_ & E). destruct (step (bs s t) Arrive) as [| |b]; try discriminate. cbn [bind] in E.
      destruct (pref (set_bs s t b) (OCall (t, count (bs s t))) p) as [| |s1] eqn:E1; try discriminate. cbn [bind] in E.
      apply ok_same in E. subst s'. apply (Qf s); auto. eapply fewer_trans; [apply fewer_bs|].
      eapply fewer_trans; [exact (fewer_pref _ _ _ _ E1)|]. eapply fewer_trans; [apply fewer_ptx|now apply fewer_emit].
    - apply when_ok in E as (_ & E). apply (Qf s); auto. exact (fewer_on_bs _ _ _ _ E).
    - (* PHandle *)
      apply when_ok in E as (_ & E). unfold handle_transaction in E. destruct q as [t k].
      destruct (step (bs s t) (Dispatch k)) as [| |b0]; try discriminate. cbn [bind] in E.
      destruct (negb (palive s (t_proxy (ptxs s (t, k))))) eqn:AL; [discriminate|]. apply negb_false_iff in AL.
      match type of E with (if ?c then _ else _) = _ => destruct c end.
      + destruct (meanwhile b0 l1) as [| |b1]; try discriminate. cbn [bind] in E.
        destruct (must (step b1 (Ref k))) as [| |b2]; try discriminate. cbn [bind] in E.
        destruct (meanwhile b2 l2) as [| |b3]; try discriminate. cbn [bind] in E.
        destruct (must (step b3 (Block k))) as [| |b4]; try discriminate. cbn [bind] in E.
        set (s1 := emit _ _) in E.
        assert (O1 : objs s1) by (apply objs_quiet; [apply objs_bs, P|reflexivity]).
        destruct (pref_objs s1 (OTx (t, k)) (t_proxy (ptxs s (t, k))) O1 AL) as (s2 & E2 & O2 & _).
        rewrite E2 in E. cbn [bind] in E.
        match type of E with (do (_, _) <- ?c; _) = _ => destruct c as [| |[s3 l]] eqn:E3; try discriminate end. cbn [bind] in E.
        match type of E with match ?c with _ => _ end = _ => destruct c as [fwd|]; [|discriminate] end.
        destruct (meanwhile (bs s3 t) l3) as [| |b5]; try discriminate. cbn [bind] in E.
        destruct (must (step b5 (Return k (None, 0)))) as [| |b6]; try discriminate. cbn [bind] in E.
        apply ok_same in E. subst s'. apply (Qf s3); [|eapply fewer_trans; [apply fewer_bs|apply fewer_ptx]].
        refine (closed_copy _ _ _ msg _ _ _ O2 _ E3). apply (Qf s); auto.
        eapply fewer_trans; [apply fewer_bs|]. eapply fewer_trans; [|exact (fewer_pref _ _ _ _ E2)]. now apply fewer_emit.
      + destruct (meanwhile b0 l1) as [| |b1]; try discriminate. cbn [bind] in E.
        destruct (must (step b1 (Return k (None, - EBADMSG)))) as [| |b2]; try discriminate. cbn [bind] in E.
        apply ok_same in E. subst s'. apply (Qf s); auto. eapply fewer_trans; [apply fewer_bs|].
        eapply fewer_trans; [apply fewer_ptx|now apply fewer_emit].
    - apply when_ok in E as (_ & E). unfold send in E. destruct (t_fwd (ptxs s q)); [|discriminate]. apply ok_same in E. subst s'.
      apply (Qf s); auto. eapply fewer_trans; [apply fewer_ptx|now apply fewer_emit].
    - (* PReply *)
      apply when_ok in E as (_ & E). unfold tx_reply in E. destruct q as [t k].
      match type of E with (if ?c then _ else _) = _ => destruct c; [discriminate|] end.
      match type of E with (do (_, _) <- ?c; _) = _ => destruct c as [| |[s1 l]] eqn:E1; try discriminate end. cbn [bind] in E.
      match type of E with match ?c with _ => _ end = _ => destruct c as [fwd|]; [|discriminate] end.
      destruct (punref s1 (OTx (t, k)) (t_proxy (ptxs s (t, k)))) as [| |s2] eqn:E2; try discriminate. cbn [bind] in E.
      set (s0 := emit s (EReplied (t, k) status reply)) in E1.
      assert (O0 : objs s0) by (apply objs_quiet; [apply P|reflexivity]).
      assert (H1 : Q s1).
      { assert (H0 : Q s0) by (apply (Qf s); auto; now apply fewer_emit).
        refine (closed_copy (OReply (t, k)) (r_ipc (rem s (p_remote (prx s (t_proxy (ptxs s (t, k))))))) (p_ipc (prx s (t_proxy (ptxs s (t, k))))) (match reply with Some m => m | None => None end) s0 s1 l O0 H0 _).
        destruct reply as [[[data ob]|]|]; exact E1. }
      assert (H2 : Q s2) by (apply (Qf s1); auto; exact (fewer_punref _ _ _ _ E2)).
      match type of E with (let (_, _) := ?c in _) = _ => assert (H3 : Q (fst c)); [|destruct c as [s3 token]] end.
      { destruct fwd; cbn; auto. apply (Qf s2); auto. apply fewer_outs. }
      cbn [fst] in H3. match type of E with (do _ <- ?c; _) = _ => destruct c as [| |s4] eqn:E4; try discriminate end. cbn [bind] in E.
      apply ok_same in E. subst s'. apply (Qf s3); auto. eapply fewer_trans; [exact (fewer_on_bs _ _ _ _ E4)|apply fewer_ptx].
    - apply when_ok in E as (_ & E). apply (Qf s); auto. unfold tx_reply_end in E.
      destruct (t_dead (ptxs s q)); [|apply ok_same in E; subst; apply fewer_ptx].
      destruct (palive s (t_proxy (ptxs s q))); [|discriminate].
      destruct (r_dead (rem s (p_remote (prx s (t_proxy (ptxs s q)))))); apply ok_same in E; subst s'; [apply fewer_ptx|].
      eapply fewer_trans; [apply fewer_ptx|]. apply fewer_rem. discriminate.
    - apply when_ok in E as (_ & E). unfold tx_destroy in E. destruct q as [t k].
      destruct (on_bs s t _) as [| |s1] eqn:E1; try discriminate. cbn [bind] in E.
      destruct (release s1 _ _) as [| |s2] eqn:E2; try discriminate. cbn [bind] in E. apply ok_same in E. subst s'.
      apply (Qf s); auto. eapply fewer_trans; [exact (fewer_on_bs _ _ _ _ E1)|].
      eapply fewer_trans; [exact (fewer_release _ _ _ _ E2)|apply fewer_ptx].
    - apply when_ok in E as (_ & E). apply (Qf s); auto. exact (fewer_punref _ _ _ _ E).
    - apply when_ok in E as (_ & E). apply (Qf s); auto. exact (fewer_release _ _ _ _ E).
    - apply when_ok in E as (_ & E). apply (Qf s); auto. exact (fewer_pref _ _ _ _ E).
    - apply when_ok in E as (_ & E). apply (Qf s); auto. exact (fewer_punref _ _ _ _ E).
    - apply when_ok in E as (_ & E). apply (Qf s); auto. eapply fewer_trans; [|exact (fewer_punref _ _ _ _ E)]. now apply fewer_prx.
    - apply when_ok in E as (_ & E). unfold proxy_acquire in E.
      destruct (pref s OKernel p) as [| |s1] eqn:E1; try discriminate. cbn [bind] in E. apply (Qf s); auto.
      pose proof (fewer_pref _ _ _ _ E1) as F1.
      match type of E with (if ?c then _ else _) = _ => destruct c end; apply ok_same in E; subst s'; auto.
      eapply fewer_trans; [exact F1|]. eapply fewer_trans; [|now apply fewer_emit].
      assert (X : prx s1 = prx s). { unfold pref in E1. destruct (palive s p); [|discriminate]. apply ok_same in E1. now subst. }
      apply fewer_prx; cbn; now rewrite X.
    - apply when_ok in E as (_ & E). apply (Qf s); auto. exact (fewer_punref _ _ _ _ E).
    - apply when_ok in E as (_ & E). apply ok_same in E. subst s'. apply (Qf s); auto. apply fewer_rem. discriminate.
    - destruct maybe_dead; [contradiction|]. apply ok_same in E. subst s'. apply (Qf s); auto. unfold get_remote.
      destruct (find_remote s ipc h); cbn [fst]; [split; auto|].
      split; auto. cbn. intros r. destruct (upd_case (rem s) (nrem s) {| r_ipc := ipc; r_handle := h; r_dead := false; r_listed := true |} r) as [[-> ->]|[N ->]]; auto.
      discriminate.
    - apply when_ok in E as (_ & E). apply ok_same in E. subst s'. apply (Qf s); auto. apply fewer_rem. discriminate.
    - apply when_ok in E as (_ & E). apply (Qf s); auto. exact (fewer_runref _ _ _ _ E).
  Qed.
End closed.

(* ---- one proxy *)
Lemma single_fewer s s' : single s -> fewer s s' -> single s'.
Proof.
  intros H F p1 p2 A B C D. destruct (w_prx _ _ F _ A) as (A1 & A2 & A3), (w_prx _ _ F _ B) as (B1 & B2 & B3). apply H; congruence.
Qed.
Lemma single_handle s o ri li h s' p : objs s -> single s -> handle_to_local s o ri li h = Ok (s', p) -> single s'.
Proof.
  intros O H E. destruct (handle_converted s o ri li h O) as (s1 & p1 & E1 & V & _). rewrite E1 in E. apply ok_pair in E as (<- & _).
  exact (v_single _ _ _ V H).
Qed.
Lemma single_step e s m s' : pinv e s -> single s ->
  match m with PNew ipc o => forall p, palive s p = true -> ~ (p_ipc (prx s p) = ipc /\ p_remote (prx s p) = o) | _ => True end ->
  pstep e s m = Ok s' -> single s'.
Proof.
  intros P H G E.
  assert (M : plain m \/ (exists i o, m = PNew i o) \/ exists i h, m = PGetRemote i h true).
  { destruct m; cbn; eauto 6. destruct maybe_dead; eauto 6. }
  destruct M as [M|[(i & o & ->)|(i & h & ->)]].
  - eapply (closed_step single); eauto using single_fewer, single_handle.
  - cbn [pstep] in E. apply when_ok in E as (A & E). apply ok_same in E. subst s'.
    apply rowned_in in A. apply (o_r _ (p_objs _ _ P)) in A.
    destruct (proxy_new_objs s OApp i o (p_objs _ _ P) A) as (_ & _ & _ & _ & N & _ & (B1 & B2 & B3) & B4 & B5 & _).
    set (s' := fst (proxy_new s OApp i o)) in *.
    assert (AL : forall j, palive s' j = true -> j = nprx s \/ palive s j = true /\ prx s' j = prx s j).
    { intros j J. destruct (Nat.lt_ge_cases j (nprx s)) as [L|L]; [right; rewrite <- B5, B4 by auto; auto|left].
      destruct (proxy_new_objs s OApp i o (p_objs _ _ P) A) as (O' & _). pose proof (alive_range _ _ O' J) as R. fold s' in R. lia. }
    intros p1 p2 X1 X2 X3 X4.
    destruct (AL _ X1) as [->|(Y1 & Z1)], (AL _ X2) as [->|(Y2 & Z2)]; auto.
    + exfalso. apply (G p2 Y2). rewrite <- Z2. split; congruence.
    + exfalso. apply (G p1 Y1). rewrite <- Z1. split; congruence.
    + apply H; congruence.
  - cbn [pstep] in E. apply ok_same in E. subst s'.
    unfold get_remote. destruct (find_remote s i h); cbn [fst]; intros p1 p2; apply H.
Qed.

Lemma single_run e : forall l s s', pinv e s -> single s -> no_second e s l -> prun e s l = Ok s' -> single s'.
Proof.
  induction l as [|m l IH]; intros s s' P H G; cbn [prun no_second] in *.
  - intros X. apply ok_same in X. now subst.
  - destruct G as (G1 & G2). destruct (pstep_fine e s m P) as [->|[(-> & _)|(s1 & E & P1)]]; try discriminate.
    rewrite E in *. cbn [bind]. apply IH; auto. exact (single_step e s m s1 P H G1 E).
Qed.

(* ---- objects are kept as they are only if they are dead *)
Definition lively (s : pstate) : Prop :=
  (forall r, r_listed (rem s r) = true -> r_dead (rem s r) = false) /\ forall ri h li, ~ In (EKept ri h li) (ptrace s).
Lemma lively_fewer s s' : lively s -> fewer s s' -> lively s'.
Proof.
  intros (A & B) F. split.
  - intros r L. destruct (r_dead (rem s' r)) eqn:D; auto. destruct (w_rem _ _ F r L D) as (X & Y). rewrite A in Y; auto.
  - intros ri h li H. exact (B _ _ _ (w_kept _ _ F _ _ _ H)).
Qed.
Lemma lively_handle s o ri li h s' p : objs s -> lively s -> handle_to_local s o ri li h = Ok (s', p) -> lively s'.
Proof.
  intros O (A & B) E. pose proof (handle_new s o ri li h s' p O E) as N.
  destruct (handle_converted s o ri li h O) as (s1 & p1 & E1 & V & _ & _ & _ & D). rewrite E1 in E. apply ok_pair in E as (-> & ->). split.
  - intros r L. destruct (Nat.lt_ge_cases r (nrem s)) as [R|R].
    + rewrite (v_rem _ _ _ V r R) in *. auto.
    + apply N; auto. exact (listed_range _ _ (v_objs _ _ _ V) L).
  - assert (P : exists i, p = Some i).
    { destruct p as [i|]; eauto. destruct (D eq_refl) as (r & (R & _) & X). rewrite A in X by auto. discriminate. }
    destruct P as (i & ->). unfold handle_to_local in E1.
    destruct (get_remote_objs s RTemp ri h false O) as (s2 & r & E2 & O2 & G2 & _ & T2 & _); [discriminate|]. rewrite E2 in E1.
    assert (K2 : forall a b c, ~ In (EKept a b c) (ptrace s2)) by now rewrite T2.
    match type of E1 with (do (_, _) <- ?c; _) = _ => destruct c as [| |[s3 p3]] eqn:E3; try discriminate end. cbn [bind] in E1.
    match type of E1 with (do _ <- ?c; _) = _ => destruct c as [| |s4] eqn:E4; try discriminate end. cbn [bind] in E1.
    apply ok_pair in E1 as (-> & ->). apply fewer_runref in E4.
    assert (K3 : forall a b c, ~ In (EKept a b c) (ptrace s3)).
    { destruct (find_proxy s2 li r) as [j|].
      - destruct (pref s2 o j) as [| |s5] eqn:E5; try discriminate. cbn [bind] in E3. apply ok_pair in E3 as (<- & _).
        apply fewer_pref in E5. intros a b c H. exact (K2 _ _ _ (w_kept _ _ E5 _ _ _ H)).
      - destruct (r_dead (rem s2 r)); [discriminate|]. cbn in E3. apply ok_pair in E3 as (<- & _). cbn.
        intros a b c H. apply in_app_or in H as [H|[H|[]]]; [exact (K2 _ _ _ H)|discriminate]. }
    intros a b c H. apply (w_kept _ _ E4) in H. cbn in H. apply in_app_or in H as [H|[H|[]]]; [exact (K3 _ _ _ H)|discriminate].
Qed.
Lemma lively_run e : forall l s s', pinv e s -> lively s -> no_maybe_dead l -> prun e s l = Ok s' -> lively s'.
Proof.
  induction l as [|m l IH]; intros s s' P H G; cbn [prun] in *.
  - intros X. apply ok_same in X. now subst.
  - destruct (pstep_fine e s m P) as [->|[(-> & _)|(s1 & E & P1)]]; try discriminate.
    rewrite E. cbn [bind]. apply IH; auto; [|intros ipc h X; apply (G ipc h); now right].
    assert (M : plain m \/ (exists i o, m = PNew i o)).
    { destruct m; cbn; eauto 6. destruct maybe_dead; auto. exfalso. apply (G ipc h). now left. }
    destruct M as [M|(i & o & ->)].
    + exact (closed_step lively lively_fewer lively_handle e s m s1 P M H E).
    + cbn [pstep] in E. apply when_ok in E as (_ & E). apply ok_same in E. subst s1. destruct H as (A & B). split; cbn.
      * exact A.
      * intros a b c X. apply in_app_or in X as [X|[X|[]]]; [exact (B _ _ _ X)|discriminate].
Qed.
