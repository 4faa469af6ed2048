(* Every step of ProxyModel.v keeps the invariant: what happens to the replies *)
From Verif Require Import Base BaseLemmas ReaderModel CodecSpec ObjModel ObjReader KernelModel ObjSpec HidlSpec TxModel TxSpec TxProps
  ProxyConv BlockModel BlockSpec BlockProofs BlockRun BlockEnds ProxyModel ProxySpec ProxyBlock ProxyObjs ProxyObjs2 ProxyObjs3 ProxyProofs
  ProxyInv ProxyInv2.

Lemma fine_send e s q : pinv e s -> fine e (excuse e s (PSend q)) (pstep e s (PSend q)).
Proof.
  intros P. cbn [pstep excuse]. apply fine_when. intros A. apply at_stage_eq in A. unfold send.
  destruct (tx_here e s q P) as (TA & K & PN & C1 & C2 & C3 & C4 & C5 & C6 & C7); [congruence|].
  unfold tale in TA. rewrite A in *. destruct TA as (msg & TA1 & TA2 & TA3).
  destruct (t_fwd (ptxs s q)) as [d|] eqn:FW.
  - right. right. eexists. split; [reflexivity|]. set (s' := emit _ _).
    assert (PT : ptxs s' q = t_set_stage (ptxs s q) QSent) by (cbn; now rewrite updk_same).
    apply (pinv_next e s _ q P).
    + apply objs_quiet; [|reflexivity]. apply objs_ptx, P.
    + apply (known_same s); [exact (p_known _ _ P)| |reflexivity]. eapply steady_trans; [apply steady_ptx|apply steady_emit].
    + intros t. apply P.
    + intros q' N. eapply frame_trans; [now apply (frame_ptx _ q (t_set_stage (ptxs s q) QSent))|].
      apply frame_emit. cbn. apply key_eqb_neq. congruence.
    + split.
      * unfold tale. rewrite PT. cbn [t_set_stage t_stage t_proxy t_fwd t_code t_flags t_dead].
        change (prx s') with (prx s). change (rem s') with (rem s). change (bs s') with (bs s).
        exists msg, d. split; [exact FW|]. split; [|split; [|exact TA3]].
        -- unfold s'. cbn [emit set_ptx ptrace]. rewrite story_app, TA1. unfold story. cbn [filter concerns]. rewrite key_eqb_refl. reflexivity.
        -- rewrite FW. eapply carried_mono; [|exact TA2]. eexists. reflexivity.
      * right. rewrite PT. cbn [t_set_stage t_stage t_proxy pending has_request has_reply] in *.
        split; [discriminate|]. tauto.
  - right. left. split; [reflexivity|]. destruct msg as [[data ob]|].
    + destruct TA2 as (d & TA2 & _). discriminate.
    + eauto.
Qed.

Lemma fine_reply e s q status reply : pinv e s -> fine e (excuse e s (PReply q status reply)) (pstep e s (PReply q status reply)).
Proof.
  intros P. cbn [pstep]. apply fine_when. intros A. apply at_stage_eq in A. unfold tx_reply.
  destruct (tx_here e s q P) as (TA & K & PN & C1 & C2 & C3 & C4 & C5 & C6 & C7); [congruence|].
  destruct q as [t k] eqn:Q. rewrite <- Q in *. assert (Q1 : fst q = t) by now subst. assert (Q2 : snd q = k) by now subst. clear Q.
  rewrite Q1, Q2 in *. cbn [excuse]. rewrite A in *. cbn [pending has_request has_reply] in C4, C5, C6, C7. setoid_rewrite andb_true_r in C4.
  set (p := t_proxy (ptxs s q)) in *. set (pi := p_ipc (prx s p)). set (r := p_remote (prx s p)). set (ri := r_ipc (rem s r)).
  unfold tale in TA. rewrite A, Q1, Q2 in TA. fold p in TA. destruct TA as (msg & d & TA0 & TA1 & TA2 & TA3).
  assert (TX : In (OTx q, p) (prefs s)) by (apply cnt_in; rewrite C4, Nat.eqb_refl; lia).
  assert (AL : palive s p = true) by (apply palive_in; eauto).
  rewrite AL. cbn [negb]. set (s0 := emit s (EReplied q status reply)).
  assert (O0 : objs s0) by (apply objs_quiet; [apply P|reflexivity]).
  set (m := match reply with Some m => m | None => None end).
  assert (EQ1 : match reply with
      | Some (Some (data, ob)) => convert_objects s0 (OReply q) ri pi data ob
      | _ => Ok (s0, [])
      end = match m with Some (data, ob) => convert_objects s0 (OReply q) ri pi data ob | None => Ok (s0, []) end).
  { unfold m. destruct reply as [[[data ob]|]|]; reflexivity. }
  rewrite EQ1. clear EQ1.
  pose proof (copy_cases e s0 (OReply q) ri pi (e_proto e ri) m O0) as CC. cbn zeta in CC.
  destruct CC as [(CC1 & CC2)|(s1 & l & CC1 & V & _ & CC2)]; rewrite CC1; cbn [bind].
  { right. left. split; [reflexivity|]. unfold m in CC2. destruct reply as [[[data ob]|]|]; [apply CC2|destruct (CC2 Io32)..]. }
  destruct CC2 as [(data & ob & f & M & CC2 & CC3)|(fwd & CC2 & CC3)].
  { unfold m in M. destruct reply as [[[data' ob']|]|]; try discriminate. injection M as -> ->.
    unfold reply_to_local, set_contents. rewrite CC2. cbn [Base.bind]. right. left. split; [reflexivity|]. exact CC3. }
  assert (FW : reply_to_local (e_io e) (e_proto e ri) (converter_of l) reply = Base.Ok fwd).
  { unfold m in CC2. unfold reply_to_local, set_contents. destruct reply as [[[data ob]|]|]; [destruct CC2 as (d0 & CC2 & ->); now rewrite CC2|now rewrite CC2..]. }
  rewrite FW. clear FW CC2.
  assert (CR : carried_reply (e_io e) (e_proto e ri) (ptrace s1) ri pi reply fwd) by (unfold m in CC3; destruct reply as [[[data ob]|]|]; exact CC3).
  assert (TX1 : In (OTx q, p) (prefs s1)).
  { apply cnt_in. rewrite (v_cnt _ _ _ V) by discriminate. change (cnt s0 (OTx q) p) with (cnt s (OTx q) p). now apply cnt_in. }
  destruct (punref_shrinks s1 (OTx q) p (v_objs _ _ _ V) TX1) as (s2 & -> & SK & SC). cbn [bind].
  set (a := mapped_status status). change (if 0 <? status then - EFAULT else status) with a.
  set (st := match fwd with Some d => (set_outs s2 (outs s2 ++ [d]), Some (Z.of_nat (length (outs s2)))) | None => (s2, None) end).
  destruct st as [s3 token] eqn:ST. subst st.
  assert (S3 : objs s3 /\ steady s2 s3 /\ bs s3 = bs s2 /\ ptxs s3 = ptxs s2 /\ prx s3 = prx s2 /\ nprx s3 = nprx s2 /\ rem s3 = rem s2 /\ ptrace s3 = ptrace s2 /\
     prefs s3 = prefs s2 /\ delivers (outs s3) token fwd /\ forall q', frame s2 s3 q').
  { destruct fwd as [d0|]; injection ST as <- <-.
    - split; [apply objs_outs, SK|]. split; [apply steady_outs|]. do 7 (split; [reflexivity|]). split; [|intros; apply frame_outs].
      cbn. split; [lia|]. rewrite Nat2Z.id, nth_error_app2, Nat.sub_diag by lia. reflexivity.
    - split; [apply SK|]. split; [apply steady_refl|]. do 7 (split; [reflexivity|]). split; [reflexivity|intros; apply frame_refl]. }
  destruct S3 as (O3 & SY3 & B1 & B2 & B3 & B4 & B5 & B6 & B7 & B8 & B9).
  assert (BS : bs s3 t = bs s t) by (rewrite B1, (g_bs _ _ (k_grows _ _ _ SK)), (g_bs _ _ (v_grows _ _ _ V)); reflexivity).
  unfold on_bs. rewrite BS.
  destruct (do_complete (bs s t) k (token, a) (reached_inv _ _ _ (p_reach _ _ P t)) K) as (b & E & I & AF); [rewrite C7; lia|].
  rewrite E. cbn [must bind]. pose proof (touched_step _ _ _ _ _ _ E I eq_refl AF) as TF. rewrite C7 in TF.
  right. right. eexists. split; [reflexivity|]. set (x := {| t_stage := QReplied |}).
  assert (S13 : steady s s3).
  { eapply steady_trans; [apply steady_emit|]. eapply steady_trans; [exact (grows_steady _ _ (v_grows _ _ _ V))|].
    eapply steady_trans; [exact (grows_steady _ _ (k_grows _ _ _ SK))|exact SY3]. }
  assert (KN1 : known s1).
  { apply (known_converted s0 s1 (OReply q)); auto. apply (known_same s); [exact (p_known _ _ P)|apply steady_emit|reflexivity]. }
  apply (pinv_next e s _ q P).
  - apply objs_ptx, objs_bs. exact O3.
  - apply (known_same s2); [exact (known_shrinks _ _ _ KN1 SK)| |exact B4].
    eapply steady_trans; [exact SY3|]. eapply steady_trans; [apply steady_bs|apply steady_ptx].
  - intros t'. cbn [set_ptx bs]. apply reached_upd; [|eapply reached_step; [apply P|exact E]].
    intros j. rewrite B1, (g_bs _ _ (k_grows _ _ _ SK)), (g_bs _ _ (v_grows _ _ _ V)). apply P.
  - intros q' N.
    eapply frame_trans; [apply (frame_emit s (EReplied q status reply)); cbn; apply key_eqb_neq; congruence|]. fold s0.
    eapply frame_trans; [apply (frame_converted _ _ _ _ V); intros [X|[X|[X|X]]]; try discriminate X; injection X; congruence|].
    eapply frame_trans; [apply (frame_shrinks _ _ _ _ SK); intros [X|[X|[X|X]]]; try discriminate X; injection X; congruence|].
    eapply frame_trans; [apply B9|].
    eapply frame_trans; [rewrite <- Q1; eapply (frame_touched s3 q b); [rewrite Q1, Q2, BS; exact TF|exact N]|]. rewrite Q1.
    now apply frame_ptx.
  - set (s' := set_ptx _ _ _).
    assert (PT : ptxs s' q = x) by (cbn; now rewrite updk_same).
    assert (BF : bs s' t = b) by (cbn; now rewrite upd_same).
    assert (PX : p_ipc (prx s3 p) = pi /\ p_remote (prx s3 p) = r) by (apply (y_prx _ _ S13); exact PN).
    destruct PX as (PX1 & PX2).
    assert (RX : r_ipc (rem s3 r) = ri /\ r_handle (rem s3 r) = r_handle (rem s r)) by (apply (y_rem _ _ S13); apply (p_known _ _ P); exact PN).
    destruct RX as (RX1 & RX2).
    assert (TR : exists l', ptrace s' = ptrace s1 ++ l').
    { change (ptrace s') with (ptrace s3). rewrite B6. exact (g_trace _ _ (k_grows _ _ _ SK)). }
    assert (TR0 : exists l', ptrace s' = ptrace s ++ l') by exact (y_trace _ _ S13).
    assert (CN2 : forall o j, o <> OReply q -> o <> OTx q -> cnt s' o j = cnt s o j).
    { intros o j N1 N2. change (cnt s' o j) with (cnt s3 o j). unfold cnt at 1. rewrite B7. change (cnt s2 o j = cnt s o j).
      rewrite (k_cnt _ _ _ SK) by auto. rewrite (v_cnt _ _ _ V) by auto. reflexivity. }
    split.
    + unfold tale. rewrite Q1, Q2, BF, PT. change (prx s') with (prx s3). change (rem s') with (rem s3). change (outs s') with (outs s3).
      cbn [x t_stage t_proxy t_fwd t_code t_flags t_dead]. rewrite PX1, PX2, RX1, RX2.
      exists msg, d, status, reply, fwd, token. split; [exact TA0|]. split; [|split; [|split; [|split; [|split]]]].
      * change (ptrace s') with (ptrace s3). rewrite B6, (shrinks_story _ _ _ q SK), (converted_story _ _ _ q V).
        unfold s0. cbn [emit ptrace]. rewrite story_app, TA1. unfold story. cbn [filter concerns]. rewrite key_eqb_refl. reflexivity.
      * eapply carried_mono; [exact TR0|exact TA2].
      * eapply carried_reply_mono; [exact TR|exact CR].
      * exact B8.
      * reflexivity.
      * rewrite (a_calls _ _ _ _ _ (h_this _ _ _ _ _ TF)), TA3. reflexivity.
    + right. rewrite Q1, Q2, BF, PT. cbn [x t_stage t_proxy pending has_request has_reply].
      split; [discriminate|]. split; [exact (touched_count _ _ _ _ _ TF K)|].
      split; [change (nprx s') with (nprx s3); pose proof (y_nprx _ _ S13); lia|].
      split; [intros j J; rewrite CN2 by discriminate; auto|].
      split; [rewrite CN2 by discriminate; auto|].
      split; [rewrite CN2 by discriminate; intros Z; eapply answered_mono; [apply TF|apply C3; lia]|].
      split; [|split; [auto|split; [auto|apply (a_app _ _ _ _ _ (h_this _ _ _ _ _ TF))]]].
      intros j. rewrite andb_false_r. change (cnt s' (OTx q) j) with (cnt s3 (OTx q) j). unfold cnt. rewrite B7. change (cnt s2 (OTx q) j = 0%nat).
      pose proof (SC j) as Z. rewrite (v_cnt _ _ _ V) in Z by discriminate. change (cnt s0 (OTx q) j) with (cnt s (OTx q) j) in Z. rewrite C4 in Z.
      destruct (Nat.eqb_spec j p), (Nat.eqb_spec p j); try congruence; lia.
Qed.

(* Only the stage changes *)
Lemma next_stage e s q st : pinv e s -> t_stage (ptxs s q) = QReplied -> st = QDone ->
  pinv e (set_ptx s q (t_set_stage (ptxs s q) st)).
Proof.
  intros P A ->. destruct (tx_here e s q P) as (TA & K & PN & C1 & C2 & C3 & C4 & C5 & C6 & C7); [congruence|].
  set (s' := set_ptx _ _ _).
  assert (PT : ptxs s' q = t_set_stage (ptxs s q) QDone) by (cbn; now rewrite updk_same).
  apply (pinv_next e s _ q P).
  - apply objs_ptx, P.
  - exact (p_known _ _ P).
  - apply P.
  - intros q' N. now apply frame_ptx.
  - split.
    + unfold tale in *. rewrite PT. rewrite A in TA. exact TA.
    + right. rewrite PT. rewrite A in *. cbn [t_set_stage t_stage t_proxy pending has_request has_reply] in *. split; [discriminate|]. tauto.
Qed.

Lemma story_in q x t : In x (story q t) -> In x t.
Proof. intros H. now apply filter_In in H as (H & _). Qed.

Lemma fine_reply_end e s q : pinv e s -> fine e (excuse e s (PReplyEnd q)) (pstep e s (PReplyEnd q)).
Proof.
  intros P. cbn [pstep excuse]. apply fine_when. intros A. apply at_stage_eq in A. unfold tx_reply_end.
  pose proof (next_stage e s q QDone P A eq_refl) as P1.
  destruct (t_dead (ptxs s q)) eqn:D; [|right; right; eauto].
  destruct (palive s (t_proxy (ptxs s q))) eqn:AL.
  - destruct (r_dead (rem s (p_remote (prx s (t_proxy (ptxs s q)))))); [right; right; eauto|].
    now apply (fine_remote e _ _ _ (r_set_listed (r_set_dead (rem s (p_remote (prx s (t_proxy (ptxs s q))))) true) false) P1).
  - right. left. split; [reflexivity|]. split; [reflexivity|].
    destruct (tx_here e s q P) as (TA & _); [congruence|]. unfold tale in TA. rewrite A in TA.
    destruct TA as (msg & d & status & reply & fwd & token & _ & T1 & _ & _ & _ & T2 & _). exists reply.
    rewrite D in T2. symmetry in T2. apply Z.eqb_eq in T2. subst status. apply (story_in q). rewrite T1.
    apply in_or_app. right. right. now left.
Qed.

Lemma fine_destroy e s q : pinv e s -> fine e False (pstep e s (PDestroy q)).
Proof.
  intros P. cbn [pstep]. apply fine_when. intros A. apply at_stage_eq in A. unfold tx_destroy.
  destruct (tx_here e s q P) as (TA & K & PN & C1 & C2 & C3 & C4 & C5 & C6 & C7); [congruence|].
  destruct q as [t k] eqn:Q. rewrite <- Q in *. assert (Q1 : fst q = t) by now subst. assert (Q2 : snd q = k) by now subst. clear Q.
  rewrite Q1, Q2 in *. rewrite A in *. cbn [pending has_request has_reply] in C4, C5, C6, C7. setoid_rewrite andb_false_r in C4.
  unfold tale in TA. rewrite A, Q1, Q2 in TA.
  unfold on_bs.
  destruct (do_unref (bs s t) k (reached_inv _ _ _ (p_reach _ _ P t)) K) as (b & E & I & AF); [rewrite C7; lia|].
  rewrite E. cbn [must bind]. pose proof (touched_step _ _ _ _ _ _ E I eq_refl AF) as TF. rewrite C7 in TF. change (1 - 1) with 0 in TF.
  assert (O1 : objs (set_bs s t b)) by apply objs_bs, P.
  destruct (release_all (set_bs s t b) (ORequest q) O1) as (s2 & -> & SK & SC). cbn [bind].
  right. right. eexists. split; [reflexivity|].
  assert (PX : ptxs s2 q = ptxs s q) by (rewrite (g_ptxs _ _ (k_grows _ _ _ SK)); reflexivity).
  assert (SY : steady s s2).
  { eapply steady_trans; [apply steady_bs|]. exact (grows_steady _ _ (k_grows _ _ _ SK)). }
  apply (pinv_next e s _ q P).
  - apply objs_ptx, SK.
  - apply (known_same s); [exact (p_known _ _ P)| |exact (k_nprx _ _ _ SK)]. eapply steady_trans; [exact SY|apply steady_ptx].
  - intros t'. cbn [set_ptx bs]. rewrite (g_bs _ _ (k_grows _ _ _ SK)). apply reached_upd; [apply P|]. eapply reached_step; [apply P|exact E].
  - intros q' N.
    eapply frame_trans; [rewrite <- Q1; eapply (frame_touched s q b); [rewrite Q1, Q2; exact TF|exact N]|]. rewrite Q1.
    eapply frame_trans; [apply (frame_shrinks _ _ _ _ SK); intros [X|[X|[X|X]]]; try discriminate X; injection X; congruence|].
    now apply frame_ptx.
  - set (s' := set_ptx _ _ _).
    assert (PT : ptxs s' q = t_set_stage (ptxs s q) QFreed) by (cbn; rewrite updk_same; now rewrite PX).
    assert (BF : bs s' t = b) by (cbn; rewrite (g_bs _ _ (k_grows _ _ _ SK)); cbn; now rewrite upd_same).
    assert (CN : forall o j, o <> ORequest q -> cnt s' o j = cnt s o j).
    { intros o j N. change (cnt s' o j) with (cnt s2 o j). now rewrite (k_cnt _ _ _ SK). }
    destruct (y_prx _ _ SY _ PN) as (PX1 & PX2).
    assert (RX : r_ipc (rem s2 (p_remote (prx s (t_proxy (ptxs s q))))) = r_ipc (rem s (p_remote (prx s (t_proxy (ptxs s q))))) /\
      r_handle (rem s2 (p_remote (prx s (t_proxy (ptxs s q))))) = r_handle (rem s (p_remote (prx s (t_proxy (ptxs s q)))))).
    { apply (y_rem _ _ SY). apply (p_known _ _ P). exact PN. }
    destruct RX as (RX1 & RX2).
    split.
    + unfold tale. rewrite Q1, Q2, BF, PT. change (prx s') with (prx s2). change (rem s') with (rem s2). change (outs s') with (outs s2).
      change (ptrace s') with (ptrace s2).
      cbn [t_set_stage t_stage t_proxy t_fwd t_code t_flags t_dead]. rewrite PX1, PX2, RX1, RX2.
      destruct TA as (msg & d & status & reply & fwd & token & T0 & T1 & T2 & T3 & T4 & T5 & T6).
      exists msg, d, status, reply, fwd, token. split; [exact T0|]. split; [|split; [|split; [|split; [|split]]]].
      * rewrite (shrinks_story _ _ _ q SK). exact T1.
      * eapply carried_mono; [exact (y_trace _ _ SY)|exact T2].
      * eapply carried_reply_mono; [exact (y_trace _ _ SY)|exact T3].
      * eapply delivers_mono; [exact (y_outs _ _ SY)|exact T4].
      * exact T5.
      * rewrite (a_calls _ _ _ _ _ (h_this _ _ _ _ _ TF)), T6. reflexivity.
    + right. rewrite Q1, Q2, BF, PT. cbn [t_set_stage t_stage t_proxy pending has_request has_reply].
      split; [discriminate|]. split; [exact (touched_count _ _ _ _ _ TF K)|].
      split; [change (nprx s') with (nprx s2); pose proof (y_nprx _ _ SY); lia|].
      split; [intros j J; rewrite CN by discriminate; auto|].
      split; [rewrite CN by discriminate; auto|].
      split; [rewrite CN by discriminate; intros Z; eapply answered_mono; [apply TF|apply C3; lia]|].
      split; [intros j; rewrite CN by discriminate; rewrite C4, andb_false_r; reflexivity|].
      split; [intros j; change (cnt s' (ORequest q) j) with (cnt s2 (ORequest q) j); rewrite SC; lia|].
      split; [auto|apply (a_app _ _ _ _ _ (h_this _ _ _ _ _ TF))].
Qed.

Lemma fine_call_end e s q : pinv e s -> fine e False (pstep e s (PCallEnd q)).
Proof.
  intros P. cbn [pstep]. apply fine_when. intros A. apply andb_true_iff in A as (A & B). apply owned_alive in A as (_ & A).
  destruct (punref_shrinks s (OCall q) (t_proxy (ptxs s q)) (p_objs _ _ P) A) as (s' & -> & SK & SC).
  right. right. exists s'. split; [reflexivity|].
  assert (NN : t_stage (ptxs s q) <> QNone).
  { intros X. destruct (p_txs _ _ P q) as (_ & [(_ & Y)|(Y & _)]); [|contradiction]. apply cnt_in in A. destruct (Y (t_proxy (ptxs s q))); lia. }
  destruct (tx_here e s q P NN) as (TA & K & PN & C1 & C2 & C3 & C4 & C5 & C6 & C7).
  pose proof (k_grows _ _ _ SK) as G. pose proof (grows_steady _ _ G) as SY.
  assert (PX : ptxs s' q = ptxs s q) by now rewrite (g_ptxs _ _ G).
  assert (CN : forall o j, o <> OCall q -> cnt s' o j = cnt s o j) by (intros; now apply (k_cnt _ _ _ SK)).
  apply (pinv_next e s _ q P).
  - exact (k_objs _ _ _ SK).
  - exact (known_shrinks _ _ _ (p_known _ _ P) SK).
  - exact (reached_grows _ _ _ G (p_reach _ _ P)).
  - intros q' N. apply (frame_shrinks _ _ _ _ SK). intros [X|[X|[X|X]]]; try discriminate X. injection X. congruence.
  - split.
    + (* nothing else changes *)
      unfold tale in *. rewrite PX, (shrinks_story _ _ _ q SK), (g_bs _ _ G).
      destruct (y_prx _ _ SY _ PN) as (PX1 & PX2).
      assert (RX : r_ipc (rem s' (p_remote (prx s (t_proxy (ptxs s q))))) = r_ipc (rem s (p_remote (prx s (t_proxy (ptxs s q))))) /\
        r_handle (rem s' (p_remote (prx s (t_proxy (ptxs s q))))) = r_handle (rem s (p_remote (prx s (t_proxy (ptxs s q)))))).
      { apply (y_rem _ _ SY). apply (p_known _ _ P). exact PN. }
      destruct RX as (RX1 & RX2). rewrite PX1, PX2, RX1, RX2, (g_outs _ _ G).
      destruct (t_stage (ptxs s q)); auto.
      * destruct TA as (msg & T1 & T2 & T3). exists msg. repeat split; auto. exact (carried_mono _ _ _ _ _ _ _ _ (y_trace _ _ SY) T2).
      * destruct TA as (msg & d & T0 & T1 & T2 & T3). exists msg, d. repeat split; auto. exact (carried_mono _ _ _ _ _ _ _ _ (y_trace _ _ SY) T2).
      * destruct TA as (msg & d & status & reply & fwd & token & T0 & T1 & T2 & T3 & T4).
        exists msg, d, status, reply, fwd, token. pose proof (carried_mono _ _ _ _ _ _ _ _ (y_trace _ _ SY) T2).
        pose proof (carried_reply_mono _ _ _ _ _ _ _ _ (y_trace _ _ SY) T3). tauto.
      * destruct TA as (msg & d & status & reply & fwd & token & T0 & T1 & T2 & T3 & T4).
        exists msg, d, status, reply, fwd, token. pose proof (carried_mono _ _ _ _ _ _ _ _ (y_trace _ _ SY) T2).
        pose proof (carried_reply_mono _ _ _ _ _ _ _ _ (y_trace _ _ SY) T3). tauto.
      * destruct TA as (msg & d & status & reply & fwd & token & T0 & T1 & T2 & T3 & T4).
        exists msg, d, status, reply, fwd, token. pose proof (carried_mono _ _ _ _ _ _ _ _ (y_trace _ _ SY) T2).
        pose proof (carried_reply_mono _ _ _ _ _ _ _ _ (y_trace _ _ SY) T3). tauto.
    + right. rewrite PX, (g_bs _ _ G). pose proof (y_nprx _ _ SY). split; [exact NN|]. split; [exact K|]. split; [lia|].
      split; [intros j J; pose proof (SC j); rewrite C1 in * by auto; lia|].
      split; [pose proof (SC (t_proxy (ptxs s q))); lia|]. split; [auto|].
      split; [intros j; rewrite CN by discriminate; auto|]. split; [intros j; rewrite CN by discriminate; exact (C5 j)|].
      split; [intros j; rewrite CN by discriminate; exact (C6 j)|]. exact C7.
Qed.

Lemma fine_reply_freed e s q : pinv e s -> fine e False (pstep e s (PReplyFreed q)).
Proof.
  intros P. cbn [pstep]. apply fine_when. intros _.
  destruct (release_all s (OReply q) (p_objs _ _ P)) as (s' & -> & SK & SC). right. right. exists s'. split; [reflexivity|].
  apply (pinv_frame e s); auto.
  - exact (k_objs _ _ _ SK).
  - exact (known_shrinks _ _ _ (p_known _ _ P) SK).
  - exact (reached_grows _ _ _ (k_grows _ _ _ SK) (p_reach _ _ P)).
  - intros q'. apply (frame_shrinks_msg _ _ _ _ SK); discriminate.
Qed.

Theorem pstep_fine e s m : pinv e s -> fine e (excuse e s m) (pstep e s m).
Proof.
  intros P. destruct m.
  - now apply fine_arrive.
  - now apply fine_other.
  - now apply fine_handle.
  - now apply fine_send.
  - now apply fine_reply.
  - now apply fine_reply_end.
  - now apply fine_destroy.
  - now apply fine_call_end.
  - now apply fine_reply_freed.
  - cbn [pstep excuse]. apply fine_when. intros A. now apply fine_new.
  - cbn [pstep excuse]. apply fine_when. intros A. now apply fine_ref.
  - cbn [pstep excuse]. apply fine_when. intros A. apply fine_unref; auto. not_owner.
  - cbn [pstep excuse]. apply fine_when. intros A. now apply fine_drop.
  - cbn [pstep excuse]. apply fine_when. intros A. now apply fine_acquire.
  - cbn [pstep excuse]. apply fine_when. intros A. apply fine_unref; auto. not_owner.
  - cbn [pstep excuse]. apply fine_when. intros A. now apply fine_remote.
  - now apply fine_get.
  - cbn [pstep excuse]. apply fine_when. intros A. now apply fine_remote.
  - cbn [pstep excuse]. apply fine_when. intros A. now apply fine_put.
Qed.

Lemma pinv_initial e : pinv e (pinitial e).
Proof.
  split.
  - split; cbn; try discriminate; try contradiction; auto; intros; try lia; try (destruct (Nat.ltb_spec p 0); [lia|reflexivity]).
  - intros p. cbn. lia.
  - intros t. exists []. reflexivity.
  - intros q. split; [reflexivity|left; split; [reflexivity|]]. intros j. repeat split.
Qed.

Theorem prun_inv e : forall l s s', pinv e s -> prun e s l = Ok s' -> pinv e s'.
Proof.
  induction l as [|m l IH]; intros s s' P; cbn [prun].
  - intros X. apply ok_same in X. now subst.
  - destruct (pstep_fine e s m P) as [->|[(-> & _)|(s1 & -> & P1)]]; try discriminate. cbn [bind]. now apply IH.
Qed.
Theorem reached_pinv e l s : prun e (pinitial e) l = Ok s -> pinv e s.
Proof. apply prun_inv, pinv_initial. Qed.
