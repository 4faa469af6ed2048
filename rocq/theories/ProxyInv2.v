(* Every step of ProxyModel.v keeps the invariant: what happens to the requests *)
From Verif Require Import Base BaseLemmas ReaderModel CodecSpec ObjModel ObjReader KernelModel ObjSpec HidlSpec TxModel TxSpec TxProps
  ProxyConv BlockModel BlockSpec BlockProofs BlockRun BlockEnds ProxyModel ProxySpec ProxyBlock ProxyObjs ProxyObjs2 ProxyObjs3 ProxyProofs
  ProxyInv.

(* Something was done to request [k] and to no other one *)
Record touched (k : nat) (b b' : bstate) (l : list bev) (app : Z) : Prop := {
  h_inv : inv b';
  h_this : after k b b' l app;
  h_other : forall j, j <> k -> (j < count b)%nat -> after j b b' [] (q_app (txs b j))
}.
Lemma touched_trans k b1 b2 b3 l1 l2 x y : touched k b1 b2 l1 x -> touched k b2 b3 l2 y -> touched k b1 b3 (l1 ++ l2) y.
Proof.
  intros [A1 A2 A3] [B1 B2 B3]. split; auto.
  - eapply after_trans; eauto.
  - intros j N K. specialize (A3 j N K). pose proof (a_count _ _ _ _ _ A3). specialize (B3 j N ltac:(lia)).
    rewrite (a_app _ _ _ _ _ A3) in B3. exact (after_trans _ _ _ _ _ _ _ _ A3 B3).
Qed.
Lemma touched_step b m b' k l x : step b m = Ok b' -> inv b' -> app_move m = Some k -> after k b b' l x -> touched k b b' l x.
Proof.
  intros E I M A. split; auto. intros j N K. apply (step_other _ _ _ _ E); auto. rewrite M. congruence.
Qed.
Lemma touched_meanwhile l b b' k : inv b -> meanwhile b l = Ok b' -> (k < count b)%nat -> touched k b b' [] (q_app (txs b k)).
Proof.
  intros I E K. split.
  - now apply (meanwhile_after l b b' k).
  - now apply (meanwhile_after l b b' k).
  - intros j N J. now apply (meanwhile_after l b b' j).
Qed.
Lemma touched_count k b b' l x : touched k b b' l x -> (k < count b)%nat -> (k < count b')%nat.
Proof. intros [_ A _] K. pose proof (a_count _ _ _ _ _ A). lia. Qed.

Lemma frame_touched s q b l x q' : touched (snd q) (bs s (fst q)) b l x -> q' <> q -> frame s (set_bs s (fst q) b) q'.
Proof.
  intros [_ _ H] N. apply frame_bs. intros _ E K. apply H; auto. intros X. apply N. destruct q, q'. cbn in *. congruence.
Qed.

Lemma steady_bs s t b : steady s (set_bs s t b).
Proof. split; auto; exists []; now rewrite app_nil_r. Qed.
Lemma steady_ptx s q v : steady s (set_ptx s q v).
Proof. split; auto; exists []; now rewrite app_nil_r. Qed.
Lemma steady_emit s x : steady s (emit s x).
Proof. exact (grows_steady _ _ (grows_emit s x)). Qed.
Lemma steady_outs s l : steady s (set_outs s (outs s ++ l)).
Proof. split; auto; [exists []; now rewrite app_nil_r|exists l; reflexivity]. Qed.

(* Reasons for a crash *)
Definition excuse (e : env) (s : pstate) (m : pmove) : Prop :=
  match m with
  | PHandle q _ _ msg _ _ _ => ~ good e (p_ipc (prx s (t_proxy (ptxs s q)))) msg
  | PSend q => exists p code flags, story q (ptrace s) = [EArrive q p; EForward q p code flags None]
  | PReply q _ (Some msg) => ~ good e (r_ipc (rem s (p_remote (prx s (t_proxy (ptxs s q)))))) msg
  | PReplyEnd q => palive s (t_proxy (ptxs s q)) = false /\ exists reply, In (EReplied q STATUS_DEAD_OBJECT reply) (ptrace s)
  | _ => False
  end.

Lemma at_stage_eq s q st : at_stage s q st = true -> t_stage (ptxs s q) = st.
Proof. unfold at_stage. destruct (t_stage (ptxs s q)), st; auto; discriminate. Qed.

(* What's known of a request which has arrived *)
Lemma tx_here e s q : pinv e s -> t_stage (ptxs s q) <> QNone ->
  tale e s q /\
  (snd q < count (bs s (fst q)))%nat /\ (t_proxy (ptxs s q) < nprx s)%nat /\
  (forall j, j <> t_proxy (ptxs s q) -> cnt s (OCall q) j = 0%nat) /\ (cnt s (OCall q) (t_proxy (ptxs s q)) <= 1)%nat /\
  (cnt s (OCall q) (t_proxy (ptxs s q)) = 0%nat -> answered (bs s (fst q)) (snd q) = true) /\
  (forall j, cnt s (OTx q) j = if Nat.eqb j (t_proxy (ptxs s q)) && pending (t_stage (ptxs s q)) then 1%nat else 0%nat) /\
  (forall j, (0 < cnt s (ORequest q) j)%nat -> has_request (t_stage (ptxs s q)) = true) /\
  (forall j, (0 < cnt s (OReply q) j)%nat -> has_reply (t_stage (ptxs s q)) = true) /\
  q_app (txs (bs s (fst q)) (snd q)) = (if has_request (t_stage (ptxs s q)) then 1 else 0).
Proof. intros P N. destruct (p_txs _ _ P q) as (T & [(A & _)|(_ & A)]); [contradiction|]. tauto. Qed.

Lemma fine_arrive e s t p : pinv e s -> fine e False (pstep e s (PArrive t p)).
Proof.
  intros P. cbn [pstep]. apply fine_when. intros A. pose proof (reached_inv _ _ _ (p_reach _ _ P t)) as I.
  destruct (inv_step (bs s t) Arrive I) as [->|(b & E & I')]; [now left|]. rewrite E. cbn [bind].
  set (k := count (bs s t)). set (q := (t, k)).
  destruct (do_arrive _ _ I E) as (D1 & D2 & D3). fold k in D1, D2, D3.
  assert (O1 : objs (set_bs s t b)) by apply objs_bs, P.
  destruct (pref_spec (set_bs s t b) (OCall q) p O1 A) as (s1 & -> & O2 & G & A1 & A2 & A3 & A4 & A5 & A6 & A7 & F). cbn [bind].
  right. right. eexists. split; [reflexivity|]. set (x := {| t_stage := QArrived |}).
  assert (OLD : t_stage (ptxs s q) = QNone /\ (forall j, cnt s (OCall q) j = 0%nat /\ cnt s (OTx q) j = 0%nat /\ cnt s (ORequest q) j = 0%nat /\ cnt s (OReply q) j = 0%nat) /\
    story q (ptrace s) = []).
  { destruct (p_txs _ _ P q) as (T & [(Y & Z)|(_ & Y & _)]).
    - split; auto. split; auto. unfold tale in T. now rewrite Y in T.
    - exfalso. unfold q in Y. cbn in Y. lia. }
  destruct OLD as (OLD1 & OLD2 & OLD3).
  assert (CN : forall o j, cnt s1 o j = (cnt s o j + if owner_dec (OCall q, p) (o, j) then 1 else 0)%nat) by (intros o j; rewrite A7; reflexivity).
  apply (pinv_next e s _ q P).
  - apply objs_quiet; [|reflexivity]. now apply objs_ptx.
  - apply (known_same s); [exact (p_known _ _ P)| |cbn; now rewrite A5].
    eapply steady_trans; [apply steady_bs|]. eapply steady_trans; [exact (grows_steady _ _ G)|].
    eapply steady_trans; [apply steady_ptx|apply steady_emit].
  - intros t'. cbn [emit set_ptx bs]. rewrite (g_bs _ _ G). apply reached_upd; [apply P|]. eapply reached_step; [apply P|exact E].
  - intros q' N. eapply frame_trans; [|eapply frame_trans; [apply F|eapply frame_trans; [apply frame_ptx|apply frame_emit]]].
    + apply frame_bs. intros _ Y K. apply (step_other _ _ _ _ E); auto. discriminate.
    + intros [X|[X|[X|X]]]; try discriminate X. injection X. congruence.
    + exact N.
    + cbn. apply key_eqb_neq. congruence.
  - split.
    + unfold tale. cbn [emit set_ptx ptxs prx rem ptrace bs]. rewrite updk_same. cbn [x t_stage t_proxy fst snd q].
      split.
      * fold q. rewrite story_app, A3. change (ptrace (set_bs s t b)) with (ptrace s). rewrite OLD3. unfold story. cbn [filter concerns].
        now rewrite key_eqb_refl.
      * rewrite (g_bs _ _ G). cbn [set_bs bs]. rewrite upd_same. exact D3.
    + right. cbn [emit set_ptx ptxs bs nprx]. rewrite updk_same. cbn [x t_stage t_proxy fst snd q pending has_request has_reply].
      rewrite (g_bs _ _ G). cbn [set_bs bs]. rewrite upd_same, A5. cbn [set_bs nprx].
      split; [discriminate|]. split; [lia|]. split; [exact (alive_range s p (p_objs _ _ P) A)|].
      assert (CN2 : forall o j, cnt (emit (set_ptx s1 (t, k) x) (EArrive (t, k) p)) o j = cnt s1 o j) by reflexivity.
      split; [intros j J; rewrite CN2, CN; destruct (OLD2 j) as (Z & _); fold q; rewrite Z; destruct (owner_dec (OCall q, p) (OCall q, j)); [congruence|reflexivity]|].
      destruct (OLD2 p) as (Z1 & _).
      split; [rewrite CN2, CN; fold q; rewrite Z1; destruct (owner_dec _ _); lia|].
      split; [rewrite CN2, CN; fold q; rewrite Z1; destruct (owner_dec (OCall q, p) (OCall q, p)); [discriminate|congruence]|].
      split; [intros j; rewrite CN2, CN, andb_false_r; destruct (OLD2 j) as (_ & Z & _); fold q; rewrite Z; destruct (owner_dec _ _); [discriminate|reflexivity]|].
      split; [intros j; rewrite CN2, CN; destruct (OLD2 j) as (_ & _ & Z & _); fold q; rewrite Z; destruct (owner_dec _ _); [discriminate|lia]|].
      split; [intros j; rewrite CN2, CN; destruct (OLD2 j) as (_ & _ & _ & Z); fold q; rewrite Z; destruct (owner_dec _ _); [discriminate|lia]|].
      exact D2.
Qed.

Lemma step_cases e t b m : reached e t b -> step b m = Disabled \/ exists b', step b m = Ok b' /\ inv b' /\ reached e t b'.
Proof.
  intros R. destruct (inv_step b m (reached_inv _ _ _ R)) as [X|(b' & E & I)]; [now left|right]. exists b'. split; auto. split; auto.
  eapply reached_step; eauto.
Qed.
Lemma meanwhile_cases e t b l k : reached e t b -> (k < count b)%nat ->
  meanwhile b l = Disabled \/ exists b', meanwhile b l = Ok b' /\ reached e t b' /\ touched k b b' [] (q_app (txs b k)) /\
    (x_cb (txs b k) = CbRunning -> x_cb (txs b' k) = CbRunning).
Proof.
  intros R K. pose proof (reached_inv _ _ _ R) as I. destruct (meanwhile b l) as [| |b'] eqn:E.
  - now left.
  - now destruct (meanwhile_safe l b I).
  - right. exists b'. split; auto. split; [exact (reached_run e t l b b' R (meanwhile_runs l b b' E))|].
    split; [now apply (touched_meanwhile l)|]. now apply (meanwhile_after l b b' k I E K).
Qed.

(* The request is copied *)
Lemma copy_cases e s o ri li pr msg : objs s ->
  let c := match msg with Some (data, ob) => convert_objects s o ri li data ob | None => Ok (s, []) end in
  (c = Crash /\ forall i, match msg with Some (data, ob) => ~ contents_ok i pr data ob 0 | None => False end) \/
  exists s' l, c = Ok (s', l) /\ converted s s' o /\
    (forall h, In (h, None) l -> exists r, r_listed (rem s r) = true /\ r_dead (rem s r) = true) /\
    ((exists data ob f, msg = Some (data, ob) /\ append_contents (e_io e) pr (converter_of l) wd_empty data ob 0 = Base.Fault f /\
        ~ contents_ok (e_io e) pr data ob 0) \/
     exists fwd, match msg with
       | Some (data, ob) => exists d, append_contents (e_io e) pr (converter_of l) wd_empty data ob 0 = Base.Ok d /\ fwd = Some d
       | None => fwd = None
       end /\ carried (e_io e) pr (ptrace s') ri li msg fwd).
Proof.
  intros O c. destruct msg as [[data ob]|]; cbn in c.
  - destruct (convert_ok ob s o ri li data O) as [(X & x & f & X1 & X2)|(s2 & l2 & E2 & V & A1 & A2 & A3 & A4 & A5)].
    + left. split; [exact X|]. intros i C. destruct (good_decodes _ _ _ _ C x X1). congruence.
    + right. exists s2, l2. split; [exact E2|]. split; [exact V|]. split; [exact A4|].
      destruct (append_contents (e_io e) pr (converter_of l2) wd_empty data ob 0) as [d|f] eqn:AC.
      * right. exists (Some d). split; [eauto|]. exists d. split; auto. intros C. exact (carried_contents _ _ _ _ _ _ _ _ _ _ _ O E2 AC C).
      * left. exists data, ob, f. split; auto. split; auto. intros C. destruct (good_append _ _ (converter_of l2) _ _ C). congruence.
  - right. exists s, []. split; [reflexivity|]. split; [now apply converted_refl|]. split; [intros ? []|]. right. exists None. split; reflexivity.
Qed.

Lemma protocol_eqb_refl p : protocol_eqb p p = true.
Proof. now destruct p. Qed.

Lemma fine_handle e s q code flags msg l1 l2 l3 : pinv e s ->
  fine e (excuse e s (PHandle q code flags msg l1 l2 l3)) (pstep e s (PHandle q code flags msg l1 l2 l3)).
Proof.
  intros P. cbn [pstep excuse]. apply fine_when. intros A. apply at_stage_eq in A. unfold handle_transaction.
  destruct (tx_here e s q P) as (TA & K & PN & C1 & C2 & C3 & C4 & C5 & C6 & C7); [congruence|].
  destruct q as [t k] eqn:Q. rewrite <- Q in *. assert (Q1 : fst q = t) by now subst. assert (Q2 : snd q = k) by now subst. clear Q.
  rewrite Q1, Q2 in *. rewrite A in *. cbn [pending has_request has_reply] in C4, C5, C6, C7. setoid_rewrite andb_false_r in C4.
  set (p := t_proxy (ptxs s q)) in *. set (ri := p_ipc (prx s p)). set (r := p_remote (prx s p)). set (li := r_ipc (rem s r)).
  unfold tale in TA. rewrite A, Q1, Q2 in TA. fold p in TA. destruct TA as (TA1 & TA2).
  destruct (step_cases e t (bs s t) (Dispatch k) (p_reach _ _ P t)) as [->|(b0 & E0 & I0 & R0)]; [now left|]. rewrite E0. cbn [bind].
  destruct (do_dispatch _ _ _ E0) as (_ & D1 & D2 & D3).
  pose proof (touched_step _ _ _ _ _ _ E0 I0 eq_refl D1) as T0. rewrite C7 in T0. pose proof (touched_count _ _ _ _ _ T0 K) as K0.
  assert (AL : palive s p = true).
  { apply palive_in. exists (OCall q). apply cnt_in. destruct (Nat.eq_dec (cnt s (OCall q) p) 0) as [Z|Z]; [|lia]. apply C3 in Z.
    exfalso. apply (answered_not_pending (bs s t) k) in Z; auto. exact (reached_inv _ _ _ (p_reach _ _ P t)). }
  rewrite AL. cbn [negb]. pose proof (a_app _ _ _ _ _ (h_this _ _ _ _ _ T0)) as Q0.
  destruct (negb (p_dropped (prx s p)) && negb (r_dead (rem s r))).
  - (* forwarded *)
    destruct (meanwhile_cases e t b0 l1 k R0 K0) as [->|(b1 & -> & R1 & T1 & X1)]; [now left|]. cbn [bind]. specialize (X1 D2).
    pose proof (touched_count _ _ _ _ _ T1 K0) as K1. rewrite Q0 in T1.
    destruct (do_ref b1 k (h_inv _ _ _ _ _ T1) K1 X1) as (b2 & E2 & I2 & A2 & X2). rewrite E2. cbn [must bind].
    pose proof (touched_step _ _ _ _ _ _ E2 I2 eq_refl A2) as T2. pose proof (touched_count _ _ _ _ _ T2 K1) as K2.
    rewrite (a_app _ _ _ _ _ (h_this _ _ _ _ _ T1)) in T2. change (0 + 1) with 1 in T2.
    pose proof (reached_step _ _ _ _ _ R1 E2) as R2.
    destruct (meanwhile_cases e t b2 l2 k R2 K2) as [->|(b3 & -> & R3 & T3 & X3)]; [now left|]. cbn [bind]. specialize (X3 X2).
    pose proof (touched_count _ _ _ _ _ T3 K2) as K3. rewrite (a_app _ _ _ _ _ (h_this _ _ _ _ _ T2)) in T3.
    destruct (do_block b3 k (h_inv _ _ _ _ _ T3) K3 X3) as (b4 & E4 & I4 & A4 & X4). rewrite E4. cbn [must bind].
    pose proof (touched_step _ _ _ _ _ _ E4 I4 eq_refl A4) as T4. pose proof (touched_count _ _ _ _ _ T4 K3) as K4.
    rewrite (a_app _ _ _ _ _ (h_this _ _ _ _ _ T3)) in T4.
    pose proof (reached_step _ _ _ _ _ R3 E4) as R4.
    pose proof (touched_trans _ _ _ _ _ _ _ _ T0 (touched_trans _ _ _ _ _ _ _ _ T1 (touched_trans _ _ _ _ _ _ _ _ T2
      (touched_trans _ _ _ _ _ _ _ _ T3 T4)))) as TT. cbn [Datatypes.app] in TT.
    set (s1 := emit (set_bs s t b4) (EForward q p code flags msg)).
    assert (O1 : objs s1) by (apply objs_quiet; [apply objs_bs, P|reflexivity]).
    destruct (pref_spec s1 (OTx q) p O1 AL) as (s2 & -> & O2 & G2 & B1 & B2 & B3 & B4 & B5 & B6 & B7 & F2). cbn [bind].
    pose proof (copy_cases e s2 (ORequest q) ri li (e_proto e ri) msg O2) as CC. cbn zeta in CC.
    destruct CC as [(CC1 & CC2)|(s3 & l & CC1 & V & _ & CC2)]; rewrite CC1; cbn [bind].
    { right. left. split; [reflexivity|]. destruct msg as [[data ob]|]; [apply CC2|destruct (CC2 Io32)]. }
    unfold forward_request, request_to_local, converter_protocol. rewrite protocol_eqb_refl.
    destruct CC2 as [(data & ob & f & -> & CC2 & CC3)|(fwd & CC2 & CC3)].
    { rewrite CC2. cbn [Base.bind]. right. left. split; [reflexivity|]. exact CC3. }
    assert (FW : match msg with Some (data, ob) => Base.bind (append_contents (e_io e) (e_proto e ri) (converter_of l) wd_empty data ob 0) (fun d => Base.Ok (Some d))
       | None => Base.Ok None end = Base.Ok fwd).
    { destruct msg as [[data ob]|]; [destruct CC2 as (d & CC2 & ->); now rewrite CC2|now rewrite CC2]. }
    rewrite FW. clear FW CC2.
    assert (BS : bs s3 t = b4) by (rewrite (g_bs _ _ (v_grows _ _ _ V)), (g_bs _ _ G2); cbn; now rewrite upd_same).
    rewrite BS.
    destruct (meanwhile_cases e t b4 l3 k R4 K4) as [->|(b5 & -> & R5 & T5 & X5)]; [now left|]. cbn [bind]. specialize (X5 X4).
    pose proof (touched_count _ _ _ _ _ T5 K4) as K5. rewrite (a_app _ _ _ _ _ (h_this _ _ _ _ _ T4)) in T5.
    destruct (do_return b5 k (None, 0) (h_inv _ _ _ _ _ T5) K5 X5) as (b6 & E6 & I6 & A6). rewrite E6. cbn [must bind].
    pose proof (touched_step _ _ _ _ _ _ E6 I6 eq_refl A6) as T6. rewrite (a_app _ _ _ _ _ (h_this _ _ _ _ _ T5)) in T6.
    pose proof (reached_step _ _ _ _ _ R5 E6) as R6. pose proof (touched_trans _ _ _ _ _ _ _ _ T5 T6) as T46. cbn [Datatypes.app] in T46.
    pose proof (touched_trans _ _ _ _ _ _ _ _ TT T46) as TF. cbn [Datatypes.app] in TF.
    right. right. eexists. split; [reflexivity|]. set (x := {| t_stage := QPending |}).
    assert (S13 : steady s s3).
    { eapply steady_trans; [apply steady_bs|]. eapply steady_trans; [apply steady_emit|]. eapply steady_trans; [exact (grows_steady _ _ G2)|].
      exact (grows_steady _ _ (v_grows _ _ _ V)). }
    assert (KN2 : known s2).
    { apply (known_same s); [exact (p_known _ _ P)| |exact B5]. eapply steady_trans; [apply steady_bs|].
      eapply steady_trans; [apply steady_emit|]. exact (grows_steady _ _ G2). }
    apply (pinv_next e s _ q P).
    + apply objs_ptx, objs_bs. exact (v_objs _ _ _ V).
    + apply (known_same s3); [exact (known_converted s2 s3 (ORequest q) KN2 O2 V)| |reflexivity].
      eapply steady_trans; [apply steady_bs|apply steady_ptx].
    + intros t'. cbn [set_ptx bs]. apply reached_upd; auto. intros j. rewrite (g_bs _ _ (v_grows _ _ _ V)), (g_bs _ _ G2).
      apply reached_upd; auto. apply P.
    + intros q' N.
      eapply frame_trans; [rewrite <- Q1; eapply (frame_touched s q b4); [rewrite Q1, Q2; exact TT|exact N]|]. rewrite Q1.
      eapply frame_trans; [apply (frame_emit _ (EForward q p code flags msg)); cbn; apply key_eqb_neq; congruence|].
      eapply frame_trans; [apply F2; intros [X|[X|[X|X]]]; try discriminate X; injection X; congruence|].
      eapply frame_trans; [apply (frame_converted _ _ _ _ V); intros [X|[X|[X|X]]]; try discriminate X; injection X; congruence|].
      eapply frame_trans; [rewrite <- Q1; eapply (frame_touched s3 q b6); [rewrite Q1, Q2, BS; exact T46|exact N]|]. rewrite Q1.
      now apply frame_ptx.
    + assert (PX : p_ipc (prx s3 p) = ri /\ p_remote (prx s3 p) = r) by (apply (y_prx _ _ S13); exact PN).
      destruct PX as (PX1 & PX2).
      assert (RX : r_ipc (rem s3 r) = li) by (apply (y_rem _ _ S13); apply (p_known _ _ P); exact PN).
      assert (BF : bs (set_ptx (set_bs s3 t b6) q x) t = b6) by (cbn; now rewrite upd_same).
      assert (CN : forall o j, cnt (set_ptx (set_bs s3 t b6) q x) o j = cnt s3 o j) by reflexivity.
      assert (CN2 : forall o j, o <> ORequest q -> cnt s3 o j = (cnt s o j + if owner_dec (OTx q, p) (o, j) then 1 else 0)%nat).
      { intros o j NE. rewrite (v_cnt _ _ _ V o j NE), B7. reflexivity. }
      split.
      * unfold tale. rewrite Q1, Q2, BF. cbn [set_ptx set_bs ptxs prx rem ptrace outs]. rewrite updk_same.
        cbn [x t_stage t_proxy t_fwd t_code t_flags t_dead]. rewrite PX1, PX2, RX. exists msg. split; [|split].
        -- rewrite (converted_story _ _ _ q V), B3. unfold s1. cbn [emit ptrace set_bs]. rewrite story_app, TA1. unfold story. cbn [filter concerns].
           now rewrite key_eqb_refl.
        -- exact CC3.
        -- rewrite (a_calls _ _ _ _ _ (h_this _ _ _ _ _ TF)), TA2. reflexivity.
      * right. rewrite Q1, Q2, BF. cbn [set_ptx set_bs ptxs nprx]. rewrite updk_same. cbn [x t_stage t_proxy pending has_request has_reply].
        split; [discriminate|]. split; [pose proof (touched_count _ _ _ _ _ TF K); lia|].
        split; [pose proof (y_nprx _ _ S13); lia|].
        split; [intros j J; rewrite CN, CN2 by discriminate; rewrite C1 by auto; destruct (owner_dec _ _); [discriminate|reflexivity]|].
        split; [rewrite CN, CN2 by discriminate; destruct (owner_dec _ _); [discriminate|lia]|].
        split; [rewrite CN, CN2 by discriminate; destruct (owner_dec _ _); [discriminate|]; intros Z; eapply answered_mono; [apply TF|apply C3; lia]|].
        split; [intros j; rewrite CN, CN2 by discriminate; rewrite C4, andb_true_r; destruct (owner_dec _ _) as [Z|Z], (Nat.eqb_spec j p); auto; [injection Z; congruence|congruence]|].
        split; [auto|].
        split; [intros j; rewrite CN, CN2 by discriminate; destruct (owner_dec _ _); [discriminate|]; intros Z; specialize (C6 j); rewrite Nat.add_0_r in Z; apply C6 in Z; discriminate|].
        apply (a_app _ _ _ _ _ (h_this _ _ _ _ _ TF)).
  - (* refused *)
    destruct (meanwhile_cases e t b0 l1 k R0 K0) as [->|(b1 & -> & R1 & T1 & X1)]; [now left|]. cbn [bind]. specialize (X1 D2).
    pose proof (touched_count _ _ _ _ _ T1 K0) as K1. rewrite Q0 in T1.
    destruct (do_return b1 k (None, - EBADMSG) (h_inv _ _ _ _ _ T1) K1 X1) as (b2 & E2 & I2 & A2). rewrite E2. cbn [must bind].
    pose proof (touched_step _ _ _ _ _ _ E2 I2 eq_refl A2) as T2. rewrite (a_app _ _ _ _ _ (h_this _ _ _ _ _ T1)) in T2.
    pose proof (reached_step _ _ _ _ _ R1 E2) as R2.
    pose proof (touched_trans _ _ _ _ _ _ _ _ T0 (touched_trans _ _ _ _ _ _ _ _ T1 T2)) as TF. cbn [Datatypes.app] in TF.
    right. right. eexists. split; [reflexivity|].
    apply (pinv_next e s _ q P).
    + apply objs_quiet; [|reflexivity]. apply objs_ptx, objs_bs, P.
    + apply (known_same s); [exact (p_known _ _ P)| |reflexivity].
      eapply steady_trans; [apply steady_bs|]. eapply steady_trans; [apply steady_ptx|apply steady_emit].
    + intros t'. cbn [emit set_ptx bs]. apply reached_upd; auto. apply P.
    + intros q' N.
      eapply frame_trans; [rewrite <- Q1; eapply (frame_touched s q b2); [rewrite Q1, Q2; exact TF|exact N]|]. rewrite Q1.
      eapply frame_trans; [now apply (frame_ptx _ q (t_set_stage (ptxs s q) QRefused))|].
      apply frame_emit. cbn. apply key_eqb_neq. congruence.
    + set (s' := emit _ _).
      assert (BF : bs s' t = b2) by (cbn; now rewrite upd_same).
      assert (CN : forall o j, cnt s' o j = cnt s o j) by reflexivity.
      assert (PT : ptxs s' q = t_set_stage (ptxs s q) QRefused) by (cbn; now rewrite updk_same).
      split.
      * unfold tale. rewrite Q1, Q2, BF, PT. cbn [t_set_stage t_stage t_proxy]. fold p. split.
        -- unfold s'. cbn [emit set_ptx set_bs ptrace]. rewrite story_app, TA1. unfold story. cbn [filter concerns]. now rewrite key_eqb_refl.
        -- rewrite (a_calls _ _ _ _ _ (h_this _ _ _ _ _ TF)), TA2. reflexivity.
      * right. rewrite Q1, Q2, BF, PT. cbn [t_set_stage t_stage t_proxy pending has_request has_reply]. fold p.
        split; [discriminate|]. split; [exact (touched_count _ _ _ _ _ TF K)|]. split; [exact PN|].
        split; [exact C1|]. split; [exact C2|].
        split; [intros Z; eapply answered_mono; [apply TF|now apply C3]|].
        split; [intros j; rewrite CN, C4, andb_false_r; reflexivity|].
        split; [exact C5|]. split; [exact C6|]. apply (a_app _ _ _ _ _ (h_this _ _ _ _ _ TF)).
Qed.
