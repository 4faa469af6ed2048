(* Every step of ProxyModel.v keeps the invariant *)
From Verif Require Import Base BaseLemmas ReaderModel CodecSpec ObjModel ObjReader KernelModel ObjSpec HidlSpec TxModel TxSpec TxProps
  ProxyConv BlockModel BlockSpec BlockProofs BlockRun BlockEnds ProxyModel ProxySpec ProxyBlock ProxyObjs ProxyObjs2 ProxyObjs3 ProxyProofs.

Record pinv (e : env) (s : pstate) : Prop := {
  p_objs : objs s;
  p_known : known s;
  p_reach : forall t, reached e t (bs s t);
  p_txs : forall q, tx_ok e s q
}.

Lemma key_dec (a b : key) : a = b \/ a <> b.
Proof. destruct (key_eqb a b) eqn:E; [left; now apply key_eqb_spec|right; intros ->]. now rewrite (proj2 (key_eqb_spec b b) eq_refl) in E. Qed.
Lemma key_eqb_refl q : key_eqb q q = true.
Proof. now apply key_eqb_spec. Qed.
Lemma key_eqb_neq a b : a <> b -> key_eqb a b = false.
Proof. intros N. destruct (key_eqb a b) eqn:E; auto. now apply key_eqb_spec in E. Qed.

Lemma pinv_next e s s' q : pinv e s -> objs s' -> known s' -> (forall t, reached e t (bs s' t)) ->
  (forall q', q' <> q -> frame s s' q') -> tx_ok e s' q -> pinv e s'.
Proof.
  intros [P1 P2 P3 P4] O K R F T. split; auto. intros q'. destruct (key_dec q' q) as [->|N]; auto.
  exact (frame_ok e s s' q' P2 (P4 q') (F q' N)).
Qed.
Lemma pinv_frame e s s' : pinv e s -> objs s' -> known s' -> (forall t, reached e t (bs s' t)) ->
  (forall q, frame s s' q) -> pinv e s'.
Proof. intros [P1 P2 P3 P4] O K R F. split; auto. intros q. exact (frame_ok e s s' q P2 (P4 q) (F q)). Qed.

(* ---- threads *)
Lemma run_one s l m s1 s2 : run s l = Ok s1 -> step s1 m = Ok s2 -> run s (l ++ [m]) = Ok s2.
Proof.
  revert s. induction l as [|x l IH]; intros s; cbn [run Datatypes.app].
  - intros X E. apply ok_same in X. subst s1. now rewrite E.
  - destruct (step s x) as [| |s3]; try discriminate. cbn [bind]. apply IH.
Qed.
Lemma reached_step e t b m b' : reached e t b -> step b m = Ok b' -> reached e t b'.
Proof. intros (l & R) E. exists (l ++ [m]). eapply run_one; eauto. Qed.
Lemma reached_run e t l : forall b b', reached e t b -> run b l = Ok b' -> reached e t b'.
Proof.
  induction l as [|m l IH]; intros b b' R; cbn [run].
  - intros X. apply ok_same in X. now subst.
  - destruct (step b m) as [| |b1] eqn:E; try discriminate. cbn [bind]. apply IH. eapply reached_step; eauto.
Qed.
Lemma reached_inv e t b : reached e t b -> inv b.
Proof. intros (l & R). now apply reach_inv in R. Qed.
Lemma reached_upd e s t b : (forall j, reached e j (bs s j)) -> reached e t b -> forall j, reached e j (bs (set_bs s t b) j).
Proof. intros H R j. cbn. destruct (upd_case (bs s) t b j) as [[-> ->]|[N ->]]; auto. Qed.

Lemma do_arrive b b' : inv b -> step b Arrive = Ok b' ->
  count b' = S (count b) /\ q_app (txs b' (count b)) = 0 /\ calls (count b) (btrace b') = [].
Proof.
  intros I. unfold step. destruct (th b); try discriminate. destruct (last b); [discriminate|].
  intros X. apply ok_same in X. subst b'. cbn [transact_begin count txs btrace]. rewrite upd_same. split; [reflexivity|]. split; [reflexivity|].
  rewrite calls_app. replace (calls (count b) [Arrived (count b)]) with (@nil bev) by reflexivity. rewrite app_nil_r.
  apply calls_none. intros x X. exact (i_new _ I _ _ (le_n _) X).
Qed.

(* ---- what doesn't matter for a request *)
Definition owns (q : key) (o : owner) : Prop := o = OCall q \/ o = OTx q \/ o = ORequest q \/ o = OReply q.

Lemma frame_emit s x q : concerns q x = false -> frame s (emit s x) q.
Proof.
  intros C. split; auto using after_refl.
  - apply grows_steady, grows_emit.
  - cbn [emit ptrace]. rewrite story_app. unfold story at 2. cbn [filter]. rewrite C. apply app_nil_r.
Qed.
Lemma frame_ptx s q' v q : q <> q' -> frame s (set_ptx s q' v) q.
Proof.
  intros N. split; auto using after_refl.
  - split; auto; exists []; now rewrite app_nil_r.
  - cbn. now apply updk_other.
Qed.
Lemma frame_bs s t b q :
  (t_stage (ptxs s q) <> QNone -> fst q = t -> (snd q < count (bs s t))%nat -> after (snd q) (bs s t) b [] (q_app (txs (bs s t) (snd q)))) ->
  frame s (set_bs s t b) q.
Proof.
  intros A. split; auto.
  - split; auto; exists []; now rewrite app_nil_r.
  - intros N K. cbn [set_bs bs]. destruct (upd_case (bs s) t b (fst q)) as [[E ->]|[NE ->]]; [|apply after_refl].
    rewrite E in *. apply A; auto.
Qed.
Lemma frame_outs s l q : frame s (set_outs s (outs s ++ l)) q.
Proof. split; auto using after_refl. split; auto; [exists []; now rewrite app_nil_r|exists l; reflexivity]. Qed.
Lemma frame_cnt s s' q : grows s s' -> story q (ptrace s') = story q (ptrace s) ->
  (forall o j, owns q o -> cnt s' o j = cnt s o j) -> frame s s' q.
Proof.
  intros G T C. split; auto using grows_steady.
  - now rewrite (g_ptxs _ _ G).
  - intros _ _. rewrite (g_bs _ _ G). apply after_refl.
  - intros j. apply C. now left.
  - intros j. apply C. right. now left.
  - intros j. rewrite C; auto. right. right. now left.
  - intros j. rewrite C; auto. right. right. now right.
Qed.
Lemma story_same s s' q l : ptrace s' = ptrace s ++ l -> (forall x, In x l -> concerns q x = false) ->
  story q (ptrace s') = story q (ptrace s).
Proof. intros -> H. now rewrite story_app, (story_none q l H), app_nil_r. Qed.
Lemma shrinks_story s s' o q : shrinks s s' o -> story q (ptrace s') = story q (ptrace s).
Proof.
  intros K. destruct (k_quiet _ _ _ K) as (l & E & H). apply (story_same s s' q l E).
  intros x X. destruct (H x X) as [(p & ->)|(p & ->)]; reflexivity.
Qed.
Lemma converted_story s s' o q : converted s s' o -> story q (ptrace s') = story q (ptrace s).
Proof.
  intros K. destruct (v_quiet _ _ _ K) as (l & E & H). apply (story_same s s' q l E).
  intros x X. destruct (H x X) as [(p & ->)|[(ri & h & li & ->)|(ri & h & li & r & p & ->)]]; reflexivity.
Qed.
Lemma frame_shrinks s s' o q : shrinks s s' o -> ~ owns q o -> frame s s' q.
Proof.
  intros K N. apply frame_cnt; [exact (k_grows _ _ _ K)|eapply shrinks_story; eauto|]. intros o' j X. apply (k_cnt _ _ _ K). intros ->. contradiction.
Qed.
(* The messages may lose references *)
Lemma frame_shrinks_msg s s' o q : shrinks s s' o -> o <> OCall q -> o <> OTx q -> frame s s' q.
Proof.
  intros K N1 N2. split.
  - exact (grows_steady _ _ (k_grows _ _ _ K)).
  - now rewrite (g_ptxs _ _ (k_grows _ _ _ K)).
  - eapply shrinks_story; eauto.
  - intros _ _. rewrite (g_bs _ _ (k_grows _ _ _ K)). apply after_refl.
  - intros j. apply (k_cnt _ _ _ K). auto.
  - intros j. apply (k_cnt _ _ _ K). auto.
  - intros j. apply (k_le _ _ _ K).
  - intros j. apply (k_le _ _ _ K).
Qed.
Lemma frame_converted s s' o q : converted s s' o -> ~ owns q o -> frame s s' q.
Proof.
  intros K N. apply frame_cnt; [exact (v_grows _ _ _ K)|eapply converted_story; eauto|]. intros o' j X. apply (v_cnt _ _ _ K). intros ->. contradiction.
Qed.
Lemma pref_spec s o p : objs s -> palive s p = true -> exists s', pref s o p = Ok s' /\ objs s' /\ grows s s' /\
  rem s' = rem s /\ nrem s' = nrem s /\ ptrace s' = ptrace s /\ prx s' = prx s /\ nprx s' = nprx s /\
  (forall j, palive s' j = palive s j) /\
  (forall o' j, cnt s' o' j = (cnt s o' j + if owner_dec (o, p) (o', j) then 1 else 0)%nat) /\
  (forall q, ~ owns q o -> frame s s' q).
Proof.
  intros O A. destruct (pref_objs s o p O A) as (s' & E & O' & G & A1 & A2 & A3 & A4 & A5 & A6 & A7 & A8).
  exists s'. repeat (split; [assumption|]). intros q N. apply frame_cnt; auto; [now rewrite A4|].
  intros o' j X. rewrite A8. destruct (owner_dec (o, p) (o', j)) as [Y|]; [|lia]. injection Y as -> _. contradiction.
Qed.

Lemma known_shrinks s s' o : known s -> shrinks s s' o -> known s'.
Proof. intros K S. apply (known_same s s' K); [exact (grows_steady _ _ (k_grows _ _ _ S))|exact (k_nprx _ _ _ S)]. Qed.
Lemma known_converted s s' o : known s -> objs s -> converted s s' o -> known s'.
Proof.
  intros K O V. destruct (v_quiet _ _ _ V) as (l & E & H).
  apply (known_more s s' l K O (v_objs _ _ _ V)); auto; [exact (grows_steady _ _ (v_grows _ _ _ V))|].
  intros p X. destruct (H _ X) as [(p' & Y)|[(ri & h & li & Y)|(ri & h & li & r & p' & Y)]]; discriminate.
Qed.
Lemma reached_grows e s s' : grows s s' -> (forall t, reached e t (bs s t)) -> forall t, reached e t (bs s' t).
Proof. intros G R t. now rewrite (g_bs _ _ G). Qed.
Lemma objs_bs s t b : objs s -> objs (set_bs s t b).
Proof. intros O. apply (objs_same s); auto. Qed.
Lemma objs_ptx s q v : objs s -> objs (set_ptx s q v).
Proof. intros O. apply (objs_same s); auto. Qed.
Lemma objs_outs s l : objs s -> objs (set_outs s l).
Proof. intros O. apply (objs_same s); auto. Qed.

(* The step is impossible, or there's a reason for it to crash, or it's all right *)
Definition fine (e : env) (excuse : Prop) (r : out pstate) : Prop :=
  r = Disabled \/ r = Crash /\ excuse \/ exists s', r = Ok s' /\ pinv e s'.
Lemma fine_when e x b r : (b = true -> fine e x r) -> fine e x (when b r).
Proof. intros H. unfold when. destruct b; [auto|]. now left. Qed.

Lemma owned_alive s o p : owned s o p = true -> palive s p = true /\ In (o, p) (prefs s).
Proof. intros H. apply owned_in in H. split; auto. apply palive_in. eauto. Qed.

(* ---- the moves which aren't about requests *)
Lemma fine_other e s t m : pinv e s -> fine e False (pstep e s (POther t m)).
Proof.
  intros P. cbn [pstep]. apply fine_when. intros A. unfold on_bs.
  pose proof (reached_inv _ _ _ (p_reach _ _ P t)) as I.
  destruct (inv_step (bs s t) m I) as [->|(b' & E & I')]; [now left|]. rewrite E. cbn [bind]. right. right. eexists. split; [reflexivity|].
  apply (pinv_frame e s).
  - exact P.
  - apply objs_bs, P.
  - exact (p_known _ _ P).
  - apply reached_upd; [apply P|]. eapply reached_step; [apply P|exact E].
  - intros [t' k] . apply frame_bs. cbn [fst snd]. intros N -> K. apply (step_other _ _ _ _ E); auto.
    intros Y. rewrite Y in A. destruct (t_stage (ptxs s (t, k))); auto; discriminate.
Qed.

Lemma fine_shrinks e x s s' o : pinv e s -> shrinks s s' o -> (forall q, ~ owns q o) -> fine e x (Ok s').
Proof.
  intros P K N. right. right. exists s'. split; auto. apply (pinv_frame e s); auto.
  - exact (k_objs _ _ _ K).
  - exact (known_shrinks _ _ _ (p_known _ _ P) K).
  - exact (reached_grows _ _ _ (k_grows _ _ _ K) (p_reach _ _ P)).
  - intros q. eapply frame_shrinks; eauto.
Qed.
Lemma fine_grows e x s s' : pinv e s -> objs s' -> known s' -> grows s s' -> (forall q, story q (ptrace s') = story q (ptrace s)) ->
  (forall q o j, owns q o -> cnt s' o j = cnt s o j) -> fine e x (Ok s').
Proof.
  intros P O K G T C. right. right. exists s'. split; auto. apply (pinv_frame e s); auto.
  - eapply reached_grows; [exact G|apply P].
  - intros q. apply frame_cnt; auto. intros o j. apply C.
Qed.

Ltac not_owner := intros ? [X|[X|[X|X]]]; discriminate X.

Lemma fine_unref e s o p : pinv e s -> (forall q, ~ owns q o) -> owned s o p = true -> fine e False (punref s o p).
Proof.
  intros P N H. apply owned_alive in H as (_ & H). destruct (punref_shrinks s o p (p_objs _ _ P) H) as (s' & -> & K & _).
  eapply fine_shrinks; eauto.
Qed.
Lemma fine_ref e s p : pinv e s -> owned s OApp p = true -> fine e False (pref s OApp p).
Proof.
  intros P H. apply owned_alive in H as (A & _). destruct (pref_spec s OApp p (p_objs _ _ P) A) as (s' & -> & O & G & A1 & A2 & A3 & A4 & A5 & A6 & A7 & F).
  right. right. exists s'. split; auto. apply (pinv_frame e s); auto.
  - apply (known_same s); [exact (p_known _ _ P)|now apply grows_steady|auto].
  - eapply reached_grows; [exact G|apply P].
  - intros q. apply F. revert q. not_owner.
Qed.
Lemma fine_acquire e s p : pinv e s -> palive s p = true -> fine e False (proxy_acquire s p).
Proof.
  intros P A. destruct (acquire_objs s p (p_objs _ _ P) A) as (s' & -> & O & G & A1 & A2 & A3 & A4 & A5 & (l & A6 & A7)).
  apply (fine_grows e _ s); auto.
  - apply (known_same s); [exact (p_known _ _ P)|now apply grows_steady|auto].
  - intros q. apply (story_same s s' q l A6). intros x X. now rewrite (A7 x X).
  - intros q o j X. rewrite A5. destruct (owner_dec (OKernel, p) (o, j)) as [Y|]; [|lia]. injection Y as <- _.
    destruct X as [X|[X|[X|X]]]; discriminate X.
Qed.
Lemma fine_drop e s p : pinv e s -> owned s OApp p = true -> fine e False (proxy_drop s p).
Proof.
  intros P H. unfold proxy_drop. set (s1 := set_prx s p (p_set_dropped (prx s p))).
  assert (O1 : objs s1) by (apply set_prx_objs; auto; apply P).
  assert (G1 : grows s s1) by now apply set_prx_grows.
  assert (P1 : pinv e s1).
  { apply (pinv_frame e s); auto.
    - apply (known_same s); [exact (p_known _ _ P)|now apply grows_steady|auto].
    - eapply reached_grows; [exact G1|apply P].
    - intros q. apply frame_cnt; auto. }
  apply (fine_unref e s1 OApp p); auto. not_owner.
Qed.
Lemma fine_remote e x s r v : pinv e s -> r_ipc v = r_ipc (rem s r) -> r_handle v = r_handle (rem s r) ->
  (r_listed v = true -> r_listed (rem s r) = true) -> fine e x (Ok (set_rem s r v)).
Proof.
  intros P E1 E2 E3. apply (fine_grows e _ s); auto.
  - apply set_rem_objs; auto. apply P.
  - apply (known_same s); [exact (p_known _ _ P)|now apply grows_steady, set_rem_grows|auto].
  - now apply set_rem_grows.
Qed.
Lemma fine_get e s ipc h d : pinv e s -> fine e False (Ok (fst (get_remote s RApp ipc h d))).
Proof.
  intros P. destruct (get_remote_objs s RApp ipc h d (p_objs _ _ P)) as (s1 & r & -> & O1 & G1 & A1 & A2 & A3 & A4 & A5 & A6 & A7 & A8 & A9); [discriminate|].
  cbn [fst]. apply (fine_grows e _ s); auto.
  - apply (known_same s); [exact (p_known _ _ P)|now apply grows_steady|auto].
  - intros q. now rewrite A2.
  - intros q o j _. unfold cnt. now rewrite A1.
Qed.
Lemma fine_put e s r : pinv e s -> rowned s RApp r = true -> fine e False (runref s RApp r).
Proof.
  intros P H. apply rowned_in in H.
  destruct (runref_objs s RApp r (p_objs _ _ P) H) as (s' & -> & O & G & A1 & A2 & A3 & A4 & A5 & A6 & A7); [discriminate|].
  apply (fine_grows e _ s); auto.
  - apply (known_same s); [exact (p_known _ _ P)|now apply grows_steady|auto].
  - intros q. now rewrite A2.
  - intros q o j _. unfold cnt. now rewrite A1.
Qed.
Lemma fine_new e s ipc r : pinv e s -> rowned s RApp r = true -> fine e False (Ok (fst (proxy_new s OApp ipc r))).
Proof.
  intros P H. apply rowned_in in H. pose proof (o_r _ (p_objs _ _ P) _ _ H) as R.
  destruct (proxy_new_objs s OApp ipc r (p_objs _ _ P) R) as (O & G & A1 & A2 & A3 & A4 & A5 & A6 & A7 & A8 & A9 & A10 & A11).
  set (s1 := fst (proxy_new s OApp ipc r)) in *. apply (fine_grows e _ s); auto.
  - apply (known_more s s1 [ECreated (nprx s)]); auto; try apply P; [now apply grows_steady|]. intros p [X|[]]; discriminate.
  - intros q. apply (story_same s s1 q [ECreated (nprx s)] A4). intros x [<-|[]]. reflexivity.
  - intros q o j X. rewrite A11. destruct (owner_dec (OApp, nprx s) (o, j)) as [Y|]; [|lia]. injection Y as <- _.
    destruct X as [X|[X|[X|X]]]; discriminate X.
Qed.
