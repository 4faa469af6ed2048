(* What follows from the invariant of ProxyInv.v *)
From Verif Require Import Base BaseLemmas UtfModel WriterModel ReaderModel CodecSpec ObjModel ObjReader KernelModel ObjSpec HidlSpec TxModel TxSpec TxProps
  RpcModel RpcSpec RpcProps
  ProxyConv BlockModel BlockSpec BlockProofs BlockRun BlockEnds BlockProps ProxyModel ProxySpec ProxyBlock ProxyObjs ProxyObjs2 ProxyObjs3 ProxyProofs
  ProxyInv ProxyInv2 ProxyInv3 ProxySingle.

Lemma in_story q x t : concerns q x = true -> In x t -> In x (story q t).
Proof. intros C H. apply filter_In. auto. Qed.
Lemma in_calls k x t : api k x = true -> In x t -> In x (calls k t).
Proof. intros C H. apply filter_In. auto. Qed.

(* What the request has come through *)
Definition fate (e : env) (s : pstate) (q : key) (p : nat) : Prop :=
  let pi := p_ipc (prx s p) in
  let r := rem s (p_remote (prx s p)) in
  let cs := calls (snd q) (btrace (bs s (fst q))) in
  let begin := [Handle (snd q); BlockCalled (snd q); HandlerReturned (snd q) (None, 0)] in
  story q (ptrace s) = [EArrive q p] /\ cs = [] \/
  story q (ptrace s) = [EArrive q p; ERefuse q p] /\ cs = [Handle (snd q); HandlerReturned (snd q) (None, - EBADMSG)] \/
  exists msg code flags fwd,
    carried (e_io e) (e_proto e pi) (ptrace s) pi (r_ipc r) msg fwd /\
    (story q (ptrace s) = [EArrive q p; EForward q p code flags msg] /\ cs = begin /\
       t_stage (ptxs s q) = QPending /\ t_fwd (ptxs s q) = fwd \/
     exists d, fwd = Some d /\
       (story q (ptrace s) = [EArrive q p; EForward q p code flags msg; ESent q (r_ipc r) (r_handle r) code (forwarded_flags flags) d] /\ cs = begin /\
          t_stage (ptxs s q) = QSent \/
        exists status reply back token,
          story q (ptrace s) = [EArrive q p; EForward q p code flags msg; ESent q (r_ipc r) (r_handle r) code (forwarded_flags flags) d; EReplied q status reply] /\
          carried_reply (e_io e) (e_proto e (r_ipc r)) (ptrace s) (r_ipc r) pi reply back /\ delivers (outs s) token back /\
          cs = begin ++ [CompleteCalled (snd q) (token, mapped_status status)])).

Lemma fate_of e s q : pinv e s -> t_stage (ptxs s q) <> QNone -> fate e s q (t_proxy (ptxs s q)).
Proof.
  intros P N. destruct (tx_here e s q P N) as (TA & _). unfold tale in TA. unfold fate.
  destruct (t_stage (ptxs s q)) eqn:ST; try contradiction.
  - left. exact TA.
  - right. left. exact TA.
  - destruct TA as (msg & A & B & C). right. right. exists msg, (t_code (ptxs s q)), (t_flags (ptxs s q)), (t_fwd (ptxs s q)).
    split; [exact B|]. left. auto.
  - destruct TA as (msg & d & A0 & A & B & C). right. right. exists msg, (t_code (ptxs s q)), (t_flags (ptxs s q)), (t_fwd (ptxs s q)).
    split; [exact B|]. right. exists d. split; [exact A0|]. left. auto.
  - destruct TA as (msg & d & status & reply & fwd & token & A0 & A & B & C & D & _ & E). right. right.
    exists msg, (t_code (ptxs s q)), (t_flags (ptxs s q)), (t_fwd (ptxs s q)). split; [exact B|]. right. exists d. split; [exact A0|].
    right. exists status, reply, fwd, token. auto.
  - destruct TA as (msg & d & status & reply & fwd & token & A0 & A & B & C & D & _ & E). right. right.
    exists msg, (t_code (ptxs s q)), (t_flags (ptxs s q)), (t_fwd (ptxs s q)). split; [exact B|]. right. exists d. split; [exact A0|].
    right. exists status, reply, fwd, token. auto.
  - destruct TA as (msg & d & status & reply & fwd & token & A0 & A & B & C & D & _ & E). right. right.
    exists msg, (t_code (ptxs s q)), (t_flags (ptxs s q)), (t_fwd (ptxs s q)). split; [exact B|]. right. exists d. split; [exact A0|].
    right. exists status, reply, fwd, token. auto.
Qed.

Lemma in_arrived e s q p : pinv e s -> In (EArrive q p) (ptrace s) -> fate e s q p /\ t_proxy (ptxs s q) = p /\ t_stage (ptxs s q) <> QNone.
Proof.
  intros P H. apply (in_story q) in H; [|cbn; apply key_eqb_refl].
  assert (N : t_stage (ptxs s q) <> QNone).
  { intros X. destruct (p_txs _ _ P q) as (T & _). unfold tale in T. rewrite X in T. rewrite T in H. destruct H. }
  pose proof (fate_of e s q P N) as F. assert (t_proxy (ptxs s q) = p) as E; [|rewrite E in F; auto].
  unfold fate in F.
  repeat match type of F with
  | _ \/ _ => destruct F as [F|F]
  | _ /\ _ => let X := fresh in destruct F as (X & F); rewrite ?X in H; clear X
  | exists x, _ => destruct F as (? & F)
  end; cbn in H; intuition congruence.
Qed.

Lemma some_event e s q x : pinv e s -> concerns q x = true -> In x (ptrace s) -> exists p, In (EArrive q p) (ptrace s).
Proof.
  intros P C H. apply (in_story q) in H; auto.
  assert (N : t_stage (ptxs s q) <> QNone).
  { intros X. destruct (p_txs _ _ P q) as (T & _). unfold tale in T. rewrite X in T. rewrite T in H. destruct H. }
  pose proof (fate_of e s q P N) as F. exists (t_proxy (ptxs s q)). apply (story_in q). unfold fate in F.
  repeat match type of F with
  | _ \/ _ => destruct F as [F|F]
  | _ /\ _ => let X := fresh in destruct F as (X & F); rewrite ?X; clear X
  | exists x, _ => destruct F as (? & F)
  end; cbn; auto.
Qed.

(* ---- the answer *)
Lemma answer_means e s q p a : pinv e s -> In (EArrive q p) (ptrace s) -> In (Answered (snd q) a) (btrace (bs s (fst q))) ->
  forwarded_reply e s q p a \/
  a = (None, - EBADMSG) /\ story q (ptrace s) = [EArrive q p; ERefuse q p] \/
  a = (None, - EFAULT) /\ In StopCalled (btrace (bs s (fst q))).
Proof.
  intros P H A. destruct (in_arrived e s q p P H) as (F & _).
  destruct (p_reach _ _ P (fst q)) as (l & R).
  destruct (C31_answer_is_the_first_completion _ _ _ _ _ R A) as (before & aft & E & D).
  destruct D as [D|[D|(D & ->)]].
  - (* completed *)
    destruct D as (t1 & t2 & t3 & E2 & _).
    assert (X : In (CompleteCalled (snd q) a) (calls (snd q) (btrace (bs s (fst q))))).
    { apply in_calls; [cbn; apply Nat.eqb_refl|]. rewrite E, E2. rewrite !in_app_iff. left. right. right. rewrite in_app_iff. right. now left. }
    left. unfold fate in F. destruct F as [(_ & F)|[(_ & F)|(msg & code & flags & fwd & F1 & F)]].
    + rewrite F in X. destruct X.
    + rewrite F in X. cbn in X. intuition discriminate.
    + destruct F as [(_ & F & _)|(d & -> & [(_ & F & _)|(status & reply & back & token & F2 & F3 & F4 & F)])]; rewrite F in X; cbn in X; try (intuition discriminate).
      destruct X as [X|[X|[X|[X|[]]]]]; try discriminate. injection X as <-.
      exists code, flags, msg, d, status, reply, back. cbn. auto 10.
  - (* returned *)
    destruct D as (t1 & t2 & E2 & D1 & D2).
    assert (X : In (HandlerReturned (snd q) a) (calls (snd q) (btrace (bs s (fst q))))).
    { apply in_calls; [cbn; apply Nat.eqb_refl|]. rewrite E, E2. rewrite !in_app_iff. left. right. now left. }
    right. left. unfold fate in F. destruct F as [(_ & F)|[(F0 & F)|F]].
    + rewrite F in X. destruct X.
    + rewrite F in X. cbn in X. destruct X as [X|[X|[]]]; try discriminate. injection X as <-. auto.
    + exfalso. assert (B : exists r, calls (snd q) (btrace (bs s (fst q))) = [Handle (snd q); BlockCalled (snd q); HandlerReturned (snd q) (None, 0)] ++ r).
      { destruct F as (msg & code & flags & fwd & _ & [(_ & F & _)|(d & _ & [(_ & F & _)|(status & reply & back & token & _ & _ & _ & F)])]); rewrite F.
        - exists []. reflexivity.
        - exists []. reflexivity.
        - eexists. reflexivity. }
      destruct B as (r & B). rewrite E, E2 in B. rewrite <- app_assoc in B. cbn [Datatypes.app] in B. rewrite calls_app in B.
      assert (Z : exists c1, calls (snd q) t1 = [Handle (snd q); BlockCalled (snd q)] ++ c1).
      { destruct (calls (snd q) t1) as [|x [|y c]] eqn:C.
        - cbn in B. rewrite Nat.eqb_refl in B. discriminate.
        - cbn in B. rewrite Nat.eqb_refl in B. discriminate.
        - injection B as -> -> _. eexists. reflexivity. }
      destruct Z as (c1 & Z).
      assert (Y : In (BlockCalled (snd q)) t1).
      { assert (Y : In (BlockCalled (snd q)) (calls (snd q) t1)) by (rewrite Z; cbn; auto). now apply filter_In in Y. }
      apply in_split in Y as (u1 & u2 & Y).
      destruct (D2 u1 u2 Y) as (x & X1 & X2).
      assert (B0 : In x before) by (rewrite E2, Y, !in_app_iff; auto).
      destruct X2 as [->|(a0 & ->)].
      * assert (DR : In (Dropped (snd q)) (btrace (bs s (fst q)))) by (rewrite E, in_app_iff; auto).
        destruct (C32_dropped_after_answer_partial _ _ _ _ R DR) as (_ & DX). exact (DX _ _ _ E B0).
      * assert (C : In (CompleteCalled (snd q) a0) (calls (snd q) u1)) by (apply in_calls; [cbn; apply Nat.eqb_refl|auto]).
        rewrite Y, calls_app in B. rewrite Y, calls_app in Z.
        assert (HD : exists c2, calls (snd q) u1 = Handle (snd q) :: c2 /\ forall z, In z (calls (snd q) u1) -> z = Handle (snd q) \/ In z c2).
        { destruct (calls (snd q) u1) as [|x c2]; [destruct C|]. injection Z as -> _. exists c2. split; auto. intros z [<-|Hz]; auto. }
        destruct HD as (c2 & HD & HI). rewrite HD in C, Z, B. destruct C as [C|C]; [discriminate|].
        destruct c2 as [|y c2]; [destruct C|]. cbn in Z. injection Z as -> Z. destruct C as [C|C]; [discriminate|].
        (* the third call is the return, and it's not in there *)
        cbn in B. injection B as B. destruct c2 as [|z c2]; [destruct C|]. cbn in B. injection B as -> _.
        apply (D1 (None, 0)). rewrite Y, in_app_iff. left.
        assert (K : In (HandlerReturned (snd q) (None, 0)) (calls (snd q) u1)) by (rewrite HD; cbn; auto). now apply filter_In in K.
  - right. right. split; auto. rewrite E, in_app_iff. auto.
Qed.

(* ---- it comes *)
Lemma not_blocked t k a : In (CompleteCalled k a) t -> ~ blocked t k.
Proof.
  intros H (t1 & t2 & -> & A & _ & B). apply in_app_or in H as [H|[H|H]].
  - apply (A _ H). right. eauto.
  - discriminate.
  - apply (B _ H). right. eauto.
Qed.
Lemma answer_follows e s q x : pinv e s -> In x (ptrace s) -> (exists status reply, x = EReplied q status reply) \/ (exists p, x = ERefuse q p) ->
  exists n b a, (n <= 5)%nat /\ thread_run (bs s (fst q)) n = Ok b /\ In (Answered (snd q) a) (btrace b).
Proof.
  intros P H X. destruct (p_reach _ _ P (fst q)) as (l & R).
  assert (C : concerns q x = true) by (destruct X as [(? & ? & ->)|(? & ->)]; cbn; apply key_eqb_refl).
  destruct (some_event e s q x P C H) as (p & AR). destruct (in_arrived e s q p P AR) as (F & _).
  apply (in_story q) in H; auto.
  assert (G : exists b, In (HandlerReturned (snd q) b) (btrace (bs s (fst q))) /\ ~ blocked (btrace (bs s (fst q))) (snd q)).
  { unfold fate in F. destruct F as [(F & _)|[(F & F')|(msg & code & flags & fwd & _ & [(F & _)|(d & _ & [(F & _)|(status & reply & back & token & F & _ & _ & F')])])]];
      rewrite F in H.
    - exfalso. destruct X as [(? & ? & ->)|(? & ->)]; cbn in H; intuition discriminate.
    - exists (None, - EBADMSG).
      assert (I : forall z, In z [Handle (snd q); HandlerReturned (snd q) (None, - EBADMSG)] -> In z (btrace (bs s (fst q)))).
      { intros z Hz. rewrite <- F' in Hz. now apply filter_In in Hz. }
      split; [apply I; cbn; auto|]. intros (t1 & t2 & E & _).
      assert (Y : In (BlockCalled (snd q)) (calls (snd q) (btrace (bs s (fst q))))).
      { apply in_calls; [cbn; apply Nat.eqb_refl|]. rewrite E, in_app_iff. right. now left. }
      rewrite F' in Y. cbn in Y. intuition discriminate.
    - exfalso. destruct X as [(? & ? & ->)|(? & ->)]; cbn in H; intuition discriminate.
    - exfalso. destruct X as [(? & ? & ->)|(? & ->)]; cbn in H; intuition discriminate.
    - exists (None, 0).
      assert (I : forall z, In z ([Handle (snd q); BlockCalled (snd q); HandlerReturned (snd q) (None, 0)] ++ [CompleteCalled (snd q) (token, mapped_status status)]) -> In z (btrace (bs s (fst q)))).
      { intros z Hz. rewrite <- F' in Hz. now apply filter_In in Hz. }
      split; [apply I; cbn; auto|]. eapply not_blocked. apply I. cbn. auto. }
  destruct G as (b & G1 & G2). exact (C31_answer_comes _ _ _ _ b R G1 G2).
Qed.

(* ---- nothing prevents a reply from being passed on *)
Lemma reply_enabled e s q status reply : pinv e s -> t_stage (ptxs s q) = QSent ->
  pstep e s (PReply q status reply) <> Disabled.
Proof.
  intros P ST. cbn [pstep]. unfold when, at_stage. rewrite ST. unfold tx_reply. destruct q as [t k].
  destruct (negb _); [discriminate|].
  set (s0 := emit s (EReplied (t, k) status reply)). assert (O0 : objs s0) by (apply objs_quiet; [apply P|reflexivity]).
  match goal with |- (do (_, _) <- ?c; _) <> _ => assert (C : c = Crash \/ exists y, c = Ok y) end.
  { destruct reply as [[[data ob]|]|]; [|eauto..].
    destruct (convert_ok ob s0 (OReply (t, k)) (r_ipc (rem s (p_remote (prx s (t_proxy (ptxs s (t, k))))))) (p_ipc (prx s (t_proxy (ptxs s (t, k))))) data O0) as [(-> & _)|(s' & l & -> & _)]; eauto. }
  destruct C as [->|([s1 l] & ->)]; [discriminate|]. cbn [bind].
  destruct (reply_to_local _ _ _ _); [|discriminate].
  destruct (punref s1 _ _) as [| |s2] eqn:E; cbn [bind]; [|discriminate|].
  - revert E. unfold punref. destruct (take1 _ _ _); [|discriminate]. destruct (palive _ _); [discriminate|]. unfold runref.
    destruct (take1 _ _ _); [|discriminate]. destruct (ralive _ _); discriminate.
  - match goal with |- (let (_, _) := ?c in _) <> _ => destruct c as [s3 token] end. unfold on_bs.
    destruct (step _ _); discriminate.
Qed.

(* ---- what was sent *)
From Verif Require Import ProxyHeader.
Lemma sent_copy e moves s q ipc h code flags d p flags0 (hdr payload : bytes) ob :
  prun e (pinitial e) moves = Ok s -> In (ESent q ipc h code flags d) (ptrace s) ->
  In (EForward q p code flags0 (Some (hdr ++ payload, ob))) (ptrace s) ->
  contents_ok (e_io e) (e_proto e (p_ipc (prx s p))) (hdr ++ payload) ob 0 -> (forall o, In o ob -> blen hdr <= o) ->
  exists payload' : bytes, wd_bytes d = hdr ++ payload' /\ blen payload' = blen payload.
Proof.
  intros R H FO C OO. apply reached_pinv in R.
  destruct (some_event e s q _ R (key_eqb_refl q : concerns q (ESent q ipc h code flags d) = true) H) as (p' & AR).
  destruct (in_arrived e s q p' R AR) as (F & _).
  apply (in_story q) in H; [|apply key_eqb_refl]. apply (in_story q) in FO; [|apply key_eqb_refl].
  unfold fate in F. destruct F as [(F & _)|[(F & _)|(msg & c0 & f0 & fwd & F1 & [(F & _ & ST & FW)|(d0 & -> & F)])]].
  - rewrite F in *. cbn in H. intuition discriminate.
  - rewrite F in *. cbn in H. intuition discriminate.
  - rewrite F in *. cbn in H. intuition discriminate.
  - assert (X : d = d0 /\ p' = p /\ msg = Some (hdr ++ payload, ob)).
    { destruct F as [(F & _)|(st & rp & back & token & F & _)]; rewrite F in *.
      - cbn in H, FO. destruct H as [H|[H|[H|[]]]]; try discriminate. destruct FO as [FO|[FO|[FO|[]]]]; try discriminate.
        injection H. injection FO. intros. subst. auto.
      - cbn in H, FO. destruct H as [H|[H|[H|[H|[]]]]]; try discriminate. destruct FO as [FO|[FO|[FO|[FO|[]]]]]; try discriminate.
        injection H. injection FO. intros. subst. auto. }
    destruct X as (-> & -> & ->). cbn in F1. destruct F1 as (d1 & [= <-] & F1). eapply header_kept; eauto.
Qed.
