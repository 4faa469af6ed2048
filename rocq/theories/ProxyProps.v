(* C48: requests which are forwarded by proxy objects *)
From Verif Require Import Base BaseLemmas UtfModel WriterModel ReaderModel CodecSpec ObjModel ObjReader KernelModel ObjSpec HidlSpec TxModel TxSpec
  RpcModel RpcSpec
  ProxyConv BlockModel BlockSpec BlockProofs BlockRun BlockEnds BlockProps ProxyModel ProxySpec ProxyBlock ProxyObjs ProxyObjs2 ProxyObjs3 ProxyProofs
  ProxyInv ProxyInv2 ProxyInv3 ProxySingle ProxyMain ProxyHeader.

(* What the caller gets is what the remote object has replied to the copy of the request, or an
   error from the proxy if the remote object was gone by then, or an error because the library
   is shutting down *)
Theorem C48_answer_is_the_remote_reply e moves s q p a :
  prun e (pinitial e) moves = Ok s ->
  In (EArrive q p) (ptrace s) -> In (Answered (snd q) a) (btrace (bs s (fst q))) ->
  forwarded_reply e s q p a \/
  a = (None, - EBADMSG) /\ story q (ptrace s) = [EArrive q p; ERefuse q p] \/
  a = (None, - EFAULT) /\ In StopCalled (btrace (bs s (fst q))).
Proof. intros R. apply answer_means. exact (reached_pinv _ _ _ R). Qed.
Print Assumptions C48_answer_is_the_remote_reply.

(* It gets it once *)
Theorem C48_answered_once e moves s q :
  prun e (pinitial e) moves = Ok s -> (times (is_answer (snd q)) (btrace (bs s (fst q))) <= 1)%nat.
Proof.
  intros R. apply reached_pinv in R. destruct (p_reach _ _ R (fst q)) as (l & RR). exact (C31_answered_once _ _ _ _ RR).
Qed.
Print Assumptions C48_answered_once.

(* The proxy completes the request once, and only after the remote object has replied *)
Theorem C48_completed_once e moves s q p :
  prun e (pinitial e) moves = Ok s -> In (EArrive q p) (ptrace s) ->
  let k := snd q in
  let completions := filter (fun x => match x with CompleteCalled j _ => Nat.eqb j k | _ => false end) (btrace (bs s (fst q))) in
  let replies := filter (fun x => match x with EReplied j _ _ => key_eqb j q | _ => false end) (ptrace s) in
  length completions = length replies /\ (length replies <= 1)%nat /\
  forall a, In (CompleteCalled k a) (btrace (bs s (fst q))) -> forwarded_reply e s q p a.
Proof.
  intros R H k completions replies. apply reached_pinv in R. destruct (in_arrived e s q p R H) as (F & _).
  assert (C : completions = filter (fun x => match x with CompleteCalled j _ => Nat.eqb j k | _ => false end) (calls k (btrace (bs s (fst q))))).
  { unfold completions, calls. generalize (btrace (bs s (fst q))). clear. induction l as [|x l IH]; [reflexivity|]. cbn.
    destruct x; cbn; auto; destruct (Nat.eqb k0 k) eqn:E; cbn; rewrite ?E, IH; reflexivity. }
  assert (D : replies = filter (fun x => match x with EReplied j _ _ => key_eqb j q | _ => false end) (story q (ptrace s))).
  { unfold replies, story. generalize (ptrace s). clear. induction l as [|x l IH]; [reflexivity|]. cbn.
    destruct x; cbn; auto; destruct (key_eqb q0 q) eqn:E; cbn; rewrite ?E, IH; reflexivity. }
  rewrite C, D.
  assert (G : forall a, In (CompleteCalled k a) (btrace (bs s (fst q))) -> In (CompleteCalled k a) (calls k (btrace (bs s (fst q))))).
  { intros a X. apply in_calls; auto. cbn. apply Nat.eqb_refl. }
  unfold fate in F. fold k in F.
  destruct F as [(-> & X)|[(-> & X)|(msg & code & flags & fwd & F1 & [(-> & X & _)|(d & -> & [(-> & X & _)|(status & reply & back & token & F2 & F3 & F4 & X)])])]];
    rewrite X in *; cbn; rewrite ?key_eqb_refl, ?Nat.eqb_refl; cbn.
  - repeat split; auto. intros a Y. now apply G in Y.
  - repeat split; auto. intros a Y. apply G in Y. cbn in Y. intuition discriminate.
  - repeat split; auto. intros a Y. apply G in Y. cbn in Y. intuition discriminate.
  - repeat split; auto. intros a Y. apply G in Y. cbn in Y. intuition discriminate.
  - rewrite F2. cbn. rewrite key_eqb_refl. cbn. repeat split; auto. intros a Y. apply G in Y. cbn in Y.
    destruct Y as [Y|[Y|[Y|[Y|[]]]]]; try discriminate. injection Y as <-. exists code, flags, msg, d, status, reply, back. auto 10.
Qed.
Print Assumptions C48_completed_once.

(* Once the remote object has replied, or the proxy has refused the request, the thread which
   waits for it answers after a few steps whatever else is going on *)
Theorem C48_answer_comes e moves s q x :
  prun e (pinitial e) moves = Ok s -> In x (ptrace s) ->
  (exists status reply, x = EReplied q status reply) \/ (exists p, x = ERefuse q p) ->
  exists n b a, (n <= 5)%nat /\ thread_run (bs s (fst q)) n = Ok b /\ In (Answered (snd q) a) (btrace b).
Proof. intros R. apply (answer_follows e). exact (reached_pinv _ _ _ R). Qed.
Print Assumptions C48_answer_comes.

(* As long as the remote object hasn't replied, its reply can be passed on *)
Theorem C48_reply_is_accepted e moves s q ipc h code flags d status reply :
  prun e (pinitial e) moves = Ok s ->
  In (ESent q ipc h code flags d) (ptrace s) -> (forall st r, ~ In (EReplied q st r) (ptrace s)) ->
  match reply with Some msg => good e ipc msg | None => True end ->
  exists s', pstep e s (PReply q status reply) = Ok s' /\
    exists a p, In (CompleteCalled (snd q) a) (btrace (bs s' (fst q))) /\ forwarded_reply e s' q p a /\ snd a = mapped_status status.
Proof.
  intros R H N G. pose proof (reached_pinv _ _ _ R) as P.
  destruct (some_event e s q _ P (key_eqb_refl q : concerns q (ESent q ipc h code flags d) = true) H) as (p & AR).
  destruct (in_arrived e s q p P AR) as (F & TP & NN).
  assert (Hq : In (ESent q ipc h code flags d) (story q (ptrace s))) by (apply in_story; [apply key_eqb_refl|exact H]).
  assert (X : t_stage (ptxs s q) = QSent /\ ipc = r_ipc (rem s (p_remote (prx s p)))).
  { unfold fate in F. destruct F as [(F & _)|[(F & _)|(msg & c0 & f0 & fwd & _ & [(F & _)|(d0 & _ & [(F & _ & ST)|(st & rp & back & token & F & _)])])]]; rewrite F in Hq.
    - cbn in Hq. intuition discriminate.
    - cbn in Hq. intuition discriminate.
    - cbn in Hq. intuition discriminate.
    - split; auto. cbn in Hq. destruct Hq as [Hq|[Hq|[Hq|[]]]]; try discriminate. congruence.
    - exfalso. apply (N st rp). apply (story_in q). rewrite F. cbn. auto. }
  destruct X as (ST & ->).
  destruct (pstep_fine e s (PReply q status reply) P) as [X|[(X & EX)|(s' & X & P')]].
  - now apply reply_enabled in X.
  - exfalso. cbn [excuse] in EX. rewrite TP in EX. destruct reply; contradiction.
  - exists s'. split; [exact X|].
    assert (R' : prun e (pinitial e) (moves ++ [PReply q status reply]) = Ok s').
    { revert R. generalize (pinitial e). clear -X. induction moves as [|m l IH]; intros s0; cbn [prun Datatypes.app].
      - intros E. apply ok_same in E. subst. now rewrite X.
      - destruct (pstep e s0 m); try discriminate. cbn [bind]. apply IH. }
    assert (T : exists t, ptrace s' = ptrace s ++ t /\ In (EReplied q status reply) t).
    { cbn [pstep] in X. apply when_ok in X as (_ & X). unfold tx_reply in X. destruct q as [t k].
      destruct (negb _); [discriminate|].
      match type of X with (do (_, _) <- ?c; _) = _ => destruct c as [| |[s1 l]] eqn:E1; try discriminate end. cbn [bind] in X.
      destruct (reply_to_local _ _ _ _) as [fwd|]; [|discriminate].
      destruct (punref s1 _ _) as [| |s2] eqn:E2; try discriminate. cbn [bind] in X.
      set (s0 := emit s (EReplied (t, k) status reply)) in *.
      assert (O0 : objs s0) by (apply objs_quiet; [apply P|reflexivity]).
      assert (T1 : exists t1, ptrace s1 = ptrace s0 ++ t1).
      { destruct reply as [[[data ob]|]|].
        - destruct (convert_ok ob s0 (OReply (t, k)) (r_ipc (rem s (p_remote (prx s (t_proxy (ptxs s (t, k))))))) (p_ipc (prx s (t_proxy (ptxs s (t, k))))) data O0) as [(Y & _)|(s3 & l3 & Y & V & _)]; rewrite Y in E1; [discriminate|].
          apply ok_pair in E1 as (<- & _). exact (g_trace _ _ (v_grows _ _ _ V)).
        - apply ok_pair in E1 as (<- & _). exists []. now rewrite app_nil_r.
        - apply ok_pair in E1 as (<- & _). exists []. now rewrite app_nil_r. }
      destruct T1 as (t1 & T1).
      assert (T2 : exists t2, ptrace s2 = ptrace s1 ++ t2).
      { unfold punref in E2. destruct (take1 _ _ _) as [l2|]; [|discriminate]. destruct (palive _ _); [apply ok_same in E2; subst; exists []; cbn; now rewrite app_nil_r|].
        destruct (runref_listed _ _ _ _ E2) as (-> & _). destruct (p_acquired _); cbn; [rewrite <- app_assoc|]; eexists; reflexivity. }
      destruct T2 as (t2 & T2).
      match type of X with (let (_, _) := ?c in _) = _ => assert (T3 : ptrace (fst c) = ptrace s2) by (destruct fwd; reflexivity); destruct c as [s3 token] end.
      cbn [fst] in T3. unfold on_bs in X. destruct (must _) as [| |b]; try discriminate. cbn [bind] in X. apply ok_same in X. subst s'. cbn [set_ptx set_bs ptrace].
      rewrite T3, T2, T1. unfold s0. cbn [emit ptrace]. rewrite <- !app_assoc. eexists. split; [reflexivity|]. cbn. auto. }
    destruct T as (tr & T1 & T2).
    assert (ER : In (EReplied q status reply) (ptrace s')) by (rewrite T1, in_app_iff; auto).
    assert (AR' : In (EArrive q p) (ptrace s')) by (rewrite T1, in_app_iff; auto).
    destruct (in_arrived e s' q p P' AR') as (F' & _).
    assert (Hq' : In (EReplied q status reply) (story q (ptrace s'))) by (apply in_story; [apply key_eqb_refl|exact ER]).
    unfold fate in F'. destruct F' as [(F' & _)|[(F' & _)|(msg & c0 & f0 & fwd & F1 & [(F' & _)|(d0 & -> & [(F' & _)|(st & rp & back & token & F' & F2 & F3 & F4)])])]]; rewrite F' in Hq'.
    + cbn in Hq'. intuition discriminate.
    + cbn in Hq'. intuition discriminate.
    + cbn in Hq'. intuition discriminate.
    + cbn in Hq'. intuition discriminate.
    + cbn in Hq'. destruct Hq' as [Hq'|[Hq'|[Hq'|[Hq'|[]]]]]; try discriminate. injection Hq' as -> ->.
      exists (token, mapped_status status), p. split; [|split; [|reflexivity]].
      * assert (Y : In (CompleteCalled (snd q) (token, mapped_status status)) (calls (snd q) (btrace (bs s' (fst q))))) by (rewrite F4, in_app_iff; cbn; auto).
        now apply filter_In in Y.
      * exists c0, f0, msg, d0, status, reply, back. auto 10.
Qed.
Print Assumptions C48_reply_is_accepted.

(* A request is sent once, to the remote object, and it's a copy of what was received: with
   the same code, and one-way if it was one-way *)
Theorem C48_sent_once e moves s q ipc h code flags d :
  prun e (pinitial e) moves = Ok s -> In (ESent q ipc h code flags d) (ptrace s) ->
  counts (fun x => match x with ESent j _ _ _ _ _ => key_eqb j q | _ => false end) (ptrace s) = 1%nat /\
  exists p flags0 msg,
    In (EArrive q p) (ptrace s) /\ In (EForward q p code flags0 msg) (ptrace s) /\
    ipc = r_ipc (stands_for s p) /\ h = r_handle (stands_for s p) /\ Z.testbit flags 0 = Z.testbit flags0 0 /\
    carried (e_io e) (e_proto e (p_ipc (prx s p))) (ptrace s) (p_ipc (prx s p)) ipc msg (Some d).
Proof.
  intros R H. pose proof (reached_pinv _ _ _ R) as P.
  destruct (some_event e s q _ P (key_eqb_refl q : concerns q (ESent q ipc h code flags d) = true) H) as (p & AR).
  destruct (in_arrived e s q p P AR) as (F & _).
  assert (Hq : In (ESent q ipc h code flags d) (story q (ptrace s))) by (apply in_story; [apply key_eqb_refl|exact H]).
  assert (G : exists rest flags0 msg, story q (ptrace s) = [EArrive q p; EForward q p code flags0 msg; ESent q ipc h code flags d] ++ rest /\
     (rest = [] \/ exists st rp, rest = [EReplied q st rp]) /\
     ipc = r_ipc (stands_for s p) /\ h = r_handle (stands_for s p) /\ flags = forwarded_flags flags0 /\
     carried (e_io e) (e_proto e (p_ipc (prx s p))) (ptrace s) (p_ipc (prx s p)) ipc msg (Some d)).
  { unfold fate in F. unfold stands_for.
    destruct F as [(F & _)|[(F & _)|(msg & c0 & f0 & fwd & F1 & [(F & _)|(d0 & -> & [(F & _)|(st & rp & back & token & F & _)])])]]; rewrite F in *.
    - cbn in Hq. intuition discriminate.
    - cbn in Hq. intuition discriminate.
    - cbn in Hq. intuition discriminate.
    - cbn in Hq. destruct Hq as [Hq|[Hq|[Hq|[]]]]; try discriminate. injection Hq as <- <- <- <- <-. exists [], f0, msg. auto 10.
    - cbn in Hq. destruct Hq as [Hq|[Hq|[Hq|[Hq|[]]]]]; try discriminate. injection Hq as <- <- <- <- <-. eexists [_], f0, msg.
      split; [reflexivity|]. split; [right; eauto|]. auto. }
  destruct G as (rest & flags0 & msg & G1 & G2 & -> & -> & -> & G3). split.
  - assert (C : counts (fun x => match x with ESent j _ _ _ _ _ => key_eqb j q | _ => false end) (ptrace s) =
                counts (fun x => match x with ESent j _ _ _ _ _ => key_eqb j q | _ => false end) (story q (ptrace s))).
    { unfold counts, story. generalize (ptrace s). clear. induction l as [|x l IH]; [reflexivity|]. cbn.
      destruct x; cbn; auto; destruct (key_eqb q0 q) eqn:E; cbn; rewrite ?E; cbn; auto. }
    rewrite C, G1. unfold counts. destruct G2 as [->|(st & rp & ->)]; cbn; rewrite key_eqb_refl; reflexivity.
  - exists p, flags0, msg. split; [exact AR|]. split; [apply (story_in q); rewrite G1; cbn; auto|].
    do 2 (split; [reflexivity|]). split; [|exact G3]. unfold forwarded_flags, request_flags, TX_FLAG_ONEWAY. destruct (Z.testbit flags0 0); reflexivity.
Qed.
Print Assumptions C48_sent_once.

(* ---- objects *)

(* One remote object has one proxy on each side, provided that the bridge doesn't make another
   one for an object which was met already in a message. Full statement: without that *)
Theorem C48_one_proxy_partial e moves s p1 p2 :
  prun e (pinitial e) moves = Ok s -> no_second e (pinitial e) moves ->
  palive s p1 = true -> palive s p2 = true ->
  p_ipc (prx s p1) = p_ipc (prx s p2) -> p_remote (prx s p1) = p_remote (prx s p2) -> p1 = p2.
Proof.
  intros R N. apply (single_run e moves (pinitial e) s (pinv_initial e)); auto. intros a b A. discriminate.
Qed.
Print Assumptions C48_one_proxy_partial.

(* In all cases, objects in messages become proxies for those objects. The same handle is
   the same remote object as long as the library knows it *)
Theorem C48_right_proxy e moves s ri h li r p :
  prun e (pinitial e) moves = Ok s -> In (EConvert ri h li r p) (ptrace s) ->
  p_ipc (prx s p) = li /\ r_ipc (stands_for s p) = ri /\ r_handle (stands_for s p) = h /\
  forall r2, r_listed (rem s r2) = true -> r_listed (stands_for s p) = true -> r_ipc (rem s r2) = ri -> r_handle (rem s r2) = h ->
    r2 = p_remote (prx s p).
Proof.
  intros R H. apply reached_pinv in R. pose proof (p_objs _ _ R) as O. unfold stands_for.
  destruct (o_conv _ O _ _ _ _ _ H) as (A & -> & B & C & D & E). repeat split; auto.
  intros r2 L1 L2 E1 E2. apply (o_unique _ O); congruence.
Qed.
Print Assumptions C48_right_proxy.

(* Every handle is replaced, provided that no dead object is in the table. Full statement:
   without that *)
Theorem C48_all_replaced_partial e moves s ri h li :
  prun e (pinitial e) moves = Ok s -> no_maybe_dead moves -> ~ In (EKept ri h li) (ptrace s).
Proof.
  intros R N. apply (lively_run e moves (pinitial e) s (pinv_initial e)); auto. split; [discriminate|intros ? ? ? []].
Qed.
Print Assumptions C48_all_replaced_partial.

(* A proxy acquires its remote object once at most, and releases it as many times, when it's
   gone, which happens once *)
Theorem C48_references_balanced e moves s p :
  prun e (pinitial e) moves = Ok s ->
  let acquired := counts (fun x => match x with EAcquire j => Nat.eqb j p | _ => false end) (ptrace s) in
  let released := counts (fun x => match x with ERelease j => Nat.eqb j p | _ => false end) (ptrace s) in
  let gone := counts (fun x => match x with EGone j => Nat.eqb j p | _ => false end) (ptrace s) in
  (acquired <= 1)%nat /\ (gone <= 1)%nat /\
  (gone = 1%nat -> palive s p = false /\ released = acquired) /\ (gone = 0%nat -> released = 0%nat) /\
  (In (ECreated p) (ptrace s) -> palive s p = false -> gone = 1%nat).
Proof.
  intros R acquired released gone. apply reached_pinv in R. pose proof (p_objs _ _ R) as O.
  assert (A : acquired = tally (is_acquire p) (ptrace s)) by reflexivity.
  assert (B : released = tally (is_release p) (ptrace s)) by reflexivity.
  assert (C : gone = tally (is_gone p) (ptrace s)) by reflexivity.
  rewrite (o_acquire _ O) in A. rewrite (o_release _ O) in B. rewrite (o_gone _ O) in C. rewrite A, B, C.
  pose proof (o_fresh _ O p) as D.
  assert (E : palive s p = true -> (p < nprx s)%nat) by apply (alive_range s p O).
  split; [destruct (p_acquired (prx s p)); lia|].
  destruct (Nat.ltb_spec p (nprx s)) as [L|L].
  - cbn [andb]. destruct (palive s p), (p_acquired (prx s p)); cbn; repeat split; intros; auto; try lia; try discriminate.
  - cbn [andb]. rewrite (D L). cbn. repeat split; intros; auto; try lia; try discriminate.
    exfalso. assert (X : tally (is_created p) (ptrace s) = 0%nat) by (rewrite (o_created _ O); destruct (Nat.ltb_spec p (nprx s)); auto; lia).
    unfold tally in X. apply length_zero_iff_nil in X.
    assert (Y : In (ECreated p) (filter (is_created p) (ptrace s))) by (apply filter_In; split; auto; cbn; apply Nat.eqb_refl).
    rewrite X in Y. destruct Y.
Qed.
Print Assumptions C48_references_balanced.

(* When a request is finished, it has no references left *)
Theorem C48_finished_requests_hold_nothing e moves s q :
  prun e (pinitial e) moves = Ok s -> t_stage (ptxs s q) = QFreed ->
  forall p, ~ In (OTx q, p) (prefs s) /\ ~ In (ORequest q, p) (prefs s).
Proof.
  intros R ST p. apply reached_pinv in R. destruct (tx_here e s q R) as (_ & _ & _ & _ & _ & _ & C4 & C5 & _); [congruence|].
  rewrite ST in *. split; intros H; apply cnt_in in H.
  - rewrite C4, andb_false_r in H. lia.
  - apply C5 in H. discriminate.
Qed.
Print Assumptions C48_finished_requests_hold_nothing.

(* ---- what goes wrong *)

(* The cases in which the process crashes, and no others: broken messages (the kernel and the
   driver check them, that's C13), requests without data, and replies with the status "dead
   object" while the proxy is being freed. Full statement: it doesn't *)
Theorem C48_no_crash_partial e moves s m :
  prun e (pinitial e) moves = Ok s -> pstep e s m = Crash ->
  match m with
  | PHandle q _ _ msg _ _ _ => ~ good e (p_ipc (prx s (t_proxy (ptxs s q)))) msg
  | PReply q _ reply => exists msg, reply = Some msg /\ ~ good e (r_ipc (stands_for s (t_proxy (ptxs s q)))) msg
  | PSend q => exists p code flags, In (EForward q p code flags None) (ptrace s)
  | PReplyEnd q => palive s (t_proxy (ptxs s q)) = false /\ exists reply, In (EReplied q STATUS_DEAD_OBJECT reply) (ptrace s)
  | _ => False
  end.
Proof.
  intros R C. apply reached_pinv in R. destruct (pstep_fine e s m R) as [X|[(_ & X)|(s' & X & _)]]; try congruence.
  destruct m; cbn [excuse] in X; auto.
  - destruct X as (p & code & flags & X). exists p, code, flags. apply (story_in q). rewrite X. cbn. auto.
  - destruct reply as [msg|]; [|contradiction]. eauto.
Qed.
Print Assumptions C48_no_crash_partial.

(* Every request without data crashes the process *)
Theorem C48_empty_request_refuted e moves s q p code flags :
  prun e (pinitial e) moves = Ok s -> In (EForward q p code flags None) (ptrace s) ->
  pstep e s (PSend q) = Crash /\ forall ipc h c f d, ~ In (ESent q ipc h c f d) (ptrace s).
Proof.
  intros R H. apply reached_pinv in R.
  destruct (some_event e s q _ R (key_eqb_refl q : concerns q (EForward q p code flags None) = true) H) as (p' & AR).
  destruct (in_arrived e s q p' R AR) as (F & _).
  apply (in_story q) in H; [|apply key_eqb_refl].
  assert (S : forall ipc h c f d, In (ESent q ipc h c f d) (ptrace s) -> In (ESent q ipc h c f d) (story q (ptrace s))).
  { intros. apply in_story; auto. apply key_eqb_refl. }
  unfold fate in F. destruct F as [(F & _)|[(F & _)|(msg & c0 & f0 & fwd & F1 & [(F & _ & ST & FW)|(d0 & -> & [(F & _)|(st & rp & back & token & F & _)])])]]; rewrite F in *.
  - cbn in H. intuition discriminate.
  - cbn in H. intuition discriminate.
  - cbn in H. destruct H as [H|[H|[]]]; try discriminate. injection H as _ _ _ ->. cbn in F1. rewrite F1 in FW. split.
    + cbn [pstep]. unfold when, at_stage. rewrite ST. unfold send. now rewrite FW.
    + intros ipc h c f d X. apply S in X. cbn in X. intuition discriminate.
  - exfalso. cbn in H. destruct H as [H|[H|[H|[]]]]; try discriminate. injection H as _ _ _ ->. cbn in F1. discriminate.
  - exfalso. cbn in H. destruct H as [H|[H|[H|[H|[]]]]]; try discriminate. injection H as _ _ _ ->. cbn in F1. discriminate.
Qed.
Print Assumptions C48_empty_request_refuted.

(* ---- the header *)

(* The remote object reads the same interface name as the proxy, if both sides use the same
   protocol. Full statement: in all cases *)
Theorem C48_header_partial e moves s q ipc h code flags d p flags0 (iface hdr payload : bytes) ob m :
  prun e (pinitial e) moves = Ok s -> In (ESent q ipc h code flags d) (ptrace s) ->
  In (EForward q p code flags0 (Some (hdr ++ payload, ob))) (ptrace s) ->
  let pr := e_proto e (p_ipc (prx s p)) in
  e_proto e ipc = pr ->
  iface_ok pr iface -> has_header pr code -> new_iface pr (Some iface) = Base.Ok hdr ->
  contents_ok (e_io e) pr (hdr ++ payload) ob 0 -> (forall o, In o ob -> blen hdr <= o) -> blen (hdr ++ payload) < 2 ^ 31 ->
  set_data (e_proto e ipc) m (wd_bytes d) (wd_offsets d) code = Base.Ok (Some iface, blen hdr).
Proof.
  intros R H FO pr E I HH N C OO L. destruct (sent_copy e moves s q ipc h code flags d p flags0 hdr payload ob R H FO C OO) as (payload' & -> & L').
  rewrite E. exact (same_header_again m pr iface hdr payload payload' _ code I HH N L L').
Qed.
Print Assumptions C48_header_partial.

(* The header isn't in the protocol of the destination: a HIDL service always reads an empty
   name from a request which was received by an AIDL proxy *)
Theorem C48_header_refuted e moves s q ipc h code flags d p flags0 (iface hdr payload : bytes) ob m :
  prun e (pinitial e) moves = Ok s -> In (ESent q ipc h code flags d) (ptrace s) ->
  In (EForward q p code flags0 (Some (hdr ++ payload, ob))) (ptrace s) ->
  let pr := e_proto e (p_ipc (prx s p)) in
  e_proto e ipc = Hidl -> pr <> Hidl ->
  iface_ok pr iface -> has_header pr code -> new_iface pr (Some iface) = Base.Ok hdr ->
  contents_ok (e_io e) pr (hdr ++ payload) ob 0 -> (forall o, In o ob -> blen hdr <= o) ->
  set_data (e_proto e ipc) m (wd_bytes d) (wd_offsets d) code = Base.Ok (Some [], 4).
Proof.
  intros R H FO pr E NH I HH N C OO. destruct (sent_copy e moves s q ipc h code flags d p flags0 hdr payload ob R H FO C OO) as (payload' & -> & L').
  destruct (aidl_starts pr iface hdr NH I N) as (rest & ->). rewrite E. apply hidl_reads_nothing.
Qed.
Print Assumptions C48_header_refuted.

(* ---- synchronous calls *)

(* A request which comes while the main thread is waiting for the reply to its own synchronous
   call isn't forwarded at all: the caller gets an empty reply at once *)
Theorem C48_nested_request_refuted s p :
  palive s p = true -> p_dropped (prx s p) = false -> r_dead (stands_for s p) = false ->
  exists c, handle_direct s p = Ok (c, (None, 0)) /\ q_has_tx (c_tx c) = false.
Proof.
  intros A B C. unfold handle_direct, stands_for in *. rewrite A, B, C. eexists. split; reflexivity.
Qed.
Print Assumptions C48_nested_request_refuted.

(* ---- histories to which these theorems apply *)
Definition env_of (a b : protocol) : env :=
  {| e_io := Io64; e_mode := Strict; e_proto := fun n => if Nat.eqb n 0 then a else b; e_looper := fun _ => true |}.
Definition handle_bytes (h : Z) : bytes := le 4 TYPE_HANDLE ++ le 4 0x17f ++ le 8 h ++ le 8 0.
(* the interface name is "if" *)
Definition header_of (pr : protocol) : bytes := match new_iface pr (Some [0x69; 0x66]) with Base.Ok b => b | _ => [] end.
Definition request_of (pr : protocol) (h : Z) : message := Some (header_of pr ++ handle_bytes h ++ le 4 3, [blen (header_of pr)]).
Definition reply_of (h : Z) : message := Some (le 4 0 ++ le 4 0 ++ handle_bytes h, [8]).
Definition q0 : key := (0, 0)%nat.
Definition thread : pmove := POther 0 Thread.

Definition arrival (msg : message) : list pmove :=
  [PGetRemote 1 5 false; PNew 0 0; PArrive 0 0; PAcquire 0; PHandle q0 1 0 msg [] [] []].
(* A request with an object, and a reply with another one *)
Definition relay (pr : protocol) : list pmove :=
  arrival (request_of pr 7) ++
  [PSend q0; POther 0 (Forget 0); thread; PReply q0 0 (Some (reply_of 9)); PReplyEnd q0; PDestroy q0;
   thread; thread; thread; thread; thread; PCallEnd q0; PReplyFreed q0; PRelease 0; PUnref 0].
Definition state_after (e : env) (l : list pmove) : option pstate := match prun e (pinitial e) l with Ok s => Some s | _ => None end.
Definition trace_after (e : env) (l : list pmove) : list pev := match state_after e l with Some s => ptrace s | None => [] end.
Definition answers_after (e : env) (l : list pmove) : list bev := match state_after e l with Some s => filter (is_answer 0) (btrace (bs s 0%nat)) | None => [] end.

Definition aidl : env := env_of Aidl Aidl.
Example C48_relayed :
  map (fun x => match x with EForward _ _ _ _ _ | ESent _ _ _ _ _ _ | EReplied _ _ _ => EArrive q0 9 | _ => x end) (trace_after aidl (relay Aidl)) =
    [ECreated 0; EArrive q0 0; EAcquire 0; EArrive q0 9; ECreated 1; EConvert 0 7 1 1 1; EArrive q0 9; EArrive q0 9;
     ECreated 2; EConvert 1 9 0 2 2; EGone 1; EGone 2; ERelease 0; EGone 0] /\
  answers_after aidl (relay Aidl) = [Answered 0 (Some 0, 0)].
Proof. split; vm_compute; reflexivity. Qed.
Example C48_relayed_no_second : no_second aidl (pinitial aidl) (relay Aidl) /\ no_maybe_dead (relay Aidl).
Proof.
  split.
  - lazy. repeat split; discriminate.
  - intros ipc h H. cbn in H. intuition discriminate.
Qed.

(* The remote object is gone by the time *)
Definition refusal : list pmove :=
  [PGetRemote 1 5 false; PNew 0 0; PArrive 0 0; PDeath 0; PHandle q0 1 0 (request_of Aidl 7) [] [] []; thread; thread; thread; thread; thread].
Example C48_refused : story q0 (trace_after aidl refusal) = [EArrive q0 0; ERefuse q0 0] /\
  answers_after aidl refusal = [Answered 0 (None, - EBADMSG)].
Proof. split; vm_compute; reflexivity. Qed.

(* The driver fails to send it *)
Definition failure : list pmove :=
  arrival (request_of Aidl 7) ++ [PSend q0; PReply q0 1 None; PReplyEnd q0; thread; thread; thread; thread; thread; thread].
Example C48_failed : answers_after aidl failure = [Answered 0 (None, - EFAULT)].
Proof. vm_compute. reflexivity. Qed.

(* A ping has no data *)
Example C48_ping : prun aidl (pinitial aidl) (arrival None ++ [PSend q0]) = Crash /\
  exists s, prun aidl (pinitial aidl) (arrival None) = Ok s /\ In (EForward q0 0 1 0 None) (ptrace s).
Proof. split; [vm_compute; reflexivity|]. eexists. split; [lazy; reflexivity|]. cbn. auto. Qed.

(* The request is answered because the library is being stopped and the last reference to the
   proxy is dropped on that thread while the reply callback is looking at the proxy *)
Theorem C48_dead_reply_refuted :
  prun aidl (pinitial aidl)
    (arrival (request_of Aidl 7) ++ [PUnref 0; PRelease 0; PSend q0; POther 0 Thread; POther 0 Stop; PReply q0 STATUS_DEAD_OBJECT None;
      thread; thread; thread; thread; thread; PCallEnd q0; PReplyEnd q0]) = Crash.
Proof. vm_compute. reflexivity. Qed.
Print Assumptions C48_dead_reply_refuted.

(* Handle 9 has become a proxy in a reply, then a bridge makes its own one *)
Theorem C48_one_proxy_refuted : exists s,
  prun aidl (pinitial aidl) (arrival (request_of Aidl 7) ++ [PSend q0; PReply q0 0 (Some (reply_of 9)); PGetRemote 1 9 false; PNew 0 2]) = Ok s /\
  palive s 2 = true /\ palive s 3 = true /\ p_ipc (prx s 2%nat) = p_ipc (prx s 3%nat) /\ p_remote (prx s 2%nat) = p_remote (prx s 3%nat) /\
  In (EConvert 1 9 0 2 2) (ptrace s).
Proof. eexists. split; [lazy; reflexivity|]. repeat split; try (vm_compute; reflexivity). cbn. auto 20. Qed.
Print Assumptions C48_one_proxy_refuted.

(* A handle which isn't replaced means another object, or none at all, to the receiver *)
Theorem C48_all_replaced_refuted : exists s,
  prun aidl (pinitial aidl) (PGetRemote 0 0 true :: [PGetRemote 1 5 false; PNew 0 1; PArrive 0 0; PHandle q0 1 0 (request_of Aidl 0) [] [] []; PSend q0]) = Ok s /\
  In (EKept 0 0 1) (ptrace s) /\
  exists d, In (ESent q0 1 5 1 16 d) (ptrace s) /\ slice (wd_bytes d) 16 24 = handle_bytes 0.
Proof.
  eexists. split; [lazy; reflexivity|]. split; [cbn; auto 20|]. eexists. split; [cbn; auto 20|]. vm_compute. reflexivity.
Qed.
Print Assumptions C48_all_replaced_refuted.

(* Headers *)
Definition sent_to (pr own : protocol) : option (res (option bytes * Z)) :=
  match filter (fun x => match x with ESent _ _ _ _ _ _ => true | _ => false end) (trace_after (env_of own pr) (relay own)) with
  | [ESent _ _ _ code _ d] => Some (set_data pr Strict (wd_bytes d) (wd_offsets d) code)
  | _ => None
  end.
Example C48_headers : forall pr, exists n, sent_to pr pr = Some (Base.Ok (Some [0x69; 0x66], n)).
Proof. destruct pr; eexists; vm_compute; reflexivity. Qed.
Example C48_wrong_headers : sent_to Hidl Aidl = Some (Base.Ok (Some [], 4)) /\ sent_to Aidl3 Hidl = Some (Base.Ok (None, 0)).
Proof. split; vm_compute; reflexivity. Qed.
Example C48_contents pr : contents_ok Io64 pr (header_of pr ++ handle_bytes 7 ++ le 4 3) [blen (header_of pr)] 0.
Proof.
  split; [lia|]. split.
  - unfold all_bytes, is_byte. destruct pr; vm_compute; repeat constructor; try discriminate.
  - destruct pr; vm_compute; split; discriminate.
Qed.
Example C48_nested : exists s, prun aidl (pinitial aidl) [PGetRemote 1 5 false; PNew 0 0] = Ok s /\
  palive s 0 = true /\ p_dropped (prx s 0%nat) = false /\ r_dead (stands_for s 0) = false.
Proof. eexists. split; [lazy; reflexivity|]. auto. Qed.
