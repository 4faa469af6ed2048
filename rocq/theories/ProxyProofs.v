(* Proofs about proxies *)
From Verif Require Import Base BaseLemmas ReaderModel CodecSpec ObjModel ObjReader KernelModel ObjSpec HidlSpec TxModel TxSpec TxProps
  ProxyConv BlockModel BlockSpec BlockProofs BlockRun BlockEnds ProxyModel ProxySpec ProxyBlock ProxyObjs ProxyObjs2 ProxyObjs3.

Lemma story_app q a b : story q (a ++ b) = story q a ++ story q b.
Proof. apply filter_app. Qed.
Lemma story_none q l : (forall e, In e l -> concerns q e = false) -> story q l = [].
Proof.
  intros H. unfold story. induction l as [|e l IH]; auto. cbn. rewrite (H e) by now left. apply IH. intros x X. apply H. now right.
Qed.

(* ---- contents *)
Lemma carried_contents i pr s s' o ri li data ob l d :
  objs s -> convert_objects s o ri li data ob = Ok (s', l) ->
  append_contents i pr (converter_of l) wd_empty data ob 0 = Base.Ok d ->
  contents_ok i pr data ob 0 -> translated i pr (ptrace s') ri li data ob d.
Proof.
  intros O E A C.
  destruct (convert_ok ob s o ri li data O) as [(X & _)|(s2 & l2 & E2 & V & A1 & A2 & A3 & A4 & A5)]; [congruence|].
  rewrite E in E2. apply ok_pair in E2 as (<- & <-).
  destruct (C15_contents_copied i pr (converter_of l) wd_empty data ob 0 C) as (T & d1 & B1 & B2 & B3 & B4 & B5 & B6 & _).
  rewrite A in B1. injection B1 as <-. change (wd_bytes wd_empty) with (@nil Z) in *. rewrite app_nil_l in B2.
  change (wd_offsets wd_empty) with (@nil Z) in *. rewrite app_nil_l in B6.
  set (c := fun h => match find (fun x => fst x =? h) l with Some (_, p) => p | None => None end : option nat).
  assert (CV : forall o' lo, converts (converter_of l) data o' lo <->
     k_type data o' = TYPE_HANDLE /\ exists p, c (kfield data (o' + 8) 4) = Some p /\ lo = as_local p).
  { intros o' lo. unfold converts, converter_of, c. split.
    - intros (f & [= <-] & H1 & H2). split; [exact H1|].
      destruct (find (fun x => fst x =? kfield data (o' + 8) 4) l) as [[h [p|]]|]; try discriminate. injection H2 as <-. eauto.
    - intros (H1 & p & H2 & ->). eexists. split; [reflexivity|]. split; [exact H1|]. cbn beta.
      destruct (find (fun x => fst x =? kfield data (o' + 8) 4) l) as [[h p']|]; [|discriminate]. now rewrite H2. }
  exists c. split; [|split; [|split]].
  - intros o' H1 H2 h.
    destruct (A2 o' H1) as (dec & D1 & D2).
    assert (D3 : dec = Some h).
    { revert D1. unfold decode_binder_handle. destruct (load data o' 4) as [t4|] eqn:L; [|discriminate]. cbn [Base.bind].
      assert (unle t4 = k_type data o') as ->.
      { unfold k_type, kfield. apply load_ok in L as (L1 & L2 & ->). reflexivity. }
      rewrite H2, Z.eqb_refl. destruct (load data (o' + 8) 4) as [h4|] eqn:L2; [|discriminate]. cbn [Base.bind].
      intros [= <-]. f_equal. unfold h, kfield. apply load_ok in L2 as (L3 & L4 & ->). reflexivity. }
    destruct (D2 h D3) as (p0 & D4).
    assert (D5 : exists p, In (h, p) l /\ c h = p).
    { unfold c. destruct (find (fun x => fst x =? h) l) as [[h' p]|] eqn:F.
      - apply find_some in F as (F1 & F2). cbn in F2. apply Z.eqb_eq in F2. subst h'. eauto.
      - apply (find_none _ _ F) in D4. cbn in D4. now rewrite Z.eqb_refl in D4. }
    destruct D5 as (p & D5 & ->). destruct (A1 h p D5) as (_ & D6). destruct p as [p|]; [|exact D6].
    split; [exact D6|]. rewrite B2. rewrite <- (Z.sub_0_r o'). apply B5; auto. apply CV. split; auto. exists p. split; auto.
    change (c h = Some p). unfold c in *. destruct (find (fun x => fst x =? h) l) as [[h' p']|] eqn:F.
    + apply find_some in F as (F1 & F2). cbn in F2. apply Z.eqb_eq in F2. subst h'.
      exact (resolved_fun s' ri li h p' (Some p) (v_objs _ _ _ V) (proj1 (A1 _ _ F1)) (proj1 (A1 _ _ D5))).
    + apply (find_none _ _ F) in D5. cbn in D5. now rewrite Z.eqb_refl in D5.
  - intros j J N. rewrite B2. rewrite <- (Z.sub_0_r j) at 1. apply B4; [lia|]. intros (o' & lo & X1 & X2 & X3).
    apply CV in X2 as (X2 & p & X4 & _). apply N. eauto 10.
  - rewrite B2. lia.
  - rewrite B6. rewrite <- map_id. apply map_ext. intros x. change (blen (@nil Z)) with 0. lia.
Qed.

Lemma in_order_inside sz (data : bytes) : (forall o, 4 <= sz o) -> forall ob f, 0 <= f -> in_order sz f ob (blen data) ->
  f <= blen data /\ forall o, In o ob -> 0 <= o /\ o + sz o <= blen data.
Proof.
  intros P. induction ob as [|o r IH]; intros f F H; cbn [in_order] in H; [split; [exact H|intros ? []]|].
  destruct H as [A B]. pose proof (P o). destruct (IH (o + sz o) ltac:(lia) B) as (C & D). split; [lia|].
  intros x [<-|X]; auto. lia.
Qed.
Lemma good_decodes i pr data ob : contents_ok i pr data ob 0 -> forall x, In x ob -> exists d, decode_binder_handle data x = Base.Ok d.
Proof.
  intros (_ & _ & C) x X. apply in_order_inside with (1 := fun o => Z.le_max_l 4 _) in C as (_ & C); [|lia].
  destruct (C x X) as (C1 & C2). unfold decode_binder_handle.
  destruct (load data x 4) as [t4|] eqn:L.
  2: { exfalso. assert (load data x 4 = Base.Ok (slice data x 4)) by (apply load_ok; repeat split; lia). congruence. }
  cbn [Base.bind]. apply load_ok in L as (_ & _ & ->). change (unle (slice data x 4)) with (k_type data x).
  destruct (Z.eqb_spec (k_type data x) TYPE_HANDLE) as [E|E]; [|eauto]. rewrite E in C2.
  assert (12 <= object_size i pr TYPE_HANDLE) by (destruct i, pr; vm_compute; discriminate).
  destruct (load data (x + 8) 4) as [h4|] eqn:L; cbn [Base.bind]; [eauto|].
  exfalso. assert (load data (x + 8) 4 = Base.Ok (slice data (x + 8) 4)) by (apply load_ok; repeat split; lia). congruence.
Qed.
Lemma good_append i pr c data ob : contents_ok i pr data ob 0 -> exists d, append_contents i pr c wd_empty data ob 0 = Base.Ok d.
Proof. intros C. destruct (C15_contents_copied i pr c wd_empty data ob 0 C) as (T & d & E & _). eauto. Qed.

(* ---- the invariant *)
Definition pending (st : stage) : bool := match st with QPending | QSent => true | _ => false end.
Definition has_request (st : stage) : bool := match st with QPending | QSent | QReplied | QDone => true | _ => false end.
Definition has_reply (st : stage) : bool := match st with QReplied | QDone | QFreed => true | _ => false end.

Definition tale (e : env) (s : pstate) (q : key) : Prop :=
  let x := ptxs s q in
  let p := t_proxy x in
  let k := snd q in
  let pi := p_ipc (prx s p) in
  let r := rem s (p_remote (prx s p)) in
  let st := story q (ptrace s) in
  let cs := calls k (btrace (bs s (fst q))) in
  let forwarded msg := carried (e_io e) (e_proto e pi) (ptrace s) pi (r_ipc r) msg (t_fwd x) in
  let fw msg := [EArrive q p; EForward q p (t_code x) (t_flags x) msg] in
  let sent d := [ESent q (r_ipc r) (r_handle r) (t_code x) (forwarded_flags (t_flags x)) d] in
  match t_stage x with
  | QNone => st = []
  | QArrived => st = [EArrive q p] /\ cs = []
  | QRefused => st = [EArrive q p; ERefuse q p] /\ cs = [Handle k; HandlerReturned k (None, - EBADMSG)]
  | QPending => exists msg, st = fw msg /\ forwarded msg /\ cs = [Handle k; BlockCalled k; HandlerReturned k (None, 0)]
  | QSent => exists msg d, t_fwd x = Some d /\ st = fw msg ++ sent d /\ forwarded msg /\
      cs = [Handle k; BlockCalled k; HandlerReturned k (None, 0)]
  | QReplied | QDone | QFreed => exists msg d status reply fwd token, t_fwd x = Some d /\
      st = fw msg ++ sent d ++ [EReplied q status reply] /\ forwarded msg /\
      carried_reply (e_io e) (e_proto e (r_ipc r)) (ptrace s) (r_ipc r) pi reply fwd /\ delivers (outs s) token fwd /\
      t_dead x = (status =? STATUS_DEAD_OBJECT) /\
      cs = [Handle k; BlockCalled k; HandlerReturned k (None, 0); CompleteCalled k (token, mapped_status status)]
  end.

Definition tx_ok (e : env) (s : pstate) (q : key) : Prop :=
  let x := ptxs s q in
  let p := t_proxy x in
  let b := bs s (fst q) in
  let k := snd q in
  tale e s q /\
  (t_stage x = QNone /\ (forall j, cnt s (OCall q) j = 0%nat /\ cnt s (OTx q) j = 0%nat /\ cnt s (ORequest q) j = 0%nat /\ cnt s (OReply q) j = 0%nat) \/
   t_stage x <> QNone /\ (k < count b)%nat /\ (p < nprx s)%nat /\
   (forall j, j <> p -> cnt s (OCall q) j = 0%nat) /\ (cnt s (OCall q) p <= 1)%nat /\
   (cnt s (OCall q) p = 0%nat -> answered b k = true) /\
   (forall j, cnt s (OTx q) j = if Nat.eqb j p && pending (t_stage x) then 1%nat else 0%nat) /\
   (forall j, (0 < cnt s (ORequest q) j)%nat -> has_request (t_stage x) = true) /\
   (forall j, (0 < cnt s (OReply q) j)%nat -> has_reply (t_stage x) = true) /\
   q_app (txs b k) = (if has_request (t_stage x) then 1 else 0)).

Definition reached (e : env) (t : nat) (b : bstate) : Prop := exists l, run (initial (e_looper e t)) l = Ok b.

(* Proxies and remote objects are what they were *)
Record steady (s s' : pstate) : Prop := {
  y_nprx : (nprx s <= nprx s')%nat;
  y_nrem : (nrem s <= nrem s')%nat;
  y_prx : forall p, (p < nprx s)%nat -> p_ipc (prx s' p) = p_ipc (prx s p) /\ p_remote (prx s' p) = p_remote (prx s p);
  y_rem : forall r, (r < nrem s)%nat -> r_ipc (rem s' r) = r_ipc (rem s r) /\ r_handle (rem s' r) = r_handle (rem s r);
  y_trace : exists l, ptrace s' = ptrace s ++ l;
  y_outs : exists l, outs s' = outs s ++ l
}.
Lemma steady_refl s : steady s s.
Proof. split; auto; exists []; now rewrite app_nil_r. Qed.
Lemma steady_trans a b c : steady a b -> steady b c -> steady a c.
Proof.
  intros [A1 A2 A3 A4 (l1 & A5) (m1 & A6)] [B1 B2 B3 B4 (l2 & B5) (m2 & B6)]. split; try lia.
  - intros p H. destruct (A3 p H), (B3 p ltac:(lia)). split; congruence.
  - intros r H. destruct (A4 r H), (B4 r ltac:(lia)). split; congruence.
  - exists (l1 ++ l2). now rewrite B5, A5, app_assoc.
  - exists (m1 ++ m2). now rewrite B6, A6, app_assoc.
Qed.
Lemma grows_steady s s' : grows s s' -> steady s s'.
Proof. intros [G1 G2 G3 G4 G5 G6 G7 G8]. split; auto. exists []. now rewrite G3, app_nil_r. Qed.

(* Nothing has happened to this request *)
Record frame (s s' : pstate) (q : key) : Prop := {
  f_steady : steady s s';
  f_ptx : ptxs s' q = ptxs s q;
  f_story : story q (ptrace s') = story q (ptrace s);
  f_bs : t_stage (ptxs s q) <> QNone -> (snd q < count (bs s (fst q)))%nat ->
    after (snd q) (bs s (fst q)) (bs s' (fst q)) [] (q_app (txs (bs s (fst q)) (snd q)));
  f_call : forall j, cnt s' (OCall q) j = cnt s (OCall q) j;
  f_tx : forall j, cnt s' (OTx q) j = cnt s (OTx q) j;
  f_request : forall j, (cnt s' (ORequest q) j <= cnt s (ORequest q) j)%nat;
  f_reply : forall j, (cnt s' (OReply q) j <= cnt s (OReply q) j)%nat
}.
Lemma frame_refl s q : frame s s q.
Proof. split; auto using steady_refl, after_refl. Qed.
Lemma frame_trans a b c q : frame a b q -> frame b c q -> frame a c q.
Proof.
  intros [A1 A2 A3 A4 A5 A6 A7 A8] [B1 B2 B3 B4 B5 B6 B7 B8]. split; try congruence.
  - eapply steady_trans; eauto.
  - intros N K. specialize (A4 N K). pose proof (a_count _ _ _ _ _ A4). rewrite A2 in B4. specialize (B4 N ltac:(lia)).
    rewrite (a_app _ _ _ _ _ A4) in B4. exact (after_trans _ _ _ _ _ _ _ _ A4 B4).
  - intros j. specialize (A7 j). specialize (B7 j). lia.
  - intros j. specialize (A8 j). specialize (B8 j). lia.
Qed.

Lemma answered_mono k b b' l x : after k b b' l x -> answered b k = true -> answered b' k = true.
Proof.
  intros [_ _ _ (m & E)] H. unfold answered in *. rewrite E, existsb_app, H. reflexivity.
Qed.
Lemma translated_mono i pr t t' ri li data ob d : (exists l, t' = t ++ l) -> translated i pr t ri li data ob d -> translated i pr t' ri li data ob d.
Proof.
  intros (l & ->) (c & A & B). exists c. split; [|exact B]. intros o H1 H2. specialize (A o H1 H2). cbn zeta in *.
  destruct (c (kfield data (o + 8) 4)); [|apply in_or_app; auto]. destruct A as ((r & A1) & A2). split; auto. exists r. apply in_or_app; auto.
Qed.
Lemma carried_mono i pr t t' ri li msg fwd : (exists l, t' = t ++ l) -> carried i pr t ri li msg fwd -> carried i pr t' ri li msg fwd.
Proof.
  intros T. unfold carried. destruct msg as [[data ob]|]; auto. intros (d & A & B). exists d. split; auto. intros C.
  eapply translated_mono; eauto.
Qed.
Lemma carried_reply_mono i pr t t' ri li msg fwd : (exists l, t' = t ++ l) -> carried_reply i pr t ri li msg fwd -> carried_reply i pr t' ri li msg fwd.
Proof. intros T. unfold carried_reply. destruct msg; auto. now apply carried_mono. Qed.
Lemma delivers_mono o o' token fwd : (exists l, o' = o ++ l) -> delivers o token fwd -> delivers o' token fwd.
Proof.
  intros (l & ->). unfold delivers. destruct token, fwd; auto. intros (A & B). split; auto. rewrite nth_error_app1; auto.
  apply nth_error_Some. congruence.
Qed.

(* The remote object of a proxy exists *)
Definition known (s : pstate) : Prop := forall p, (p < nprx s)%nat -> (p_remote (prx s p) < nrem s)%nat.
Lemma known_same s s' : known s -> steady s s' -> nprx s' = nprx s -> known s'.
Proof.
  intros K S N p P. rewrite N in P. pose proof (y_nrem _ _ S). destruct (y_prx _ _ S p P) as (_ & ->). specialize (K p P). lia.
Qed.
Lemma tally_none f l : (forall e, In e l -> f e = false) -> tally f l = 0%nat.
Proof.
  unfold tally. induction l as [|e l IH]; intros H; auto. cbn. rewrite (H e) by now left. apply IH. intros x X. apply H. now right.
Qed.
Lemma known_more s s' l : known s -> objs s -> objs s' -> steady s s' -> ptrace s' = ptrace s ++ l ->
  (forall p, ~ In (EGone p) l) -> known s'.
Proof.
  intros K O O' S T N p P. destruct (Nat.lt_ge_cases p (nprx s)) as [L|L].
  - pose proof (y_nrem _ _ S). destruct (y_prx _ _ S p L) as (_ & ->). specialize (K p L). lia.
  - pose proof (o_gone _ O' p) as G. rewrite T, tally_app, (o_gone _ O p) in G.
    rewrite (tally_none (is_gone p) l) in G.
    + destruct (Nat.ltb_spec p (nprx s)); [lia|]. destruct (Nat.ltb_spec p (nprx s')); [|lia]. cbn in G.
      destruct (palive s' p) eqn:A; [|discriminate]. exact (o_r _ O' _ _ (o_link _ O' p A)).
    + intros e E. destruct e; auto. cbn. destruct (Nat.eqb_spec p0 p) as [->|]; auto. now apply N in E.
Qed.

Lemma frame_ok e s s' q : known s -> tx_ok e s q -> frame s s' q -> tx_ok e s' q.
Proof.
  intros O (TA & [(A & B)|(A1 & A2 & A3 & A4 & A5 & A6 & A7 & A8 & A9 & A10)]) F; pose proof F as [F1 F2 F3 F4 F5 F6 F7 F8].
  - split.
    + unfold tale in *. rewrite F2, F3. rewrite A in *. exact TA.
    + left. rewrite F2. split; auto. intros j. destruct (B j) as (B1 & B2 & B3 & B4). specialize (F7 j). specialize (F8 j).
      rewrite F5, F6. repeat split; auto; lia.
  - specialize (F4 A1 A2). pose proof F4 as [G1 G2 G3 G4]. rewrite app_nil_r in G3. split.
    + unfold tale in *. rewrite F2, F3, G3.
      destruct (y_prx _ _ F1 _ A3) as (P1 & P2).
      assert (ST : t_stage (ptxs s q) = QNone \/ t_stage (ptxs s q) = QArrived \/ t_stage (ptxs s q) = QRefused \/
        r_ipc (rem s' (p_remote (prx s (t_proxy (ptxs s q))))) = r_ipc (rem s (p_remote (prx s (t_proxy (ptxs s q))))) /\
        r_handle (rem s' (p_remote (prx s (t_proxy (ptxs s q))))) = r_handle (rem s (p_remote (prx s (t_proxy (ptxs s q)))))).
      { right. right. right. apply (y_rem _ _ F1). apply O. exact A3. }
      destruct ST as [E|[E|[E|(R1 & R2)]]]; [rewrite E in *; exact TA..|]. rewrite P1, P2, R1, R2.
      destruct (t_stage (ptxs s q)); auto.
      * destruct TA as (msg & T1 & T2 & T3). exists msg. repeat split; auto. exact (carried_mono _ _ _ _ _ _ _ _ (y_trace _ _ F1) T2).
      * destruct TA as (msg & d & T0 & T1 & T2 & T3). exists msg, d. repeat split; auto. exact (carried_mono _ _ _ _ _ _ _ _ (y_trace _ _ F1) T2).
      * destruct TA as (msg & d & status & reply & fwd & token & T0 & T1 & T2 & T3 & T4 & T5).
        exists msg, d, status, reply, fwd, token. pose proof (carried_mono _ _ _ _ _ _ _ _ (y_trace _ _ F1) T2).
        pose proof (carried_reply_mono _ _ _ _ _ _ _ _ (y_trace _ _ F1) T3). pose proof (delivers_mono _ _ _ _ (y_outs _ _ F1) T4). tauto.
      * destruct TA as (msg & d & status & reply & fwd & token & T0 & T1 & T2 & T3 & T4 & T5).
        exists msg, d, status, reply, fwd, token. pose proof (carried_mono _ _ _ _ _ _ _ _ (y_trace _ _ F1) T2).
        pose proof (carried_reply_mono _ _ _ _ _ _ _ _ (y_trace _ _ F1) T3). pose proof (delivers_mono _ _ _ _ (y_outs _ _ F1) T4). tauto.
      * destruct TA as (msg & d & status & reply & fwd & token & T0 & T1 & T2 & T3 & T4 & T5).
        exists msg, d, status, reply, fwd, token. pose proof (carried_mono _ _ _ _ _ _ _ _ (y_trace _ _ F1) T2).
        pose proof (carried_reply_mono _ _ _ _ _ _ _ _ (y_trace _ _ F1) T3). pose proof (delivers_mono _ _ _ _ (y_outs _ _ F1) T4). tauto.
    + right. rewrite F2. pose proof (y_nprx _ _ F1). split; [exact A1|]. split; [lia|]. split; [lia|].
      split; [intros j J; rewrite F5; auto|]. split; [now rewrite F5|].
      split; [rewrite F5; intros X; eapply answered_mono; eauto|]. split; [intros j; rewrite F6; auto|].
      split; [intros j J; apply (A8 j); specialize (F7 j); lia|]. split; [intros j J; apply (A9 j); specialize (F8 j); lia|].
      now rewrite G2.
Qed.
