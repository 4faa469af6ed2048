(* All functions of the driver keep the shape of histories *)
From Verif Require Import Base BaseLemmas KernelModel TxModel DriverModel DriverSpec DriverTrace.

Lemma some_same {A} (a b : A) : Some a = Some b -> a = b.
Proof. intros [= H]. exact H. Qed.
Lemma calm_mine t : calm t -> forall d u, mine d (t ++ u) = mine d t ++ mine d u /\ (d <> O -> mine d t = []).
Proof.
  induction 1 as [|e t He Ht IH|k body status t Hb IHb Ht IHt|cmd payload tx body reply status rest t Hw Hb IHb Hr IHr Ht IHt
    |cmd payload tx body reply status rest t Hw Hb IHb Hr IHr Ht IHt]; intros d u.
  - split; reflexivity.
  - destruct (IH d u) as [E1 E2]. cbn [Datatypes.app]. destruct e; try contradiction; cbn [mine]; auto.
    destruct c; try contradiction; destruct d; cbn [mine]; auto; rewrite E1; split; try reflexivity; congruence.
  - cbn [Datatypes.app mine]. rewrite <- app_assoc. cbn [Datatypes.app].
    destruct (IHb (S d) (End status :: t ++ u)) as [E1 N1]. destruct (IHb (S d) (End status :: t)) as [E2 _].
    rewrite E1, E2, !N1 by discriminate. cbn [Datatypes.app mine pred]. apply IHt.
  - cbn [Datatypes.app mine]. rewrite <- app_assoc. cbn [Datatypes.app]. rewrite <- app_assoc. cbn [Datatypes.app].
    match goal with |- mine _ (body ++ ?x) = mine _ (body ++ ?y) ++ _ /\ _ => destruct (IHb (S d) x) as [E1 N1]; destruct (IHb (S d) y) as [E2 _] end.
    rewrite E1, E2, !N1 by discriminate. cbn [Datatypes.app mine].
    match goal with |- mine _ (rest ++ ?x) = mine _ (rest ++ ?y) ++ _ /\ _ => destruct (IHr (S d) x) as [E3 N3]; destruct (IHr (S d) y) as [E4 _] end.
    rewrite E3, E4, !N3 by discriminate. cbn [Datatypes.app mine pred]. apply IHt.
  - cbn [Datatypes.app mine]. rewrite <- app_assoc. cbn [Datatypes.app]. rewrite <- app_assoc. cbn [Datatypes.app].
    match goal with |- mine _ (body ++ ?x) = mine _ (body ++ ?y) ++ _ /\ _ => destruct (IHb (S d) x) as [E1 N1]; destruct (IHb (S d) y) as [E2 _] end.
    rewrite E1, E2, !N1 by discriminate. cbn [Datatypes.app mine].
    match goal with |- mine _ (rest ++ ?x) = mine _ (rest ++ ?y) ++ _ /\ _ => destruct (IHr (S d) x) as [E3 N3]; destruct (IHr (S d) y) as [E4 _] end.
    rewrite E3, E4, !N3 by discriminate. cbn [Datatypes.app mine pred]. apply IHt.
Qed.
Lemma mine_app t u : calm t -> mine 0 (t ++ u) = mine 0 t ++ mine 0 u.
Proof. intros H. apply (calm_mine t H). Qed.
Lemma mine_inner t d u : calm t -> mine (S d) (t ++ u) = mine (S d) u.
Proof. intros H. destruct (calm_mine t H (S d) u) as [E N]. rewrite E, N by discriminate. reflexivity. Qed.

(* ------------------------------------------------------------------ *)
Definition undecided (reply : bool) (c : rcmd) : Prop := decide reply c = None.
(* Commands up to and including the one which decides, if there's such *)
Definition outcome (reply : bool) (l : list rcmd) (status : Z) : Prop :=
  (status = - EAGAIN /\ Forall (undecided reply) l) \/
  (exists l1 c, l = l1 ++ [c] /\ Forall (undecided reply) l1 /\ decide reply c = Some status).
Definition finished (reply : bool) (t : list dev) (status : Z) : Prop :=
  (Forall (undecided reply) (mine 0 t) /\ exists e u, own 0 t = u ++ [Failed e] /\ status = Z.neg e) \/
  (exists l1 c, mine 0 t = l1 ++ [c] /\ Forall (undecided reply) l1 /\ decide reply c = Some status).

Definition hcP (c : rcmd) (t : list dev) : Prop :=
  forall cmd payload, calm (Got cmd payload c :: t) /\
    mine 0 (Got cmd payload c :: t) = match c with RTransaction _ => [] | _ => [c] end.
Definition hcO (c : rcmd) (t : list dev) : Prop := forall cmd payload, opened (Got cmd payload c :: t).
Definition drained (status : Z) (t : list dev) (a : Z * ctx) : Prop :=
  calm t /\ ((fst a = status /\ incomplete (pending (cx_rbuf (snd a)))) \/ exists e u, own 0 t = u ++ [Failed e] /\ fst a = Z.neg e).

Record good (E : env) (F : fns) : Prop := {
  g_hc : forall cx data c, okA E cx (f_handle_command F cx data c) (fun cx' => cx') (fun t _ => hcP c t) (hcO c);
  g_hcs : forall cx, okA E cx (f_handle_commands F cx) (fun cx' => cx')
            (fun t cx' => calm t /\ incomplete (pending (cx_rbuf cx'))) opened;
  g_tx : forall cx reply, okA E cx (f_txstatus F cx reply) (fun a => snd (fst a))
            (fun t a => calm t /\ outcome reply (mine 0 t) (fst (fst a))) opened;
  g_wh : forall cx, okC E cx (f_wait_handled F cx) (fun cx' => cx');
  g_rh : forall cx req p, okC E cx (f_run_handler F req p) (fun _ => cx);
  g_wr : forall cx reply, okA E cx (f_wait_reply F cx reply) (fun a => snd (fst a))
            (fun t a => calm t /\ finished reply t (fst (fst a))) opened;
  g_dr : forall cx check status, okA E cx (f_drain F cx check status) snd (drained status) opened
}.

Lemma okC_of {A} E cx (m : M A) c P : okA E cx m c P opened -> (forall t a, P t a -> calm t) -> okC E cx m c.
Proof. intros H HP. eapply okA_weaken; [exact H|exact HP|auto]. Qed.

Lemma okA_no_fuel {A} E cx c P (O : list dev -> Prop) : O [] -> okA E cx (@no_fuel A) c P O.
Proof.
  intros H Hrb s Hs. exists []. rewrite app_nil_r. split; [reflexivity|]. split; [exact H|]. split; [exact I|].
  split; [eexists; reflexivity|apply Forall_nil].
Qed.
Lemma opened_nil : opened [].
Proof. apply opened_calm, calm_nil. Qed.
Lemma hcO_nil c : hcO c [].
Proof.
  intros cmd payload. destruct c; try (apply opened_calm, calm_one; exact I).
  apply (opened_transaction [] cmd payload tx []); [apply calm_nil|apply opened_nil].
Qed.

Lemma good_0 E : good E (fns_of E 0).
Proof.
  constructor; intros; cbn [fns_of f_handle_command f_handle_commands f_txstatus f_wait_handled f_run_handler f_wait_reply f_drain];
    apply okA_no_fuel; try apply opened_nil. apply hcO_nil.
Qed.

(* ------------------------------------------------------------------ *)
(* changing of buffers of the context *)
Lemma post_bufs cx t cx' l : ctx_post cx t cx' -> ctx_post cx t (set_bufs cx' l).
Proof. intros H. exact H. Qed.

Lemma okA_ret {A} E cx (a : A) (c : A -> ctx) (P : list dev -> A -> Prop) O :
  (rb_ok (cx_rbuf cx) -> ctx_post cx [] (c a)) -> (rb_ok (cx_rbuf cx) -> P [] a) -> okA E cx (ret a) c P O.
Proof.
  intros H H2 Hrb s Hs. cbn [ret]. split; [exact Hs|]. exists []. rewrite app_nil_r.
  split; [reflexivity|]. split; [apply level_nil|]. split; [exact I|]. split; [apply H; exact Hrb|apply H2; exact Hrb].
Qed.

Section Step.
Context (E : env) (F : fns) (G : good E F).

Ltac quiet_bind := eapply okC_bind; [apply okC_silent|intros ?].

Lemma ok_new_contents cx (buffer : Z) :
  okC E cx (do id <- contents_new buffer; do bufs <- list_add (cx_bufs cx) (Some id); ret (set_bufs cx bufs, Some id))
    (fun a => fst a).
Proof.
  eapply okC_bind; [apply okC_silent, silent_new|intros id]. cbn beta. eapply okC_bind; [apply okC_silent, silent_list_add|intros bufs].
  cbn beta. apply okC_ret. intros Hrb. apply (ctx_post_refl cx Hrb).
Qed.
Lemma ok_drop_contents cx (buffer : Z) :
  okC E cx (do _ <- free_buffer buffer; ret (cx, @None nat)) (fun a => fst a).
Proof. eapply okC_bind; [apply okC_free|intros ?]. cbn beta. apply okC_ret. intros Hrb. apply (ctx_post_refl cx Hrb). Qed.

(* the end of a transaction *)
Definition tail_ok (w : bool) (reply : bool) (status : Z) (t : list dev) : Prop :=
  exists rest, calm rest /\ t = (if w then [] else [Wrote (answer reply status)]) ++ rest ++ [Leave].
Definition tail_open (w : bool) (reply : bool) (status : Z) (t : list dev) : Prop :=
  t = [] \/ exists rest, opened rest /\ t = (if w then [] else [Wrote (answer reply status)]) ++ rest.

Lemma ok_transaction cx tx :
  okA E cx (handle_transaction E F cx tx) (fun cx' => cx') (fun t _ => hcP (RTransaction tx) t) (hcO (RTransaction tx)).
Proof.
  unfold handle_transaction.
  eapply okA_weaken with
    (P := fun t _ => exists body reply status u, calm body /\ tail_ok (one_way tx) reply status u /\ t = body ++ Returned reply status :: u)
    (O := fun t => opened t \/ exists body reply status u, calm body /\ tail_open (one_way tx) reply status u /\ t = body ++ Returned reply status :: u).
  2:{ intros t _ (body & reply & status & u & Hb & (rest & Hr & ->) & ->) cmd payload.
      destruct (one_way tx) eqn:Hw; cbn [Datatypes.app].
      - split; [apply (calm_one_way cmd payload tx body reply status rest []); auto using calm_nil|].
        cbn [mine]. rewrite mine_inner by exact Hb. cbn [mine]. rewrite mine_inner by exact Hr. reflexivity.
      - split; [apply (calm_two_way cmd payload tx body reply status rest []); auto using calm_nil|].
        cbn [mine]. rewrite mine_inner by exact Hb. cbn [mine]. rewrite mine_inner by exact Hr. reflexivity. }
  2:{ intros t [H|(body & reply & status & u & Hb & Hu & ->)] cmd payload.
      - apply (opened_transaction [] cmd payload tx t); [apply calm_nil|exact H].
      - destruct Hu as [->|(rest & Hr & ->)]; [apply (opened_returned [] cmd payload tx body reply status); [apply calm_nil|exact Hb]|].
        destruct (one_way tx) eqn:Hw; cbn [Datatypes.app].
        + apply (opened_one_way [] cmd payload tx body reply status rest); auto using calm_nil.
        + apply (opened_two_way [] cmd payload tx body reply status rest); auto using calm_nil. }
  eapply okA_bind with (c1 := fun a => fst a) (P1 := fun t _ => calm t) (O1 := opened)
    (P2 := fun _ t _ => exists body reply status u, calm body /\ tail_ok (one_way tx) reply status u /\ t = body ++ Returned reply status :: u)
    (O2 := fun _ t => opened t \/ exists body reply status u, calm body /\ tail_open (one_way tx) reply status u /\ t = body ++ Returned reply status :: u).
  { destruct (negb (tx_data tx =? 0) && negb (tx_size tx =? 0)); [apply ok_new_contents|apply ok_drop_contents]. }
  2:{ intros t1 _ t2 _ H1 (body & reply & status & u & Hb & Hu & ->). exists (t1 ++ body), reply, status, u.
      split; [apply calm_app; assumption|]. split; [exact Hu|]. rewrite app_assoc. reflexivity. }
  2:{ intros t H. left. exact H. }
  2:{ intros t1 _ t2 H1 [H|(body & reply & status & u & Hb & Hu & ->)]; [left; apply opened_app; assumption|].
      right. exists (t1 ++ body), reply, status, u.
      split; [apply calm_app; assumption|]. split; [exact Hu|]. rewrite app_assoc. reflexivity. }
  intros [cx1 req]. cbn [fst].
  eapply okA_bind with (c1 := fun a => cx1) (P1 := fun t _ => calm t) (O1 := opened)
    (P2 := fun _ t _ => exists body reply status u, calm body /\ tail_ok (one_way tx) reply status u /\ t = body ++ Returned reply status :: u)
    (O2 := fun _ t => opened t \/ exists body reply status u, calm body /\ tail_open (one_way tx) reply status u /\ t = body ++ Returned reply status :: u).
  { apply okC_silent, silent_history. }
  2:{ intros t1 _ t2 _ H1 (body & reply & status & u & Hb & Hu & ->). exists (t1 ++ body), reply, status, u.
      split; [apply calm_app; assumption|]. split; [exact Hu|]. rewrite app_assoc. reflexivity. }
  2:{ intros t H. left. exact H. }
  2:{ intros t1 _ t2 H1 [H|(body & reply & status & u & Hb & Hu & ->)]; [left; apply opened_app; assumption|].
      right. exists (t1 ++ body), reply, status, u.
      split; [apply calm_app; assumption|]. split; [exact Hu|]. rewrite app_assoc. reflexivity. }
  intros h.
  eapply okA_bind with (c1 := fun a => cx1) (P1 := fun t _ => calm t) (O1 := opened)
    (P2 := fun a t _ => exists u, tail_ok (one_way tx) (match fst a with Some _ => true | None => false end) (snd a) u /\
                          t = Returned (match fst a with Some _ => true | None => false end) (snd a) :: u)
    (O2 := fun a t => exists u, tail_open (one_way tx) (match fst a with Some _ => true | None => false end) (snd a) u /\
                        t = Returned (match fst a with Some _ => true | None => false end) (snd a) :: u).
  { destruct (e_handler E h tx); [apply (g_rh E F G)|apply okC_ret_same]. }
  2:{ intros t1 a t2 _ H1 (u & Hu & ->). exists t1. do 3 eexists. split; [exact H1|]. split; [exact Hu|reflexivity]. }
  2:{ intros t H. left. exact H. }
  2:{ intros t1 a t2 H1 (u & Hu & ->). right. exists t1. do 3 eexists. split; [exact H1|]. split; [exact Hu|reflexivity]. }
  intros [reply status]. cbn [fst snd]. set (r := match reply with Some _ => true | None => false end).
  eapply okA_bind with (c1 := fun a => cx1) (P2 := fun _ t _ => tail_ok (one_way tx) r status t) (O2 := fun _ t => tail_open (one_way tx) r status t).
  { apply okA_emit_quiet. exact I. }
  2:{ cbn beta. intros t1 _ t2 _ -> H. exists t2. split; [exact H|reflexivity]. }
  2:{ intros t []. }
  2:{ cbn beta. intros t1 _ t2 -> H. exists t2. split; [exact H|reflexivity]. }
  intros ?.
  eapply okA_bind with (c1 := fun cx2 => cx2)
    (P1 := fun t _ => exists rest, calm rest /\ t = (if one_way tx then [] else [Wrote (answer r status)]) ++ rest)
    (O1 := tail_open (one_way tx) r status) (P2 := fun _ t _ => exists rest, calm rest /\ t = rest ++ [Leave]) (O2 := fun _ => opened).
  2:{ intros cx2. eapply okA_bind with (c1 := fun _ => cx2) (P2 := fun _ t _ => exists rest, calm rest /\ t = rest ++ [Leave]) (O2 := fun _ => opened).
      - apply okC_unref_opt.
      - intros ?. eapply okA_bind with (c1 := fun _ => cx2) (P2 := fun _ t _ => t = [Leave]) (O2 := fun _ _ => False).
        + apply okC_unref_opt.
        + intros ?. eapply okA_bind with (c1 := fun _ => cx2) (P2 := fun _ t _ => t = []) (O2 := fun _ _ => False).
          * apply okA_emit_quiet. exact I.
          * intros ?. apply okA_ret; [apply ctx_post_refl|reflexivity].
          * cbn beta. intros t1 ? t2 ? -> ->. reflexivity.
          * auto.
          * cbn beta. intros t1 ? t2 _ [].
        + cbn beta. intros t1 ? t2 ? H1 ->. exists t1. split; [exact H1|reflexivity].
        + auto.
        + cbn beta. intros t1 ? t2 _ [].
      - cbn beta. intros t1 ? t2 ? H1 (rest & Hr & ->). exists (t1 ++ rest). split; [apply calm_app; assumption|apply app_assoc].
      - auto.
      - cbn beta. intros t1 ? t2 H1 H2. apply opened_app; assumption. }
  2:{ cbn beta. intros t1 ? t2 ? (rest & Hr & ->) (rest2 & Hr2 & ->). exists (rest ++ rest2). split; [apply calm_app; assumption|].
      rewrite !app_assoc. reflexivity. }
  2:{ auto. }
  2:{ cbn beta. intros t1 ? t2 (rest & Hr & ->) H2. right. exists (rest ++ t2). split; [apply opened_app; assumption|].
      rewrite app_assoc. reflexivity. }
  fold (one_way tx). unfold tail_open. destruct (one_way tx).
  { apply okA_ret; [apply ctx_post_refl|]. intros _. exists []. split; [apply calm_nil|reflexivity]. }
  eapply okA_bind with (c1 := fun cx2 => cx2) (P1 := fun t _ => t = [Wrote (answer r status)]) (O1 := fun t => t = [])
    (P2 := fun _ t _ => calm t) (O2 := fun _ => opened).
  2:{ intros cx2. apply (g_wh E F G). }
  2:{ cbn beta. intros t1 ? t2 ? -> H. exists t2. split; [exact H|reflexivity]. }
  2:{ auto. }
  2:{ cbn beta. intros t1 ? t2 -> H. right. exists t2. split; [exact H|reflexivity]. }
  destruct reply as [contents|]; unfold r, answer.
  - eapply okA_bind with (c1 := fun _ => cx1) (P1 := fun t _ => t = []) (O1 := fun t => t = []) (P2 := fun _ t _ => t = [Wrote WReplyData]) (O2 := fun _ _ => False).
    + intros Hrb s Hs. pose proof (silent_list_add (cx_bufs cx1) contents s) as Hl.
      destruct (list_add (cx_bufs cx1) contents s) as [l s1|w s1]; destruct Hl as [H1 H2].
      * split; [unfold ios_ok; rewrite H2; exact Hs|]. exists []. rewrite app_nil_r. split; [exact H1|]. split; [apply level_nil|].
        split; [exact I|]. split; [apply ctx_post_refl; exact Hrb|reflexivity].
      * exists []. rewrite app_nil_r. split; [exact H1|]. split; [reflexivity|]. split; [exact I|]. split; [eexists; reflexivity|apply Forall_nil].
    + intros l. eapply okA_bind with (c1 := fun _ => cx1) (P2 := fun _ t _ => t = []) (O2 := fun _ _ => False).
      * apply okA_emit_quiet. exact I.
      * intros ?. apply okA_ret; [apply ctx_post_refl|reflexivity].
      * cbn beta. intros t1 ? t2 ? -> ->. reflexivity.
      * auto.
      * cbn beta. intros t1 ? t2 _ [].
    + cbn beta. intros t1 ? t2 ? -> ->. reflexivity.
    + auto.
    + cbn beta. intros t1 ? t2 _ [].
  - eapply okA_bind with (c1 := fun _ => cx1) (P2 := fun _ t _ => t = []) (O2 := fun _ _ => False).
    + apply okA_emit_quiet. exact I.
    + intros ?. apply okA_ret; [apply ctx_post_refl|reflexivity].
    + cbn beta. intros t1 ? t2 ? -> ->. reflexivity.
    + intros t [].
    + cbn beta. intros t1 ? t2 _ [].
Qed.

(* ------------------------------------------------------------------ *)
(* other commands: plain events, none of which is a command *)
Definition minor (e : dev) : Prop := plain e /\ match e with Got _ _ _ => False | _ => True end.
Lemma minor_hcP c t : Forall minor t -> match c with RTransaction _ => False | _ => True end -> hcP c t.
Proof.
  intros Ht Hc cmd payload.
  assert (Hct : calm t) by (induction Ht as [|e t [He _] Ht IH]; [apply calm_nil|apply calm_plain; assumption]).
  assert (Hm : forall d, mine d t = []).
  { clear Hct Hc. induction Ht as [|e t [He H2] Ht IH]; intros d; [reflexivity|]. destruct e; try contradiction; cbn [mine]; apply IH. }
  split; [apply calm_plain; [destruct c; try contradiction; exact I|exact Hct]|].
  destruct c; try contradiction; cbn [mine]; rewrite Hm; reflexivity.
Qed.
Lemma minor_hcO c t : Forall minor t -> hcO c t.
Proof.
  intros Ht cmd payload.
  assert (Hct : calm t) by (induction Ht as [|e t [He _] Ht IH]; [apply calm_nil|apply calm_plain; assumption]).
  destruct c; try (apply opened_calm, calm_plain; [exact I|exact Hct]).
  apply (opened_transaction [] cmd payload tx t); [apply calm_nil|apply opened_calm; exact Hct].
Qed.

Definition okM {A} cx (m : M A) (c : A -> ctx) : Prop := okA E cx m c (fun t _ => Forall minor t) (Forall minor).
Lemma okM_bind {A B} cx (m : M A) (f : A -> M B) c1 c2 :
  okM cx m c1 -> (forall a, okM (c1 a) (f a) c2) -> okM cx (bindM m f) c2.
Proof.
  intros H1 H2. eapply okA_bind; [exact H1|exact H2| | |].
  - cbn beta. intros. apply Forall_app. split; assumption.
  - auto.
  - cbn beta. intros. apply Forall_app. split; assumption.
Qed.
Lemma okM_silent {A} cx (m : M A) : silent m -> okM cx m (fun _ => cx).
Proof.
  intros H Hrb s Hs. specialize (H s). destruct (m s) as [a s1|w s1]; destruct H as [H1 H2].
  - split; [unfold ios_ok; rewrite H2; exact Hs|]. exists []. rewrite app_nil_r. split; [exact H1|]. split; [apply level_nil|].
    split; [exact I|]. split; [apply ctx_post_refl; exact Hrb|apply Forall_nil].
  - exists []. rewrite app_nil_r. split; [exact H1|]. split; [apply Forall_nil|]. split; [exact I|].
    split; [eexists; reflexivity|apply Forall_nil].
Qed.
Lemma okM_emit cx e : quiet e -> minor e -> okM cx (emit e) (fun _ => cx).
Proof.
  intros H1 H2. eapply okA_weaken; [apply okA_emit_quiet; exact H1| |].
  - cbn beta. intros t _ ->. apply Forall_cons; [exact H2|apply Forall_nil].
  - intros t [].
Qed.
Lemma okM_same {A} cx (a : A) : okM cx (ret a) (fun _ => cx).
Proof. apply okM_silent, silent_ret. Qed.
Lemma okM_deferred cx release obj :
  okM cx (do _ <- emit (Deferred release obj);
          ret {| cx_rbuf := cx_rbuf cx; cx_unrefs := cx_unrefs cx ++ [(release, obj)]; cx_bufs := cx_bufs cx |}) (fun cx' => cx').
Proof.
  intros Hrb s Hs. unfold bindM, emit, ret. split; [exact Hs|]. exists [Deferred release obj]. split; [reflexivity|].
  split; [apply level_one; exact I|]. split; [cbn; auto|]. split.
  - unfold ctx_post. cbn. split; [reflexivity|]. split; [reflexivity|]. split; [apply Forall_cons; [exact I|apply Forall_nil]|exact Hrb].
  - apply Forall_cons; [split; exact I|apply Forall_nil].
Qed.
Lemma okM_cx {A} cx (m : M A) : okM cx m (fun _ => cx) -> okM cx (do _ <- m; ret cx) (fun cx' => cx').
Proof. intros H. eapply okM_bind; [exact H|]. intros a. cbn beta. apply (okM_same cx cx). Qed.

Lemma ok_command cx data c :
  okA E cx (handle_command E F cx data c) (fun cx' => cx') (fun t _ => hcP c t) (hcO c).
Proof.
  unfold handle_command.
  assert (W : forall m, match c with RTransaction _ => False | _ => True end -> okM cx m (fun cx' : ctx => cx') ->
    okA E cx (do h <- history; m) (fun cx' => cx') (fun t _ => hcP c t) (hcO c)).
  { intros m Hc Hm. eapply okA_weaken; [eapply okM_bind; [apply okM_silent, silent_history|intros ?; exact Hm]| |].
    - cbn beta. intros t _ H. apply minor_hcP; assumption.
    - cbn beta. intros t H. apply minor_hcO; assumption. }
  assert (W2 : forall m : list dev -> M ctx, match c with RTransaction _ => False | _ => True end -> (forall h, okM cx (m h) (fun cx' : ctx => cx')) ->
    okA E cx (do h <- history; m h) (fun cx' => cx') (fun t _ => hcP c t) (hcO c)).
  { intros m Hc Hm. eapply okA_weaken; [eapply okM_bind; [apply okM_silent, silent_history|intros ?; apply Hm]| |].
    - cbn beta. intros t _ H. apply minor_hcP; assumption.
    - cbn beta. intros t H. apply minor_hcO; assumption. }
  clear W.
  destruct c; try (apply W2; [exact I|intros h]); try (apply okM_silent; apply silent_ret); try apply (okM_same cx cx).
  - eapply okM_bind with (c1 := fun _ => cx); [destruct (e_local E h obj); [apply okM_emit; repeat split|apply okM_same]|intros ?].
    apply okM_cx, okM_emit; repeat split.
  - destruct (e_local E h obj); [apply okM_deferred|apply (okM_same cx cx)].
  - destruct (e_local E h obj); [|apply okM_cx, okM_emit; repeat split]. apply okM_cx. unfold handle_acquire.
    eapply okM_bind with (c1 := fun _ => cx); [apply okM_emit; repeat split|intros ?]. apply okM_silent.
    apply silent_bind; [apply silent_each|intros ?]. apply silent_bind; [apply silent_get|intros; apply silent_set].
  - destruct (e_local E h obj); [apply okM_deferred|apply (okM_same cx cx)].
  - eapply okA_bind with (c1 := fun _ => cx) (P1 := fun t _ => t = []) (O1 := fun _ => False) (P2 := fun _ t _ => hcP (RTransaction tx) t) (O2 := fun _ t => hcO (RTransaction tx) t).
    + intros Hrb s Hs. cbn [history]. split; [exact Hs|]. exists []. rewrite app_nil_r. split; [reflexivity|]. split; [apply level_nil|].
      split; [exact I|]. split; [apply ctx_post_refl; exact Hrb|reflexivity].
    + intros ?. apply ok_transaction.
    + cbn beta. intros t1 ? t2 ? -> H. exact H.
    + intros t [].
    + cbn beta. intros t1 ? t2 -> H. exact H.
  - apply okM_cx, okM_emit; repeat split.
  - apply okM_cx, okM_emit; repeat split.
  - apply okM_cx, okM_emit; repeat split.
  - apply okM_cx. destruct (e_remote E h handle); apply okM_emit; repeat split.
  - apply okM_cx, okM_emit; repeat split.
Qed.

(* ------------------------------------------------------------------ *)
Lemma post_compact cx t cx' : ctx_post cx t cx' -> ctx_post cx t (set_rbuf cx' (compact_read_buf (cx_rbuf cx'))).
Proof.
  intros (H1 & H2 & H3 & H4). destruct (compact_ok _ H4) as (C1 & C2 & C3).
  unfold ctx_post. cbn [set_rbuf cx_rbuf cx_unrefs]. rewrite C2. auto.
Qed.

Lemma ok_commands cx : okA E cx (handle_commands E F cx) (fun cx' => cx')
  (fun t cx' => calm t /\ incomplete (pending (cx_rbuf cx'))) opened.
Proof.
  unfold handle_commands. destruct (Z.eqb_spec (next_command (cx_rbuf cx)) 0) as [H0|H0].
  - apply okA_ret; intros Hrb.
    + apply post_compact, ctx_post_refl. exact Hrb.
    + split; [apply calm_nil|]. cbn [set_rbuf cx_rbuf]. destruct (compact_ok _ Hrb) as (_ & -> & _). apply next_incomplete; assumption.
  - eapply okA_bind with (P2 := fun a t cx' => (forall cmd payload, calm (Got cmd payload (snd a) :: t)) /\ incomplete (pending (cx_rbuf cx')))
      (O2 := fun a t => forall cmd payload, opened (Got cmd payload (snd a) :: t)); [apply okA_take; exact H0|intros [[rb1 data] c]| | |]; cbn [fst snd].
    + eapply okA_bind; [apply (g_hc E F G)|intros cx1; apply (g_hcs E F G)| | |]; cbn beta.
      * intros t1 ? t2 ? H1 [H2 H3]. split; [|exact H3]. intros cmd payload. change (calm ((Got cmd payload c :: t1) ++ t2)).
        apply calm_app; [apply H1|exact H2].
      * intros t H. exact H.
      * intros t1 ? t2 H1 H2 cmd payload. change (opened ((Got cmd payload c :: t1) ++ t2)). apply opened_app; [apply H1|exact H2].
    + intros t1 a t2 b -> [H1 H2]. split; [apply H1|exact H2].
    + intros t [].
    + intros t1 a t2 -> H. apply H.
Qed.

Definition outcome_after (reply : bool) (c : rcmd) (t : list dev) (a : Z * ctx * option nat) : Prop :=
  forall cmd payload, calm (Got cmd payload c :: t) /\ outcome reply (mine 0 (Got cmd payload c :: t)) (fst (fst a)).

Lemma minor_mine t d : Forall minor t -> mine d t = [].
Proof.
  intros H. revert d. induction H as [|e t [He H2] Ht IH]; intros d; [reflexivity|]. destruct e; try contradiction; cbn [mine]; apply IH.
Qed.
Lemma minor_calm t : Forall minor t -> calm t.
Proof. induction 1 as [|e t [He _] Ht IH]; [apply calm_nil|apply calm_plain; assumption]. Qed.

Lemma ok_finish reply cx c status tok :
  match c with RTransaction _ => False | _ => True end -> decide reply c = Some status ->
  okA E cx (ret (status, set_rbuf cx (compact_read_buf (cx_rbuf cx)), tok)) (fun a => snd (fst a)) (outcome_after reply c) (hcO c).
Proof.
  intros Hc Hd. apply okA_ret; intros Hrb.
  - apply post_compact, ctx_post_refl. exact Hrb.
  - intros cmd payload. split; [apply calm_one; destruct c; try contradiction; exact I|]. right. exists [], c.
    split; [destruct c; try contradiction; reflexivity|]. split; [apply Forall_nil|exact Hd].
Qed.

Lemma ok_other reply cx data c :
  decide reply c = None ->
  okA E cx (do cx2 <- f_handle_command F cx data c; f_txstatus F cx2 reply) (fun a => snd (fst a)) (outcome_after reply c) (hcO c).
Proof.
  intros Hd. eapply okA_bind; [apply (g_hc E F G)|intros cx1; apply (g_tx E F G)| | |]; cbn beta.
  - intros t1 ? t2 b H1 [H2 H3] cmd payload. destruct (H1 cmd payload) as [H4 H5].
    change (Got cmd payload c :: t1 ++ t2) with ((Got cmd payload c :: t1) ++ t2).
    split; [apply calm_app; assumption|]. rewrite mine_app by exact H4. rewrite H5.
    assert (Hu : Forall (undecided reply) (match c with RTransaction _ => [] | _ => [c] end)).
    { destruct c; try apply Forall_nil; (apply Forall_cons; [exact Hd|apply Forall_nil]). }
    destruct H3 as [[H6 H7]|(l1 & c1 & H6 & H7 & H8)].
    + left. split; [exact H6|]. apply Forall_app. split; assumption.
    + right. rewrite H6. eexists _, c1. split; [apply app_assoc|]. split; [apply Forall_app; split; assumption|exact H8].
  - auto.
  - intros t1 ? t2 H1 H2 cmd payload. change (opened ((Got cmd payload c :: t1) ++ t2)). apply opened_app; [apply H1|exact H2].
Qed.

Lemma okM_free cx b : okM cx (free_buffer b) (fun _ => cx).
Proof. unfold free_buffer. destruct (b =? 0); [apply okM_same|apply okM_emit; repeat split]. Qed.

Lemma ok_txstatus cx reply : okA E cx (txstatus E F cx reply) (fun a => snd (fst a))
  (fun t a => calm t /\ outcome reply (mine 0 t) (fst (fst a))) opened.
Proof.
  unfold txstatus. destruct (Z.eqb_spec (next_command (cx_rbuf cx)) 0) as [H0|H0].
  - apply okA_ret; intros Hrb.
    + apply post_compact, ctx_post_refl. exact Hrb.
    + split; [apply calm_nil|]. left. split; [reflexivity|apply Forall_nil].
  - eapply okA_bind with (P2 := fun a t b => outcome_after reply (snd a) t b) (O2 := fun a => hcO (snd a));
      [apply okA_take; exact H0|intros [[rb1 data] c]| | |]; cbn [fst snd].
    + destruct c; try (apply ok_other; reflexivity); try (apply ok_finish; [exact I|reflexivity]).
      * destruct reply.
        -- eapply okA_weaken; [apply (g_tx E F G)| |]; cbn beta.
           ++ intros t a [H1 H2] cmd payload. split; [apply calm_plain; [exact I|exact H1]|]. cbn [mine].
              destruct H2 as [[H6 H7]|(l1 & c1 & H6 & H7 & H8)]; [left; split; [exact H6|apply Forall_cons; [reflexivity|exact H7]]|].
              right. rewrite H6. exists (RComplete :: l1), c1. split; [reflexivity|]. split; [apply Forall_cons; [reflexivity|exact H7]|exact H8].
           ++ intros t H cmd payload. change (opened ([Got cmd payload RComplete] ++ t)). apply opened_app; [apply calm_one; exact I|exact H].
        -- apply ok_finish; [exact I|reflexivity].
      * match goal with |- okA _ _ (bindM _ (fun x => let (_, _) := x in ret (?st, _, _))) _ _ _ => set (status := st) end.
        assert (Hd : decide reply (RReply tx) = Some status).
        { unfold decide, status, STATUS_FAILED, STATUS_DEAD_OBJECT. destruct (_ || _); reflexivity. }
        clearbody status.
        eapply okA_bind with (c1 := fun a => fst a) (P1 := fun t _ => Forall minor t) (O1 := Forall minor)
          (P2 := fun _ t b => outcome_after reply (RReply tx) t b) (O2 := fun _ => hcO (RReply tx)).
        -- destruct (_ && reply).
           ++ eapply okM_bind; [apply okM_silent, silent_new|intros id]. cbn beta. eapply okM_bind; [apply okM_silent, silent_list_add|intros bufs].
              cbn beta. apply okA_ret; [intros Hrb; apply (ctx_post_refl _ Hrb)|intros _; apply Forall_nil].
           ++ eapply okM_bind; [apply okM_free|intros ?]. cbn beta. apply okA_ret; [intros Hrb; apply (ctx_post_refl _ Hrb)|intros _; apply Forall_nil].
        -- intros [cx2 tok]. cbn [fst]. apply ok_finish; [exact I|exact Hd].
        -- cbn beta. intros t1 ? t2 b H1 H2 cmd payload. destruct (H2 cmd payload) as [H3 H4].
           pose proof (minor_calm _ H1) as H1c.
           assert (H5 : calm (Got cmd payload (RReply tx) :: t1)) by (apply calm_plain; [exact I|exact H1c]).
           assert (Hct2 : calm t2) by (inversion H3; assumption).
           split; [change (calm ((Got cmd payload (RReply tx) :: t1) ++ t2)); apply calm_app; assumption|].
           cbn [mine] in H4 |- *. rewrite mine_app by exact H1c. rewrite (minor_mine t1 0 H1). exact H4.
        -- intros t H. apply minor_hcO. exact H.
        -- cbn beta. intros t1 ? t2 H1 H2 cmd payload. specialize (H2 cmd payload). pose proof (minor_calm _ H1) as H1c.
           assert (H5 : opened t2).
           { remember (Got cmd payload (RReply tx) :: t2) as x eqn:Hx. destruct H2 as [x H|t k body H Hb|t cm pl tx1 body H Hb|t cm pl tx1 body rp st H Hb|t cm pl tx1 body rp st rest W H Hb Hr|t cm pl tx1 body rp st rest W H Hb Hr].
             - subst x. inversion H; subst. apply opened_calm. assumption.
             - destruct t as [|e t]; [discriminate|]. injection Hx as -> <-. inversion H; subst. apply opened_call; assumption.
             - destruct t as [|e t]; [discriminate|]. injection Hx as -> <-. inversion H; subst. apply opened_transaction; assumption.
             - destruct t as [|e t]; [discriminate|]. injection Hx as -> <-. inversion H; subst. apply opened_returned; assumption.
             - destruct t as [|e t]; [discriminate|]. injection Hx as -> <-. inversion H; subst. apply opened_one_way; assumption.
             - destruct t as [|e t]; [discriminate|]. injection Hx as -> <-. inversion H; subst. apply opened_two_way; assumption. }
           change (opened ((Got cmd payload (RReply tx) :: t1) ++ t2)). apply opened_app; [apply calm_plain; [exact I|exact H1c]|exact H5].
    + intros t1 a t2 b -> H. exact (H _ _).
    + intros t [].
    + intros t1 a t2 -> H. apply H.
Qed.

(* ------------------------------------------------------------------ *)
Lemma okC_read cx : okC E cx (write_read (cx_rbuf cx)) (fun a => set_rbuf cx (snd a)).
Proof. eapply okC_of; [apply okA_read|]. cbn beta. tauto. Qed.
Lemma okC_tx cx reply : okC E cx (f_txstatus F cx reply) (fun a => snd (fst a)).
Proof. eapply okC_of; [apply (g_tx E F G)|]. cbn beta. tauto. Qed.

Lemma ok_wait_handled cx : okC E cx (wait_handled E F cx) (fun cx' => cx').
Proof.
  unfold wait_handled. eapply okC_bind; [apply okC_read|]. intros [err rb]. cbn [snd]. destruct (0 <=? err).
  - eapply okC_bind; [apply okC_tx|]. intros [[status cx1] tok]. cbn [fst snd]. destruct (status =? - EAGAIN); [apply (g_wh E F G)|].
    apply (okC_ret_same E cx1 cx1).
  - destruct (err =? - EAGAIN); [apply (g_wh E F G)|]. apply (okC_ret_same E (set_rbuf cx rb) (set_rbuf cx rb)).
Qed.

Lemma outcome_cases reply l status : outcome reply l status -> status <> - EAGAIN ->
  exists l1 c, l = l1 ++ [c] /\ Forall (undecided reply) l1 /\ decide reply c = Some status.
Proof. intros [[H1 _]|H] H2; [contradiction|exact H]. Qed.
Lemma decide_again reply c status : decide reply c = Some status -> status <> - EAGAIN.
Proof.
  unfold decide, EAGAIN, EFAULT. destruct c; try discriminate.
  - destruct reply; [discriminate|]. intros H. apply some_same in H. lia.
  - destruct (Z.eqb_spec (tx_status tx) (- (11))) as [H1|H1]; cbn [orb]; [intros H; apply some_same in H; lia|].
    destruct (tx_status tx =? 1); cbn [orb]; [intros H; apply some_same in H; lia|].
    destruct (tx_status tx =? 2); intros H; apply some_same in H; lia.
  - intros H. apply some_same in H. lia.
  - intros H. apply some_same in H. lia.
Qed.

Lemma finished_after reply t1 t2 status : level t1 -> calm t1 -> Forall (undecided reply) (mine 0 t1) -> finished reply t2 status -> finished reply (t1 ++ t2) status.
Proof.
  intros L C H1 [[H2 (e & u & H3 & H4)]|(l1 & c & H2 & H3 & H4)]; unfold finished; rewrite (mine_app _ _ C), (own_level _ _ L).
  - left. split; [apply Forall_app; split; assumption|]. exists e, (own 0 t1 ++ u). split; [rewrite H3; apply app_assoc|exact H4].
  - right. rewrite H2. exists (mine 0 t1 ++ l1), c. split; [apply app_assoc|]. split; [apply Forall_app; split; assumption|exact H4].
Qed.

Lemma calm_level t : calm t -> level t.
Proof.
  induction 1 as [|e t He Ht IH|k body status t Hb IHb Ht IHt|cmd payload tx body reply status rest t Hw Hb IHb Hr IHr Ht IHt
    |cmd payload tx body reply status rest t Hw Hb IHb Hr IHr Ht IHt].
  - apply level_nil.
  - apply level_cons; [destruct e; try contradiction; exact I|exact IH].
  - change (level ((Begin k :: body) ++ [End status] ++ t)). rewrite app_assoc. apply level_app; [apply level_call; exact IHb|exact IHt].
  - apply level_cons; [exact I|]. apply level_app; [exact IHb|]. apply level_cons; [exact I|]. apply level_app; [exact IHr|].
    apply level_cons; [exact I|exact IHt].
  - apply level_cons; [exact I|]. apply level_app; [exact IHb|]. apply level_cons; [exact I|]. apply level_cons; [exact I|]. apply level_app; [exact IHr|].
    apply level_cons; [exact I|exact IHt].
Qed.

Lemma ok_wait_reply cx reply : okA E cx (wait_reply E F cx reply) (fun a => snd (fst a))
  (fun t a => calm t /\ finished reply t (fst (fst a))) opened.
Proof.
  unfold wait_reply.
  eapply okA_bind with (P2 := fun a t b => calm t /\ (finished reply t (fst (fst b)) \/
       (fst a < 0 /\ t = [] /\ fst (fst b) = fst a))) (O2 := fun _ => opened).
  - apply okA_read.
  - intros [err rb]. cbn [fst snd]. destruct (Z.ltb_spec err 0) as [Hneg|Hpos].
    + destruct (Z.eqb_spec err (- EAGAIN)) as [->|Hn].
      * eapply okA_weaken; [apply (g_wr E F G)| |auto]. cbn beta. intros t a [H1 H2]. auto.
      * apply okA_ret; intros Hrb; [apply ctx_post_refl; exact Hrb|]. split; [apply calm_nil|]. right. cbn [fst]. auto.
    + eapply okA_bind with (P2 := fun a t b => calm t /\ ((fst (fst a) = - EAGAIN /\ finished reply t (fst (fst b))) \/
         (fst (fst a) <> - EAGAIN /\ t = [] /\ fst (fst b) = fst (fst a)))) (O2 := fun _ => opened).
      * apply (g_tx E F G).
      * intros [[status cx1] tok]. cbn [fst snd]. destruct (Z.eqb_spec status (- EAGAIN)) as [->|Hn].
        -- eapply okA_weaken; [apply (g_wr E F G)| |auto]. cbn beta. intros t a [H1 H2]. split; [exact H1|]. left. auto.
        -- apply okA_ret; intros Hrb; [apply ctx_post_refl; exact Hrb|]. split; [apply calm_nil|]. right. auto.
      * cbn beta. intros t1 a t2 b [H1 H2] [H3 H4]. split; [apply calm_app; assumption|]. left.
        destruct H4 as [[H5 H6]|(H5 & -> & H7)].
        -- destruct H2 as [[_ H2]|(l1 & c & _ & _ & H8)]; [|apply decide_again in H8; contradiction].
           apply finished_after; auto using calm_level.
        -- rewrite app_nil_r. rewrite H7. right. apply outcome_cases; assumption.
      * auto.
      * cbn beta. intros t1 ? t2 [H1 _] H2. apply opened_app; assumption.
  - cbn beta. intros t1 [err rb] t2 b [H1 H2] [H3 H4]. split; [apply calm_app; assumption|].
    assert (Hm : mine 0 t1 = []) by (destruct H2 as [[_ (x & ->)]|(e & _ & ->)]; reflexivity).
    destruct H4 as [H4|(H4 & -> & H6)].
    + apply finished_after; auto using calm_level. rewrite Hm. apply Forall_nil.
    + rewrite app_nil_r. cbn [fst] in *. destruct H2 as [[H2 _]|(e & H2 & ->)]; [cbn [fst] in H2; lia|]. cbn [fst] in H2.
      left. split; [apply Forall_nil|]. exists e, []. split; [reflexivity|]. rewrite H6. exact H2.
  - auto.
  - cbn beta. intros t1 ? t2 [H1 _] H2. apply opened_app; assumption.
Qed.

Lemma rb_consumed_pending rb : rb_ok rb -> rb_consumed rb = 0 -> pending rb = [].
Proof.
  intros (H1 & H2 & H3 & H4) H0. unfold pending. assert (E0 : rb_consumed rb - rb_offset rb = 0) by lia. rewrite E0.
  unfold slice. apply ztake_neg. lia.
Qed.

Lemma ok_drain cx check status : okA E cx (drain E F cx check status) snd (drained status) opened.
Proof.
  unfold drain.
  eapply okA_bind with (P2 := fun cx1 t b => calm t /\ (forall t1, level t1 -> calm t1 -> incomplete (pending (cx_rbuf cx1)) -> drained status (t1 ++ t) b)) (O2 := fun _ => opened).
  - apply (g_hcs E F G).
  - intros cx1. eapply okA_bind with (c1 := fun _ => cx1) (P1 := fun t _ => t = []) (O1 := opened)
      (P2 := fun _ t b => calm t /\ (forall t1, level t1 -> calm t1 -> incomplete (pending (cx_rbuf cx1)) -> drained status (t1 ++ t) b)) (O2 := fun _ => opened).
    + intros Hrb s Hs. cbn [history]. split; [exact Hs|]. exists []. rewrite app_nil_r. split; [reflexivity|]. split; [apply level_nil|].
      split; [exact I|]. split; [apply ctx_post_refl; exact Hrb|reflexivity].
    + intros h. destruct (negb (rb_consumed (cx_rbuf cx1) =? 0) && (negb check || e_can_loop E h)).
      * eapply okA_bind with (P2 := fun a t b => calm t /\ (drained status t b \/ (fst a < 0 /\ t = [] /\ fst b = fst a))) (O2 := fun _ => opened).
        -- apply okA_read.
        -- intros [err rb]. cbn [fst snd]. destruct (Z.ltb_spec err 0) as [Hneg|Hpos].
           ++ apply okA_ret; intros Hrb; [apply ctx_post_refl; exact Hrb|]. split; [apply calm_nil|]. right. auto.
           ++ eapply okA_weaken; [apply (g_dr E F G)| |auto]. cbn beta. intros t a H. split; [apply H|left; exact H].
        -- cbn beta. intros t1 [err rb] t2 b [H1 H2] [H3 H4]. split; [apply calm_app; assumption|]. intros t0 L0 C0 Hi.
           rewrite app_assoc. assert (C01 : calm (t0 ++ t1)) by (apply calm_app; assumption).
           destruct H4 as [[H4 H5]|(H4 & -> & H6)].
           ++ split; [apply calm_app; assumption|]. destruct H5 as [H5|(e & u & H5 & H6)]; [left; exact H5|right].
              exists e, (own 0 (t0 ++ t1) ++ u). rewrite (own_level _ _ (calm_level _ C01)), H5. split; [apply app_assoc|exact H6].
           ++ rewrite app_nil_r. split; [exact C01|]. right. cbn [fst] in *. destruct H2 as [[H2 _]|(e & H2 & ->)]; [cbn [fst] in H2; lia|].
              exists e, (own 0 t0). rewrite (own_level _ _ L0). split; [reflexivity|]. rewrite H6. exact H2.
        -- auto.
        -- cbn beta. intros t1 ? t2 [H1 _] H2. apply opened_app; assumption.
      * apply okA_ret; intros Hrb; [apply ctx_post_refl; exact Hrb|]. split; [apply calm_nil|]. intros t1 L1 C1 Hi. rewrite app_nil_r.
        split; [exact C1|]. left. split; [reflexivity|exact Hi].
    + cbn beta. intros t1 ? t2 ? -> H. exact H.
    + auto.
    + cbn beta. intros t1 ? t2 -> H. exact H.
  - cbn beta. intros t1 cx1 t2 b [H1 H2] [H3 H4]. apply H4; auto using calm_level.
  - auto.
  - cbn beta. intros t1 ? t2 [H1 _] H2. apply opened_app; assumption.
Qed.

(* ------------------------------------------------------------------ *)
(* whole calls *)
Lemma run_unrefs_ok l : forall s, exists s', run_unrefs l s = Done tt s' /\ trace s' = trace s ++ map unref_event l /\ ios s' = ios s /\ heap s' = heap s /\ app s' = app s.
Proof.
  induction l as [|[r o] l IH]; intros s; cbn [run_unrefs].
  - exists s. rewrite app_nil_r. auto.
  - unfold bindM, emit. match goal with |- context [run_unrefs l ?x] => destruct (IH x) as (s' & H1 & H2 & H3 & H4 & H5) end.
    exists s'. split; [exact H1|]. cbn [trace ios heap app] in *. split; [rewrite H2, <- app_assoc; reflexivity|]. auto.
Qed.

Definition free_event (e : dev) : Prop := exists b, e = Wrote (WFreeBuffer b).
Lemma each_unref_ok l : forall s, match each contents_unref l s with Done _ s' | Stop _ s' =>
  exists t, trace s' = trace s ++ t /\ Forall free_event t /\ ios s' = ios s end.
Proof.
  induction l as [|i l IH]; intros s; cbn [each].
  - exists []. rewrite app_nil_r. split; [reflexivity|]. split; [apply Forall_nil|reflexivity].
  - unfold bindM. assert (H : match contents_unref i s with Done _ s' | Stop _ s' =>
      exists t, trace s' = trace s ++ t /\ Forall free_event t /\ ios s' = ios s end).
    { unfold contents_unref. destruct (refs_of s i <=? 0).
      - exists []. rewrite app_nil_r. split; [reflexivity|]. split; [apply Forall_nil|reflexivity].
      - cbv zeta. destruct (refs_of s i - 1 =? 0).
        + unfold free_buffer. destruct (buffer_of s i =? 0).
          * exists []. rewrite app_nil_r. split; [reflexivity|]. split; [apply Forall_nil|reflexivity].
          * eexists. split; [reflexivity|]. split; [apply Forall_cons; [eexists; reflexivity|apply Forall_nil]|reflexivity].
        + exists []. rewrite app_nil_r. split; [reflexivity|]. split; [apply Forall_nil|reflexivity]. }
    destruct (contents_unref i s) as [u s1|w s1]; [|exact H]. destruct H as (t1 & H1 & H2 & H3). specialize (IH s1).
    destruct (each contents_unref l s1); destruct IH as (t2 & H4 & H5 & H6); exists (t1 ++ t2);
      (split; [rewrite H4, H1, app_assoc; reflexivity|]); (split; [apply Forall_app; split; assumption|rewrite H6; exact H3]).
Qed.

Definition call_mid (oneway : bool) : M (Z * ctx * option nat) :=
  do _ <- emit (Wrote (WTransaction oneway));
  do (status, cx1, tok) <- f_wait_reply F context_init (negb oneway);
  do (status2, cx2) <- (if 0 <=? status then f_drain F cx1 false status else ret (status, cx1));
  ret (status2, cx2, tok).
Definition read_mid : M (Z * ctx * option nat) :=
  do (err, rb) <- write_read read_init;
  do (status, cx1) <-
    (if 0 <=? err then f_drain F (set_rbuf context_init rb) true err else ret (err, set_rbuf context_init rb));
  ret (status, cx1, None).
Definition whole (k : option bool) (m : M (Z * ctx * option nat)) : M (Z * option nat) :=
  do _ <- emit (Begin k);
  do (status, cx, tok) <- m;
  do _ <- context_cleanup cx;
  do _ <- emit (End status);
  ret (status, tok).
Lemma transact_whole oneway s : transact E F oneway s = whole (Some oneway) (call_mid oneway) s.
Proof.
  unfold transact, whole, call_mid, bindM. cbn [emit]. destruct (f_wait_reply F context_init (negb oneway) _) as [[[st cx] tok] s1|w s1]; [|reflexivity].
  destruct (0 <=? st); [destruct (f_drain F cx false st s1) as [[st2 cx2] s2|w s2]|]; reflexivity.
Qed.
Lemma read_whole s : driver_read E F s = match whole None read_mid s with Done a s' => Done (fst a) s' | Stop w s' => Stop w s' end.
Proof.
  unfold driver_read, whole, read_mid, bindM. cbn [emit]. destruct (write_read read_init _) as [[err rb] s1|w s1]; [|reflexivity].
  destruct (0 <=? err).
  - destruct (f_drain F (set_rbuf context_init rb) true err s1) as [[st cx] s2|w s2]; [|reflexivity].
    unfold ret. destruct (context_cleanup cx s2); reflexivity.
  - unfold ret. destruct (context_cleanup (set_rbuf context_init rb) s1); reflexivity.
Qed.

(* what ends with a failure, before the cleanup *)
Definition tail_failed (e : positive) (t : list dev) : Prop := exists u, own 0 t = u ++ [Failed e].
Definition mid_status (reply : bool) (t : list dev) (status : Z) : Prop :=
  (exists l c r st, mine 0 t = l ++ c :: r /\ Forall (undecided reply) l /\ decide reply c = Some st /\
     (status = st \/ (0 <= st /\ exists err, tail_failed err t /\ status = Z.neg err))) \/
  (Forall (undecided reply) (mine 0 t) /\ exists err, tail_failed err t /\ status = Z.neg err).

Lemma ok_call_mid oneway : okA E context_init (call_mid oneway) (fun a => snd (fst a))
  (fun t a => calm t /\ mid_status (negb oneway) t (fst (fst a)) /\ (0 <= fst (fst a) -> incomplete (pending (cx_rbuf (snd (fst a))))) )
  opened.
Proof.
  unfold call_mid.
  eapply okA_bind with (c1 := fun _ => context_init) (P2 := fun _ t a => calm t /\ mid_status (negb oneway) t (fst (fst a)) /\ (0 <= fst (fst a) -> incomplete (pending (cx_rbuf (snd (fst a))))))
    (O2 := fun _ => opened).
  { apply okA_emit_quiet. exact I. }
  2:{ cbn beta. intros t1 ? t2 b -> (H1 & H2 & H3). split; [apply calm_plain; [exact I|exact H1]|]. split; [|exact H3].
      cbn [Datatypes.app]. unfold mid_status, tail_failed in *. cbn [mine own].
      destruct H2 as [(l & c & r & st & H4 & H5 & H6 & H7)|(H4 & e & (u & H5) & H6)].
      - left. exists l, c, r, st. repeat (split; [assumption|]). destruct H7 as [H7|(H7 & e & (u & H8) & H9)]; [left; exact H7|right].
        split; [exact H7|]. exists e. split; [|exact H9]. exists (Wrote (WTransaction oneway) :: u). rewrite H8. reflexivity.
      - right. split; [exact H4|]. exists e. split; [|exact H6]. exists (Wrote (WTransaction oneway) :: u). rewrite H5. reflexivity. }
  2:{ intros t []. }
  2:{ cbn beta. intros t1 ? t2 -> H. change (opened ([Wrote (WTransaction oneway)] ++ t2)). apply opened_app; [apply calm_one; exact I|exact H]. }
  intros u0.
  eapply okA_bind with (P2 := fun a t b => calm t /\
     ((0 <= fst (fst a) /\ drained (fst (fst a)) t (fst b)) \/ (fst (fst a) < 0 /\ t = [] /\ fst (fst b) = fst (fst a)))) (O2 := fun _ => opened).
  { apply (g_wr E F G). }
  2:{ cbn beta. intros t1 [[st1 cx1] tok1] t2 [[st2 cx2] tok2] [H1 H2] [H3 H4]. cbn [fst snd] in *.
      split; [apply calm_app; assumption|]. destruct H4 as [(H4 & H5 & H6)|(H4 & -> & ->)].
      - assert (H7 : mine 0 (t1 ++ t2) = mine 0 t1 ++ mine 0 t2) by (apply mine_app; exact H1).
        destruct H2 as [(_ & e & _ & _ & H2)|(l1 & c & H2 & H8 & H9)]; [lia|].
        split.
        + left. exists l1, c, (mine 0 t2), st1. split; [rewrite H7, H2, <- app_assoc; reflexivity|]. split; [exact H8|]. split; [exact H9|].
          cbn [fst] in H6. destruct H6 as [[H6 _]|(e & u & H6 & H10)]; [left; exact H6|right]. split; [exact H4|]. exists e.
          split; [|exact H10]. exists (own 0 t1 ++ u). rewrite (own_level _ _ (calm_level _ H1)), H6. apply app_assoc.
        + cbn [fst snd] in H6. intros H10. destruct H6 as [[_ H6]|(e & u & _ & H6)]; [exact H6|lia].
      - rewrite app_nil_r. split; [|lia]. destruct H2 as [(H2 & e & u & H5 & H6)|(l1 & c & H2 & H8 & H9)].
        + right. split; [exact H2|]. exists e. split; [exists u; exact H5|exact H6].
        + left. exists l1, c, [], st1. split; [exact H2|]. split; [exact H8|]. split; [exact H9|]. left. reflexivity. }
  2:{ auto. }
  2:{ cbn beta. intros t1 ? t2 [H1 _] H2. apply opened_app; assumption. }
  intros [[st1 cx1] tok1]. cbn [fst snd].
  eapply okA_bind with (c1 := snd) (P1 := fun t b => calm t /\ ((0 <= st1 /\ drained st1 t b) \/ (st1 < 0 /\ t = [] /\ fst b = st1))) (O1 := opened)
    (P2 := fun a t b => t = [] /\ fst b = a) (O2 := fun _ _ => False).
  - destruct (Z.leb_spec 0 st1) as [H|H].
    + eapply okA_weaken; [apply (g_dr E F G)| |auto]. cbn beta. intros t b Hd. split; [apply Hd|left; auto].
    + apply okA_ret; intros Hrb; [apply ctx_post_refl; exact Hrb|]. split; [apply calm_nil|right; auto].
  - intros [st2 cx2]. cbn [snd]. apply okA_ret; intros Hrb; [apply ctx_post_refl; exact Hrb|auto].
  - cbn beta. intros t1 a t2 b [H1 H2] [-> H3]. rewrite app_nil_r, H3. auto.
  - auto.
  - cbn beta. intros t1 ? t2 _ [].
Qed.

Lemma ok_read_mid : okA E context_init read_mid (fun a => snd (fst a))
  (fun t a => calm t /\ ((fst (fst a) = 0 /\ incomplete (pending (cx_rbuf (snd (fst a))))) \/ exists err, tail_failed err t /\ fst (fst a) = Z.neg err))
  opened.
Proof.
  unfold read_mid.
  eapply okA_bind with (c1 := fun a => set_rbuf context_init (snd a)) (P2 := fun a t b => calm t /\
     ((0 <= fst a /\ drained (fst a) t (fst b)) \/ (fst a < 0 /\ t = [] /\ fst (fst b) = fst a))) (O2 := fun _ => opened).
  { apply (okA_read E context_init). }
  2:{ cbn beta. intros t1 [err rb] t2 [[st2 cx2] tok2] [H1 H2] [H3 H4]. cbn [fst snd] in *.
      split; [apply calm_app; assumption|]. destruct H4 as [(H4 & H5 & H6)|(H4 & -> & ->)].
      - cbn [fst snd] in H6. destruct H6 as [[H6 H7]|(e & u & H6 & H10)].
        + left. split; [|exact H7]. destruct H2 as [[H2 _]|(e & H2 & _)]; cbn [fst] in H2; lia.
        + right. exists e. split; [|exact H10]. exists (own 0 t1 ++ u). rewrite (own_level _ _ (calm_level _ H1)), H6. apply app_assoc.
      - rewrite app_nil_r. right. destruct H2 as [[H2 _]|(e & H2 & ->)]; cbn [fst] in H2; [lia|]. exists e. split; [exists []; reflexivity|exact H2]. }
  2:{ auto. }
  2:{ cbn beta. intros t1 ? t2 [H1 _] H2. apply opened_app; assumption. }
  intros [err rb]. cbn [fst snd].
  eapply okA_bind with (c1 := snd) (P1 := fun t b => calm t /\ ((0 <= err /\ drained err t b) \/ (err < 0 /\ t = [] /\ fst b = err))) (O1 := opened)
    (P2 := fun a t b => t = [] /\ fst b = a) (O2 := fun _ _ => False).
  - destruct (Z.leb_spec 0 err) as [H|H].
    + eapply okA_weaken; [apply (g_dr E F G)| |auto]. cbn beta. intros t b Hd. split; [apply Hd|left; auto].
    + apply okA_ret; intros Hrb; [apply ctx_post_refl; exact Hrb|]. split; [apply calm_nil|right; auto].
  - intros [st2 cx2]. cbn [snd]. apply okA_ret; intros Hrb; [apply ctx_post_refl; exact Hrb|auto].
  - cbn beta. intros t1 a t2 b [H1 H2] [-> H3]. rewrite app_nil_r, H3. auto.
  - auto.
  - cbn beta. intros t1 ? t2 _ [].
Qed.

(* ------------------------------------------------------------------ *)
Definition framed (body : list dev) : Prop :=
  forall p q, own 0 body = p ++ q -> exists rest, received p = taken p ++ rest.
Definition whole_ok (k : option bool) (Q : list dev -> Z -> Prop) (m : M (Z * option nat)) : Prop :=
  forall s, ios_ok s ->
  match m s with
  | Done a s' => ios_ok s' /\ exists body, trace s' = trace s ++ Begin k :: body ++ [End (fst a)] /\ calm body /\
      decoded E (trace s) (Begin k :: body ++ [End (fst a)]) /\ framed body /\ released_last body /\ Q body (fst a)
  | Stop w s' => exists body, trace s' = trace s ++ Begin k :: body /\ opened body /\ decoded E (trace s) (Begin k :: body) /\
      framed body /\ (w <> Faulted -> Forall not_unref (own 0 body))
  end.

Lemma feeds_framed body q : feeds [] (own 0 body) q -> framed body.
Proof. intros H p r Hp. rewrite Hp in H. destruct (feeds_prefix _ _ _ _ H) as (x & Hx). exists x. exact (feeds_stream _ _ _ Hx). Qed.
Lemma feeds_quiet t : Forall (fun e => ~ from_kernel e) t -> forall p, feeds p t p.
Proof.
  induction 1 as [|e t He Ht IH]; intros p; [reflexivity|]. destruct e; cbn [feeds]; try apply IH; exfalso; apply He; exact I.
Qed.
Lemma own_free t : Forall free_event t -> own 0 t = t.
Proof. induction 1 as [|e t (b & ->) Ht IH]; [reflexivity|]. cbn [own]. rewrite IH. reflexivity. Qed.
Lemma own_unrefs l u : own 0 (map unref_event l ++ u) = map unref_event l ++ own 0 u.
Proof. induction l as [|x l IH]; [reflexivity|]. cbn [map Datatypes.app]. unfold unref_event at 1. cbn [own]. rewrite IH. reflexivity. Qed.
Lemma calm_unrefs l : calm (map unref_event l).
Proof. induction l as [|x l IH]; [apply calm_nil|]. apply calm_plain; [exact I|exact IH]. Qed.
Lemma calm_frees t : Forall free_event t -> calm t.
Proof. induction 1 as [|e t (b & ->) Ht IH]; [apply calm_nil|]. apply calm_plain; [exact I|exact IH]. Qed.
Lemma mine_frees t : Forall free_event t -> forall d, mine d t = [].
Proof. induction 1 as [|e t (b & ->) Ht IH]; intros d; [reflexivity|]. apply IH. Qed.
Lemma mine_unrefs l u : forall d, mine d (map unref_event l ++ u) = mine d u.
Proof. induction l as [|x l IH]; intros d; [reflexivity|]. apply IH. Qed.
Lemma decoded_frees t : Forall free_event t -> forall h, decoded E h t.
Proof. induction 1 as [|e t (b & ->) Ht IH]; intros h; [exact I|]. split; [exact I|apply IH]. Qed.
Lemma decoded_unrefs l : forall h, decoded E h (map unref_event l).
Proof. induction l as [|x l IH]; intros h; [exact I|]. split; [exact I|apply IH]. Qed.
Lemma cleanup_quiet l t : Forall free_event t -> Forall (fun e => ~ from_kernel e) (map unref_event l ++ t).
Proof.
  intros H. apply Forall_app. split.
  - apply Forall_forall. intros e He. apply in_map_iff in He. destruct He as (x & <- & _). intros [].
  - eapply Forall_impl; [|exact H]. intros e (b & ->) [].
Qed.

Lemma each_unref_faulted l : forall s2 s3 w, each contents_unref l s2 = Stop w s3 -> w = Faulted.
Proof.
  induction l as [|i l IH]; intros s2 s3 w; cbn [each]; [discriminate|]. unfold bindM, contents_unref.
  destruct (refs_of s2 i <=? 0); [intros [= <- _]; reflexivity|]. cbv zeta. destruct (refs_of s2 i - 1 =? 0).
  - unfold free_buffer. destruct (buffer_of s2 i =? 0); apply IH.
  - apply IH.
Qed.

Lemma whole_correct k m P (Q : list dev -> Z -> Prop) :
  okA E context_init m (fun a => snd (fst a)) P opened ->
  (forall t a, P t a -> calm t) ->
  (forall t a l u p, P t a -> Forall free_event u -> feeds [] (own 0 t) p -> pending (cx_rbuf (snd (fst a))) = p -> Q (t ++ map unref_event l ++ u) (fst (fst a))) ->
  whole_ok k Q (whole k m).
Proof.
  intros Hm HP HQ s Hs. unfold whole, bindM. cbn [emit].
  set (s0 := {| ios := ios s; trace := trace s ++ [Begin k]; heap := heap s; app := app s |}).
  assert (Hs0 : ios_ok s0) by exact Hs.
  specialize (Hm (proj1 read_init_ok) s0 Hs0). destruct (m s0) as [[[st cx] tok] s1|w s1].
  - destruct Hm as (Hs1 & t & E1 & L1 & D1 & (F1 & U1 & N1 & R1) & P1). cbn [fst snd] in *.
    unfold context_cleanup, bindM. destruct (run_unrefs_ok (cx_unrefs cx) s1) as (s2 & -> & E2 & I2 & _).
    pose proof (each_unref_ok (cx_bufs cx) s2) as H3.
    assert (Hx : cx_unrefs cx = deferred (own 0 t)) by exact U1. rewrite Hx in E2.
    change (pending (cx_rbuf context_init)) with (@nil Z) in F1.
    destruct (each contents_unref (cx_bufs cx) s2) as [[] s3|w s3] eqn:E4; destruct H3 as (u & E3 & Hu & I3).
    + cbn [ret fst]. split; [unfold ios_ok; cbn [ios]; rewrite I3, I2; exact Hs1|].
      set (body := t ++ map unref_event (deferred (own 0 t)) ++ u).
      assert (Ho : own 0 body = own 0 t ++ map unref_event (deferred (own 0 t)) ++ u).
      { unfold body. rewrite (own_level _ _ L1), own_unrefs, (own_free _ Hu). reflexivity. }
      exists body. split; [cbn [trace]; rewrite E3, E2, E1; unfold s0, body; cbn [trace]; rewrite <- !app_assoc; reflexivity|].
      split; [unfold body; apply calm_app; [eapply HP; exact P1|apply calm_app; [apply calm_unrefs|apply calm_frees; exact Hu]]|].
      split; [cbn [decoded]; split; [exact I|]; unfold body; rewrite <- !app_assoc; apply decoded_app; [exact D1|];
              apply decoded_app; [apply decoded_unrefs|apply decoded_app; [apply decoded_frees; exact Hu|cbn; auto]]|].
      split; [eapply feeds_framed; rewrite Ho; eapply feeds_app; [exact F1|apply feeds_quiet, cleanup_quiet, Hu]|].
      split; [exists (own 0 t), u; split; [exact Ho|]; split; [exact N1|exact Hu]|].
      eapply HQ with (a := (st, cx, tok)); [exact P1|exact Hu|exact F1|reflexivity].
    + set (body := t ++ map unref_event (deferred (own 0 t)) ++ u).
      assert (Ho : own 0 body = own 0 t ++ map unref_event (deferred (own 0 t)) ++ u).
      { unfold body. rewrite (own_level _ _ L1), own_unrefs, (own_free _ Hu). reflexivity. }
      exists body. split; [rewrite E3, E2, E1; unfold s0, body; cbn [trace]; rewrite <- !app_assoc; reflexivity|].
      split; [apply opened_calm; unfold body; apply calm_app; [eapply HP; exact P1|apply calm_app; [apply calm_unrefs|apply calm_frees; exact Hu]]|].
      split; [cbn [decoded]; split; [exact I|]; unfold body; apply decoded_app; [exact D1|];
              apply decoded_app; [apply decoded_unrefs|apply decoded_frees; exact Hu]|].
      split; [eapply feeds_framed; rewrite Ho; eapply feeds_app; [exact F1|apply feeds_quiet, cleanup_quiet, Hu]|].
      intros Hw. exfalso. apply Hw. eapply each_unref_faulted. exact E4.
  - destruct Hm as (t & E1 & O1 & D1 & (q & F1) & N1). exists t. split; [rewrite E1; unfold s0; cbn [trace]; rewrite <- app_assoc; reflexivity|].
    split; [exact O1|]. split; [split; [exact I|exact D1]|]. split; [eapply feeds_framed; exact F1|]. intros _. exact N1.
Qed.

Lemma mid_call_status reply t status l u :
  calm t -> Forall free_event u -> mid_status reply t status -> call_status reply (t ++ map unref_event l ++ u) status.
Proof.
  intros C Hu H. unfold call_status.
  assert (Em : mine 0 (t ++ map unref_event l ++ u) = mine 0 t).
  { rewrite (mine_app _ _ C), mine_unrefs, (mine_frees _ Hu). apply app_nil_r. }
  assert (Hf : forall e, tail_failed e t -> ended_by e (t ++ map unref_event l ++ u)).
  { intros e (x & Hx). exists x, (map unref_event l ++ u). rewrite (own_level _ _ (calm_level _ C)), own_unrefs, (own_free _ Hu), Hx, <- app_assoc.
    split; [reflexivity|apply cleanup_quiet; exact Hu]. }
  rewrite Em. destruct H as [(l1 & c & r & st & H1 & H2 & H3 & H4)|(H1 & e & H2 & H3)].
  - left. exists l1, c, r, st. repeat (split; [assumption|]). destruct H4 as [H4|(H4 & e & H5 & H6)]; [left; exact H4|right; eauto].
  - right. eauto.
Qed.

Definition drained_all (body : list dev) (status : Z) : Prop :=
  0 <= status -> exists rest, received (own 0 body) = taken (own 0 body) ++ rest /\ incomplete rest.

Lemma drained_all_mid t l u status p : calm t -> Forall free_event u -> feeds [] (own 0 t) p -> (0 <= status -> incomplete p) ->
  drained_all (t ++ map unref_event l ++ u) status.
Proof.
  intros C Hu Hf Hi H0. exists p. split; [|apply Hi; exact H0].
  rewrite (own_level _ _ (calm_level _ C)), own_unrefs, (own_free _ Hu).
  pose proof (feeds_app _ _ _ _ _ Hf (feeds_quiet _ (cleanup_quiet l u Hu) p)) as H. exact (feeds_stream _ _ _ H).
Qed.

Lemma transact_ok oneway :
  whole_ok (Some oneway) (fun body status => call_status (negb oneway) body status /\ drained_all body status) (transact E F oneway).
Proof.
  intros s Hs. rewrite transact_whole. revert s Hs.
  change (whole_ok (Some oneway) (fun body status => call_status (negb oneway) body status /\ drained_all body status) (whole (Some oneway) (call_mid oneway))).
  eapply whole_correct; [apply ok_call_mid|cbn beta; tauto|].
  cbn beta. intros t a l u p (H1 & H2 & H3) Hu Hf Hp. split; [apply mid_call_status; assumption|].
  eapply drained_all_mid; eauto. intros H0. rewrite <- Hp. auto.
Qed.

Definition read_status (body : list dev) (status : Z) : Prop :=
  status = 0 \/ exists err, ended_by err body /\ status = Z.neg err.

Lemma read_ok : forall s, ios_ok s ->
  match driver_read E F s with
  | Done st s' => ios_ok s' /\ exists body, trace s' = trace s ++ Begin None :: body ++ [End st] /\ calm body /\
      decoded E (trace s) (Begin None :: body ++ [End st]) /\ framed body /\ released_last body /\ read_status body st /\ drained_all body st
  | Stop w s' => exists body, trace s' = trace s ++ Begin None :: body /\ opened body /\ decoded E (trace s) (Begin None :: body) /\
      framed body /\ (w <> Faulted -> Forall not_unref (own 0 body))
  end.
Proof.
  intros s Hs. rewrite read_whole.
  assert (H : whole_ok None (fun body status => read_status body status /\ drained_all body status) (whole None read_mid)).
  { eapply whole_correct; [apply ok_read_mid|cbn beta; tauto|]. cbn beta. intros t a l u p (H1 & H2) Hu Hf Hp. split.
    - destruct H2 as [[H2 _]|(e & (x & Hx) & H2)]; [left; exact H2|right]. exists e. split; [|exact H2].
      exists x, (map unref_event l ++ u). rewrite (own_level _ _ (calm_level _ H1)), own_unrefs, (own_free _ Hu), Hx, <- app_assoc.
      split; [reflexivity|apply cleanup_quiet; exact Hu].
    - eapply drained_all_mid; eauto. intros H0. destruct H2 as [[_ H2]|(e & _ & H2)]; [rewrite <- Hp; exact H2|lia]. }
  specialize (H s Hs). destruct (whole None read_mid s) as [[st tok] s'|w s']; exact H.
Qed.

(* as seen from an outer call, it's nothing *)
Lemma transact_okC cx oneway : okC E cx (transact E F oneway) (fun _ => cx).
Proof.
  intros Hrb s Hs. pose proof (transact_ok oneway s Hs) as H. destruct (transact E F oneway s) as [a s'|w s'].
  - destruct H as (Hs' & body & H1 & H2 & H3 & _). split; [exact Hs'|]. exists (Begin (Some oneway) :: body ++ [End (fst a)]).
    split; [exact H1|]. split; [apply level_call, calm_level, H2|]. split; [exact H3|]. split.
    + unfold ctx_post. rewrite (own_call _ _ _ (calm_level _ H2)). cbn [feeds deferred]. rewrite app_nil_r. repeat (split; [reflexivity|]).
      split; [apply Forall_nil|exact Hrb].
    + apply (calm_call _ body _ []); [exact H2|apply calm_nil].
  - destruct H as (body & H1 & H2 & H3 & H4). exists (Begin (Some oneway) :: body). split; [exact H1|].
    split; [apply (opened_call [] _ body); [apply calm_nil|exact H2]|]. split; [exact H3|].
    assert (Ho : own 0 (Begin (Some oneway) :: body) = []).
    { cbn [own]. clear - H2. assert (G : forall t, opened t -> forall d, own (S d) t = []); [|apply G; exact H2].
      clear. intros t H. induction H as [t H|t k body H Hb IH|t cm pl tx1 body H Hb IH|t cm pl tx1 body rp st H Hb|t cm pl tx1 body rp st rest W H Hb Hr IH|t cm pl tx1 body rp st rest W H Hb Hr IH]; intros d.
      - destruct (calm_level _ H (S d) []) as [_ N]. apply N. discriminate.
      - destruct (calm_level _ H (S d) (Begin k :: body)) as [-> N]. rewrite N by discriminate. apply IH.
      - destruct (calm_level _ H (S d) (Got cm pl (RTransaction tx1) :: body)) as [-> N]. rewrite N by discriminate. apply IH.
      - match goal with |- own _ (t ++ ?x) = _ => destruct (calm_level _ H (S d) x) as [-> N] end. rewrite N by discriminate. cbn [Datatypes.app own].
        match goal with |- own _ (body ++ ?x) = _ => destruct (calm_level _ Hb (S d) x) as [-> N2] end. rewrite N2 by discriminate. reflexivity.
      - match goal with |- own _ (t ++ ?x) = _ => destruct (calm_level _ H (S d) x) as [-> N] end. rewrite N by discriminate. cbn [Datatypes.app own].
        match goal with |- own _ (body ++ ?x) = _ => destruct (calm_level _ Hb (S d) x) as [-> N2] end. rewrite N2 by discriminate. apply IH.
      - match goal with |- own _ (t ++ ?x) = _ => destruct (calm_level _ H (S d) x) as [-> N] end. rewrite N by discriminate. cbn [Datatypes.app own].
        match goal with |- own _ (body ++ ?x) = _ => destruct (calm_level _ Hb (S d) x) as [-> N2] end. rewrite N2 by discriminate. apply IH. }
    rewrite Ho. split; [eexists; reflexivity|apply Forall_nil].
Qed.

Lemma ok_handler cx req p : okC E cx (run_handler E F req p) (fun _ => cx).
Proof.
  unfold run_handler. destruct p as [[[n|]|] status|k|n k|oneway k]; try apply okC_ret_same.
  - eapply okC_bind; [apply okC_silent, silent_get|intros l]. cbn beta. destruct (take_nth n l) as [c l1].
    eapply okC_bind; [apply okC_silent, silent_set|intros ?]. apply okC_ret_same.
  - eapply okC_bind with (c1 := fun _ => cx); [|intros ?; apply (g_rh E F G)]. destruct req as [id|]; [|apply okC_ret_same].
    apply okC_silent. apply silent_bind; [apply silent_ref|intros ?]. apply silent_bind; [apply silent_get|intros; apply silent_set].
  - eapply okC_bind; [apply okC_silent, silent_get|intros l]. cbn beta. destruct (take_nth n l) as [c l1].
    eapply okC_bind; [apply okC_silent, silent_set|intros ?]. eapply okC_bind; [apply okC_unref_opt|intros ?]. apply (g_rh E F G).
  - eapply okC_bind; [apply transact_okC|intros [status tok]]. cbn beta.
    eapply okC_bind; [apply okC_silent, silent_get|intros l]. cbn beta.
    eapply okC_bind; [apply okC_silent, silent_set|intros ?]. apply (g_rh E F G).
Qed.
End Step.

Lemma good_of E fuel : good E (fns_of E fuel).
Proof.
  induction fuel as [|n G]; [apply good_0|]. set (F := fns_of E n) in *.
  constructor; intros; cbn [fns_of f_handle_command f_handle_commands f_txstatus f_wait_handled f_run_handler f_wait_reply f_drain]; fold F.
  - apply ok_command; exact G.
  - apply ok_commands; exact G.
  - apply ok_txstatus; exact G.
  - apply ok_wait_handled; exact G.
  - apply ok_handler; exact G.
  - apply ok_wait_reply; exact G.
  - apply ok_drain; exact G.
Qed.

(* ------------------------------------------------------------------ *)
(* the whole life of a thread *)
Lemma top_ok E F (G : good E F) o s : ios_ok s ->
  match top_step E F o s with
  | Done _ s' => ios_ok s' /\ exists t, trace s' = trace s ++ t /\ calm t /\ decoded E (trace s) t
  | Stop _ s' => exists t, trace s' = trace s ++ t /\ opened t /\ decoded E (trace s) t
  end.
Proof.
  intros Hs.
  assert (W : forall A (m : M A), okC E context_init m (fun _ => context_init) -> match m s with
    | Done _ s' => ios_ok s' /\ exists t, trace s' = trace s ++ t /\ calm t /\ decoded E (trace s) t
    | Stop _ s' => exists t, trace s' = trace s ++ t /\ opened t /\ decoded E (trace s) t end).
  { intros A m H. specialize (H (proj1 read_init_ok) s Hs). destruct (m s).
    - destruct H as (H0 & t & H1 & H2 & H3 & H4 & H5). eauto 10.
    - destruct H as (t & H1 & H2 & H3 & _). eauto 10. }
  destruct o as [|oneway|n|n]; cbn [top_step].
  - unfold bindM. pose proof (read_ok E F G s Hs) as H. destruct (driver_read E F s) as [st s'|w s'].
    + destruct H as (H0 & body & H1 & H2 & H3 & _). cbn [ret]. split; [exact H0|]. eexists. split; [exact H1|]. split; [|exact H3].
      apply (calm_call _ body _ []); [exact H2|apply calm_nil].
    + destruct H as (body & H1 & H2 & H3 & _). eexists. split; [exact H1|]. split; [|exact H3].
      apply (opened_call [] _ body); [apply calm_nil|exact H2].
  - apply W. eapply okC_bind; [apply transact_okC; exact G|intros [status tok]]. cbn beta.
    apply okC_silent. apply silent_bind; [apply silent_get|intros; apply silent_set].
  - apply W. eapply okC_bind; [apply okC_silent, silent_get|intros l]. cbn beta. destruct (take_nth n l) as [c l1].
    eapply okC_bind; [apply okC_silent, silent_set|intros ?]. apply okC_unref_opt.
  - apply W. apply okC_silent. apply silent_bind; [apply silent_get|intros l]. destruct (fst (take_nth n l)); [|apply silent_ret].
    apply silent_bind; [apply silent_ref|intros; apply silent_set].
Qed.

Lemma life_ok E F (G : good E F) l : forall s, ios_ok s ->
  match life E F l s with
  | Done _ s' => ios_ok s' /\ exists t, trace s' = trace s ++ t /\ calm t /\ decoded E (trace s) t
  | Stop _ s' => exists t, trace s' = trace s ++ t /\ opened t /\ decoded E (trace s) t
  end.
Proof.
  induction l as [|o l IH]; intros s Hs; cbn [life].
  - split; [exact Hs|]. exists []. rewrite app_nil_r. split; [reflexivity|]. split; [apply calm_nil|exact I].
  - unfold bindM. pose proof (top_ok E F G o s Hs) as H. destruct (top_step E F o s) as [u s1|w s1]; [|exact H].
    destruct H as (Hs1 & t1 & H1 & H2 & H3). specialize (IH s1 Hs1). destruct (life E F l s1) as [v s2|w s2].
    + destruct IH as (Hs2 & t2 & H4 & H5 & H6). split; [exact Hs2|]. exists (t1 ++ t2). split; [rewrite H4, H1, app_assoc; reflexivity|].
      split; [apply calm_app; assumption|apply decoded_app; [exact H3|rewrite <- H1; exact H6]].
    + destruct IH as (t2 & H4 & H5 & H6). exists (t1 ++ t2). split; [rewrite H4, H1, app_assoc; reflexivity|].
      split; [apply opened_app; assumption|apply decoded_app; [exact H3|rewrite <- H1; exact H6]].
Qed.


Lemma call_ok E F (G : good E F) k s : octets (ios s) ->
  match call_of E F k s with
  | Done st s' => exists body, trace s' = trace s ++ Begin k :: body ++ [End st] /\ calm body /\
      decoded E (trace s) (Begin k :: body ++ [End st]) /\ in_order body /\ released_last body /\
      match k with Some oneway => call_status (negb oneway) body st | None => read_status body st end /\ (0 <= st -> all_taken body)
  | Stop w s' => exists body, trace s' = trace s ++ Begin k :: body /\ opened body /\ decoded E (trace s) (Begin k :: body) /\
      in_order body /\ (w <> Faulted -> Forall not_unref (own 0 body))
  end.
Proof.
  intros Hs. destruct k as [oneway|]; cbn [call_of].
  - pose proof (transact_ok E F G oneway s Hs) as H. unfold bindM, ret. destruct (transact E F oneway s) as [[st tk] s'|w s']; [|exact H].
    destruct H as (_ & body & H1 & H2 & H3 & H4 & H5 & H6 & H7). exists body. auto 10.
  - pose proof (read_ok E F G s Hs) as H. destruct (driver_read E F s) as [st s'|w s']; [|exact H].
    destruct H as (_ & body & H1 & H2 & H3 & H4 & H5 & H6 & H7). exists body. auto 10.
Qed.
