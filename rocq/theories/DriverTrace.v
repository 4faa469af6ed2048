(* Histories of a thread: shape, framing, order of unrefs *)
From Verif Require Import Base BaseLemmas KernelModel TxModel DriverModel DriverSpec.

(* ------------------------------------------------------------------ *)
Lemma calm_app t u : calm t -> calm u -> calm (t ++ u).
Proof.
  intros Ht Hu. induction Ht; cbn [Datatypes.app].
  - exact Hu.
  - apply calm_plain; assumption.
  - rewrite <- app_assoc. cbn [Datatypes.app]. apply calm_call; assumption.
  - rewrite <- app_assoc. cbn [Datatypes.app]. rewrite <- app_assoc. cbn [Datatypes.app]. apply calm_one_way; assumption.
  - rewrite <- app_assoc. cbn [Datatypes.app]. rewrite <- app_assoc. cbn [Datatypes.app]. apply calm_two_way; assumption.
Qed.
Lemma calm_one e : plain e -> calm [e].
Proof. intros H. apply calm_plain; [exact H|apply calm_nil]. Qed.

Lemma opened_app t u : calm t -> opened u -> opened (t ++ u).
Proof.
  intros Ht Hu. destruct Hu; rewrite ?app_assoc.
  - apply opened_calm, calm_app; assumption.
  - apply opened_call; [apply calm_app|]; assumption.
  - apply opened_transaction; [apply calm_app|]; assumption.
  - rewrite <- app_assoc. cbn [Datatypes.app]. rewrite app_assoc. apply opened_returned; [apply calm_app|]; assumption.
  - rewrite <- app_assoc. cbn [Datatypes.app]. rewrite app_assoc. apply opened_one_way; [|apply calm_app| |]; assumption.
  - rewrite <- app_assoc. cbn [Datatypes.app]. rewrite app_assoc. apply opened_two_way; [|apply calm_app| |]; assumption.
Qed.

(* Calls are closed *)
Definition level (t : list dev) : Prop :=
  forall d u, own d (t ++ u) = own d t ++ own d u /\ (d <> O -> own d t = []).

Lemma level_nil : level [].
Proof. intros d u. split; reflexivity. Qed.
Lemma level_one e : match e with Begin _ | End _ => False | _ => True end -> level [e].
Proof. intros H d u. destruct d, e; try contradiction; split; try reflexivity; intros; congruence. Qed.
Lemma level_app t u : level t -> level u -> level (t ++ u).
Proof.
  intros H1 H2 d v. rewrite <- app_assoc. destruct (H1 d (u ++ v)) as [E1 N1], (H2 d v) as [E2 N2], (H1 d u) as [E3 _].
  split; [rewrite E1, E2, E3, app_assoc; reflexivity|]. intros Hd. rewrite E3, N1, N2 by exact Hd. reflexivity.
Qed.
Lemma level_call k body status : level body -> level (Begin k :: body ++ [End status]).
Proof.
  intros H d u. cbn [Datatypes.app own]. rewrite <- app_assoc.
  assert (E : forall v, own (S d) (body ++ v) = own (S d) v).
  { intros v. destruct (H (S d) v) as [E N]. rewrite E, N by discriminate. reflexivity. }
  rewrite !E. cbn [own pred Datatypes.app]. split; [reflexivity|]. intros _. reflexivity.
Qed.
Lemma level_cons e t : match e with Begin _ | End _ => False | _ => True end -> level t -> level (e :: t).
Proof. intros H1 H2. change (e :: t) with ([e] ++ t). apply level_app; [apply level_one; exact H1|exact H2]. Qed.
Lemma own_level t u : level t -> own 0 (t ++ u) = own 0 t ++ own 0 u.
Proof. intros H. apply H. Qed.
Lemma own_call k body status : level body -> own 0 (Begin k :: body ++ [End status]) = [].
Proof. intros H. cbn [own]. destruct (H 1%nat [End status]) as [E N]. rewrite E, N by discriminate. reflexivity. Qed.
Lemma own_open k body : level body -> own 0 (Begin k :: body) = [].
Proof. intros H. cbn [own]. destruct (H 1%nat []) as [E N]. apply N. discriminate. Qed.

(* ------------------------------------------------------------------ *)
Fixpoint feeds (p : bytes) (t : list dev) (p' : bytes) : Prop :=
  match t with
  | [] => p = p'
  | Input b :: r => feeds (p ++ b) r p'
  | Got cmd payload _ :: r => exists q, p = le 4 cmd ++ payload ++ q /\ feeds q r p'
  | _ :: r => feeds p r p'
  end.
Lemma feeds_app t u : forall p q r, feeds p t q -> feeds q u r -> feeds p (t ++ u) r.
Proof.
  induction t as [|e t IH]; intros p q r H1 H2; cbn [Datatypes.app].
  - cbn in H1. subst q. exact H2.
  - destruct e; cbn [feeds] in *; try (eapply IH; eassumption).
    destruct H1 as (x & -> & H1). exists x. split; [reflexivity|]. eapply IH; eassumption.
Qed.
Lemma feeds_prefix t u : forall p r, feeds p (t ++ u) r -> exists q, feeds p t q.
Proof.
  induction t as [|e t IH]; intros p r H; cbn [Datatypes.app] in H.
  - exists p. reflexivity.
  - destruct e; cbn [feeds] in *; try (eapply IH; eassumption).
    destruct H as (x & -> & H). destruct (IH _ _ H) as (q & Hq). exists q, x. split; [reflexivity|exact Hq].
Qed.
Lemma feeds_stream t : forall p q, feeds p t q -> p ++ received t = taken t ++ q.
Proof.
  induction t as [|e t IH]; intros p q H; cbn [feeds received taken] in *.
  - subst. rewrite app_nil_r. reflexivity.
  - destruct e; cbn [feeds received taken] in *; try (apply IH; exact H).
    + rewrite app_assoc. apply IH. exact H.
    + destruct H as (x & -> & H). rewrite <- !app_assoc. rewrite (IH _ _ H). reflexivity.
Qed.

Lemma decoded_app E t : forall h u, decoded E h t -> decoded E (h ++ t) u -> decoded E h (t ++ u).
Proof.
  induction t as [|e t IH]; intros h u H1 H2; cbn [Datatypes.app decoded] in *.
  - rewrite app_nil_r in H2. exact H2.
  - destruct H1 as [H1 H3]. split; [exact H1|]. apply IH; [exact H3|]. rewrite <- app_assoc. exact H2.
Qed.

(* ------------------------------------------------------------------ *)
(* The buffer *)
Definition pending (rb : rbuf) : bytes := slice (rb_data rb) (rb_offset rb) (rb_consumed rb - rb_offset rb).
Definition rb_ok (rb : rbuf) : Prop :=
  blen (rb_data rb) = READ_BUFFER_SIZE /\ 0 <= rb_offset rb <= rb_consumed rb /\ rb_consumed rb <= READ_BUFFER_SIZE /\
  all_bytes (rb_data rb).
Definition io_ok (r : ioresult) : Prop := match r with IoErr _ => True | IoData b => all_bytes b end.
Definition ios_ok (s : dstate) : Prop := Forall io_ok (ios s).

Lemma read_init_ok : rb_ok read_init /\ pending read_init = [].
Proof.
  split; [|reflexivity]. unfold rb_ok, read_init, READ_BUFFER_SIZE. cbn [rb_data rb_consumed rb_offset].
  split; [reflexivity|]. split; [lia|]. split; [lia|]. apply all_bytes_zrepeat. unfold is_byte. lia.
Qed.

Lemma next_complete rb : rb_ok rb -> next_command rb <> 0 ->
  let cmd := next_command rb in
  let payload := slice (rb_data rb) (rb_offset rb + 4) (ioc_size cmd) in
  rb_offset rb + (ioc_size cmd + 4) <= rb_consumed rb /\ blen payload = ioc_size cmd /\
  pending rb = le 4 cmd ++ payload ++
    pending {| rb_data := rb_data rb; rb_consumed := rb_consumed rb; rb_offset := rb_offset rb + (ioc_size cmd + 4) |}.
Proof.
  intros (H1 & H2 & H3 & H4) Hn. unfold next_command in *.
  destruct (Z.ltb_spec (rb_offset rb) (rb_consumed rb)) as [Hlt|]; [|congruence].
  cbv zeta in *. destruct (Z.leb_spec 4 (rb_consumed rb - rb_offset rb)) as [H5|]; [|congruence].
  set (cmd := unle (slice (rb_data rb) (rb_offset rb) 4)) in *.
  assert (Hs : 0 <= ioc_size cmd) by (unfold ioc_size; apply Z.mod_pos_bound; lia).
  destruct (Z.leb_spec (4 + ioc_size cmd) (rb_consumed rb - rb_offset rb)) as [H6|]; [|congruence].
  assert (E4 : le 4 cmd = slice (rb_data rb) (rb_offset rb) 4).
  { unfold cmd. assert (L : length (slice (rb_data rb) (rb_offset rb) 4) = 4%nat).
    { assert (X := blen_slice _ (rb_data rb) (rb_offset rb) 4). unfold blen in X at 2. lia. }
    rewrite <- L at 1. apply le_unle. apply Forall_slice. exact H4. }
  split; [lia|]. split; [apply blen_slice; lia|]. rewrite E4. unfold pending. cbn [rb_data rb_consumed rb_offset].
  generalize (ioc_size cmd) Hs H6. clear - H1 H2 H3 Hlt H5. intros k Hk H6.
  replace (rb_consumed rb - rb_offset rb) with (4 + (k + (rb_consumed rb - (rb_offset rb + (k + 4))))) by lia.
  rewrite slice_split by lia. f_equal.
  rewrite slice_split by lia. f_equal. f_equal; lia.
Qed.

Lemma next_incomplete rb : rb_ok rb -> next_command rb = 0 -> incomplete (pending rb).
Proof.
  intros (H1 & H2 & H3 & H4) Hn. unfold next_command, incomplete, pending in *.
  assert (L : blen (slice (rb_data rb) (rb_offset rb) (rb_consumed rb - rb_offset rb)) = rb_consumed rb - rb_offset rb) by (apply blen_slice; lia).
  rewrite L. destruct (Z.ltb_spec (rb_offset rb) (rb_consumed rb)); [|left; lia]. cbv zeta in Hn.
  destruct (Z.leb_spec 4 (rb_consumed rb - rb_offset rb)); [|left; lia].
  right. rewrite slice_slice by lia. replace (rb_offset rb + 0) with (rb_offset rb) by lia.
  destruct (Z.leb_spec (4 + ioc_size (unle (slice (rb_data rb) (rb_offset rb) 4))) (rb_consumed rb - rb_offset rb)); [left; exact Hn|right; lia].
Qed.

Lemma compact_ok rb : rb_ok rb -> rb_ok (compact_read_buf rb) /\ pending (compact_read_buf rb) = pending rb /\
  rb_consumed (compact_read_buf rb) = blen (pending rb).
Proof.
  intros (H1 & H2 & H3 & H4). unfold compact_read_buf, pending.
  assert (L : blen (slice (rb_data rb) (rb_offset rb) (rb_consumed rb - rb_offset rb)) = rb_consumed rb - rb_offset rb) by (apply blen_slice; lia).
  destruct (Z.ltb_spec (rb_offset rb) (rb_consumed rb)); cbn [rb_data rb_consumed rb_offset].
  - split; [|split].
    + unfold rb_ok. cbn [rb_data rb_consumed rb_offset]. split; [rewrite blen_poke by lia; lia|]. split; [lia|]. split; [lia|].
      unfold poke. apply all_bytes_app. split; [apply Forall_ztake; exact H4|]. apply all_bytes_app.
      split; [apply Forall_slice; exact H4|apply Forall_zdrop; exact H4].
    + unfold poke. rewrite (ztake_neg _ _ 0) by lia. cbn [Datatypes.app]. unfold slice at 1. rewrite (zdrop_neg _ _ 0) by lia.
      apply ztake_app_exact. lia.
    + lia.
  - assert (E : rb_consumed rb - rb_offset rb = 0) by lia. rewrite E. split; [|split; [reflexivity|reflexivity]].
    unfold rb_ok. cbn [rb_data rb_consumed rb_offset]. unfold READ_BUFFER_SIZE in *. repeat split; try lia. exact H4.
Qed.

(* ------------------------------------------------------------------ *)
Definition ctx_post (cx : ctx) (t : list dev) (cx' : ctx) : Prop :=
  feeds (pending (cx_rbuf cx)) (own 0 t) (pending (cx_rbuf cx')) /\
  cx_unrefs cx' = cx_unrefs cx ++ deferred (own 0 t) /\ Forall not_unref (own 0 t) /\ rb_ok (cx_rbuf cx').

Definition okA {A} (E : env) (cx : ctx) (m : M A) (c : A -> ctx) (P : list dev -> A -> Prop) (O : list dev -> Prop) : Prop :=
  rb_ok (cx_rbuf cx) -> forall s, ios_ok s ->
  match m s with
  | Done a s' =>
    ios_ok s' /\ exists t, trace s' = trace s ++ t /\ level t /\ decoded E (trace s) t /\ ctx_post cx t (c a) /\ P t a
  | Stop w s' =>
    exists t, trace s' = trace s ++ t /\ O t /\ decoded E (trace s) t /\
      (exists q, feeds (pending (cx_rbuf cx)) (own 0 t) q) /\ Forall not_unref (own 0 t)
  end.

Lemma deferred_app t u : deferred (t ++ u) = deferred t ++ deferred u.
Proof. induction t as [|e t IH]; [reflexivity|]. destruct e; cbn [Datatypes.app deferred]; rewrite ?IH; reflexivity. Qed.

Lemma ctx_post_app cx t cx1 u cx2 : level t -> ctx_post cx t cx1 -> ctx_post cx1 u cx2 -> ctx_post cx (t ++ u) cx2.
Proof.
  intros L (A1 & A2 & A3 & A4) (B1 & B2 & B3 & B4). unfold ctx_post. rewrite (own_level _ _ L).
  split; [eapply feeds_app; eassumption|]. split; [rewrite B2, A2, deferred_app, app_assoc; reflexivity|].
  split; [apply Forall_app; split; assumption|exact B4].
Qed.
Lemma ctx_post_refl cx : rb_ok (cx_rbuf cx) -> ctx_post cx [] cx.
Proof. intros H. unfold ctx_post. cbn. rewrite app_nil_r. repeat split; try apply H; constructor. Qed.

Lemma okA_bind {A B} E cx (m : M A) (f : A -> M B) c1 c2 P1 O1 (P2 : A -> list dev -> B -> Prop) (O2 : A -> list dev -> Prop)
    (P : list dev -> B -> Prop) (O : list dev -> Prop) :
  okA E cx m c1 P1 O1 -> (forall a, okA E (c1 a) (f a) c2 (P2 a) (O2 a)) ->
  (forall t1 a t2 b, P1 t1 a -> P2 a t2 b -> P (t1 ++ t2) b) -> (forall t, O1 t -> O t) ->
  (forall t1 a t2, P1 t1 a -> O2 a t2 -> O (t1 ++ t2)) ->
  okA E cx (bindM m f) c2 P O.
Proof.
  intros H1 H2 HP HO1 HO2 Hrb s Hs. unfold bindM. specialize (H1 Hrb s Hs). destruct (m s) as [a s1|w s1].
  - destruct H1 as (Hs1 & t1 & E1 & L1 & D1 & C1 & P1').
    assert (Hrb1 : rb_ok (cx_rbuf (c1 a))) by apply C1.
    specialize (H2 a Hrb1 s1 Hs1). destruct (f a s1) as [b s2|w s2].
    + destruct H2 as (Hs2 & t2 & E2 & L2 & D2 & C2 & P2'). split; [exact Hs2|]. exists (t1 ++ t2).
      split; [rewrite E2, E1, app_assoc; reflexivity|]. split; [apply level_app; assumption|].
      split; [apply decoded_app; [exact D1|rewrite <- E1; exact D2]|]. split; [eapply ctx_post_app; eassumption|eapply HP; eassumption].
    + destruct H2 as (t2 & E2 & O2' & D2 & (q & F2) & U2). exists (t1 ++ t2).
      split; [rewrite E2, E1, app_assoc; reflexivity|]. split; [eapply HO2; eassumption|].
      split; [apply decoded_app; [exact D1|rewrite <- E1; exact D2]|]. rewrite (own_level _ _ L1). destruct C1 as (F1 & _ & U1 & _).
      split; [exists q; eapply feeds_app; eassumption|apply Forall_app; split; assumption].
  - destruct H1 as (t & E1 & O1' & D1 & F1 & U1). exists t. split; [exact E1|]. split; [apply HO1; exact O1'|]. auto.
Qed.

Lemma okA_weaken {A} E cx (m : M A) c P O (P' : list dev -> A -> Prop) (O' : list dev -> Prop) :
  okA E cx m c P O -> (forall t a, P t a -> P' t a) -> (forall t, O t -> O' t) -> okA E cx m c P' O'.
Proof.
  intros H HP HO Hrb s Hs. specialize (H Hrb s Hs). destruct (m s) as [a s1|w s1].
  - destruct H as (H0 & t & H1 & H2 & H3 & H4 & H5). split; [exact H0|]. exists t. auto 10.
  - destruct H as (t & H1 & H2 & H3 & H4). exists t. auto 10.
Qed.

(* most functions *)
Definition okC {A} E cx (m : M A) (c : A -> ctx) : Prop := okA E cx m c (fun t _ => calm t) opened.

Lemma okC_bind {A B} E cx (m : M A) (f : A -> M B) c1 c2 :
  okC E cx m c1 -> (forall a, okC E (c1 a) (f a) c2) -> okC E cx (bindM m f) c2.
Proof.
  intros H1 H2. eapply okA_bind; [exact H1|exact H2| | |].
  - cbn beta. intros. apply calm_app; assumption.
  - auto.
  - cbn beta. intros. apply opened_app; assumption.
Qed.

(* the same, and one more thing about the result *)
Lemma okC_ret {A} E cx (a : A) (c : A -> ctx) : (rb_ok (cx_rbuf cx) -> ctx_post cx [] (c a)) -> okC E cx (ret a) c.
Proof.
  intros H Hrb s Hs. cbn [ret]. split; [exact Hs|]. exists []. rewrite app_nil_r.
  split; [reflexivity|]. split; [apply level_nil|]. split; [exact I|]. split; [apply H; exact Hrb|apply calm_nil].
Qed.
Lemma okC_ret_same {A} E cx (a : A) : okC E cx (ret a) (fun _ => cx).
Proof. apply okC_ret. apply ctx_post_refl. Qed.

Definition quiet (e : dev) : Prop :=
  match e with Begin _ | End _ | Got _ _ _ | Input _ | Deferred _ _ | Unref _ _ => False | _ => True end.
Lemma quiet_post cx e : quiet e -> rb_ok (cx_rbuf cx) -> ctx_post cx [e] cx.
Proof.
  intros H Hrb. unfold ctx_post. destruct e; try contradiction; cbn; rewrite app_nil_r;
  (split; [reflexivity|]); (split; [reflexivity|]); (split; [apply Forall_cons; [exact I|apply Forall_nil]|exact Hrb]).
Qed.
Lemma okA_emit_quiet E cx e : quiet e -> okA E cx (emit e) (fun _ => cx) (fun t _ => t = [e]) (fun _ => False).
Proof.
  intros H Hrb s Hs. cbn [emit]. split; [exact Hs|]. exists [e]. split; [reflexivity|].
  split; [apply level_one; destruct e; try contradiction; exact I|].
  split; [destruct e; try contradiction; cbn; auto|]. split; [apply quiet_post; assumption|reflexivity].
Qed.
Lemma okC_emit E cx e : quiet e -> plain e -> okC E cx (emit e) (fun _ => cx).
Proof.
  intros H1 H2. eapply okA_weaken; [apply okA_emit_quiet; exact H1| |].
  - cbn beta. intros t _ ->. apply calm_one. exact H2.
  - intros t [].
Qed.

(* no events *)
Definition silent {A} (m : M A) : Prop :=
  forall s, match m s with Done _ s' | Stop _ s' => trace s' = trace s /\ ios s' = ios s end.
Lemma okC_silent {A} E cx (m : M A) : silent m -> okC E cx m (fun _ => cx).
Proof.
  intros H Hrb s Hs. specialize (H s). destruct (m s) as [a s1|w s1]; destruct H as [H1 H2].
  - split; [unfold ios_ok; rewrite H2; exact Hs|]. exists []. rewrite app_nil_r. split; [exact H1|]. split; [apply level_nil|].
    split; [exact I|]. split; [apply ctx_post_refl; exact Hrb|apply calm_nil].
  - exists []. rewrite app_nil_r. split; [exact H1|]. split; [apply opened_calm, calm_nil|]. split; [exact I|].
    split; [eexists; reflexivity|apply Forall_nil].
Qed.
Lemma silent_ref id : silent (contents_ref id).
Proof. intros s. unfold contents_ref. destruct (refs_of s id <=? 0); split; reflexivity. Qed.
Lemma silent_new b : silent (contents_new b).
Proof. intros s. split; reflexivity. Qed.
Lemma silent_set l : silent (set_app l).
Proof. intros s. split; reflexivity. Qed.
Lemma silent_get : silent get_app.
Proof. intros s. split; reflexivity. Qed.
Lemma silent_history : silent history.
Proof. intros s. split; reflexivity. Qed.
Lemma silent_bind {A B} (m : M A) (f : A -> M B) : silent m -> (forall a, silent (f a)) -> silent (bindM m f).
Proof.
  intros H1 H2 s. unfold bindM. specialize (H1 s). destruct (m s) as [a s1|w s1]; [|exact H1]. destruct H1 as [E1 E2].
  specialize (H2 a s1). destruct (f a s1); destruct H2 as [E3 E4]; rewrite E3, E4; auto.
Qed.
Lemma silent_ret {A} (a : A) : silent (ret a).
Proof. intros s. split; reflexivity. Qed.
Lemma silent_each l : silent (each contents_ref l).
Proof. induction l as [|i l IH]; [apply silent_ret|]. apply silent_bind; [apply silent_ref|intros ?; exact IH]. Qed.
Lemma silent_list_add l c : silent (list_add l c).
Proof. destruct c as [id|]; [|apply silent_ret]. apply silent_bind; [apply silent_ref|intros; apply silent_ret]. Qed.

Lemma okC_free E cx b : okC E cx (free_buffer b) (fun _ => cx).
Proof. unfold free_buffer. destruct (b =? 0); [apply okC_ret_same|apply okC_emit; exact I]. Qed.
Lemma okC_unref E cx id : okC E cx (contents_unref id) (fun _ => cx).
Proof.
  intros Hrb s Hs. unfold contents_unref. destruct (refs_of s id <=? 0).
  - exists []. rewrite app_nil_r. split; [reflexivity|]. split; [apply opened_calm, calm_nil|]. split; [exact I|].
    split; [eexists; reflexivity|apply Forall_nil].
  - cbv zeta. set (s1 := {| ios := _; trace := _; heap := _; app := _ |}).
    assert (Hs1 : ios_ok s1) by exact Hs. destruct (refs_of s id - 1 =? 0).
    + apply (okC_free E cx _ Hrb s1 Hs1).
    + apply (okC_ret_same E cx tt Hrb s1 Hs1).
Qed.
Lemma okC_unref_opt E cx c : okC E cx (unref_opt c) (fun _ => cx).
Proof. destruct c; [apply okC_unref|apply okC_ret_same]. Qed.
Lemma okC_each_unref E cx l : okC E cx (each contents_unref l) (fun _ => cx).
Proof. induction l as [|i l IH]; [apply okC_ret_same|]. eapply okC_bind; [apply okC_unref|intros ?; exact IH]. Qed.

Lemma okC_acquire E cx bufs obj : okC E cx (handle_acquire bufs obj) (fun _ => cx).
Proof.
  unfold handle_acquire. eapply okC_bind; [apply okC_emit; exact I|intros ?].
  apply okC_silent. apply silent_bind; [apply silent_each|intros ?]. apply silent_bind; [apply silent_get|intros; apply silent_set].
Qed.

(* ------------------------------------------------------------------ *)
(* reading and taking *)
Lemma no_again_ok l : Forall io_ok l -> Forall io_ok (no_again l).
Proof.
  induction 1 as [|r l H Hl IH]; cbn [no_again]; [apply Forall_nil|].
  destruct r as [e|b]; [|apply Forall_cons; assumption].
  repeat (destruct e as [e|e|]; try (apply Forall_cons; assumption)); exact IH.
Qed.

Definition read_events (t : list dev) (a : Z * rbuf) : Prop :=
  (fst a = 0 /\ exists b, t = [Input b]) \/ (exists e, fst a = Z.neg e /\ t = [Failed e]).

Lemma okA_read E cx : okA E cx (write_read (cx_rbuf cx)) (fun a => set_rbuf cx (snd a)) (fun t a => calm t /\ read_events t a) opened.
Proof.
  intros Hrb s Hs. unfold write_read. pose proof (no_again_ok _ Hs) as Hn. destruct (no_again (ios s)) as [|[e|b] r].
  - exists []. rewrite app_nil_r. split; [reflexivity|]. split; [apply opened_calm, calm_nil|]. split; [exact I|].
    split; [eexists; reflexivity|apply Forall_nil].
  - apply Forall_inv_tail in Hn. split; [exact Hn|]. exists [Failed e]. split; [reflexivity|]. split; [apply level_one; exact I|].
    split; [cbn; auto|]. cbn [snd fst]. split; [|split; [apply calm_one; exact I|right; exists e; auto]].
    assert (Eq : set_rbuf cx (cx_rbuf cx) = cx) by (destruct cx; reflexivity). rewrite Eq. apply quiet_post; [exact I|exact Hrb].
  - pose proof (Forall_inv Hn) as Hb. cbn in Hb. apply Forall_inv_tail in Hn. cbv zeta.
    destruct Hrb as (H1 & H2 & H3 & H4). set (rb := cx_rbuf cx) in *.
    set (room := READ_BUFFER_SIZE - rb_offset rb - (rb_consumed rb - rb_offset rb)).
    assert (Hroom : 0 <= room /\ rb_consumed rb + room = READ_BUFFER_SIZE) by (unfold room; lia).
    assert (Hnow : 0 <= blen (ztake room b) <= room) by (rewrite blen_ztake; lia).
    replace (rb_offset rb + (rb_consumed rb - rb_offset rb)) with (rb_consumed rb) by lia.
    set (now := ztake room b) in *.
    split.
    { unfold ios_ok. cbn [ios]. assert (Hl : all_bytes (zdrop room b)) by (apply Forall_zdrop; exact Hb).
      destruct (zdrop room b) as [|x y]; [exact Hn|apply Forall_cons; assumption]. }
    exists [Input now]. split; [reflexivity|]. split; [apply level_one; exact I|]. split; [cbn; auto|].
    split; [|split; [apply calm_one; exact I|left; cbn; eauto]].
    unfold ctx_post. cbn [own Datatypes.app set_rbuf snd cx_rbuf cx_unrefs rb_data rb_consumed rb_offset deferred feeds].
    replace (rb_consumed rb - rb_offset rb + blen now + rb_offset rb) with (rb_consumed rb + blen now) by lia.
    split; [|split; [rewrite app_nil_r; reflexivity|split; [apply Forall_cons; [exact I|apply Forall_nil]|]]].
    + unfold pending. cbn [rb_data rb_consumed rb_offset].
      replace (rb_consumed rb + blen now - rb_offset rb) with ((rb_consumed rb - rb_offset rb) + blen now) by lia.
      rewrite slice_split by lia. unfold poke. set (tail := zdrop _ _).
      assert (Et : blen (ztake (rb_consumed rb) (rb_data rb)) = rb_consumed rb) by (rewrite blen_ztake; lia).
      f_equal.
      * fold rb. rewrite slice_app_l by lia. rewrite <- (ztake_zdrop _ (rb_data rb) (rb_consumed rb)) at 1.
        apply slice_app_l; lia.
      * symmetry. replace (rb_offset rb + (rb_consumed rb - rb_offset rb)) with (rb_consumed rb) by lia.
        apply slice_app_exact; [symmetry; exact Et|reflexivity].
    + unfold rb_ok. cbn [rb_data rb_consumed rb_offset]. split; [rewrite blen_poke by lia; exact H1|]. split; [lia|]. split; [lia|].
      unfold poke. apply all_bytes_app. split; [apply Forall_ztake; exact H4|]. apply all_bytes_app.
      split; [apply Forall_ztake; exact Hb|apply Forall_zdrop; exact H4].
Qed.

Lemma okA_take E cx : next_command (cx_rbuf cx) <> 0 ->
  okA E cx (take_command E (cx_rbuf cx) (next_command (cx_rbuf cx))) (fun a => set_rbuf cx (fst (fst a)))
    (fun t a => t = [Got (next_command (cx_rbuf cx)) (snd (fst a)) (snd a)]) (fun _ => False).
Proof.
  intros Hn Hrb s Hs. set (rb := cx_rbuf cx) in *. destruct (next_complete rb Hrb Hn) as (H1 & H2 & H3).
  unfold take_command. set (cmd := next_command rb) in *. cbv zeta. split; [exact Hs|].
  eexists. split; [reflexivity|]. split; [apply level_one; exact I|]. split; [cbn; auto|].
  split; [|reflexivity]. unfold ctx_post. cbn [own Datatypes.app set_rbuf fst snd cx_rbuf cx_unrefs deferred feeds]. fold rb.
  split; [eexists; split; [exact H3|reflexivity]|]. split; [rewrite app_nil_r; reflexivity|].
  split; [apply Forall_cons; [exact I|apply Forall_nil]|].
  destruct Hrb as (R1 & R2 & R3 & R4).
  assert (Hz : 0 <= ioc_size cmd) by (unfold ioc_size; apply Z.mod_pos_bound; lia).
  unfold rb_ok. cbn [rb_data rb_consumed rb_offset]. split; [exact R1|]. split; [lia|]. split; [lia|exact R4].
Qed.
