(* Requests of the kernel are acted upon, each one once *)
From Verif Require Import Base BaseLemmas ObjModel KernelModel TxModel DriverModel DriverSpec.

Definition good_trace (E : env) (t : list dev) : Prop := filter reacting t = reactions E [] t /\ prompt E [] t.
Definition late_trace (E : env) (t : list dev) : Prop :=
  good_trace E t \/ exists h cmd payload c, t = h ++ [Got cmd payload c] /\ good_trace E h.

Lemma reactions_app E t : forall h u, reactions E h (t ++ u) = reactions E h t ++ reactions E (h ++ t) u.
Proof.
  induction t as [|e t IH]; intros h u; cbn [Datatypes.app reactions].
  - rewrite app_nil_r. reflexivity.
  - rewrite IH, <- !app_assoc. reflexivity.
Qed.
Lemma prompt_app E t : forall h u, prompt E h t -> prompt E (h ++ t) u -> prompt E h (t ++ u).
Proof.
  induction t as [|e t IH]; intros h u H1 H2; cbn [Datatypes.app prompt] in *.
  - rewrite app_nil_r in H2. exact H2.
  - destruct H1 as [H1 H3]. split.
    + destruct e; try exact I. destruct H1 as (r' & ->). exists (r' ++ u). rewrite app_assoc. reflexivity.
    + apply IH; [exact H3|]. rewrite <- app_assoc. exact H2.
Qed.

Definition simple (e : dev) : Prop := match e with Got _ _ _ => False | _ => reacting e = false end.
Lemma good_simple E t e : simple e -> good_trace E t -> good_trace E (t ++ [e]).
Proof.
  intros He [H1 H2]. split.
  - rewrite filter_app, reactions_app, H1. cbn [filter reactions]. destruct e; try contradiction; cbn in He |- *; try rewrite He; rewrite ?app_nil_r; try reflexivity; discriminate.
  - apply prompt_app; [exact H2|]. split; [destruct e; try contradiction; exact I|exact I].
Qed.
Lemma reaction_props E h pl c : filter reacting (reaction E h pl c) = reaction E h pl c /\ Forall (fun e => match e with Got _ _ _ => False | _ => True end) (reaction E h pl c).
Proof.
  destruct c; cbn [reaction]; try (split; [reflexivity|apply Forall_nil]);
    (destruct (e_local E h obj) || destruct (e_remote E h handle)); (split; [reflexivity|]); repeat (apply Forall_cons; [exact I|]); apply Forall_nil.
Qed.
Lemma reactions_none E u : Forall (fun e => match e with Got _ _ _ => False | _ => True end) u -> forall h, reactions E h u = [] /\ prompt E h u.
Proof.
  induction 1 as [|e u He Hu IH]; intros h; [split; [reflexivity|exact I]|]. cbn [reactions prompt]. destruct (IH (h ++ [e])) as [-> H2].
  destruct e; try contradiction; (split; [reflexivity|split; [exact I|exact H2]]).
Qed.
Lemma refusal_props E h tx : filter reacting (refusal E h tx) = [] /\ Forall (fun e => match e with Got _ _ _ => False | _ => True end) (refusal E h tx).
Proof.
  unfold refusal. cbv zeta. destruct (_ || _); (destruct (e_handler _ _ _); (split; [reflexivity|])); repeat (apply Forall_cons; [exact I|]); apply Forall_nil.
Qed.
Lemma at_once_props E h pl c : filter reacting (at_once E h pl c) = reaction E h pl c /\ Forall (fun e => match e with Got _ _ _ => False | _ => True end) (at_once E h pl c).
Proof. destruct c; try apply reaction_props; apply refusal_props. Qed.
Lemma good_at_once E h cmd pl c : good_trace E h -> good_trace E ((h ++ [Got cmd pl c]) ++ at_once E (h ++ [Got cmd pl c]) pl c).
Proof.
  intros [H1 H2]. destruct (at_once_props E (h ++ [Got cmd pl c]) pl c) as [R1 R2].
  destruct (reactions_none E _ R2 (h ++ [Got cmd pl c])) as [R3 R4]. rewrite <- app_assoc. split.
  - rewrite !filter_app, !reactions_app, H1. cbn [filter reacting reactions Datatypes.app]. rewrite R1. rewrite app_nil_r, R3, app_nil_r. reflexivity.
  - apply prompt_app; [exact H2|]. cbn [Datatypes.app prompt]. split; [exists []; rewrite app_nil_r; reflexivity|exact R4].
Qed.
Lemma good_reaction E h cmd pl c : match c with RTransaction _ => False | _ => True end -> good_trace E h -> good_trace E ((h ++ [Got cmd pl c]) ++ reaction E (h ++ [Got cmd pl c]) pl c).
Proof. intros Hc H. apply (good_at_once E h cmd pl c) in H. destruct c; try exact H. contradiction. Qed.

Definition okI {A} (E : env) (pre : dstate -> Prop) (m : M A) (post : A -> dstate -> Prop) : Prop :=
  forall s, pre s -> match m s with Done a s' => post a s' | Stop _ s' => late_trace E (trace s') end.
Definition inv (E : env) (s : dstate) : Prop := good_trace E (trace s).
Definition keeps {A} (E : env) (m : M A) : Prop := okI E (inv E) m (fun _ => inv E).

Lemma okI_bind {A B} E pre (m : M A) (f : A -> M B) mid post :
  okI E pre m mid -> (forall a, okI E (mid a) (f a) post) -> okI E pre (bindM m f) post.
Proof. intros H1 H2 s Hs. unfold bindM. specialize (H1 s Hs). destruct (m s) as [a s1|w s1]; [apply H2; exact H1|exact H1]. Qed.
Lemma keeps_bind {A B} E (m : M A) (f : A -> M B) : keeps E m -> (forall a, keeps E (f a)) -> keeps E (bindM m f).
Proof. intros H1 H2. eapply okI_bind; [exact H1|exact H2]. Qed.
Lemma keeps_ret {A} E (a : A) : keeps E (ret a).
Proof. intros s H. exact H. Qed.
Lemma keeps_emit E e : simple e -> keeps E (emit e).
Proof. intros He s H. apply good_simple; assumption. Qed.
Lemma keeps_no_fuel {A} E : keeps E (@no_fuel A).
Proof. intros s H. left. exact H. Qed.
(* what has no events *)
Lemma keeps_history E : keeps E history. Proof. intros s H. exact H. Qed.
Lemma keeps_get E : keeps E get_app. Proof. intros s H. exact H. Qed.
Lemma keeps_set E l : keeps E (set_app l). Proof. intros s H. exact H. Qed.
Lemma keeps_new E b : keeps E (contents_new b). Proof. intros s H. exact H. Qed.
Lemma keeps_ref E id : keeps E (contents_ref id).
Proof. intros s H. unfold contents_ref. destruct (refs_of s id <=? 0); [left; exact H|exact H]. Qed.
Lemma keeps_free E b : keeps E (free_buffer b).
Proof. unfold free_buffer. destruct (b =? 0); [apply keeps_ret|apply keeps_emit; reflexivity]. Qed.
Lemma keeps_unref E id : keeps E (contents_unref id).
Proof.
  intros s H. unfold contents_unref. destruct (refs_of s id <=? 0); [left; exact H|]. cbv zeta.
  destruct (refs_of s id - 1 =? 0); [|exact H]. apply (keeps_free E). exact H.
Qed.
Lemma keeps_unref_opt E c : keeps E (unref_opt c).
Proof. destruct c; [apply keeps_unref|apply keeps_ret]. Qed.
Lemma keeps_each E f l : (forall i, keeps E (f i)) -> keeps E (each f l).
Proof. intros H. induction l as [|i l IH]; [apply keeps_ret|]. apply keeps_bind; [apply H|intros ?; exact IH]. Qed.
Lemma keeps_list_add E l c : keeps E (list_add l c).
Proof. destruct c; [|apply keeps_ret]. apply keeps_bind; [apply keeps_ref|intros; apply keeps_ret]. Qed.
Lemma keeps_read E rb : keeps E (write_read rb).
Proof.
  intros s H. unfold write_read. destruct (no_again (ios s)) as [|[e|b] r]; [left; exact H| |]; cbv zeta; apply good_simple; try exact H; reflexivity.
Qed.
Lemma keeps_unrefs E l : keeps E (run_unrefs l).
Proof. induction l as [|[r o] l IH]; [apply keeps_ret|]. apply keeps_bind; [apply keeps_emit; reflexivity|intros ?; exact IH]. Qed.
Lemma keeps_cleanup E cx : keeps E (context_cleanup cx).
Proof. apply keeps_bind; [apply keeps_unrefs|intros ?; apply keeps_each, keeps_unref]. Qed.

(* a command has just been taken *)
Definition taken_now (E : env) (data : bytes) (c : rcmd) (s : dstate) : Prop :=
  exists h cmd, trace s = h ++ [Got cmd data c] /\ good_trace E h.
Lemma okI_take E rb cmd : okI E (inv E) (take_command E rb cmd) (fun a => taken_now E (snd (fst a)) (snd a)).
Proof. intros s H. unfold take_command. cbv zeta. exists (trace s), cmd. split; [reflexivity|exact H]. Qed.
Definition no_reaction (c : rcmd) : Prop := forall E h pl, at_once E h pl c = [].
Lemma taken_inv E data c s : no_reaction c -> taken_now E data c s -> inv E s.
Proof.
  intros Hn (h & cmd & H1 & H2). unfold inv. rewrite H1. pose proof (good_at_once E h cmd data c H2) as H. rewrite Hn, app_nil_r in H. exact H.
Qed.
Lemma okI_taken {A} E data c (m : M A) : no_reaction c -> keeps E m -> okI E (taken_now E data c) m (fun _ => inv E).
Proof. intros Hn Hm s Hs. apply Hm. eapply taken_inv; eassumption. Qed.

Record goodI (E : env) (F : fns) : Prop := {
  i_hc : forall cx data c, okI E (taken_now E data c) (f_handle_command F cx data c) (fun _ => inv E);
  i_hcs : forall cx, keeps E (f_handle_commands F cx);
  i_tx : forall cx reply, keeps E (f_txstatus F cx reply);
  i_wh : forall cx, keeps E (f_wait_handled F cx);
  i_rh : forall req p, keeps E (f_run_handler F req p);
  i_wr : forall cx reply, keeps E (f_wait_reply F cx reply);
  i_dr : forall cx check status, keeps E (f_drain F cx check status)
}.

Lemma goodI_0 E : goodI E (fns_of E 0).
Proof.
  constructor; intros; cbn [fns_of f_handle_command f_handle_commands f_txstatus f_wait_handled f_run_handler f_wait_reply f_drain];
    try apply keeps_no_fuel.
  intros s (h & cmd & H1 & H2). cbn. right. exists h, cmd, data, c. auto.
Qed.

Section Step.
Context (E : env) (F : fns) (G : goodI E F).

(* a transaction has just been taken, and the buffer is dealt with *)
Definition received_now (data : bytes) (tx : txdata) (s : dstate) : Prop :=
  exists h cmd, trace s = (h ++ [Got cmd data (RTransaction tx)]) ++
    (if (tx_data tx =? 0) || negb (tx_size tx =? 0) then [] else [Wrote (WFreeBuffer (tx_data tx))]) /\ good_trace E h.
Lemma okI_first cx data tx : okI E (taken_now E data (RTransaction tx))
  (if negb (tx_data tx =? 0) && negb (tx_size tx =? 0) then
     do id <- contents_new (tx_data tx);
     do bufs <- list_add (cx_bufs cx) (Some id);
     ret (set_bufs cx bufs, Some id)
   else
     do _ <- free_buffer (tx_data tx);
     ret (cx, None)) (fun _ => received_now data tx).
Proof.
  intros s (h & cmd & H1 & H2). unfold bindM, contents_new, list_add, contents_ref, free_buffer, received_now.
  destruct (tx_data tx =? 0) eqn:E1; cbn [negb andb orb].
  - cbn [ret]. exists h, cmd. rewrite app_nil_r. auto.
  - destruct (tx_size tx =? 0) eqn:E2; cbn [negb].
    + cbn [emit ret trace]. exists h, cmd. rewrite H1. auto.
    + unfold bindM. destruct (_ <=? 0).
      * cbn [trace]. right. exists h, cmd, data, (RTransaction tx). auto.
      * cbn [ret trace]. exists h, cmd. rewrite app_nil_r. auto.
Qed.
Lemma okI_transaction cx data tx : okI E (taken_now E data (RTransaction tx)) (handle_transaction E F cx tx) (fun _ => inv E).
Proof.
  unfold handle_transaction. eapply okI_bind; [apply okI_first|].
  intros [cx1 req]. eapply okI_bind with (mid := fun h s => received_now data tx s /\ trace s = h).
  { intros s Hs. cbn [history]. auto. }
  intros h.
  assert (Hrest : forall reply status, keeps E (
    do cx2 <-
    (if Z.testbit (tx_flags tx) 0 then ret cx1
     else
       do cx2 <-
         match reply with
         | Some contents =>
           do bufs <- list_add (cx_bufs cx1) contents;
           do _ <- emit (Wrote WReplyData);
           ret (set_bufs cx1 bufs)
         | None =>
           do _ <- emit (Wrote (WReplyStatus status));
           ret cx1
         end;
       f_wait_handled F cx2);
    do _ <- unref_opt req;
    do _ <- unref_opt (match reply with Some contents => contents | None => None end);
    do _ <- emit Leave;
    ret cx2)).
  { intros reply status. apply keeps_bind.
    { destruct (Z.testbit (tx_flags tx) 0); [apply keeps_ret|]. apply keeps_bind; [|intros cx2; apply (i_wh E F G)].
      destruct reply as [contents|].
      - apply keeps_bind; [apply keeps_list_add|intros bufs]. apply keeps_bind; [apply keeps_emit; reflexivity|intros; apply keeps_ret].
      - apply keeps_bind; [apply keeps_emit; reflexivity|intros; apply keeps_ret]. }
    intros cx2. apply keeps_bind; [apply keeps_unref_opt|intros ?]. apply keeps_bind; [apply keeps_unref_opt|intros ?].
    apply keeps_bind; [apply keeps_emit; reflexivity|intros; apply keeps_ret]. }
  destruct (e_handler E h tx) as [p|] eqn:Eh.
  - assert (K : keeps E (do (reply, status) <- f_run_handler F req p;
      do _ <- emit (Returned (match reply with Some _ => true | None => false end) status);
      do cx2 <-
      (if Z.testbit (tx_flags tx) 0 then ret cx1
       else
         do cx2 <-
           match reply with
           | Some contents =>
             do bufs <- list_add (cx_bufs cx1) contents;
             do _ <- emit (Wrote WReplyData);
             ret (set_bufs cx1 bufs)
           | None =>
             do _ <- emit (Wrote (WReplyStatus status));
             ret cx1
           end;
         f_wait_handled F cx2);
      do _ <- unref_opt req;
      do _ <- unref_opt (match reply with Some contents => contents | None => None end);
      do _ <- emit Leave;
      ret cx2)).
    { apply keeps_bind; [apply (i_rh E F G)|]. intros [reply status]. apply keeps_bind; [apply keeps_emit; reflexivity|intros ?]. apply Hrest. }
    intros s [(h0 & cmd & H1 & H2) H3]. apply K. unfold inv.
    pose proof (good_at_once E h0 cmd data (RTransaction tx) H2) as H. cbn [at_once] in H. unfold refusal in H. cbv zeta in H.
    rewrite <- H1 in H. rewrite H3 in H at 1. rewrite Eh, app_nil_r in H. rewrite H1.
    destruct (_ || _); [rewrite app_nil_r; exact H|]. apply good_simple; [reflexivity|exact H].
  - eapply okI_bind with (mid := fun a s => a = (None, - EBADMSG) /\ received_now data tx s /\ trace s = h).
    { intros s Hs. cbn [ret]. auto. }
    intros [reply status]. eapply okI_bind; [|intros ?; apply Hrest].
    intros s (Ha & (h0 & cmd & H1 & H2) & H3). assert (Hb : reply = None /\ status = - EBADMSG) by (split; congruence).
    destruct Hb as [-> ->]. cbn [emit]. unfold inv. cbn [trace].
    pose proof (good_at_once E h0 cmd data (RTransaction tx) H2) as H. cbn [at_once] in H. unfold refusal in H. cbv zeta in H.
    rewrite <- H1 in H. rewrite H3 in H at 1. rewrite Eh in H. rewrite app_assoc, <- H1 in H. exact H.
Qed.

Lemma okI_command cx data c : okI E (taken_now E data c) (handle_command E F cx data c) (fun _ => inv E).
Proof.
  assert (W : forall A (m : list dev -> M A), no_reaction c -> (forall h, keeps E (m h)) -> okI E (taken_now E data c) (do h <- history; m h) (fun _ => inv E)).
  { intros A m Hn Hm. apply okI_taken; [exact Hn|]. apply keeps_bind; [apply keeps_history|exact Hm]. }
  unfold handle_command.
  destruct c; try (apply W; [intros ? ? ?; reflexivity|intros h]); try apply keeps_ret;
    try (apply keeps_bind; [apply keeps_emit; reflexivity|intros; apply keeps_ret]).
  - intros s (h & cmd & H1 & H2). unfold bindM. cbn [history]. pose proof (fun c => good_reaction E h cmd data c) as H. match type of H1 with _ = _ ++ [Got _ _ ?c0] => specialize (H c0 I H2) end. rewrite <- H1 in H. cbn [reaction] in H.
    destruct (e_local E (trace s) obj); cbn [emit ret]; unfold inv; cbn [trace]; [rewrite <- app_assoc|]; exact H.
  - intros s (h & cmd & H1 & H2). unfold bindM. cbn [history]. pose proof (fun c => good_reaction E h cmd data c) as H. match type of H1 with _ = _ ++ [Got _ _ ?c0] => specialize (H c0 I H2) end. rewrite <- H1 in H. cbn [reaction] in H.
    destruct (e_local E (trace s) obj); cbn [emit ret]; unfold inv; cbn [trace]; [exact H|]. rewrite app_nil_r in H. exact H.
  - intros s (h & cmd & H1 & H2). unfold bindM at 1. cbn [history]. pose proof (fun c => good_reaction E h cmd data c) as H. match type of H1 with _ = _ ++ [Got _ _ ?c0] => specialize (H c0 I H2) end. rewrite <- H1 in H. cbn [reaction] in H.
    destruct (e_local E (trace s) obj).
    + unfold bindM at 1. unfold handle_acquire. unfold bindM at 1. cbn [emit].
      set (s1 := {| ios := ios s; trace := trace s ++ [Acquire obj]; heap := heap s; app := app s |}).
      assert (K : keeps E (do _ <- each contents_ref (cx_bufs cx); do l <- get_app; set_app (l ++ cx_bufs cx))).
      { apply keeps_bind; [apply keeps_each, keeps_ref|intros ?]. apply keeps_bind; [apply keeps_get|intros; apply keeps_set]. }
      specialize (K s1 H). destruct ((do _ <- each contents_ref (cx_bufs cx); do l <- get_app; set_app (l ++ cx_bufs cx)) s1); exact K.
    + exact H.
  - intros s (h & cmd & H1 & H2). unfold bindM. cbn [history]. pose proof (fun c => good_reaction E h cmd data c) as H. match type of H1 with _ = _ ++ [Got _ _ ?c0] => specialize (H c0 I H2) end. rewrite <- H1 in H. cbn [reaction] in H.
    destruct (e_local E (trace s) obj); cbn [emit ret]; unfold inv; cbn [trace]; [exact H|]. rewrite app_nil_r in H. exact H.
  - eapply okI_bind with (mid := fun _ => taken_now E data (RTransaction tx)); [intros s H; exact H|intros ?; apply okI_transaction].
  - intros s (h & cmd & H1 & H2). unfold bindM. cbn [history]. pose proof (fun c => good_reaction E h cmd data c) as H. match type of H1 with _ = _ ++ [Got _ _ ?c0] => specialize (H c0 I H2) end. rewrite <- H1 in H. cbn [reaction] in H.
    destruct (e_remote E (trace s) handle); cbn [emit ret]; unfold inv; cbn [trace]; exact H.
Qed.

Lemma keeps_commands cx : keeps E (handle_commands E F cx).
Proof.
  unfold handle_commands. destruct (next_command (cx_rbuf cx) =? 0); [apply keeps_ret|].
  eapply okI_bind; [apply okI_take|intros [[rb1 data] c]]. cbn [fst snd].
  eapply okI_bind; [apply (i_hc E F G)|intros cx1]. apply (i_hcs E F G).
Qed.

Lemma keeps_txstatus cx reply : keeps E (txstatus E F cx reply).
Proof.
  unfold txstatus. destruct (next_command (cx_rbuf cx) =? 0); [apply keeps_ret|].
  eapply okI_bind; [apply okI_take|intros [[rb1 data] c]]. cbn [fst snd].
  assert (Ho : okI E (taken_now E data c) (do cx2 <- f_handle_command F (set_rbuf cx rb1) data c; f_txstatus F cx2 reply) (fun _ => inv E)).
  { eapply okI_bind; [apply (i_hc E F G)|intros cx1]. apply (i_tx E F G). }
  destruct c; try exact Ho; (apply okI_taken; [intros ? ? ?; reflexivity|]); try apply keeps_ret.
  - destruct reply; [apply (i_tx E F G)|apply keeps_ret].
  - apply keeps_bind; [|intros [? ?]; apply keeps_ret]. destruct (_ && reply).
    + apply keeps_bind; [apply keeps_new|intros id]. apply keeps_bind; [apply keeps_list_add|intros; apply keeps_ret].
    + apply keeps_bind; [apply keeps_free|intros; apply keeps_ret].
Qed.

Lemma keeps_wait_handled cx : keeps E (wait_handled E F cx).
Proof.
  unfold wait_handled. apply keeps_bind; [apply keeps_read|intros [err rb]]. destruct (0 <=? err).
  - apply keeps_bind; [apply (i_tx E F G)|intros [[status cx1] tk]]. destruct (status =? - EAGAIN); [apply (i_wh E F G)|apply keeps_ret].
  - destruct (err =? - EAGAIN); [apply (i_wh E F G)|apply keeps_ret].
Qed.
Lemma keeps_wait_reply cx reply : keeps E (wait_reply E F cx reply).
Proof.
  unfold wait_reply. apply keeps_bind; [apply keeps_read|intros [err rb]]. destruct (err <? 0).
  - destruct (err =? - EAGAIN); [apply (i_wr E F G)|apply keeps_ret].
  - apply keeps_bind; [apply (i_tx E F G)|intros [[status cx1] tk]]. destruct (status =? - EAGAIN); [apply (i_wr E F G)|apply keeps_ret].
Qed.
Lemma keeps_drain cx check status : keeps E (drain E F cx check status).
Proof.
  unfold drain. apply keeps_bind; [apply (i_hcs E F G)|intros cx1]. apply keeps_bind; [apply keeps_history|intros h].
  destruct (_ && _); [|apply keeps_ret]. apply keeps_bind; [apply keeps_read|intros [err rb]]. destruct (err <? 0); [apply keeps_ret|apply (i_dr E F G)].
Qed.
Lemma keeps_transact oneway : keeps E (transact E F oneway).
Proof.
  unfold transact. apply keeps_bind; [apply keeps_emit; reflexivity|intros ?]. apply keeps_bind; [apply keeps_emit; reflexivity|intros ?].
  apply keeps_bind; [apply (i_wr E F G)|intros [[status cx1] tk]].
  apply keeps_bind; [destruct (0 <=? status); [apply (i_dr E F G)|apply keeps_ret]|intros [status2 cx2]].
  apply keeps_bind; [apply keeps_cleanup|intros ?]. apply keeps_bind; [apply keeps_emit; reflexivity|intros; apply keeps_ret].
Qed.
Lemma keeps_driver_read : keeps E (driver_read E F).
Proof.
  unfold driver_read. apply keeps_bind; [apply keeps_emit; reflexivity|intros ?]. apply keeps_bind; [apply keeps_read|intros [err rb]].
  apply keeps_bind; [destruct (0 <=? err); [apply (i_dr E F G)|apply keeps_ret]|intros [status2 cx2]].
  apply keeps_bind; [apply keeps_cleanup|intros ?]. apply keeps_bind; [apply keeps_emit; reflexivity|intros; apply keeps_ret].
Qed.
Lemma keeps_handler req p : keeps E (run_handler E F req p).
Proof.
  unfold run_handler. destruct p as [[[n|]|] status|k|n k|oneway k]; try apply keeps_ret.
  - apply keeps_bind; [apply keeps_get|intros l]. destruct (take_nth n l). apply keeps_bind; [apply keeps_set|intros; apply keeps_ret].
  - apply keeps_bind; [|intros ?; apply (i_rh E F G)]. destruct req; [|apply keeps_ret].
    apply keeps_bind; [apply keeps_ref|intros ?]. apply keeps_bind; [apply keeps_get|intros; apply keeps_set].
  - apply keeps_bind; [apply keeps_get|intros l]. destruct (take_nth n l). apply keeps_bind; [apply keeps_set|intros ?].
    apply keeps_bind; [apply keeps_unref_opt|intros ?; apply (i_rh E F G)].
  - apply keeps_bind; [apply keeps_transact|intros [status tk]]. apply keeps_bind; [apply keeps_get|intros l].
    apply keeps_bind; [apply keeps_set|intros ?; apply (i_rh E F G)].
Qed.
End Step.

Lemma goodI_of E fuel : goodI E (fns_of E fuel).
Proof.
  induction fuel as [|n G]; [apply goodI_0|]. set (F := fns_of E n) in *.
  constructor; intros; cbn [fns_of f_handle_command f_handle_commands f_txstatus f_wait_handled f_run_handler f_wait_reply f_drain]; fold F.
  - apply okI_command; exact G.
  - apply keeps_commands; exact G.
  - apply keeps_txstatus; exact G.
  - apply keeps_wait_handled; exact G.
  - apply keeps_handler; exact G.
  - apply keeps_wait_reply; exact G.
  - apply keeps_drain; exact G.
Qed.

Lemma keeps_life E F (G : goodI E F) l : keeps E (life E F l).
Proof.
  induction l as [|o l IH]; [apply keeps_ret|]. cbn [life]. apply keeps_bind; [|intros ?; exact IH].
  destruct o as [|oneway|n|n]; cbn [top_step].
  - apply keeps_bind; [apply keeps_driver_read; exact G|intros; apply keeps_ret].
  - apply keeps_bind; [apply keeps_transact; exact G|intros [? ?]]. apply keeps_bind; [apply keeps_get|intros; apply keeps_set].
  - apply keeps_bind; [apply keeps_get|intros l0]. destruct (take_nth n l0). apply keeps_bind; [apply keeps_set|intros; apply keeps_unref_opt].
  - apply keeps_bind; [apply keeps_get|intros l0]. destruct (fst (take_nth n l0)); [|apply keeps_ret].
    apply keeps_bind; [apply keeps_ref|intros; apply keeps_set].
Qed.
Lemma start_good E input : inv E (start input).
Proof. split; [reflexivity|exact I]. Qed.

(* the handle in the lower half of a 64-bit cookie *)
Lemma handle_of_cookie p : all_bytes p -> 8 <= blen p -> u32 (unle (slice p 0 8)) = unle (slice p 0 4).
Proof.
  intros Hb Hl. destruct p as [|b0 [|b1 [|b2 [|b3 [|b4 [|b5 [|b6 [|b7 r]]]]]]]]; try (cbv [blen Datatypes.length Z.of_nat Pos.of_succ_nat Pos.succ] in Hl; lia).
  change (slice (b0 :: b1 :: b2 :: b3 :: b4 :: b5 :: b6 :: b7 :: r) 0 8) with ([b0; b1; b2; b3] ++ [b4; b5; b6; b7]).
  change (slice (b0 :: b1 :: b2 :: b3 :: b4 :: b5 :: b6 :: b7 :: r) 0 4) with [b0; b1; b2; b3].
  rewrite unle_app. change (2 ^ (8 * blen [b0; b1; b2; b3])) with (2 ^ 32).
  assert (B : all_bytes [b0; b1; b2; b3]).
  { unfold all_bytes in *. rewrite Forall_forall in Hb |- *. intros x Hx. apply Hb. cbn [In] in Hx |- *. tauto. }
  apply unle_bound in B. change (2 ^ (8 * blen [b0; b1; b2; b3])) with (2 ^ 32) in B.
  unfold u32. rewrite Z.mul_comm, Z.mod_add by lia. apply Z.mod_small. exact B.
Qed.

Lemma decode64 m cmd payload :
  let first := unle (slice payload 0 8) in
  decode_cmd Io64 m cmd payload =
  if cmd =? 0x7206 then RComplete
  else if cmd =? 0x7205 then RDeadReply
  else if cmd =? 0x7211 then RFailedReply
  else if cmd =? 0x80407203 then RReply (decode_transaction_data Io64 m payload)
  else if cmd =? 0x720c then RNoop
  else if cmd =? 0x7201 then ROk
  else if cmd =? 0x720d then RSpawnLooper
  else if cmd =? 0x720e then RFinished
  else if cmd =? 0x80107207 then RIncrefs first
  else if cmd =? 0x8010720a then RDecrefs first
  else if cmd =? 0x80107208 then RAcquire first
  else if cmd =? 0x80107209 then RRelease first
  else if cmd =? 0x80407202 then RTransaction (decode_transaction_data Io64 m payload)
  else if cmd =? 0x8008720f then RDeadBinder (u32 first)
  else if cmd =? 0x80087210 then RClearDone
  else ROther.
Proof.
  cbv zeta. unfold decode_cmd. cbv zeta.
  change (br_io 6) with 0x7206. change (br_io 5) with 0x7205. change (br_io 17) with 0x7211.
  change (br_io 12) with 0x720c. change (br_io 1) with 0x7201. change (br_io 13) with 0x720d. change (br_io 14) with 0x720e.
  change (br_ior 3 (tr_size Io64)) with 0x80407203. change (br_ior 2 (tr_size Io64)) with 0x80407202.
  change (br_ior 7 (2 * psz Io64)) with 0x80107207. change (br_ior 10 (2 * psz Io64)) with 0x8010720a.
  change (br_ior 8 (2 * psz Io64)) with 0x80107208. change (br_ior 9 (2 * psz Io64)) with 0x80107209.
  change (br_ior 15 (psz Io64)) with 0x8008720f. change (br_ior 16 (psz Io64)) with 0x80087210.
  change (psz Io64) with 8. reflexivity.
Qed.
Ltac cmd_eq := match goal with |- context [if ?c =? ?b then _ else _] => destruct (Z.eqb_spec c b) as [?He|?He] end.
