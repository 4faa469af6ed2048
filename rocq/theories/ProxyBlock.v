(* Proofs about one thread and its requests (BlockModel.v), as far as they are used by proxies:
   what happens to a request is only what's been done to it *)
From Verif Require Import Base BlockModel BlockSpec BlockProofs BlockRun BlockEnds ProxyModel.

(* What is done with a request by the application *)
Definition api (k : nat) (e : bev) : bool :=
  match e with
  | Handle j | BlockCalled j | CompleteCalled j _ | HandlerReturned j _ => Nat.eqb j k
  | _ => false
  end.
Definition calls (k : nat) (t : list bev) : list bev := filter (api k) t.

Lemma calls_app k t1 t2 : calls k (t1 ++ t2) = calls k t1 ++ calls k t2.
Proof. apply filter_app. Qed.
Lemma calls_none k t : (forall e, In e t -> about k e = false) -> calls k t = [].
Proof.
  intros H. unfold calls. induction t as [|e t IH]; auto. cbn.
  assert (E : api k e = false) by (specialize (H e (or_introl eq_refl)); destruct e; auto).
  rewrite E. apply IH. intros x X. apply H. now right.
Qed.
Lemma api_other k j e : api k e = true -> j <> k -> api j e = false.
Proof. destruct e; cbn; try discriminate; intros H N; apply Nat.eqb_eq in H; apply Nat.eqb_neq; congruence. Qed.

Ltac simp := cbn [c_tx c_pipe c_ev put say bind x_set_state x_set_answer x_set_refs x_set_has_req q_set_refs q_set_has_tx
  q_set_app x_set_cb x_state x_answer x_refs x_pipe x_has_req q_refs q_has_tx q_app x_cb andb orb negb] in *.
Ltac brute :=
  unfold handle_end, req_unref, request_complete, request_block, request_ref, handle_begin, callback_gone,
    clear_tx, tx_unref, pipe_write, pipe_close, req_unref_by_tx; simp;
  repeat match goal with
  | |- context [match ?x with _ => _ end] => is_var x; destruct x; simp
  | |- context [negb ?x] => is_var x; destruct x; simp
  | |- context [?a <=? ?b] => destruct (Z.leb_spec a b); simp
  | |- context [?a =? ?b] => destruct (Z.eqb_spec a b); simp
  end;
  let E := fresh in intros E; try discriminate; apply ok_same in E; subst; simp; try lia; auto.

(* One transaction: references of the application, the callback, the number of the pipe, and
   what is added to its events *)
Definition effect (k : nat) (c c' : cell) (l : list bev) (app : Z) (cb : cbstate) : Prop :=
  q_app (c_tx c') = app /\ x_cb (c_tx c') = cb /\
  exists m, c_ev c' = c_ev c ++ m /\ calls k m = l /\ (forall e j, In e m -> j <> k -> about j e = false).

Ltac effects k :=
  unfold effect; simp; brute; (split; [reflexivity|]; split; [reflexivity|]);
  repeat rewrite <- app_assoc; eexists;
  (split; [first [reflexivity | symmetry; apply app_nil_r]|]; cbn; rewrite ?Nat.eqb_refl; split; [reflexivity|];
   intros ? ? HH NN;
   repeat (destruct HH as [<-|HH]; [cbn; try reflexivity; now apply Nat.eqb_neq, not_eq_sym|]); destruct HH).

Lemma effect_begin k c c' : handle_begin k c = Ok c' -> effect k c c' [Handle k] (q_app (c_tx c)) CbRunning.
Proof. destruct c as [[st an xr xp hr qr ht qa cb] p ev]. effects k. Qed.
Lemma effect_end k a c c' : handle_end k a c = Ok c' -> effect k c c' [HandlerReturned k a] (q_app (c_tx c)) CbReturned.
Proof. destruct c as [[st an xr xp hr qr ht qa cb] p ev]. effects k. Qed.
Lemma effect_gone k c c' : callback_gone k c = Ok c' -> effect k c c' [] (q_app (c_tx c)) CbGone.
Proof. destruct c as [[st an xr xp hr qr ht qa cb] p ev]. effects k. Qed.
Lemma effect_ref k c c' : request_ref c = Ok c' -> effect k c c' [] (q_app (c_tx c) + 1) (x_cb (c_tx c)).
Proof. destruct c as [[st an xr xp hr qr ht qa cb] p ev]. effects k. Qed.
Lemma effect_block k c c' : request_block (say c (BlockCalled k)) = Ok c' ->
  effect k c c' [BlockCalled k] (q_app (c_tx c)) (x_cb (c_tx c)).
Proof. destruct c as [[st an xr xp hr qr ht qa cb] p ev]. effects k. Qed.
Lemma effect_complete k a c c' : request_complete k a (say c (CompleteCalled k a)) = Ok c' ->
  effect k c c' [CompleteCalled k a] (q_app (c_tx c)) (x_cb (c_tx c)).
Proof. destruct c as [[st an xr xp hr qr ht qa cb] p ev]. effects k. Qed.
Lemma effect_unref k c c' : req_unref k c = Ok c' -> effect k c c' [] (q_app (c_tx c)) (x_cb (c_tx c)).
Proof. destruct c as [[st an xr xp hr qr ht qa cb] p ev]. effects k. Qed.

(* The state of a request [k] is the same, except for what's been done to it *)
Record after (k : nat) (b b' : bstate) (l : list bev) (app : Z) : Prop := {
  a_count : (count b <= count b')%nat;
  a_app : q_app (txs b' k) = app;
  a_calls : calls k (btrace b') = calls k (btrace b) ++ l;
  a_trace : exists m, btrace b' = btrace b ++ m
}.

Lemma after_refl k b : after k b b [] (q_app (txs b k)).
Proof. split; auto; [now rewrite app_nil_r|exists []; now rewrite app_nil_r]. Qed.
Lemma after_trans k b1 b2 b3 l1 l2 x y : after k b1 b2 l1 x -> after k b2 b3 l2 y -> after k b1 b3 (l1 ++ l2) y.
Proof.
  intros [A1 A2 A3 (m1 & A4)] [B1 B2 B3 (m2 & B4)]. split; try lia; auto.
  - now rewrite B3, A3, app_assoc.
  - exists (m1 ++ m2). now rewrite B4, A4, app_assoc.
Qed.

Lemma cell_after b k j c l app cb :
  effect j (get_cell b j) c l app cb ->
  after k b (put_cell b j c) (if Nat.eqb k j then l else []) (if Nat.eqb k j then app else q_app (txs b k)).
Proof.
  intros (E1 & E2 & m & E3 & E4 & E5). cbn [get_cell c_ev] in E3. rewrite app_nil_l in E3. split; cbn [put_cell count txs btrace].
  - lia.
  - destruct (Nat.eqb_spec k j) as [->|N]; [now rewrite upd_same|now rewrite upd_other].
  - rewrite calls_app, E3. destruct (Nat.eqb_spec k j) as [->|N]; [now rewrite E4|].
    f_equal. apply calls_none. intros e X. now apply (E5 e k).
  - eauto.
Qed.

Lemma drop_effect k c c' d : tx_unref k true c = Ok (c', d) -> effect k c c' [] (q_app (c_tx c)) (x_cb (c_tx c)).
Proof.
  destruct c as [[st an xr xp hr qr ht qa cb] p ev]. unfold effect, tx_unref, req_unref_by_tx. simp.
  destruct (xr <=? 0); [discriminate|]. destruct (xr - 1 =? 0); cbn.
  - destruct hr; cbn; [destruct (qr <=? 0); [discriminate|]; destruct (qr - 1 =? 0); cbn; [destruct ht; cbn; [discriminate|]|]|];
      intros X; apply ok_same in X; injection X as <- <-; cbn; (split; [reflexivity|]; split; [reflexivity|]);
      repeat rewrite <- app_assoc; eexists; (split; [reflexivity|]; split; [reflexivity|]);
      intros ? ? HH NN; repeat (destruct HH as [<-|HH]; [cbn; try reflexivity; now apply Nat.eqb_neq, not_eq_sym|]); destruct HH.
  - intros X; apply ok_same in X; injection X as <- <-. cbn. split; [reflexivity|]. split; [reflexivity|].
    exists []. rewrite app_nil_r. repeat split; auto. intros ? ? [].
Qed.

Lemma wait_effect k stop c c' n : ipc_wait stop c = Ok (c', n) -> effect k c c' [] (q_app (c_tx c)) (x_cb (c_tx c)).
Proof.
  unfold ipc_wait, effect. destruct (x_refs (c_tx c) <=? 0); [discriminate|].
  destruct (c_pipe c) as [[|x l]|]; [destruct stop; [|discriminate]| |discriminate];
    intros X; apply ok_same in X; injection X as <- <-; cbn; repeat split; auto; exists []; rewrite app_nil_r; repeat split; auto;
    intros ? ? [].
Qed.

Lemma after_go k b b' l x t fd : after k b b' l x -> after k b (go b' t fd) l x.
Proof. intros [A1 A2 A3 A4]. now split. Qed.
Lemma after_if {A} (b : bool) k s s' (l : list bev) (x y : Z) (_ : A) :
  after k s s' (if b then [] else []) (if b then x else y) -> x = y -> after k s s' [] x.
Proof. destruct b; auto. now intros H ->. Qed.

Lemma end_after b b' k j a : transact_end b j a = Ok b' -> after k b b' [] (q_app (txs b k)).
Proof.
  intros E. assert (X : exists p, btrace b' = btrace b ++ p ++ [Answered j a] /\ (p = [] \/ exists n, p = [PipeClosed n]) /\
    txs b' = txs b /\ count b' = count b).
  { revert E. unfold transact_end. destruct (looper b); [|destruct (txfd b) as [p|]; [destruct (pipes b p); [|discriminate]|]];
      intros X; apply ok_same in X; subst b'; cbn.
    - exists []. auto.
    - exists [PipeClosed p]. rewrite <- app_assoc. eauto 6.
    - exists []. auto. }
  destruct X as (p & X1 & X2 & X3 & X4). split.
  - lia.
  - now rewrite X3.
  - rewrite X1, calls_app. f_equal. destruct X2 as [-> |(n & ->)]; reflexivity.
  - eauto.
Qed.

Lemma thread_after b b' k : thread_step b = Ok b' -> after k b b' [] (q_app (txs b k)).
Proof.
  unfold thread_step. destruct (th b) as [|j|j|j d|j a|j a|j].
  - discriminate.
  - destruct (ipc_wait (stopped b) (get_cell b j)) as [| |[c n]] eqn:E; try discriminate. cbn [bind].
    intros X; apply ok_same in X; subst b'. apply after_go. apply wait_effect with (k := j) in E.
    apply (cell_after _ k) in E. cbn [get_cell c_tx] in E. destruct (Nat.eqb_spec k j) as [->|]; auto.
  - destruct (ipc_wait (stopped b) (get_cell b j)) as [| |[c n]] eqn:E; try discriminate. cbn [bind].
    intros X; apply ok_same in X; subst b'. apply after_go. apply wait_effect with (k := j) in E.
    apply (cell_after _ k) in E. cbn [get_cell c_tx] in E. destruct (Nat.eqb_spec k j) as [->|]; auto.
  - destruct (x_refs (txs b j) <=? 0); [discriminate|]. intros X; apply ok_same in X; subst b'. apply after_go, after_refl.
  - destruct (tx_unref j true (get_cell b j)) as [| |[c n]] eqn:E; try discriminate. cbn [bind].
    intros X; apply ok_same in X; subst b'. apply after_go. apply drop_effect in E.
    apply (cell_after _ k) in E. cbn [get_cell c_tx] in E. destruct (Nat.eqb_spec k j) as [->|]; auto.
  - assert (G : forall b1, after k b b1 [] (q_app (txs b k)) -> transact_end b1 j a = Ok b' -> after k b b' [] (q_app (txs b k))).
    { intros b1 A E. apply (end_after _ _ k) in E. rewrite (a_app _ _ _ _ _ A) in E. exact (after_trans _ _ _ _ _ _ _ _ A E). }
    destruct (x_cb (txs b j)); cbn [bind]; try (apply G, after_refl).
    unfold on_cell. destruct (callback_gone j (get_cell b j)) as [| |c] eqn:E; try discriminate. cbn [bind]. apply G.
    apply effect_gone in E. apply (cell_after _ k) in E. cbn [get_cell c_tx] in E. destruct (Nat.eqb_spec k j) as [->|]; auto.
  - unfold on_cell. destruct (req_unref j (get_cell b j)) as [| |c] eqn:E; try discriminate. cbn [bind].
    intros X; apply ok_same in X; subst b'. apply after_go. apply effect_unref in E.
    apply (cell_after _ k) in E. cbn [get_cell c_tx] in E. destruct (Nat.eqb_spec k j) as [->|]; auto.
Qed.

(* The pieces of a step *)
Lemma valid_ok b j f b' : (if Nat.ltb j (count b) then on_cell b j f else Disabled) = Ok b' ->
  (j < count b)%nat /\ exists c, f (get_cell b j) = Ok c /\ b' = put_cell b j c.
Proof.
  destruct (Nat.ltb_spec j (count b)); [|discriminate]. unfold on_cell. destruct (f (get_cell b j)) as [| |c]; try discriminate.
  cbn. intros X; apply ok_same in X. eauto.
Qed.

Lemma step_other b m b' k : step b m = Ok b' -> app_move m <> Some k -> (k < count b)%nat ->
  after k b b' [] (q_app (txs b k)).
Proof.
  intros E N K.
  assert (O : forall j c l x cb, k <> j -> effect j (get_cell b j) c l x cb -> after k b (put_cell b j c) [] (q_app (txs b k))).
  { intros j c l x cb NE H. apply (cell_after _ k) in H. now rewrite (proj2 (Nat.eqb_neq k j) NE) in H. }
  revert E. unfold step. destruct m as [| |j|j a|j|j|j|j|j a|]; cbn [app_move] in N.
  - destruct (th b); try discriminate. destruct (last b); [discriminate|]. intros X; apply ok_same in X; subst b'.
    split; cbn [transact_begin count txs btrace].
    + lia.
    + rewrite upd_other; auto. lia.
    + rewrite calls_app. reflexivity.
    + eauto.
  - now apply thread_after.
  - intros E. apply valid_ok in E as (J & c & E & ->). destruct (x_cb (c_tx (get_cell b j))); try discriminate.
    eapply O; [congruence|]. now apply effect_begin.
  - intros E. apply valid_ok in E as (J & c & E & ->). destruct (x_cb (c_tx (get_cell b j))); try discriminate.
    eapply O; [congruence|]. eapply effect_end; eauto.
  - intros E. apply valid_ok in E as (J & c & E & ->). destruct (x_cb (c_tx (get_cell b j))); try discriminate.
    apply effect_gone in E. apply (cell_after _ k) in E. cbn [get_cell c_tx] in E. destruct (Nat.eqb_spec k j) as [->|]; auto.
  - intros E. apply valid_ok in E as (J & c & E & ->). destruct (usable (c_tx (get_cell b j))); try discriminate.
    eapply O; [congruence|]. eapply effect_ref; eauto.
  - intros E. apply valid_ok in E as (J & c & E & ->). destruct (0 <? q_app (c_tx (get_cell b j))); try discriminate.
    eapply O; [congruence|]. apply effect_unref in E. destruct E as (E1 & E2 & m & E3 & E4 & E5).
    split; [exact E1|]. split; [exact E2|]. exists m. split; [exact E3|]. split; [exact E4|exact E5].
  - intros E. apply valid_ok in E as (J & c & E & ->). destruct (usable (c_tx (get_cell b j))); try discriminate.
    eapply O; [congruence|]. apply effect_block in E; eauto.
  - intros E. apply valid_ok in E as (J & c & E & ->). destruct (usable (c_tx (get_cell b j))); try discriminate.
    eapply O; [congruence|]. eapply effect_complete; eauto.
  - destruct (looper b && negb (stopped b)); [|discriminate]. intros X; apply ok_same in X; subst b'. split; cbn [btrace count txs].
    + lia.
    + reflexivity.
    + rewrite calls_app. reflexivity.
    + eauto.
Qed.

(* The callback is still running when the thread has done something *)
Lemma thread_running b m b' k : inv b -> thread_only m = true -> step b m = Ok b' -> (k < count b)%nat ->
  x_cb (txs b k) = CbRunning -> x_cb (txs b' k) = CbRunning.
Proof.
  intros I T E K R.
  assert (O : forall j c, x_cb (c_tx c) = x_cb (txs b j) -> x_cb (txs (put_cell b j c) k) = CbRunning).
  { intros j c H. cbn [put_cell txs]. destruct (upd_case (txs b) j (c_tx c) k) as [[-> ->]|[N ->]]; congruence. }
  revert E. unfold step. destruct m; try discriminate.
  - destruct (th b); try discriminate. destruct (last b); [discriminate|]. intros X; apply ok_same in X; subst b'.
    cbn [transact_begin txs]. rewrite upd_other; auto. lia.
  - unfold thread_step. destruct (th b) as [|j|j|j d|j a|j a|j].
    + discriminate.
    + destruct (ipc_wait (stopped b) (get_cell b j)) as [| |[c n]] eqn:E; try discriminate. cbn [bind].
      intros X; apply ok_same in X; subst b'. cbn [go txs]. apply O. now apply wait_effect with (k := j) in E as (_ & E & _).
    + destruct (ipc_wait (stopped b) (get_cell b j)) as [| |[c n]] eqn:E; try discriminate. cbn [bind].
      intros X; apply ok_same in X; subst b'. cbn [go txs]. apply O. now apply wait_effect with (k := j) in E as (_ & E & _).
    + destruct (x_refs (txs b j) <=? 0); [discriminate|]. intros X; apply ok_same in X; now subst b'.
    + destruct (tx_unref j true (get_cell b j)) as [| |[c n]] eqn:E; try discriminate. cbn [bind].
      intros X; apply ok_same in X; subst b'. cbn [go txs]. apply O. now apply drop_effect in E as (_ & E & _).
    + assert (G : forall b1, x_cb (txs b1 k) = CbRunning -> transact_end b1 j a = Ok b' -> x_cb (txs b' k) = CbRunning).
      { intros b1 A. unfold transact_end. destruct (looper b1); [|destruct (txfd b1) as [p|]; [destruct (pipes b1 p); [|discriminate]|]];
          intros X; apply ok_same in X; subst b'; exact A. }
      destruct (x_cb (txs b j)) eqn:CB; cbn [bind]; try (now apply G).
      unfold on_cell. destruct (callback_gone j (get_cell b j)) as [| |c] eqn:E; try discriminate. cbn [bind]. apply G.
      cbn [put_cell txs]. rewrite upd_other; auto. congruence.
    + unfold on_cell. destruct (req_unref j (get_cell b j)) as [| |c] eqn:E; try discriminate. cbn [bind].
      intros X; apply ok_same in X; subst b'. cbn [go txs]. apply O. now apply effect_unref in E as (_ & E & _).
  - destruct (looper b && negb (stopped b)); [|discriminate]. intros X; apply ok_same in X; now subst b'.
Qed.

Lemma thread_app_move m k : thread_only m = true -> app_move m <> Some k.
Proof. now destruct m. Qed.

Lemma meanwhile_after l : forall b b' k, inv b -> meanwhile b l = Ok b' -> (k < count b)%nat ->
  inv b' /\ after k b b' [] (q_app (txs b k)) /\ (x_cb (txs b k) = CbRunning -> x_cb (txs b' k) = CbRunning).
Proof.
  unfold meanwhile. induction l as [|m l IH]; intros b b' k I; cbn [forallb run].
  - intros X K; apply ok_same in X; subst b'. auto using after_refl.
  - destruct (thread_only m) eqn:T; [|discriminate]. cbn [andb].
    destruct (step b m) as [| |b1] eqn:E; cbn [bind].
    + now destruct (forallb thread_only l).
    + now destruct (forallb thread_only l).
    + intros X K. destruct (inv_step b m I) as [Y|(b2 & Y & I1)]; [congruence|]. rewrite E in Y. apply ok_same in Y. subst b2.
      pose proof (step_other _ _ _ k E (thread_app_move m k T) K) as A.
      destruct (IH b1 b' k I1 X) as (I2 & A2 & R2); [pose proof (a_count _ _ _ _ _ A); lia|].
      split; [exact I2|]. rewrite (a_app _ _ _ _ _ A) in A2. split.
      * exact (after_trans _ _ _ _ _ _ _ _ A A2).
      * intros R. apply R2. exact (thread_running _ _ _ _ I T E K R).
Qed.
Lemma meanwhile_runs l b b' : meanwhile b l = Ok b' -> run b l = Ok b'.
Proof. unfold meanwhile. now destruct (forallb thread_only l). Qed.
Lemma meanwhile_safe l b : inv b -> meanwhile b l <> Crash.
Proof.
  unfold meanwhile. intros I. destruct (forallb thread_only l); [|discriminate].
  destruct (inv_run l b I) as [->|(b' & -> & _)]; discriminate.
Qed.

Lemma step_ok b m : inv b -> step b m <> Disabled -> exists b', step b m = Ok b' /\ inv b'.
Proof. intros I N. destruct (inv_step b m I) as [X|X]; [contradiction|exact X]. Qed.

Lemma do_dispatch b b' k : step b (Dispatch k) = Ok b' ->
  (k < count b)%nat /\ after k b b' [Handle k] (q_app (txs b k)) /\ x_cb (txs b' k) = CbRunning /\ x_cb (txs b k) = CbPending.
Proof.
  unfold step. intros E. apply valid_ok in E as (K & c & E & ->). change (c_tx (get_cell b k)) with (txs b k) in E.
  destruct (x_cb (txs b k)) eqn:CB; try discriminate.
  pose proof (effect_begin _ _ _ E) as F. split; [exact K|]. split.
  - apply (cell_after _ k) in F. now rewrite Nat.eqb_refl in F.
  - split; [|reflexivity]. cbn [put_cell txs]. rewrite upd_same. apply F.
Qed.

Lemma running_usable t : x_cb t = CbRunning -> usable t = true.
Proof. unfold usable. intros ->. apply orb_true_r. Qed.
Lemma app_usable t : 0 < q_app t -> usable t = true.
Proof. unfold usable. intros H. apply Z.ltb_lt in H. now rewrite H. Qed.

(* An enabled call *)
Lemma valid_enabled b k f : inv b -> (k < count b)%nat ->
  (forall v, cell_ok (mode_of (th b) k) (stopped b) v (txs b k) (pipes b (x_pipe (txs b k))) ->
     exists c l, f (get_cell b k) = Ok c /\ moved k (mode_of (th b) k) (stopped b) v (get_cell b k) c l) ->
  exists c, (if Nat.ltb k (count b) then on_cell b k f else Disabled) = Ok (put_cell b k c) /\
    f (get_cell b k) = Ok c /\ inv (put_cell b k c).
Proof.
  intros I K H. destruct (Nat.ltb_spec k (count b)); [|lia]. destruct (H _ (i_cells _ I k K)) as (c & l & E & M).
  exists c. unfold on_cell. rewrite E. split; [reflexivity|]. split; [reflexivity|]. eapply inv_main; eauto.
Qed.

Lemma do_ref b k : inv b -> (k < count b)%nat -> x_cb (txs b k) = CbRunning ->
  exists b', step b (Ref k) = Ok b' /\ inv b' /\ after k b b' [] (q_app (txs b k) + 1) /\ x_cb (txs b' k) = CbRunning.
Proof.
  intros I K R. unfold step.
  destruct (valid_enabled b k (fun c => if usable (c_tx c) then request_ref c else Disabled) I K) as (c & E & F & I').
  - intros v C. change (c_tx (get_cell b k)) with (txs b k). rewrite (running_usable _ R). apply moved_ref; auto.
    exact (running_usable _ R).
  - exists (put_cell b k c). split; [exact E|]. split; [exact I'|].
    change (c_tx (get_cell b k)) with (txs b k) in F. rewrite (running_usable _ R) in F.
    pose proof (effect_ref k _ _ F) as G. split.
    + apply (cell_after _ k) in G. now rewrite Nat.eqb_refl in G.
    + cbn [put_cell txs]. rewrite upd_same. destruct G as (_ & G & _). rewrite G. exact R.
Qed.

Lemma do_block b k : inv b -> (k < count b)%nat -> x_cb (txs b k) = CbRunning ->
  exists b', step b (Block k) = Ok b' /\ inv b' /\ after k b b' [BlockCalled k] (q_app (txs b k)) /\ x_cb (txs b' k) = CbRunning.
Proof.
  intros I K R. unfold step.
  destruct (valid_enabled b k (fun c => if usable (c_tx c) then request_block (say c (BlockCalled k)) else Disabled) I K)
    as (c & E & F & I').
  - intros v C. change (c_tx (get_cell b k)) with (txs b k). rewrite (running_usable _ R). apply moved_block; auto.
    exact (running_usable _ R).
  - exists (put_cell b k c). split; [exact E|]. split; [exact I'|].
    change (c_tx (get_cell b k)) with (txs b k) in F. rewrite (running_usable _ R) in F.
    pose proof (effect_block k _ _ F) as G. split.
    + apply (cell_after _ k) in G. now rewrite Nat.eqb_refl in G.
    + cbn [put_cell txs]. rewrite upd_same. destruct G as (_ & G & _). rewrite G. exact R.
Qed.

Lemma do_return b k a : inv b -> (k < count b)%nat -> x_cb (txs b k) = CbRunning ->
  exists b', step b (Return k a) = Ok b' /\ inv b' /\ after k b b' [HandlerReturned k a] (q_app (txs b k)).
Proof.
  intros I K R. unfold step.
  destruct (valid_enabled b k (fun c => match x_cb (c_tx c) with CbRunning => handle_end k a c | _ => Disabled end) I K)
    as (c & E & F & I').
  - intros v C. change (c_tx (get_cell b k)) with (txs b k). rewrite R. now apply moved_end.
  - exists (put_cell b k c). split; [exact E|]. split; [exact I'|].
    change (c_tx (get_cell b k)) with (txs b k) in F. rewrite R in F.
    pose proof (effect_end k _ _ _ F) as G. apply (cell_after _ k) in G. now rewrite Nat.eqb_refl in G.
Qed.

Lemma do_complete b k a : inv b -> (k < count b)%nat -> 0 < q_app (txs b k) ->
  exists b', step b (Complete k a) = Ok b' /\ inv b' /\ after k b b' [CompleteCalled k a] (q_app (txs b k)).
Proof.
  intros I K R. unfold step.
  destruct (valid_enabled b k (fun c => if usable (c_tx c) then request_complete k a (say c (CompleteCalled k a)) else Disabled) I K)
    as (c & E & F & I').
  - intros v C. change (c_tx (get_cell b k)) with (txs b k). rewrite (app_usable _ R). apply moved_complete; auto.
    exact (app_usable _ R).
  - exists (put_cell b k c). split; [exact E|]. split; [exact I'|].
    change (c_tx (get_cell b k)) with (txs b k) in F. rewrite (app_usable _ R) in F.
    pose proof (effect_complete k _ _ _ F) as G. apply (cell_after _ k) in G. now rewrite Nat.eqb_refl in G.
Qed.

Lemma do_unref b k : inv b -> (k < count b)%nat -> 0 < q_app (txs b k) ->
  exists b', step b (Unref k) = Ok b' /\ inv b' /\ after k b b' [] (q_app (txs b k) - 1).
Proof.
  intros I K R. unfold step. pose proof (proj2 (Z.ltb_lt _ _) R) as RB.
  destruct (valid_enabled b k (fun c => if 0 <? q_app (c_tx c) then req_unref k (put c (q_set_app (c_tx c) (q_app (c_tx c) - 1)))
    else Disabled) I K) as (c & E & F & I').
  - intros v C. change (c_tx (get_cell b k)) with (txs b k). rewrite RB. now apply moved_unref.
  - exists (put_cell b k c). split; [exact E|]. split; [exact I'|].
    change (c_tx (get_cell b k)) with (txs b k) in F. rewrite RB in F.
    pose proof (effect_unref k _ _ F) as G. destruct G as (G1 & G2 & m & G3 & G4 & G5).
    assert (G : effect k (get_cell b k) c [] (q_app (txs b k) - 1) (x_cb (txs b k))).
    { split; [exact G1|]. split; [exact G2|]. exists m. split; [exact G3|]. split; [exact G4|exact G5]. }
    apply (cell_after _ k) in G. now rewrite Nat.eqb_refl in G.
Qed.

(* A transaction which is answered doesn't have a pending callback *)
Lemma answered_not_pending b k : inv b -> (k < count b)%nat -> answered b k = true -> x_cb (txs b k) <> CbPending.
Proof.
  intros I K A CB. unfold answered in A. apply existsb_exists in A as (e & X & A). destruct e; try discriminate.
  apply Nat.eqb_eq in A. subst k0.
  assert (times (is_answer k) (btrace b) <> 0%nat) by (apply answer_in; eauto).
  rewrite (i_once _ I k K) in H. pose proof (ok_state _ _ _ _ _ (i_cells _ I k K)) as S. unfold state_ok in S. rewrite CB in S.
  destruct (x_state (txs b k)); try contradiction. destruct S as (_ & _ & _ & S).
  destruct (mode_of (th b) k); cbn in H; try lia; apply S; auto.
Qed.
