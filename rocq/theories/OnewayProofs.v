(* Proofs for OnewayModel *)
From Verif Require Import Base OnewayModel OnewaySpec OnewayLocal.

Definition started (t : tx) : bool := match t_st t with Scheduled => false | _ => true end.

Lemma act_call t o t1 : act t o = Some t1 -> t_call t1 = t_call t /\ t_freed t1 = t_freed t.
Proof.
  destruct t as [c sg cb st pipe xl xc xr xh dr ct ap cp fw wr fr].
  destruct o; unfold act, in_hand, complete, returned; cbn; intros H;
    repeat match type of H with
    | context [match ?x with _ => _ end] => destruct x; cbn in H; try discriminate H
    end; try discriminate H; injection H as <-; auto.
Qed.

(* The handler is called once, and the request is forwarded once *)
Lemma act_started t o t1 : lok t -> act t o = Some t1 ->
  match o with
  | Run _ => started t = false /\ started t1 = true /\ c_app (t_call t) = true
  | _ => started t1 = started t
  end /\
  match o with
  | Write _ => t_wrote t = false /\ t_wrote t1 = true /\ started t = true
  | _ => t_wrote t1 = t_wrote t
  end.
Proof.
  destruct t as [c sg cb st pipe xl xc xr xh dr ct ap cp fw wr fr]. unfold lok, untouched, started. cbn [t_call t_stage t_cb t_st t_pipe x_looper x_cb x_req x_has t_drv t_ctx t_app t_copies t_fwd t_wrote t_freed].
  intros (E1 & E2 & E3 & E4 & M & F1 & F2). clear E1 E2 E3 E4.
  destruct o; unfold act, in_hand, complete, returned; cbn; intros H;
    repeat match type of H with
    | context [match ?x with _ => _ end] => destruct x; cbn in H, M; clean; subst; try discriminate
    end; try discriminate H; try (injection H as <-); auto.
  all: try specialize (F1 eq_refl).
  all: try (destruct cb); cbn in *; clean; subst; try discriminate; auto; try (destruct st); cbn in *; clean; subst; try discriminate; auto;
    try (destruct xr); cbn in *; clean; try discriminate; auto.
Qed.

(* Data which nobody uses stays unused *)
Lemma act_unused t o t1 : lok t -> data_used t = false -> act t o = Some t1 -> data_used t1 = false /\
  match o with Run _ | Write _ => False | _ => True end.
Proof.
  destruct t as [c sg cb st pipe xl xc xr xh dr ct ap cp fw wr fr]. unfold lok, untouched, data_used, req_alive, tx_alive. cbn [t_call t_stage t_cb t_st t_pipe x_looper x_cb x_req x_has t_drv t_ctx t_app t_copies t_fwd t_wrote t_freed].
  intros (E1 & E2 & E3 & E4 & M & F1 & F2) U.
  apply orb_false_iff in U. destruct U as [U U1]. apply orb_false_iff in U. destruct U as [U U2].
  apply orb_false_iff in U. destruct U as [U U3]. apply orb_false_iff in U. destruct U as [U U4].
  apply orb_false_iff in U. destruct U as [U U5]. subst xl dr ct xc.
  destruct fw; try discriminate. destruct ap; [|discriminate]. destruct cp; [|discriminate].
  destruct sg; try discriminate; cbn in *; [destruct (c_data c); [discriminate|]|];
  (destruct o; unfold act, in_hand, complete, returned; cbn; intros H; try discriminate;
    destruct cb; cbn in *; clean; subst; try discriminate; try (injection H as <-); cbn;
    try rewrite U5; try rewrite U2; cbn; auto;
    destruct st; cbn in *; clean; subst; try discriminate; cbn;
    repeat rewrite andb_false_r in *; repeat rewrite andb_true_r in *; cbn in *; auto; try discriminate;
    destruct xr, xh, (c_app c), (c_data c); cbn in *; auto; try discriminate).
Qed.

Lemma data_used_req t : req_alive t = false -> data_used (set_x_req t false) = data_used t /\ req_alive (set_x_req t false) = false.
Proof.
  unfold data_used. intros H. assert (X : req_alive (set_x_req t false) = false).
  { revert H. unfold req_alive, tx_alive. destruct t as [c sg cb st pipe xl xc xr xh dr ct ap cp fw wr fr]. cbn.
    destruct dr, xl, xc, xr, xh; cbn; auto; try discriminate. }
  rewrite H, X. split; reflexivity.
Qed.

Lemma settle_lok t : lok t -> lok (fst (settle t)).
Proof.
  intros H. unfold settle. assert (X : lok (if req_alive t then t else set_x_req t false)).
  { destruct (req_alive t) eqn:E; [exact H|]. revert H E. unfold lok, untouched, req_alive, tx_alive.
    destruct t as [c sg cb st pipe xl xc xr xh dr ct ap cp fw wr fr]. cbn [t_call t_stage t_cb t_st t_pipe x_looper x_cb x_req x_has t_drv t_ctx t_app t_copies t_fwd t_wrote t_freed set_x_req].
    intros (E1 & E2 & E3 & E4 & M & F1 & F2) E. subst.
    repeat (apply orb_false_iff in E; destruct E as [E ?]). destruct sg; try discriminate; cbn in *;
      (destruct cb; cbn in *; clean; subst; try discriminate; try (destruct st; clean); done_);
      try (rewrite orb_true_r in *; discriminate). }
  set (t1 := if req_alive t then t else set_x_req t false) in *. destruct (t_freed t1); [exact X|]. destruct (data_used t1); [exact X|].
  exact X.
Qed.

Lemma settle_same t : t_call (fst (settle t)) = t_call t /\ started (fst (settle t)) = started t /\ t_wrote (fst (settle t)) = t_wrote t /\
  t_stage (fst (settle t)) = t_stage t /\ t_cb (fst (settle t)) = t_cb t.
Proof.
  unfold settle. set (t1 := if req_alive t then t else set_x_req t false).
  assert (H : t_call t1 = t_call t /\ started t1 = started t /\ t_wrote t1 = t_wrote t /\ t_stage t1 = t_stage t /\ t_cb t1 = t_cb t).
  { unfold t1. destruct (req_alive t); auto. }
  destruct (t_freed t1); [exact H|]. destruct (data_used t1); exact H.
Qed.

(* Data which is used was not given back, and data which isn't used was *)
Definition fin (t : tx) : Prop := t_freed t = negb (data_used t).

Lemma settle_fin t : (t_freed t = true -> data_used t = false) -> fin (fst (settle t)) /\
  snd (settle t) = negb (t_freed t) && negb (data_used t) /\ t_freed (fst (settle t)) = negb (data_used t).
Proof.
  intros H. unfold settle. set (t1 := if req_alive t then t else set_x_req t false).
  assert (A : t_freed t1 = t_freed t) by (unfold t1; destruct (req_alive t); reflexivity).
  assert (B : data_used t1 = data_used t).
  { unfold t1. destruct (req_alive t) eqn:E; [reflexivity|]. exact (proj1 (data_used_req t E)). }
  rewrite A, B. destruct (t_freed t) eqn:E.
  - specialize (H eq_refl). cbn [fst snd]. unfold fin. rewrite A, B, H. auto.
  - destruct (data_used t) eqn:F; cbn [fst snd]; unfold fin; cbn [t_freed set_t_freed].
    + rewrite A, B. auto.
    + replace (data_used (set_t_freed t1 true)) with (data_used t1) by reflexivity. rewrite B. auto.
Qed.

(* Lists *)
Lemma set_nth_at l1 t l2 x : set_nth (l1 ++ t :: l2) (length l1) x = l1 ++ x :: l2.
Proof. induction l1 as [|y l IH]; cbn; [reflexivity|]. rewrite IH. reflexivity. Qed.

Lemma nth_at l k (t : tx) : nth_error l k = Some t -> exists l1 l2, l = l1 ++ t :: l2 /\ k = length l1.
Proof. intros H. apply nth_error_split in H. destruct H as (l1 & l2 & -> & E). eauto. Qed.

Definition freed (t : tx) : Prop := t_freed t = true.

Definition outstanding (n : node) : Prop :=
  if busy n then
    (todo n = [] /\ exists l t, txs n = l ++ [t] /\ Forall freed l /\ t_freed t = false) \/
    (exists c, todo n = [c] /\ Forall freed (txs n))
  else todo n = [] /\ async n = [] /\ Forall freed (txs n).

Record ninv (n : node) (ins : list call) : Prop := {
  i_ins : map t_call (txs n) ++ todo n ++ async n = ins;
  i_ok : Forall lok (txs n);
  i_fin : Forall fin (txs n);
  i_out : outstanding n;
  i_heard : heard n = map t_call (filter started (txs n));
  i_told : told n = map t_call (filter t_wrote (txs n))
}.

Lemma new_ninv : ninv new_node [].
Proof. constructor; cbn; auto. Qed.

Lemma enqueue_ninv n ins c : ninv n ins -> ninv (enqueue n c) (ins ++ [c]).
Proof.
  intros [A B C D E F]. unfold enqueue. unfold outstanding in D. destruct (busy n) eqn:Eb; constructor; cbn; auto.
  - rewrite <- A, !app_assoc. reflexivity.
  - destruct D as (D1 & D2 & _). rewrite <- A, D1, D2. cbn. rewrite app_nil_r. reflexivity.
  - unfold outstanding. cbn. right. destruct D as (-> & _ & D). exists c. cbn. auto.
Qed.

Lemma enqueue_lists n c : heard (enqueue n c) = heard n /\ told (enqueue n c) = told n /\ txs (enqueue n c) = txs n.
Proof. unfold enqueue. destruct (busy n); auto. Qed.

Lemma taken_lok c : lok (taken c).
Proof.
  unfold lok, untouched, taken. cbn. destruct (c_app c), (c_data c); cbn; repeat split; try discriminate.
Qed.

Lemma taken_fin c : c_data c = true -> fin (taken c).
Proof. intros H. unfold fin, taken. cbn. rewrite H. unfold data_used, req_alive. cbn. reflexivity. Qed.

Lemma unfreed_last l1 t l2 n : outstanding n -> txs n = l1 ++ t :: l2 -> t_freed t = false ->
  l2 = [] /\ Forall freed l1 /\ busy n = true /\ todo n = [].
Proof.
  intros D E Ht. assert (X : ~ Forall freed (txs n)).
  { rewrite E. intros Y. apply Forall_app in Y. destruct Y as [_ Y]. inversion Y as [|? ? Z]. subst. unfold freed in Z. congruence. }
  unfold outstanding in D. destruct (busy n); [|tauto]. destruct D as [(D1 & l & u & D2 & D3 & D4)|(c & _ & D)]; [|contradiction].
  rewrite D2 in E. destruct l2 as [|y l2 _] using rev_ind.
  - apply app_inj_tail in E. destruct E as [-> ->]. auto.
  - exfalso. rewrite app_comm_cons, app_assoc in E. apply app_inj_tail in E. destruct E as [-> ->].
    apply Forall_app in D3. destruct D3 as [_ D3]. inversion D3 as [|? ? Z]. subst. unfold freed in Z. congruence.
Qed.

Lemma filter_mid (f : tx -> bool) l1 t t1 l2 : f t1 = f t -> t_call t1 = t_call t ->
  map t_call (filter f (l1 ++ t1 :: l2)) = map t_call (filter f (l1 ++ t :: l2)).
Proof. intros A B. rewrite !filter_app. cbn [filter]. rewrite A. destruct (f t); rewrite ?map_app; cbn [map]; rewrite ?B; reflexivity. Qed.

Lemma filter_last (f : tx -> bool) l t t1 : f t = false -> f t1 = true -> t_call t1 = t_call t ->
  map t_call (filter f (l ++ [t1])) = map t_call (filter f (l ++ [t])) ++ [t_call t].
Proof.
  intros A B C. rewrite !filter_app. cbn [filter]. rewrite A, B. rewrite !map_app. cbn [map]. rewrite C, app_nil_r. reflexivity.
Qed.

Lemma released_lists n : heard (released n) = heard n /\ told (released n) = told n /\ txs (released n) = txs n /\
  todo (released n) ++ async (released n) = todo n ++ async n.
Proof. unfold released. destruct (async n) as [|c r] eqn:E; cbn; auto. rewrite <- app_assoc. auto. Qed.

Lemma put_lists n k t h s : txs (put n k t h s) = set_nth (txs n) k (fst (settle t)) /\ heard (put n k t h s) = heard n ++ h /\
  told (put n k t h s) = told n ++ s /\ todo (put n k t h s) ++ async (put n k t h s) = todo n ++ async n.
Proof.
  unfold put. destruct (snd (settle t)); [|cbn; auto].
  match goal with |- context [released ?x] => destruct (released_lists x) as (A & B & C & D) end.
  rewrite A, B, C, D. auto.
Qed.

Lemma put_ninv n ins k t t1 o : ninv n ins -> nth_error (txs n) k = Some t -> act t o = Some t1 ->
  ninv (put n k t1 (match o with Run _ => [t_call t] | _ => [] end) (match o with Write _ => [t_call t] | _ => [] end)) ins.
Proof.
  intros [A B C D E F] Hk Ha. destruct (nth_at _ _ _ Hk) as (l1 & l2 & Et & ->).
  destruct (put_lists n (length l1) t1 (match o with Run _ => [t_call t] | _ => [] end) (match o with Write _ => [t_call t] | _ => [] end)) as (P1 & P2 & P3 & P4).
  rewrite Et, set_nth_at in P1. rewrite Et in A, B, C, E, F.
  apply Forall_app in B. destruct B as [B1 B2]. inversion B2 as [|? ? B3 B4]; subst.
  apply Forall_app in C. destruct C as [C1 C2]. inversion C2 as [|? ? C3 C4]; subst.
  destruct (act_call _ _ _ Ha) as [Hc Hf]. pose proof (act_lok _ _ _ B3 Ha) as L1.
  destruct (act_started _ _ _ B3 Ha) as [S1 S2]. destruct (settle_same t1) as (T1 & T2 & T3 & _).
  assert (Hu : t_freed t1 = true -> data_used t1 = false).
  { rewrite Hf. unfold fin in C3. rewrite C3. intros X. apply negb_true_iff in X. exact (proj1 (act_unused _ _ _ B3 X Ha)). }
  destruct (settle_fin t1 Hu) as (V1 & V2 & V3). set (t2 := fst (settle t1)) in *.
  assert (Hnone : t_freed t = true -> match o with Run _ | Write _ => False | _ => True end).
  { unfold fin in C3. rewrite C3. intros X. apply negb_true_iff in X. exact (proj2 (act_unused _ _ _ B3 X Ha)). }
  assert (Hlast : t_freed t = false -> l2 = [] /\ Forall freed l1 /\ busy n = true /\ todo n = []) by (intros X; eapply unfreed_last; eauto).
  constructor.
  - rewrite P1, P4, !map_app. cbn [map]. rewrite T1, Hc. reflexivity.
  - rewrite P1. apply Forall_app. split; [exact B1|]. constructor; [exact (settle_lok _ L1)|exact B4].
  - rewrite P1. apply Forall_app. split; [exact C1|]. constructor; [exact V1|exact C4].
  - destruct (t_freed t) eqn:Ef.
    + assert (X : snd (settle t1) = false) by (rewrite V2, Hf; reflexivity). unfold put. rewrite X.
      assert (G : t_freed t2 = true) by (rewrite V3, (Hu Hf); reflexivity).
      assert (Hfr : forall l, Forall freed (l1 ++ t :: l) -> Forall freed (l1 ++ t2 :: l)).
      { intros l Y. apply Forall_app in Y. destruct Y as [Y1 Y2]. inversion Y2; subst. apply Forall_app. split; [exact Y1|]. constructor; [exact G|assumption]. }
      unfold outstanding in *. cbn [busy todo async txs]. rewrite Et, set_nth_at. fold t2.
      destruct (busy n).
      * destruct D as [(D1 & l & u & D2 & D3 & D4)|(c & D1 & D2)]; [left|right; exists c; split; [exact D1|apply Hfr; rewrite <- Et; exact D2]].
        split; [exact D1|]. rewrite Et in D2. destruct l2 as [|y l2 _] using rev_ind.
        -- apply app_inj_tail in D2. destruct D2 as [-> ->]. congruence.
        -- rewrite app_comm_cons, app_assoc in D2. apply app_inj_tail in D2. destruct D2 as [<- ->].
           exists (l1 ++ t2 :: l2), u. rewrite <- app_assoc. split; [reflexivity|]. split; [apply Hfr; exact D3|exact D4].
      * destruct D as (D1 & D2 & D3). split; [exact D1|]. split; [exact D2|]. apply Hfr. rewrite <- Et. exact D3.
    + destruct (Hlast eq_refl) as (-> & Y1 & Y2 & Y3). unfold put. destruct (snd (settle t1)) eqn:Es.
      * assert (G : t_freed t2 = true).
        { symmetry in V2. apply andb_true_iff in V2. rewrite V3. exact (proj2 V2). }
        assert (Z : Forall freed (l1 ++ [t2])) by (apply Forall_app; split; [exact Y1|]; constructor; [exact G|constructor]).
        unfold released, outstanding. cbn [async].
        destruct (async n) as [|c r]; cbn [busy todo async txs app]; rewrite Et, set_nth_at, Y3, ?Y2; fold t2.
        -- auto.
        -- right. exists c. auto.
      * assert (G : t_freed t2 = false).
        { rewrite V3. rewrite Hf in V2. cbn in V2. symmetry. exact V2. }
        unfold outstanding. cbn [async busy todo txs]. rewrite Et, set_nth_at, Y2. fold t2. left. split; [exact Y3|]. exists l1, t2. auto.
  - rewrite P1, P2, E. destruct o; rewrite ?app_nil_r; try (symmetry; apply filter_mid; congruence).
    destruct S1 as (S1 & S3 & _). destruct (t_freed t) eqn:Ef; [destruct (Hnone eq_refl)|]. destruct (Hlast eq_refl) as (-> & _).
    symmetry. apply filter_last; congruence.
  - rewrite P1, P3, F. destruct o; rewrite ?app_nil_r; try (symmetry; apply filter_mid; congruence).
    destruct S2 as (S2 & S3 & _). destruct (t_freed t) eqn:Ef; [destruct (Hnone eq_refl)|]. destruct (Hlast eq_refl) as (-> & _).
    symmetry. apply filter_last; congruence.
Qed.

Lemma nstep_ninv n ins o n1 : ninv n ins -> (forall c, In c ins -> c_data c = true) -> nstep n o = Some n1 -> ninv n1 ins.
Proof.
  intros I Hd E. destruct o; cbn [nstep] in E;
    try (destruct (nth_error (txs n) _) as [t|] eqn:Ek; [|discriminate]; destruct (act t _) as [t1|] eqn:Ea; [|discriminate];
         injection E as <-; exact (put_ninv _ _ _ _ _ _ I Ek Ea)).
  destruct I as [A B C D Eh F]. destruct (todo n) as [|c r] eqn:Et; [discriminate|].
  assert (Hc : c_data c = true). { apply Hd. rewrite <- A. apply in_or_app. right. left. reflexivity. }
  rewrite Hc in E. injection E as <-. unfold outstanding in D. rewrite Et in D.
  destruct (busy n) eqn:Eb; [|destruct D; discriminate]. destruct D as [(D & _)|(c1 & D1 & D2)]; [discriminate|]. injection D1 as -> ->.
  constructor; cbn [txs todo async heard told].
  - rewrite <- A, map_app. cbn [map app taken t_call]. rewrite <- app_assoc. reflexivity.
  - apply Forall_app. split; [exact B|]. constructor; [apply taken_lok|constructor].
  - apply Forall_app. split; [exact C|]. constructor; [apply taken_fin; exact Hc|constructor].
  - unfold outstanding. cbn [busy todo async txs]. left. split; [reflexivity|]. exists (txs n), (taken c1).
    split; [reflexivity|]. split; [exact D2|]. cbn. rewrite Hc. reflexivity.
  - rewrite filter_app, Eh. cbn. rewrite app_nil_r. reflexivity.
  - rewrite filter_app, F. cbn. rewrite app_nil_r. reflexivity.
Qed.
