(* Proofs for OnewayModel: all of it *)
From Verif Require Import Base OnewayModel OnewaySpec OnewayLocal OnewayProofs.

Lemma inside_refl {A} (l : list A) : inside l l.
Proof. induction l; constructor; assumption. Qed.

Lemma inside_trans {A} (b c : list A) : inside b c -> forall a, inside a b -> inside a c.
Proof.
  induction 1 as [m|x l m H IH|x l m H IH]; intros a Ha.
  - inversion Ha. constructor.
  - inversion Ha; subst; [constructor|apply in_same; auto|apply in_more; auto].
  - apply in_more. auto.
Qed.

Lemma inside_app_r {A} (a b c : list A) : inside a b -> inside a (b ++ c).
Proof. induction 1; cbn; constructor; assumption. Qed.

Lemma inside_filter {A} (f : A -> bool) (a b : list A) : inside a b -> inside (filter f a) (filter f b).
Proof.
  induction 1 as [m|x l m H IH|x l m H IH]; cbn; [constructor| |]; destruct (f x); auto; apply in_same || apply in_more; auto.
Qed.

Lemma inside_map_filter {A B} (g : A -> B) (f : A -> bool) (l : list A) : inside (map g (filter f l)) (map g l).
Proof. induction l as [|x l IH]; cbn; [constructor|]. destruct (f x); cbn; constructor; exact IH. Qed.

Lemma inside_map_filter2 {A B} (g : A -> B) (f1 f2 : A -> bool) (l : list A) :
  (forall x, In x l -> f1 x = true -> f2 x = true) -> inside (map g (filter f1 l)) (map g (filter f2 l)).
Proof.
  induction l as [|x l IH]; intros H; cbn; [constructor|]. specialize (IH (fun y Hy => H y (or_intror Hy))).
  specialize (H x (or_introl eq_refl)). destruct (f1 x); cbn; [rewrite H by reflexivity; cbn; apply in_same; exact IH|].
  destruct (f2 x); cbn; [apply in_more|]; exact IH.
Qed.

Lemma inside_in {A} (a b : list A) : inside a b -> forall x, In x a -> In x b.
Proof. induction 1 as [m|x l m H IH|x l m H IH]; intros y Hy; cbn in *; [contradiction|destruct Hy; auto|auto]. Qed.

(* One object *)
Lemma wrote_started t : lok t -> t_wrote t = true -> started t = true.
Proof.
  unfold lok, untouched, started. destruct t as [c sg cb st pipe xl xc xr xh dr ct ap cp fw wr fr]. cbn.
  intros (_ & _ & _ & _ & M & _ & _) ->. destruct cb; clean; try discriminate; destruct st; clean; try discriminate; reflexivity.
Qed.

Lemma started_app t : lok t -> started t = true -> c_app (t_call t) = true.
Proof.
  unfold lok, untouched, started. destruct t as [c sg cb st pipe xl xc xr xh dr ct ap cp fw wr fr]. cbn.
  intros (_ & _ & _ & _ & M & _ & _) H. destruct cb; clean; try discriminate; auto; destruct st; clean; try discriminate; auto.
Qed.

Lemma heard_inside n ins : ninv n ins -> inside (heard n) ins.
Proof.
  intros [A _ _ _ E _]. rewrite E, <- A. apply inside_app_r. apply inside_map_filter.
Qed.

Lemma told_inside n ins : ninv n ins -> inside (told n) (heard n).
Proof.
  intros [A B _ _ E F]. rewrite E, F. apply inside_map_filter2. rewrite Forall_forall in B. intros x Hx. exact (wrote_started x (B x Hx)).
Qed.

Definition ns (t : tx) : Prop := c_app (t_call t) = true -> started t = true \/ t_stage t = SWait1.

Lemma act_ns t o t1 : lok t -> ns t -> (forall k, o <> Stop k) -> act t o = Some t1 -> ns t1.
Proof.
  intros L N Ho Ha. destruct (act_started _ _ _ L Ha) as [S1 _]. destruct (act_call _ _ _ Ha) as [Hc _].
  unfold ns in *. rewrite Hc. intros Happ. specialize (N Happ).
  destruct o; try (destruct S1 as (_ & S1 & _); left; exact S1);
    rewrite S1; destruct N as [N|N]; auto; clear S1.
  all: unfold act in Ha; cbn in Ha; rewrite ?N in Ha; try discriminate Ha; try (destruct (Ho _ eq_refl)).
  all: try (right; unfold complete, returned in Ha;
    repeat match type of Ha with context [match ?x with _ => _ end] => destruct x end;
    try discriminate Ha; injection Ha as <-; exact N).
  destruct (t_pipe t) as [|x r] eqn:Ep; [discriminate|]. clear Ha. left. revert L Ep N. unfold lok, untouched, started.
  destruct t as [c sg cb st pipe xl xc xr xh dr ct ap cp fw wr fr]. cbn. intros (_ & _ & _ & _ & M & _ & _) -> ->.
  destruct cb; clean; try discriminate; destruct st; clean; try discriminate; reflexivity.
Qed.

Lemma settle_ns t : ns t -> ns (fst (settle t)).
Proof. destruct (settle_same t) as (A & B & _ & C & _). unfold ns. rewrite A, B, C. auto. Qed.

Lemma nstep_ns n ins o n1 : ninv n ins -> Forall ns (txs n) -> (forall k, o <> Stop k) -> nstep n o = Some n1 -> Forall ns (txs n1).
Proof.
  intros I N Ho E. destruct o; cbn [nstep] in E;
    try (destruct (nth_error (txs n) _) as [t|] eqn:Ek; [|discriminate]; destruct (act t _) as [t1|] eqn:Ea; [|discriminate];
         injection E as <-;
         match goal with |- context [put n ?k t1 ?h ?s] => destruct (put_lists n k t1 h s) as (P & _) end; rewrite P;
         destruct (nth_at _ _ _ Ek) as (l1 & l2 & Et & Hk); cbn [of_call] in *; rewrite Et, Hk, set_nth_at; rewrite Et in N;
         apply Forall_app in N; destruct N as [N1 N2]; inversion N2 as [|? ? N3 N4]; subst;
         pose proof (i_ok _ _ I) as B; rewrite Et in B; apply Forall_app in B; destruct B as [_ B]; inversion B as [|? ? B3 _]; subst;
         apply Forall_app; split; [exact N1|]; constructor; [apply settle_ns; exact (act_ns _ _ _ B3 N3 Ho Ea)|exact N4]).
  destruct (todo n) as [|c r]; [discriminate|].
  assert (X : Forall ns (txs n ++ [taken c])).
  { apply Forall_app. split; [exact N|]. constructor; [|constructor]. unfold ns, taken. cbn. intros ->. auto. }
  destruct (c_data c); injection E as <-; [exact X|].
  match goal with |- context [released ?x] => destruct (released_lists x) as (_ & _ & R & _) end. rewrite R. exact X.
Qed.

Lemma freed_handled t : lok t -> fin t -> ns t -> t_freed t = true -> started t = c_app (t_call t).
Proof.
  intros L F N Hf. destruct (started t) eqn:Es; [symmetry; exact (started_app t L Es)|].
  destruct (c_app (t_call t)) eqn:Ea; [|reflexivity]. exfalso. destruct (N Ea) as [X|X]; [congruence|].
  unfold fin in F. rewrite Hf in F. symmetry in F. apply negb_true_iff in F. unfold data_used, req_alive in F.
  destruct L as (_ & L & _). rewrite X in L. cbn in L. rewrite L in F. discriminate.
Qed.

Lemma filter_calls l : Forall lok l -> Forall fin l -> Forall ns l -> Forall freed l ->
  map t_call (filter started l) = filter c_app (map t_call l).
Proof.
  induction l as [|t l IH]; intros A B C D; cbn; [reflexivity|]. inversion A; inversion B; inversion C; inversion D; subst.
  rewrite (freed_handled t) by assumption. destruct (c_app (t_call t)); cbn; rewrite IH by assumption; reflexivity.
Qed.

Lemma heard_begins n ins : ninv n ins -> Forall ns (txs n) -> begins (heard n) (filter c_app ins).
Proof.
  intros [A B C D E F] N. rewrite E, <- A, !filter_app. unfold begins.
  assert (X : Forall freed (txs n) \/ exists l t, txs n = l ++ [t] /\ Forall freed l).
  { unfold outstanding in D. destruct (busy n); [destruct D as [(_ & l & t & D1 & D2 & _)|(c & _ & D)]|destruct D as (_ & _ & D)]; eauto. }
  destruct X as [X|(l & t & Et & X)].
  - rewrite (filter_calls (txs n)) by assumption. eauto.
  - rewrite Et in *. apply Forall_app in B. destruct B as [B1 B2]. apply Forall_app in C. destruct C as [C1 C2].
    apply Forall_app in N. destruct N as [N1 N2]. inversion B2 as [|? ? B3 _]; subst.
    rewrite filter_app, !map_app, filter_app, (filter_calls l) by assumption. cbn [filter map].
    destruct (started t) eqn:Es.
    + rewrite (started_app t B3 Es). cbn [map]. exists (filter c_app (todo n) ++ filter c_app (async n)). reflexivity.
    + cbn [map app]. rewrite app_nil_r, <- app_assoc. eauto.
Qed.

(* Something is left to be done by the library *)
Lemma tx_progress t k : lok t -> fin t -> t_freed t = false ->
  t_cb t <> CbRunning -> t_app t = 0%nat -> t_copies t = 0%nat -> ~ (t_st t = Blocked /\ t_fwd t = FNone) ->
  exists o, own o = true /\ of_call o = k /\ o <> Take /\ act t o <> None.
Proof.
  unfold lok, untouched, fin, data_used, req_alive, tx_alive. destruct t as [c sg cb st pipe xl xc xr xh dr ct ap cp fw wr fr].
  cbn [t_call t_stage t_cb t_st t_pipe x_looper x_cb x_req x_has t_drv t_ctx t_app t_copies t_fwd t_wrote t_freed].
  intros (E1 & E2 & E3 & E4 & M & F1 & F2) F Hf H1 -> -> H4. rewrite Hf in F. clear Hf. subst xl dr ct xc.
  destruct cb; [exists (Run k); cbn; repeat split; discriminate|congruence| |].
  - exists (CbDone k). cbn. repeat split; discriminate.
  - destruct fw; [|exists (Write k); cbn; repeat split; discriminate|exists (Replied k); cbn; repeat split; discriminate
      |exists (Destroyed k); cbn; repeat split; discriminate|exists (Destroyed k); cbn; repeat split; discriminate].
    assert (Hst : st <> Blocked) by (intros ->; apply H4; auto).
    destruct sg; cbn in *.
    + destruct st; clean; try discriminate; try congruence. destruct H2 as [-> | ->]; exists (Wake k); cbn; repeat split; discriminate.
    + destruct st; clean; try discriminate; try congruence. subst pipe. exists (Wake k); cbn; repeat split; discriminate.
    + exists (Drop k); cbn; repeat split; discriminate.
    + exists (Cancel k); cbn; repeat split; discriminate.
    + exists (Finish k); cbn; repeat split; discriminate.
    + exists (Cleanup k); cbn; repeat split; discriminate.
    + exfalso. rewrite !andb_false_r in F. cbn in F. destruct st; clean; subst; try congruence; cbn in F;
      rewrite ?andb_false_r, ?andb_true_r in F; cbn in F; congruence.
Qed.

Lemma node_progress n ins : ninv n ins -> Forall ns (txs n) -> content n ->
  heard n = filter c_app ins \/ exists o n1, own o = true /\ nstep n o = Some n1.
Proof.
  intros I N Hc. pose proof I as [A B C D E F]. unfold outstanding in D. destruct (busy n).
  - right. destruct D as [(D1 & l & t & D2 & D3 & D4)|(c & D1 & D2)].
    + assert (Hin : In t (txs n)) by (rewrite D2; apply in_or_app; right; left; reflexivity).
      rewrite Forall_forall in B, C. destruct (Hc t Hin) as (X1 & X2 & X3 & X4).
      destruct (tx_progress t (length l) (B _ Hin) (C _ Hin) D4 X1 X2 X3 X4) as (o & O1 & O2 & O3 & O4).
      exists o. assert (Hn : nth_error (txs n) (of_call o) = Some t).
      { rewrite D2, O2, nth_error_app2, Nat.sub_diag by lia. reflexivity. }
      destruct (act t o) as [t1|] eqn:Ea; [|congruence].
      destruct o; try congruence; cbn [nstep of_call] in *; rewrite Hn, Ea; eexists; split; try reflexivity; exact O1.
    + exists Take. cbn [nstep]. rewrite D1. eexists. split; reflexivity.
  - left. destruct D as (D1 & D2 & D3). rewrite E, <- A, D1, D2. cbn. rewrite app_nil_r. apply filter_calls; assumption.
Qed.

(* It isn't endless *)
Definition wstage (s : stage) : nat := match s with SWait1 => 6 | SWait2 => 5 | SDrop => 4 | SCancel => 3 | SFinish => 2 | SCleanup => 1 | SOver => 0 end.
Definition wcb (c : cbst) : nat := match c with CbPending => 3 | CbRunning => 2 | CbReturned => 1 | CbGone => 0 end.
Definition wfwd (f : fwd) : nat := match f with FQueued => 3 | FWritten => 2 | FReplied => 1 | FSkipped => 1 | FNone => 0 end.
Definition wtx (t : tx) : nat := wstage (t_stage t) + wcb (t_cb t) + wfwd (t_fwd t).
Definition weight (n : node) : nat := 12 * length (async n) + 11 * length (todo n) + list_sum (map wtx (txs n)).

Lemma act_weight t o t1 : own o = true -> act t o = Some t1 -> (wtx t1 < wtx t)%nat.
Proof.
  destruct t as [c sg cb st pipe xl xc xr xh dr ct ap cp fw wr fr]. unfold wtx.
  destruct o; try discriminate; intros _; unfold act, complete; cbn; try discriminate; intros H;
    repeat match type of H with context [match ?x with _ => _ end] => destruct x; cbn in H; try discriminate H end;
    injection H as <-; cbn; lia.
Qed.

Lemma settle_weight t : wtx (fst (settle t)) = wtx t.
Proof.
  unfold settle. set (t1 := if req_alive t then t else set_x_req t false).
  assert (X : wtx t1 = wtx t) by (unfold t1; destruct (req_alive t); reflexivity).
  destruct (t_freed t1); [exact X|]. destruct (data_used t1); exact X.
Qed.

Lemma released_weight n : (weight (released n) <= weight n)%nat.
Proof. unfold released, weight. destruct (async n) as [|c r]; cbn [async todo txs length]; [lia|]. rewrite app_length. cbn [length]. lia. Qed.

Lemma nstep_weight n o n1 : own o = true -> nstep n o = Some n1 -> (weight n1 < weight n)%nat.
Proof.
  intros Ho E. destruct o; try discriminate Ho; cbn [nstep] in E;
    try (destruct (nth_error (txs n) _) as [t|] eqn:Ek; [|discriminate]; destruct (act t _) as [t1|] eqn:Ea; [|discriminate];
         injection E as <-; pose proof (act_weight _ _ _ Ho Ea) as W; destruct (nth_at _ _ _ Ek) as (l1 & l2 & Et & Hk);
         match goal with |- (weight (put n ?k t1 ?h ?s) < _)%nat =>
           assert (X : (weight {| busy := busy n; async := async n; todo := todo n; txs := set_nth (txs n) k (fst (settle t1));
               heard := heard n ++ h; told := told n ++ s |} < weight n)%nat) end;
         [unfold weight; cbn [async todo txs]; cbn [of_call] in *; rewrite Et, Hk, set_nth_at, !map_app, !list_sum_app; cbn [map list_sum fold_right];
          rewrite settle_weight; unfold list_sum; lia
         |unfold put; destruct (snd (settle t1)); [|exact X]; eapply Nat.le_lt_trans; [apply released_weight|exact X]]).
  destruct (todo n) as [|c r] eqn:Et; [discriminate|]. injection E as <-.
  match goal with |- context [if c_data c then ?x else released ?x] =>
    assert (X : (weight x < weight n)%nat) end.
  { unfold weight. cbn [async todo txs]. rewrite Et, map_app, list_sum_app. cbn. unfold wtx. cbn. destruct (c_app c); cbn; lia. }
  destruct (c_data c); [exact X|]. eapply Nat.le_lt_trans; [apply released_weight|exact X].
Qed.

(* One at a time *)
Lemma deals_used t : lok t -> fin t -> deals t -> t_freed t = false.
Proof.
  unfold lok, fin, deals, data_used, req_alive, tx_alive. intros (_ & _ & _ & L & M & _) F D. rewrite F. apply negb_false_iff.
  destruct D as [D|[D|[D|D]]].
  - rewrite D in L, M. cbn in L. destruct M as (_ & M & _). rewrite L, M. cbn. rewrite ?orb_true_r. cbn. rewrite ?orb_true_r. reflexivity.
  - apply Nat.ltb_lt in D. rewrite D, ?orb_true_r. cbn. rewrite ?orb_true_r. reflexivity.
  - apply Nat.ltb_lt in D. rewrite D, ?orb_true_r. cbn. rewrite ?orb_true_r. reflexivity.
  - destruct (t_fwd t); [congruence|..]; rewrite ?orb_true_r; cbn; rewrite ?orb_true_r; reflexivity.
Qed.

Lemma unfreed_unique n ins k1 k2 t1 t2 : ninv n ins -> nth_error (txs n) k1 = Some t1 -> nth_error (txs n) k2 = Some t2 ->
  t_freed t1 = false -> t_freed t2 = false -> k1 = k2.
Proof.
  intros I H1 H2 F1 F2. pose proof (i_out _ _ I) as D. destruct (nth_at _ _ _ H1) as (a & b & E & ->).
  destruct (unfreed_last _ _ _ _ D E F1) as (-> & Fa & _). rewrite E in H2.
  destruct (Nat.lt_ge_cases k2 (length a)) as [L|L].
  - rewrite nth_error_app1 in H2 by exact L. apply nth_error_In in H2. rewrite Forall_forall in Fa. specialize (Fa _ H2). unfold freed in Fa. congruence.
  - rewrite nth_error_app2 in H2 by exact L. destruct (k2 - length a)%nat eqn:Ek; [lia|]. cbn in H2. destruct n0; discriminate.
Qed.

Lemma one_deal n ins k1 k2 t1 t2 : ninv n ins -> nth_error (txs n) k1 = Some t1 -> nth_error (txs n) k2 = Some t2 ->
  deals t1 -> deals t2 -> k1 = k2.
Proof.
  intros I H1 H2 D1 D2. pose proof (i_ok _ _ I) as B. pose proof (i_fin _ _ I) as C. rewrite Forall_forall in B, C.
  apply (unfreed_unique _ _ _ _ _ _ I H1 H2); apply deals_used; auto; (apply B || apply C); eapply nth_error_In; eauto.
Qed.

Lemma others_wait n ins k t : ninv n ins -> nth_error (txs n) k = Some t -> deals t -> forall i, nstep n (Run i) = None.
Proof.
  intros I Hk D i. cbn [nstep of_call]. destruct (nth_error (txs n) i) as [u|] eqn:Ei; [|reflexivity].
  cbn [act]. destruct (t_cb u) eqn:Ec; try reflexivity. exfalso.
  pose proof (i_ok _ _ I) as B. pose proof (i_fin _ _ I) as C. rewrite Forall_forall in B, C.
  assert (Lu : lok u) by (apply B; eapply nth_error_In; eauto). assert (Fu : fin u) by (apply C; eapply nth_error_In; eauto).
  assert (Hu : t_freed u = false).
  { destruct Lu as (_ & _ & _ & L & M & _). rewrite Ec in L, M. destruct M as (_ & M & _). unfold fin in Fu. rewrite Fu.
    unfold data_used, req_alive, tx_alive. rewrite L, M. cbn. rewrite ?orb_true_r. cbn. rewrite ?orb_true_r. reflexivity. }
  assert (k = i).
  { apply (unfreed_unique _ _ _ _ _ _ I Hk Ei); [|exact Hu]. apply deals_used; [apply B|apply C|exact D]; eapply nth_error_In; eauto. }
  subst i. rewrite Hk in Ei. injection Ei as ->. destruct Lu as (_ & _ & _ & _ & M & _). rewrite Ec in M.
  destruct M as (_ & _ & (_ & _ & _ & _ & M1 & M2 & M3) & _). destruct D as [D|[D|[D|D]]]; [congruence|lia|lia|congruence].
Qed.

(* All objects *)
Record winv (w : world) : Prop := {
  w_nodes : forall j, ninv (nodes w j) (given w j);
  w_data : forall c, In c (wire w ++ queue w ++ working w) -> c_data c = true;
  w_async : forall c, In c (queue w ++ working w) -> c_sync c = false
}.

Lemma given_inside w : winv w -> forall j, inside (given w j) (wire w).
Proof.
  intros W. induction j as [|j IH]; cbn [given]; [apply inside_refl|].
  eapply inside_trans; [exact IH|]. eapply inside_trans; [apply heard_inside; apply (w_nodes _ W j)|]. eapply told_inside. apply (w_nodes _ W j).
Qed.

Lemma given_data w : winv w -> forall j c, In c (given w j) -> c_data c = true.
Proof.
  intros W j c H. apply (w_data _ W). apply in_or_app. left. exact (inside_in _ _ (given_inside w W j) c H).
Qed.

Lemma start_winv : winv start.
Proof. constructor; cbn; try contradiction. intros [|j]; exact new_ninv. Qed.

Lemma nstep_told n o n1 : nstep n o = Some n1 ->
  told n1 = match o, nth_error (txs n) (of_call o) with Write _, Some t => told n ++ [t_call t] | _, _ => told n end.
Proof.
  intros E. destruct o; cbn [nstep] in E;
    try (destruct (nth_error (txs n) _) as [t|] eqn:Ek; [|discriminate]; destruct (act t _) as [t1|] eqn:Ea; [|discriminate];
         injection E as <-;
         match goal with |- context [put n ?k t1 ?h ?s] => destruct (put_lists n k t1 h s) as (_ & _ & P & _) end; rewrite P;
         cbn [of_call]; rewrite ?app_nil_r; reflexivity).
  destruct (todo n) as [|c r]; [discriminate|]. injection E as <-. destruct (c_data c); [reflexivity|].
  match goal with |- context [released ?x] => destruct (released_lists x) as (_ & R & _) end. exact R.
Qed.

Lemma set_node_same f j n : set_node f j n j = n.
Proof. unfold set_node. rewrite Nat.eqb_refl. reflexivity. Qed.
Lemma set_node_other f j n i : i <> j -> set_node f j n i = f i.
Proof. unfold set_node. intros H. apply Nat.eqb_neq in H. rewrite H. reflexivity. Qed.

Definition has_data (v : move) : Prop := match v with Call c | Async c => c_data c = true | _ => True end.

Lemma send_nodes w c j : winv w ->
  ninv (set_node (nodes w) 0 (enqueue (nodes w 0%nat) c) j)
    (given {| queue := queue w; working := working w; wire := wire w ++ [c]; nodes := set_node (nodes w) 0 (enqueue (nodes w 0%nat) c) |} j).
Proof.
  intros W. destruct j as [|j]; cbn [given wire nodes].
  - rewrite set_node_same. apply enqueue_ninv. exact (w_nodes _ W 0%nat).
  - rewrite (set_node_other _ 0 _ (S j)) by discriminate. pose proof (w_nodes _ W (S j)) as H. cbn [given] in H.
    destruct (Nat.eq_dec j 0) as [->|Hj]; [rewrite set_node_same, (proj1 (proj2 (enqueue_lists _ _)))|rewrite set_node_other by exact Hj]; exact H.
Qed.

Lemma in_remove {A} (l : list A) : forall i x, In x (remove_nth l i) -> In x l.
Proof. induction l as [|y l IH]; intros [|i] x; cbn; auto. intros [H|H]; [auto|right; eapply IH; eauto]. Qed.

Lemma moves_winv w v w1 : winv w -> has_data v -> moves w v = Some w1 -> winv w1.
Proof.
  intros W Hd E. destruct v as [c|c| |i|j o]; cbn [moves] in E.
  - destruct (c_sync c); [|discriminate]. injection E as <-. constructor; cbn [nodes queue working wire].
    + intros j. exact (send_nodes w c j W).
    + intros x Hx. rewrite <- app_assoc in Hx. apply in_app_or in Hx. destruct Hx as [Hx|[<-|Hx]]; [|exact Hd|]; apply (w_data _ W); apply in_or_app; auto.
    + exact (w_async _ W).
  - destruct (c_sync c) eqn:Ec; [discriminate|]. injection E as <-. constructor; cbn [nodes queue working wire].
    + exact (w_nodes _ W).
    + intros x Hx. apply in_app_or in Hx. destruct Hx as [Hx|Hx]; [apply (w_data _ W); apply in_or_app; auto|].
      rewrite <- app_assoc in Hx. apply in_app_or in Hx. destruct Hx as [Hx|[<-|Hx]]; [|exact Hd|]; apply (w_data _ W); apply in_or_app; right; apply in_or_app; auto.
    + intros x Hx. rewrite <- app_assoc in Hx. apply in_app_or in Hx. destruct Hx as [Hx|[<-|Hx]]; [|exact Ec|]; apply (w_async _ W); apply in_or_app; auto.
  - destruct (queue w) as [|c r] eqn:Eq; [discriminate|]. destruct (Nat.ltb _ _); [|discriminate]. injection E as <-.
    constructor; cbn [nodes queue working wire].
    + exact (w_nodes _ W).
    + intros x Hx. apply (w_data _ W). rewrite Eq. rewrite !in_app_iff in *. cbn in *. tauto.
    + intros x Hx. apply (w_async _ W). rewrite Eq. rewrite !in_app_iff in *. cbn in *. tauto.
  - destruct (nth_error (working w) i) as [c|] eqn:Ei; [|discriminate]. injection E as <-. apply nth_error_In in Ei.
    constructor; cbn [nodes queue working wire].
    + intros j. exact (send_nodes w c j W).
    + intros x Hx. apply (w_data _ W). rewrite !in_app_iff in *. cbn in Hx. destruct Hx as [[Hx|[<-|[]]]|[Hx|Hx]]; auto. right. right. eapply in_remove; eauto.
    + intros x Hx. apply (w_async _ W). rewrite !in_app_iff in *. destruct Hx as [Hx|Hx]; auto. right. eapply in_remove; eauto.
  - destruct (nstep (nodes w j) o) as [n|] eqn:En; [|discriminate]. injection E as <-.
    constructor; cbn [nodes queue working wire]; [|exact (w_data _ W)|exact (w_async _ W)].
    pose proof (nstep_ninv _ _ _ _ (w_nodes _ W j) (given_data w W j) En) as I1. pose proof (nstep_told _ _ _ En) as T.
    assert (Plain : told n = told (nodes w j) -> forall i, ninv (set_node (nodes w) j n i)
      (given {| queue := queue w; working := working w; wire := wire w; nodes := set_node (nodes w) j n |} i)).
    { intros Ht i. assert (G : given {| queue := queue w; working := working w; wire := wire w; nodes := set_node (nodes w) j n |} i = given w i).
      { destruct i as [|i]; cbn [given nodes wire]; [reflexivity|]. destruct (Nat.eq_dec i j) as [->|Hi]; [rewrite set_node_same; exact Ht|rewrite set_node_other by exact Hi; reflexivity]. }
      rewrite G. destruct (Nat.eq_dec i j) as [->|Hi]; [rewrite set_node_same; exact I1|rewrite set_node_other by exact Hi; exact (w_nodes _ W i)]. }
    destruct o; try (apply Plain; exact T). cbn [of_call] in *. destruct (nth_error (txs (nodes w j)) k) as [t|] eqn:Ek; [|apply Plain; exact T].
    rewrite (set_node_other _ j n (S j)) by lia. intros i. set (g := set_node (set_node (nodes w) j n) (S j) (enqueue (nodes w (S j)) (t_call t))).
    assert (Hs : g (S j) = enqueue (nodes w (S j)) (t_call t)) by apply set_node_same.
    assert (Hj : g j = n) by (unfold g; rewrite set_node_other by lia; apply set_node_same).
    assert (Ho : forall x, x <> j -> x <> S j -> g x = nodes w x) by (intros x X1 X2; unfold g; rewrite set_node_other by exact X2; apply set_node_other; exact X1).
    destruct (Nat.eq_dec i (S j)) as [->|Hi].
    + rewrite Hs. cbn [given nodes]. fold g. rewrite Hj, T. apply enqueue_ninv. exact (w_nodes _ W (S j)).
    + assert (G : given {| queue := queue w; working := working w; wire := wire w; nodes := g |} i = given w i).
      { destruct i as [|i]; cbn [given nodes wire]; [reflexivity|]. destruct (Nat.eq_dec i (S j)) as [->|X]; [rewrite Hs; apply enqueue_lists|].
        rewrite Ho by lia. reflexivity. }
      rewrite G. destruct (Nat.eq_dec i j) as [->|X]; [rewrite Hj; exact I1|rewrite Ho by assumption; exact (w_nodes _ W i)].
Qed.

Lemma happens_winv h : forall w w1, winv w -> Forall has_data h -> happens w h = Some w1 -> winv w1.
Proof.
  induction h as [|v h IH]; intros w w1 W Hd; cbn [happens]; [intros [= <-]; exact W|].
  inversion Hd as [|? ? H1 H2]; subst. destruct (moves w v) as [w2|] eqn:E; [|discriminate]. apply IH; [exact (moves_winv _ _ _ W H1 E)|exact H2].
Qed.

Lemma all_data h : with_data h -> Forall has_data h.
Proof. intros H. apply Forall_forall. intros v Hv. destruct v; cbn; auto; apply H; auto. Qed.

Lemma reachable_winv h w : with_data h -> happens start h = Some w -> winv w.
Proof. intros H. exact (happens_winv h start w start_winv (all_data h H)). Qed.

(* What the client has sent *)
Lemma moves_wire w v w1 : winv w -> moves w v = Some w1 ->
  filter c_sync (wire w1) = filter c_sync (wire w) ++ match v with Call c => [c] | _ => [] end.
Proof.
  intros W E. destruct v as [c|c| |i|j o]; cbn [moves] in E; rewrite ?app_nil_r.
  - destruct (c_sync c) eqn:Ec; [|discriminate]. injection E as <-. cbn [wire]. rewrite filter_app. cbn. rewrite Ec. reflexivity.
  - destruct (c_sync c); [discriminate|]. injection E as <-. reflexivity.
  - destruct (queue w); [discriminate|]. destruct (Nat.ltb _ _); [|discriminate]. injection E as <-. reflexivity.
  - destruct (nth_error (working w) i) as [c|] eqn:Ei; [|discriminate]. injection E as <-. cbn [wire]. rewrite filter_app. cbn.
    rewrite (w_async _ W) by (apply in_or_app; right; eapply nth_error_In; eauto). rewrite app_nil_r. reflexivity.
  - destruct (nstep (nodes w j) o); [|discriminate]. injection E as <-. reflexivity.
Qed.

Lemma happens_wire h : forall w w1, winv w -> Forall has_data h -> happens w h = Some w1 ->
  filter c_sync (wire w1) = filter c_sync (wire w) ++ calls h.
Proof.
  induction h as [|v h IH]; intros w w1 W Hd; cbn [happens].
  - intros [= <-]. cbn. rewrite app_nil_r. reflexivity.
  - inversion Hd as [|? ? H1 H2]; subst. destruct (moves w v) as [w2|] eqn:E; [|discriminate]. intros H.
    rewrite (IH w2 w1 (moves_winv _ _ _ W H1 E) H2 H), (moves_wire _ _ _ W E), <- app_assoc. destruct v; reflexivity.
Qed.

(* Nothing is skipped unless loopers are stopped *)
Lemma moves_ns w v w1 j : winv w -> Forall ns (txs (nodes w j)) -> (forall k, v <> At j (Stop k)) -> moves w v = Some w1 -> Forall ns (txs (nodes w1 j)).
Proof.
  intros W N Hv E.
  assert (S0 : forall c, Forall ns (txs (set_node (nodes w) 0 (enqueue (nodes w 0%nat) c) j))).
  { intros c. destruct (Nat.eq_dec j 0) as [->|Hj]; [rewrite set_node_same, (proj2 (proj2 (enqueue_lists _ _)))|rewrite set_node_other by exact Hj]; exact N. }
  destruct v as [c|c| |i|x o]; cbn [moves] in E.
  - destruct (c_sync c); [|discriminate]. injection E as <-. apply S0.
  - destruct (c_sync c); [discriminate|]. injection E as <-. exact N.
  - destruct (queue w); [discriminate|]. destruct (Nat.ltb _ _); [|discriminate]. injection E as <-. exact N.
  - destruct (nth_error (working w) i) as [c|]; [|discriminate]. injection E as <-. apply S0.
  - destruct (nstep (nodes w x) o) as [n|] eqn:En; [|discriminate]. injection E as <-. cbn [nodes].
    assert (P : Forall ns (txs (set_node (nodes w) x n j))).
    { destruct (Nat.eq_dec j x) as [->|Hx]; [rewrite set_node_same|rewrite set_node_other by exact Hx; exact N].
      apply (nstep_ns _ _ _ _ (w_nodes _ W x) N) with (2 := En). intros k ->. exact (Hv k eq_refl). }
    destruct o; try exact P. cbn [of_call] in *. destruct (nth_error (txs (nodes w x)) k) as [t|]; [|exact P].
    destruct (Nat.eq_dec j (S x)) as [->|Hx]; [rewrite set_node_same, (proj2 (proj2 (enqueue_lists _ _)))|rewrite set_node_other by exact Hx]; exact P.
Qed.

Lemma happens_ns h j : forall w w1, winv w -> Forall has_data h -> Forall ns (txs (nodes w j)) -> (forall k, ~ In (At j (Stop k)) h) ->
  happens w h = Some w1 -> Forall ns (txs (nodes w1 j)).
Proof.
  induction h as [|v h IH]; intros w w1 W Hd N Hs; cbn [happens]; [intros [= <-]; exact N|].
  inversion Hd as [|? ? H1 H2]; subst. destruct (moves w v) as [w2|] eqn:E; [|discriminate].
  apply IH; [exact (moves_winv _ _ _ W H1 E)|exact H2| |intros k X; apply (Hs k); right; exact X].
  apply (moves_ns _ _ _ j W N) with (2 := E). intros k ->. apply (Hs k). left. reflexivity.
Qed.

(* What is forwarded is sent *)
Definition soq (t : tx) : bool := t_wrote t || match t_fwd t with FQueued => true | _ => false end.

Lemma act_soq t o t1 : lok t -> act t o = Some t1 -> (forall k, o <> Skip k) ->
  match o with Forward _ => soq t = false /\ soq t1 = true | _ => soq t1 = soq t end.
Proof.
  unfold lok, untouched, soq. destruct t as [c sg cb st pipe xl xc xr xh dr ct ap cp fw wr fr]. cbn. intros (_ & _ & _ & _ & M & _ & _) H Ho.
  destruct o; unfold act, complete, returned in H; cbn in H; try discriminate H; try (destruct (Ho _ eq_refl));
    repeat match type of H with context [match ?x with _ => _ end] => destruct x; cbn in H; try discriminate H end;
    injection H as <-; cbn; rewrite ?orb_true_r, ?orb_false_r; try reflexivity.
  destruct M as (_ & _ & _ & _ & -> & _). auto.
Qed.

Lemma settle_soq t : soq (fst (settle t)) = soq t.
Proof.
  unfold settle. set (t1 := if req_alive t then t else set_x_req t false).
  assert (X : soq t1 = soq t) by (unfold t1; destruct (req_alive t); reflexivity).
  destruct (t_freed t1); [exact X|]. destruct (data_used t1); exact X.
Qed.

Definition calls_at (n : node) (ks : list nat) : list (option call) := map (fun k => option_map t_call (nth_error (txs n) k)) ks.

Record sinv (n : node) (ks : list nat) : Prop := {
  s_calls : calls_at n ks = map Some (map t_call (filter soq (txs n)));
  s_range : Forall (fun k => (k < length (txs n))%nat) ks
}.

Lemma running_unfreed t : lok t -> fin t -> t_cb t = CbRunning -> t_freed t = false.
Proof. intros L F H. apply deals_used; auto. left. exact H. Qed.

Lemma nstep_sinv n ins ks o n1 : ninv n ins -> sinv n ks -> (forall k, o <> Skip k) -> nstep n o = Some n1 ->
  sinv n1 (ks ++ match o with Forward k => [k] | _ => [] end).
Proof.
  intros I [A R] Ho E.
  assert (U : forall k t t1 h s, nth_error (txs n) k = Some t -> act t o = Some t1 -> of_call o = k ->
    sinv (put n k t1 h s) (ks ++ match o with Forward k => [k] | _ => [] end)).
  { intros k t t1 h s Hk Ha Hoc. destruct (put_lists n k t1 h s) as (P & _).
    destruct (nth_at _ _ _ Hk) as (l1 & l2 & Et & ->).
    pose proof (i_ok _ _ I) as B. pose proof (i_fin _ _ I) as C. rewrite Forall_forall in B, C.
    assert (Hin : In t (txs n)) by (rewrite Et; apply in_or_app; right; left; reflexivity).
    pose proof (act_soq _ _ _ (B _ Hin) Ha Ho) as Q. destruct (act_call _ _ _ Ha) as [Hc _].
    assert (Hc1 : t_call (fst (settle t1)) = t_call t) by (rewrite (proj1 (settle_same t1)); exact Hc).
    rewrite Et, set_nth_at in P.
    assert (Len : length (txs (put n (length l1) t1 h s)) = length (txs n)) by (rewrite P, Et, !app_length; reflexivity).
    assert (Nth : forall i, option_map t_call (nth_error (txs (put n (length l1) t1 h s)) i) = option_map t_call (nth_error (txs n) i)).
    { intros i. rewrite P, Et. destruct (Nat.lt_ge_cases i (length l1)) as [X|X]; [rewrite !nth_error_app1 by exact X; reflexivity|].
      rewrite !nth_error_app2 by exact X. destruct (i - length l1)%nat; cbn; [rewrite Hc1|]; reflexivity. }
    assert (CA : forall l, calls_at (put n (length l1) t1 h s) l = calls_at n l) by (intros l; apply map_ext; exact Nth).
    assert (Same : match o with Forward _ => False | _ => True end -> sinv (put n (length l1) t1 h s) (ks ++ match o with Forward k => [k] | _ => [] end)).
    { intros X. replace (ks ++ match o with Forward k => [k] | _ => [] end) with ks by (destruct o; try contradiction; rewrite app_nil_r; reflexivity).
      constructor; [rewrite CA, A, P, Et|rewrite Len; exact R]. f_equal. symmetry. apply filter_mid; [|exact Hc1].
      rewrite settle_soq. destruct o; try contradiction; exact Q. }
    destruct o; try (apply Same; exact Logic.I). cbn [of_call] in Hoc. subst k. destruct Q as [Q1 Q2].
    assert (Hr : t_cb t = CbRunning) by (cbn in Ha; destruct (t_cb t); try discriminate Ha; reflexivity).
    destruct (unfreed_last _ _ _ _ (i_out _ _ I) Et (running_unfreed _ (B _ Hin) (C _ Hin) Hr)) as (-> & _).
    constructor.
    - rewrite CA. unfold calls_at in *. rewrite map_app, A, P, Et. cbn [map].
      rewrite (filter_last soq l1 t (fst (settle t1)) Q1) by (rewrite ?settle_soq; assumption).
      rewrite (map_app Some). cbn [map]. do 2 f_equal. rewrite nth_error_app2, Nat.sub_diag by lia. reflexivity.
    - rewrite Len. apply Forall_app. split; [exact R|]. constructor; [|constructor]. rewrite Et, app_length. cbn. lia. }
  destruct o; cbn [nstep] in E;
    try (destruct (nth_error (txs n) _) as [t|] eqn:Ek; [|discriminate]; destruct (act t _) as [t1|] eqn:Ea; [|discriminate];
         injection E as <-; exact (U _ _ _ _ _ Ek Ea eq_refl)).
  rewrite app_nil_r. destruct (todo n) as [|c r]; [discriminate|]. injection E as <-.
  match goal with |- sinv (if c_data c then ?x else released ?x) _ => assert (X : sinv x ks) end.
  { constructor.
    - unfold calls_at in *. cbn [txs]. rewrite filter_app. cbn. rewrite app_nil_r, <- A. apply map_ext_in. intros k Hk.
      rewrite Forall_forall in R. rewrite nth_error_app1 by (apply R; exact Hk). reflexivity.
    - cbn [txs]. rewrite Forall_forall in *. intros k Hk. specialize (R k Hk). rewrite app_length. lia. }
  destruct (c_data c); [exact X|]. destruct X as [X1 X2]. constructor; unfold calls_at in *;
  match goal with |- context [released ?x] => destruct (released_lists x) as (_ & _ & Q & _) end; rewrite Q; assumption.
Qed.

Lemma sinv_txs n n1 ks : txs n1 = txs n -> sinv n ks -> sinv n1 ks.
Proof. intros E [A B]. constructor; unfold calls_at in *; rewrite E; assumption. Qed.

Lemma moves_sinv w v w1 j ks : winv w -> sinv (nodes w j) ks -> (forall k, v <> At j (Skip k)) -> moves w v = Some w1 ->
  sinv (nodes w1 j) (ks ++ forwarded j [v]).
Proof.
  intros W N Hv E.
  assert (S0 : forall c, sinv (set_node (nodes w) 0 (enqueue (nodes w 0%nat) c) j) (ks ++ [])).
  { intros c. rewrite app_nil_r. apply (sinv_txs (nodes w j)); [|exact N].
    destruct (Nat.eq_dec j 0) as [->|Hj]; [rewrite set_node_same; apply enqueue_lists|rewrite set_node_other by exact Hj; reflexivity]. }
  destruct v as [c|c| |i|x o]; cbn [moves] in E; cbn [forwarded].
  - destruct (c_sync c); [|discriminate]. injection E as <-. apply S0.
  - destruct (c_sync c); [discriminate|]. injection E as <-. rewrite app_nil_r. exact N.
  - destruct (queue w); [discriminate|]. destruct (Nat.ltb _ _); [|discriminate]. injection E as <-. rewrite app_nil_r. exact N.
  - destruct (nth_error (working w) i) as [c|]; [|discriminate]. injection E as <-. apply S0.
  - destruct (nstep (nodes w x) o) as [n|] eqn:En; [|discriminate]. injection E as <-. cbn [nodes].
    assert (P : sinv (set_node (nodes w) x n j) (ks ++ match o with Forward k => if Nat.eqb x j then [k] else [] | _ => [] end)).
    { destruct (Nat.eq_dec j x) as [->|Hx].
      - rewrite set_node_same, Nat.eqb_refl. apply (nstep_sinv _ _ _ _ _ (w_nodes _ W x) N) with (2 := En). intros k ->. exact (Hv k eq_refl).
      - rewrite set_node_other by exact Hx. assert (Hx1 : Nat.eqb x j = false) by (apply Nat.eqb_neq; congruence). rewrite Hx1.
        destruct o; rewrite app_nil_r; exact N. }
    destruct o; try exact P; cbn [of_call] in *.
    destruct (nth_error (txs (nodes w x)) k) as [t|]; [|exact P]. apply (sinv_txs (set_node (nodes w) x n j)); [|exact P].
    destruct (Nat.eq_dec j (S x)) as [->|Hx]; [rewrite set_node_same; apply enqueue_lists|rewrite set_node_other by exact Hx; reflexivity].
Qed.

Lemma forwarded_cons j v h : forwarded j (v :: h) = forwarded j [v] ++ forwarded j h.
Proof. destruct v as [| | | |i o]; try reflexivity. destruct o; try reflexivity. cbn. destruct (Nat.eqb i j); reflexivity. Qed.

Lemma happens_sinv h j : forall w w1 ks, winv w -> Forall has_data h -> sinv (nodes w j) ks -> (forall k, ~ In (At j (Skip k)) h) ->
  happens w h = Some w1 -> sinv (nodes w1 j) (ks ++ forwarded j h).
Proof.
  induction h as [|v h IH]; intros w w1 ks W Hd N Hs; cbn [happens].
  - intros [= <-]. cbn. rewrite app_nil_r. exact N.
  - inversion Hd as [|? ? H1 H2]; subst. destruct (moves w v) as [w2|] eqn:E; [|discriminate]. intros H.
    rewrite forwarded_cons, app_assoc. apply (IH w2); auto; [exact (moves_winv _ _ _ W H1 E)| |intros k X; apply (Hs k); right; exact X].
    apply (moves_sinv _ _ _ _ _ W N) with (2 := E). intros k ->. apply (Hs k). left. reflexivity.
Qed.

Lemma freed_soq t : lok t -> fin t -> t_freed t = true -> soq t = t_wrote t.
Proof.
  unfold fin, soq, data_used, req_alive. intros L F H. rewrite H in F. destruct (t_fwd t); rewrite ?orb_false_r; try reflexivity.
  symmetry in F. apply negb_true_iff in F. rewrite !orb_true_r in F. discriminate F.
Qed.

Lemma filter_freed l : Forall lok l -> Forall fin l -> Forall freed l -> filter soq l = filter t_wrote l.
Proof.
  induction l as [|t l IH]; intros A B C; cbn; [reflexivity|]. inversion A; inversion B; inversion C; subst.
  rewrite (freed_soq t), IH by assumption. reflexivity.
Qed.

Lemma told_soq n ins : ninv n ins -> exists l, map t_call (filter soq (txs n)) = told n ++ l /\ (length l <= 1)%nat /\
  ((forall t, In t (txs n) -> t_fwd t <> FQueued) -> l = []).
Proof.
  intros [A B C D E F]. rewrite F.
  assert (X : Forall freed (txs n) \/ exists l t, txs n = l ++ [t] /\ Forall freed l).
  { unfold outstanding in D. destruct (busy n); [destruct D as [(_ & l & t & D1 & D2 & _)|(c & _ & D)]|destruct D as (_ & _ & D)]; eauto. }
  destruct X as [X|(l & t & Et & X)].
  - exists []. rewrite filter_freed, app_nil_r by assumption. cbn. auto.
  - rewrite Et in *. apply Forall_app in B. destruct B as [B1 B2]. apply Forall_app in C. destruct C as [C1 C2].
    exists (if negb (t_wrote t) && soq t then [t_call t] else []). rewrite !filter_app, !map_app, (filter_freed l) by assumption. cbn [filter].
    split; [|split].
    + unfold soq. destruct (t_wrote t); cbn; [rewrite app_nil_r; reflexivity|]. rewrite app_nil_r. destruct (t_fwd t); cbn; rewrite ?app_nil_r; reflexivity.
    + destruct (negb (t_wrote t) && soq t); cbn; lia.
    + intros H. specialize (H t). unfold soq. destruct (t_wrote t); [reflexivity|]. cbn. destruct (t_fwd t); try reflexivity.
      exfalso. apply H; [apply in_or_app; right; left; reflexivity|reflexivity].
Qed.
