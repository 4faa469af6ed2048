From Verif Require Import Base AsyncModel AsyncSpec AsyncProofs CallModel CallSpec CallProofs CallSteps CallRun.
Local Notation bind := CallModel.bind.

(* ------------------------------------------------------------------ *)
(* How things, lists of what is to be released and idle callbacks change, except when a callback is invoked *)
Record evolve (s s1 : cstate) : Prop := {
  e_next : (next_thing s <= next_thing s1)%nat;
  e_kinds : forall t, (t < next_thing s)%nat -> kinds s1 t = kinds s t;
  e_dead : forall t, (t < next_thing s)%nat -> refs s t = 0 -> refs s1 t = 0;
  e_auto : forall h, (h < next_thing s)%nat -> (exists l, auto s1 h = l ++ auto s h) \/ refs s1 h = 0;
  e_nextcb : (next_cb s <= next_cb s1)%nat;
  e_lost : forall c, lost s1 c = lost s c
}.
Lemma evolve_refl s : evolve s s.
Proof. constructor; auto. intros h _. left. exists []. reflexivity. Qed.
Lemma evolve_trans a b c : evolve a b -> evolve b c -> evolve a c.
Proof.
  intros [A1 A2 A3 A4 A5 A6] [B1 B2 B3 B4 B5 B6]. constructor; try lia.
  - intros t Ht. rewrite B2, A2 by lia. reflexivity.
  - intros t Ht H. apply B3; [lia|]. auto.
  - intros h Hh. destruct (B4 h ltac:(lia)) as [[l2 E2]|E2]; [|auto]. destruct (A4 h Hh) as [[l1 E1]|E1].
    + left. exists (l2 ++ l1). now rewrite E2, E1, app_assoc.
    + right. apply B3; [lia|exact E1].
  - intros c0. now rewrite B6, A6.
Qed.
Definition same_rest (s s1 : cstate) : Prop :=
  kinds s1 = kinds s /\ auto s1 = auto s /\ cbs s1 = cbs s /\ next_cb s1 = next_cb s /\ next_thing s1 = next_thing s.
Lemma evolve_same s s1 : same_rest s s1 -> (forall t, refs s t = 0 -> refs s1 t = 0) -> evolve s s1.
Proof.
  intros (K & A & C & N & T) R. constructor; try lia; auto.
  - intros. now rewrite K.
  - intros h _. left. exists []. now rewrite A.
  - intros c. unfold lost. now rewrite C.
Qed.
Lemma evolve_data s k d : evolve s (with_data s k d).
Proof. apply evolve_same; [repeat split|auto]. Qed.
Lemma evolve_ca s a : evolve s (with_ca s a).
Proof. apply evolve_same; [repeat split|auto]. Qed.
Lemma evolve_app s t v : evolve s (with_app s t v).
Proof. apply evolve_same; [repeat split|auto]. Qed.

Lemma bind_inv {A B} (r : out A) (f : A -> out B) b : bind r f = Ok b -> exists a, r = Ok a /\ f a = Ok b.
Proof. destruct r; cbn [bind]; try discriminate. eauto. Qed.

Lemma evolve_ref s t s1 : ref s t = Ok s1 -> evolve s s1.
Proof.
  unfold ref. destruct (Z.ltb_spec 0 (refs s t)); [|discriminate]. intros E. injection E as <-.
  apply evolve_same; [repeat split|]. intros u Hu. cbn [with_refs refs]. unfold upd. destruct (Nat.eqb_spec u t) as [->|]; [lia|exact Hu].
Qed.
Lemma evolve_drop s t s1 : drop s t = Ok s1 -> evolve s s1 /\ same_rest s s1 /\ auto_cb s1 = auto_cb s /\ (forall u, refs s u = 0 -> refs s1 u = 0).
Proof.
  unfold drop. destruct (Z.ltb_spec 0 (refs s t)); [|discriminate]. intros E. injection E as <-.
  assert (X : forall u, refs s u = 0 -> refs (with_refs s t (refs s t - 1)) u = 0).
  { intros u Hu. cbn [with_refs refs]. unfold upd. destruct (Nat.eqb_spec u t) as [->|]; [lia|exact Hu]. }
  split; [apply evolve_same; [repeat split|exact X]|]. split; [repeat split|]. split; [reflexivity|exact X].
Qed.
Lemma evolve_drop_opt s o s1 : drop_opt s o = Ok s1 -> evolve s s1 /\ same_rest s s1 /\ auto_cb s1 = auto_cb s.
Proof.
  destruct o as [t|]; cbn [drop_opt]; intros E; [apply evolve_drop in E; tauto|]. injection E as <-. split; [apply evolve_refl|]. split; [repeat split|reflexivity].
Qed.
Lemma evolve_drop_list l : forall s s1, drop_list s l = Ok s1 -> same_rest s s1 /\ auto_cb s1 = auto_cb s /\ (forall u, refs s u = 0 -> refs s1 u = 0).
Proof.
  induction l as [|t l IH]; intros s s1 E; cbn [drop_list] in E; [injection E as <-; repeat split; auto|].
  apply bind_inv in E. destruct E as (s2 & E1 & E2). apply evolve_drop in E1. destruct E1 as (_ & (K & A & C & N & T) & B & R).
  apply IH in E2. destruct E2 as ((K2 & A2 & C2 & N2 & T2) & B2 & R2). split; [|split; [congruence|auto]]. repeat split; congruence.
Qed.
Lemma evolve_unref s t s1 : (forall h c, auto_cb s h = Some c -> cb_for (cbs s c) = Some h /\ cb_refs (cbs s c) = 1) -> unref s t = Ok s1 -> evolve s s1.
Proof.
  intros OK E. unfold unref in E. apply bind_inv in E. destruct E as (s2 & E1 & E2).
  destruct (evolve_drop _ _ _ E1) as (Ev & SR & B & _).
  destruct ((refs s2 t =? 0) && tkind_eqb (kinds s2 t) Manager) eqn:Z0; [|injection E2 as <-; exact Ev].
  apply Bool.andb_true_iff in Z0. destruct Z0 as [Z0 _]. apply Z.eqb_eq in Z0.
  apply (evolve_trans _ s2); [exact Ev|]. unfold finalize in E2. rewrite B in E2. apply bind_inv in E2. destruct E2 as (s3 & E3 & E4). injection E4 as <-.
  set (s2' := idle_destroy s2 (auto_cb s t)) in *.
  assert (SI : kinds s2' = kinds s2 /\ auto s2' = auto s2 /\ next_cb s2' = next_cb s2 /\ next_thing s2' = next_thing s2 /\ refs s2' = refs s2)
    by (unfold s2', idle_destroy; destruct (auto_cb s t); repeat split).
  destruct SI as (I1 & I2 & I3 & I4 & I5). destruct (evolve_drop_list _ _ _ E3) as ((K3 & A3 & C3 & N3 & T3) & _ & R3).
  assert (RR : forall u, refs s2 u = 0 -> refs s3 u = 0) by (intros u Hu; apply R3; now rewrite I5).
  constructor; cbn [with_auto kinds refs auto cbs next_cb next_thing]; rewrite ?N3, ?T3, ?I3, ?I4.
  - lia.
  - intros u _. now rewrite K3, I1.
  - intros u _. apply RR.
  - intros h _. unfold upd. destruct (Nat.eqb_spec h t) as [->|N]; [right; apply RR; exact Z0|]. left. exists []. now rewrite A3, I2.
  - lia.
  - intros c. unfold lost. cbn [with_auto cbs]. rewrite C3. unfold s2', idle_destroy. destruct (auto_cb s t) as [c0|] eqn:E0; [|reflexivity].
    cbn [with_cb cbs]. unfold upd. destruct (Nat.eqb_spec c c0) as [->|N]; [|reflexivity]. cbn [cb_for cb_refs].
    destruct (OK _ _ E0) as [X1 X2]. destruct SR as (_ & _ & C2 & _). rewrite C2, X1, X2. reflexivity.
Qed.
Lemma evolve_make s k t s1 n p : own s n p -> make s k = (t, s1) -> evolve s s1.
Proof.
  intros O E. unfold make in E. injection E as <- <-. constructor; cbn [kinds refs auto cbs next_cb next_thing]; try lia; auto.
  - intros t Ht. apply upd_other. lia.
  - intros t Ht H. rewrite upd_other by lia. exact H.
  - intros h _. left. exists []. reflexivity.
Qed.
Lemma evolve_start s d s1 : start s d = Ok s1 -> evolve s s1.
Proof.
  unfold start. destruct (step _ _); [|discriminate]. intros E. injection E as <-.
  eapply evolve_trans; [apply evolve_data|apply evolve_ca].
Qed.
Lemma evolve_astep s m s1 : astep s m = Ok s1 -> evolve s s1.
Proof. unfold astep. destruct (step _ _); [|discriminate]. intros E. injection E as <-. apply evolve_ca. Qed.
Lemma evolve_get_object s r s1 o n p : own s n p -> get_object s r = Ok (s1, o) -> evolve s s1.
Proof.
  intros O. destruct r as [| |t]; cbn [get_object].
  - intros E. injection E as <- _. apply evolve_refl.
  - destruct (make s Object) as [t s2] eqn:E. intros X. injection X as <- _. exact (evolve_make _ _ _ _ _ _ O E).
  - destruct (_ && _); [|discriminate]. intros E. apply bind_inv in E. destruct E as (s2 & E1 & E2). injection E2 as <- _. exact (evolve_ref _ _ _ E1).
Qed.

Lemma evolve_free_begin s k d s1 : free_begin s k d = Ok s1 -> evolve s s1.
Proof.
  unfold free_begin. destruct (d_kind d); intros E; try (injection E as <-; apply evolve_refl).
  apply bind_inv in E. destruct E as (s2 & E1 & E). apply bind_inv in E. destruct E as (s3 & E2 & E). injection E as <-.
  apply evolve_drop_opt in E1. apply evolve_drop_opt in E2. eapply evolve_trans; [apply E1|]. eapply evolve_trans; [apply E2|]. apply evolve_data.
Qed.
Lemma evolve_after_destroy s k s1 : after_destroy s k = Ok s1 -> evolve s s1.
Proof.
  unfold after_destroy. destruct (destroying s k); [|intros E; injection E as <-; apply evolve_refl].
  destruct (datas s k); [apply evolve_free_begin|discriminate].
Qed.
Lemma evolve_done_end s k d v s1 : done_end s k d v = Ok s1 -> evolve s s1.
Proof.
  unfold done_end. destruct (d_kind d); intros E; try (injection E as <-; apply evolve_refl).
  apply bind_inv in E. destruct E as (s2 & E1 & E). injection E as <-. eapply evolve_trans; [|apply evolve_data].
  destruct v; [|apply evolve_drop_opt in E1; apply E1]. injection E1 as <-. destruct (d_result d); [apply evolve_app|apply evolve_refl].
Qed.
Lemma evolve_exec_end s k d r s1 n p : own s n p -> exec_end s k d r = Ok s1 -> evolve s s1.
Proof.
  intros O. unfold exec_end. destruct (_ || _); [discriminate|].
  assert (M : forall kd, (let (t, s1) := make s kd in Ok (with_data s1 k (Some (set_result d (Some t))))) = Ok s1 -> evolve s s1).
  { intros kd. destruct (make s kd) as [t s2] eqn:E. intros X. injection X as <-. eapply evolve_trans; [exact (evolve_make _ _ _ _ _ _ O E)|apply evolve_data]. }
  destruct (d_kind d).
  - destruct r; [intros E; injection E as <-; apply evolve_data|apply M|discriminate].
  - intros E. apply bind_inv in E. destruct E as ([s2 o] & E1 & E). injection E as <-. eapply evolve_trans; [exact (evolve_get_object _ _ _ _ _ _ O E1)|apply evolve_data].
  - destruct r; try discriminate. intros E. injection E as <-. apply evolve_refl.
  - destruct r; [intros E; injection E as <-; apply evolve_data|apply M|discriminate].
Qed.
Definition cb_ok (s : cstate) : Prop := forall h c, auto_cb s h = Some c -> cb_for (cbs s c) = Some h /\ cb_refs (cbs s c) = 1.
Lemma own_cb_ok s n p : own s n p -> cb_ok s.
Proof. intros O h c E. apply (o_cb _ _ _ O) in E. split; [exact E|]. apply (o_refs _ _ _ O _ _ E). Qed.
Lemma evolve_free_end s k d s1 : cb_ok s -> free_end s k d = Ok s1 -> evolve s s1.
Proof.
  intros OK E. unfold free_end in E. apply bind_inv in E. destruct E as (s2 & E1 & E). injection E as <-.
  eapply evolve_trans; [|apply evolve_data]. destruct (d_kind d).
  - apply bind_inv in E1. destruct E1 as (s3 & E2 & E3). apply evolve_drop_opt in E2. destruct E2 as (Ev & (_ & _ & C & _) & B).
    eapply evolve_trans; [exact Ev|]. refine (evolve_unref _ _ _ _ E3). intros h c. rewrite B, C. apply OK.
  - apply bind_inv in E1. destruct E1 as (s3 & E2 & E3). apply bind_inv in E3. destruct E3 as (s4 & E3 & E4).
    eapply evolve_trans; [exact (evolve_unref _ _ _ OK E2)|]. apply evolve_drop_opt in E3. apply evolve_drop_opt in E4. eapply evolve_trans; [apply E3|apply E4].
  - apply bind_inv in E1. destruct E1 as (s3 & E2 & E3). apply bind_inv in E3. destruct E3 as (s4 & E3 & E4).
    eapply evolve_trans; [exact (evolve_unref _ _ _ OK E2)|]. apply evolve_drop_opt in E3. apply evolve_drop_opt in E4. eapply evolve_trans; [apply E3|apply E4].
  - exact (evolve_unref _ _ _ OK E1).
Qed.
Lemma evolve_sync s h r s1 o n : own s n [] -> get_service_sync s h r = Ok (s1, o) -> evolve s s1.
Proof.
  intros O E. unfold get_service_sync in E. apply bind_inv in E. destruct E as ([s2 [t|]] & E1 & E).
  2:{ injection E as <- _. exact (evolve_get_object _ _ _ _ _ _ O E1). }
  eapply evolve_trans; [exact (evolve_get_object _ _ _ _ _ _ O E1)|].
  pose proof (get_object_own s n [] r O) as X. rewrite E1 in X. destruct X as (O2 & _).
  assert (AU : forall h1, exists l, upd (auto s2) h (t :: auto s2 h) h1 = l ++ auto s2 h1).
  { intros h1. unfold upd. destruct (Nat.eqb_spec h1 h) as [->|N]; [exists [t]|exists []]; reflexivity. }
  destruct (auto_cb s2 h) as [c|] eqn:Ec; injection E as <- _.
  - constructor; cbn [with_auto kinds refs auto cbs next_cb next_thing]; try lia; auto.
  - constructor; cbn [with_auto kinds refs auto cbs next_cb next_thing]; try lia; auto.
    intros c. unfold lost. cbn [cbs]. unfold upd. destruct (Nat.eqb_spec c (next_cb s2)) as [->|N]; [|reflexivity]. cbn [cb_for].
    rewrite (o_nocb _ _ _ O2) by lia. reflexivity.
Qed.

Lemma evolve_ref_opt s o s1 : ref_opt s o = Ok s1 -> evolve s s1.
Proof. destruct o; cbn [ref_opt]; [apply evolve_ref|]. intros E. injection E as <-. apply evolve_refl. Qed.

Lemma usable_known s h : full s -> usable s h = true -> (h < next_thing s)%nat.
Proof. intros F U. exact (known (u_own _ _ F) h (usable_there _ _ F U)). Qed.

(* [make] needs nothing *)
Lemma evolve_make' s k t s1 : make s k = (t, s1) -> evolve s s1.
Proof.
  intros E. unfold make in E. injection E as <- <-. constructor; cbn [kinds refs auto cbs next_cb next_thing]; try lia; auto.
  - intros t Ht. apply upd_other. lia.
  - intros t Ht H. rewrite upd_other by lia. exact H.
  - intros h _. left. exists []. reflexivity.
Qed.

Lemma cstep_evolve s m s1 : full s -> is_idle m = false -> cstep s m = Ok s1 -> evolve s s1.
Proof.
  intros F NI E. pose proof (u_own _ _ F) as O. destruct m; cbn [cstep] in E; try discriminate NI.
  - destruct (make s k) as [t s2] eqn:M. injection E as <-. eapply evolve_trans; [exact (evolve_make' _ _ _ _ M)|apply evolve_app].
  - destruct (_ && _); [|discriminate]. apply bind_inv in E. destruct E as (s2 & E1 & E). injection E as <-. eapply evolve_trans; [exact (evolve_ref _ _ _ E1)|apply evolve_app].
  - destruct (_ <? _); [|discriminate]. eapply evolve_trans; [apply evolve_app|]. refine (evolve_unref _ _ _ _ E). exact (own_cb_ok _ _ _ O).
  - destruct (_ && _); [|discriminate]. unfold call_list in E. apply bind_inv in E. destruct E as (s2 & E1 & E).
    eapply evolve_trans; [exact (evolve_ref _ _ _ E1)|exact (evolve_start _ _ _ E)].
  - destruct (_ && _); [|discriminate]. unfold call_get in E. apply bind_inv in E. destruct E as (s2 & E1 & E). destruct (make s2 Str) as [t s3] eqn:M.
    eapply evolve_trans; [exact (evolve_ref _ _ _ E1)|]. eapply evolve_trans; [exact (evolve_make' _ _ _ _ M)|exact (evolve_start _ _ _ E)].
  - destruct (_ && _ && _); [|discriminate]. unfold call_add in E. apply bind_inv in E. destruct E as (s2 & E1 & E). apply bind_inv in E. destruct E as (s2' & E2 & E).
    destruct (make s2' Str) as [t s3] eqn:M. eapply evolve_trans; [exact (evolve_ref _ _ _ E1)|]. eapply evolve_trans; [exact (evolve_ref_opt _ _ _ E2)|].
    eapply evolve_trans; [exact (evolve_make' _ _ _ _ M)|exact (evolve_start _ _ _ E)].
  - destruct (_ && _ && _); [|discriminate]. unfold call_tx in E. apply bind_inv in E. destruct E as (s2 & E1 & E). apply bind_inv in E. destruct E as (s2' & E2 & E).
    eapply evolve_trans; [exact (evolve_ref _ _ _ E1)|]. eapply evolve_trans; [exact (evolve_ref_opt _ _ _ E2)|exact (evolve_start _ _ _ E)].
  - destruct (_ && _); [|discriminate]. apply bind_inv in E. destruct E as ([s2 o] & E1 & E). injection E as <-. exact (evolve_sync _ _ _ _ _ _ O E1).
  - exact (evolve_astep _ _ _ E).
  - exact (evolve_astep _ _ _ E).
  - apply bind_inv in E. destruct E as (s2 & E1 & E). eapply evolve_trans; [exact (evolve_astep _ _ _ E1)|exact (evolve_after_destroy _ _ _ E)].
  - destruct (stack (ca s)) as [|k st]; [discriminate|]. destruct (t_phase (txs (ca s) k)) as [| | |r| | |]; try discriminate; destruct (datas s k) as [d|]; try discriminate.
    + apply bind_inv in E. destruct E as (s2 & E1 & E). apply bind_inv in E. destruct E as (s3 & E2 & E).
      eapply evolve_trans; [exact (evolve_done_end _ _ _ _ _ E1)|]. eapply evolve_trans; [exact (evolve_astep _ _ _ E2)|exact (evolve_after_destroy _ _ _ E)].
    + apply bind_inv in E. destruct E as (s2 & E1 & E). eapply evolve_trans; [exact (evolve_free_end _ _ _ _ (own_cb_ok _ _ _ O) E1)|exact (evolve_astep _ _ _ E)].
  - exact (evolve_astep _ _ _ E).
  - destruct (t_phase (txs (ca s) k)) as [|[|]| | | | |]; try discriminate; destruct (datas s k) as [d|]; try discriminate.
    + apply bind_inv in E. destruct E as (s2 & E1 & E). eapply evolve_trans; [exact (evolve_exec_end _ _ _ _ _ _ _ O E1)|exact (evolve_astep _ _ _ E)].
    + exact (evolve_astep _ _ _ E).
  - exact (evolve_astep _ _ _ E).
  - apply bind_inv in E. destruct E as (s2 & E1 & E). eapply evolve_trans; [exact (evolve_astep _ _ _ E1)|exact (evolve_after_destroy _ _ _ E)].
Qed.

(* When a callback is invoked, it's lost *)
Lemma idle_lost s c s1 : full s -> cstep s (Idle c) = Ok s1 ->
  (c < next_cb s)%nat /\ next_cb s1 = next_cb s /\ lost s c = false /\ lost s1 c = true /\ (forall c1, c1 <> c -> lost s1 c1 = lost s c1).
Proof.
  intros F E. pose proof (u_own _ _ F) as O. cbn [cstep] in E. destruct (cb_for (cbs s c)) as [h|] eqn:Ef; [|discriminate].
  destruct (idle_own s _ c h O Ef) as (s2 & E2 & _ & Fr & _ & _ & C & _). rewrite E2 in E. injection E as <-.
  destruct (o_refs _ _ _ O _ _ Ef) as [R L]. split; [exact L|]. split; [apply Fr|]. unfold lost. rewrite Ef, C, upd_same. cbn [cb_for cb_refs]. rewrite R.
  split; [reflexivity|]. split; [reflexivity|]. intros c1 N. now rewrite upd_other by exact N.
Qed.

Lemma filter_one (f g : nat -> bool) c l : NoDup l -> In c l -> f c = false -> g c = true -> (forall x, x <> c -> g x = f x) ->
  length (filter g l) = S (length (filter f l)).
Proof.
  intros ND I Hf Hg H. induction l as [|x l IH]; [destruct I|]. apply NoDup_cons_iff in ND. destruct ND as [Nx ND]. cbn [filter].
  destruct (Nat.eq_dec x c) as [->|N].
  - rewrite Hf, Hg. cbn [length]. f_equal. f_equal. apply filter_ext_in. intros y Hy. apply H. intros ->. contradiction.
  - rewrite (H x N). destruct I as [?|I]; [congruence|]. destruct (f x); cbn [length]; rewrite (IH ND I); reflexivity.
Qed.
Lemma lost_more s n1 n2 : (n1 <= n2)%nat -> (forall c, (n1 <= c)%nat -> lost s c = false) ->
  length (filter (lost s) (seq 0 n2)) = length (filter (lost s) (seq 0 n1)).
Proof.
  intros L H. replace n2 with (n1 + (n2 - n1))%nat by lia. rewrite seq_app, filter_app, app_length. cbn [plus].
  replace (filter (lost s) (seq n1 (n2 - n1))) with (@nil nat); [cbn [length]; lia|]. symmetry.
  assert (forall c, In c (seq n1 (n2 - n1)) -> lost s c = false) as X by (intros c I; apply in_seq in I; apply H; lia).
  induction (seq n1 (n2 - n1)) as [|c l IH]; [reflexivity|]. cbn [filter]. rewrite (X c) by (left; reflexivity). apply IH. intros; apply X; right; assumption.
Qed.
Lemma lost_step s m s1 : full s -> cstep s m = Ok s1 -> lost_callbacks s1 = ((if is_idle m then 1 else 0) + lost_callbacks s)%nat.
Proof.
  intros F E. pose proof (u_own _ _ F) as O. assert (H0 : forall c, (next_cb s <= c)%nat -> lost s c = false).
  { intros c Hc. unfold lost. rewrite (o_nocb _ _ _ O c Hc). reflexivity. }
  destruct (is_idle m) eqn:I.
  - destruct m; try discriminate. destruct (idle_lost _ _ _ F E) as (L & N & X1 & X2 & X3). unfold lost_callbacks. rewrite N.
    rewrite (filter_one (lost s) (lost s1) c); auto; [apply seq_NoDup|apply in_seq; lia].
  - pose proof (cstep_evolve _ _ _ F I E) as Ev. unfold lost_callbacks. cbn [plus].
    rewrite (filter_ext (lost s1) (lost s) (e_lost _ _ Ev)). apply lost_more; [apply Ev|exact H0].
Qed.
Lemma lost_run l : forall s s1, full s -> crun s l = Ok s1 -> lost_callbacks s1 = (length (filter is_idle l) + lost_callbacks s)%nat.
Proof.
  induction l as [|m l IH]; intros s s1 F E; cbn [crun] in E; [injection E as <-; reflexivity|].
  apply bind_inv in E. destruct E as (s2 & E1 & E2). pose proof (cstep_full s m F) as F2. rewrite E1 in F2.
  rewrite (IH _ _ F2 E2), (lost_step _ _ _ F E1). cbn [filter]. destruct (is_idle m); cbn [length]; lia.
Qed.

(* Without a callback, objects to be released stay as long as the manager does *)
Lemma run_evolve l : forall s s1, full s -> forallb (fun m => negb (is_idle m)) l = true -> crun s l = Ok s1 -> evolve s s1.
Proof.
  induction l as [|m l IH]; intros s s1 F NI E; cbn [crun] in E; [injection E as <-; apply evolve_refl|].
  cbn [forallb] in NI. apply Bool.andb_true_iff in NI. destruct NI as [N1 N2]. apply Bool.negb_true_iff in N1.
  apply bind_inv in E. destruct E as (s2 & E1 & E2). pose proof (cstep_full s m F) as F2. rewrite E1 in F2.
  eapply evolve_trans; [exact (cstep_evolve _ _ _ F N1 E1)|exact (IH _ _ F2 N2 E2)].
Qed.
