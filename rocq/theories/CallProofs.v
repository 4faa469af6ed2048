From Verif Require Import Base AsyncModel AsyncSpec AsyncProofs CallModel CallSpec.

(* ------------------------------------------------------------------ *)
(* Sums *)
Lemma sum_ext f g n : (forall k, (k < n)%nat -> f k = g k) -> sum f n = sum g n.
Proof. induction n as [|n IH]; intros H; cbn [sum]; [reflexivity|]. rewrite IH by (intros; apply H; lia). now rewrite H by lia. Qed.
Lemma sum_zero f n : (forall k, (k < n)%nat -> f k = 0) -> sum f n = 0.
Proof. induction n as [|n IH]; intros H; cbn [sum]; [reflexivity|]. rewrite IH by (intros; apply H; lia). rewrite H by lia. lia. Qed.
Lemma sum_nonneg f n : (forall k, 0 <= f k) -> 0 <= sum f n.
Proof. intros H. induction n as [|n IH]; cbn [sum]; [lia|]. specialize (H n). lia. Qed.
Lemma sum_ge f n k : (forall k, 0 <= f k) -> (k < n)%nat -> f k <= sum f n.
Proof.
  intros H. induction n as [|n IH]; intros Hk; cbn [sum]; [lia|].
  destruct (Nat.eq_dec k n) as [->|N]; [pose proof (sum_nonneg f n H); lia|]. specialize (IH ltac:(lia)). specialize (H n). lia.
Qed.
Lemma sum_change f g n k : (k < n)%nat -> (forall j, j <> k -> g j = f j) -> sum g n = sum f n - f k + g k.
Proof.
  intros Hk H. induction n as [|n IH]; cbn [sum]; [lia|].
  destruct (Nat.eq_dec k n) as [->|N].
  - rewrite (sum_ext g f) by (intros j Hj; apply H; lia). lia.
  - rewrite IH by lia. rewrite (H n) by lia. lia.
Qed.

Lemma occurs_cons u l t : occurs (u :: l) t = one (Some u) t + occurs l t.
Proof.
  unfold occurs, one. cbn [count_occ]. destruct (Nat.eq_dec u t) as [->|N].
  - rewrite Nat.eqb_refl. lia.
  - apply Nat.eqb_neq in N. rewrite N. lia.
Qed.
Lemma occurs_nil t : occurs [] t = 0.
Proof. reflexivity. Qed.
Lemma occurs_nonneg l t : 0 <= occurs l t.
Proof. unfold occurs. lia. Qed.
Lemma occurs_app l r t : occurs (l ++ r) t = occurs l t + occurs r t.
Proof. induction l as [|u l IH]; [reflexivity|]. cbn [app]. rewrite !occurs_cons, IH. lia. Qed.
Lemma occurs_in l t : In t l <-> 0 < occurs l t.
Proof. unfold occurs. rewrite (count_occ_In Nat.eq_dec). lia. Qed.
Lemma one_nonneg o t : 0 <= one o t.
Proof. destruct o; cbn [one]; [|lia]. destruct (Nat.eqb _ _); lia. Qed.
Lemma one_same t : one (Some t) t = 1.
Proof. cbn [one]. now rewrite Nat.eqb_refl. Qed.
Lemma one_other t u : u <> t -> one (Some t) u = 0.
Proof. intros N. cbn [one]. destruct (Nat.eqb_spec t u); [congruence|reflexivity]. Qed.
Lemma call_has_nonneg d t : 0 <= call_has d t.
Proof.
  destruct d as [d|]; cbn [call_has]; [|lia].
  pose proof (one_nonneg (Some (d_holder d)) t). pose proof (one_nonneg (d_name d) t).
  pose proof (one_nonneg (d_obj d) t). pose proof (one_nonneg (d_result d) t). lia.
Qed.

(* ------------------------------------------------------------------ *)
(* Who has references. [p]: the ones which a function has at hand; [n]: how many calls *)
Definition not_manager (s : cstate) (o : option nat) : Prop :=
  match o with Some t => kinds s t <> Manager | None => True end.
Definition data_kinds (s : cstate) (d : data) : Prop :=
  (kinds s (d_holder d) = Manager \/ kinds s (d_holder d) = Client) /\
  not_manager s (d_name d) /\ not_manager s (d_obj d) /\ not_manager s (d_result d) /\
  (d_kind d = KList -> match d_result d with Some t => kinds s t = StrV | None => True end).
Definition stringy (k : tkind) : Prop := k = Str \/ k = StrV.

Record own (s : cstate) (n : nat) (p : list nat) : Prop := {
  o_count : forall t, refs s t = app_has s t + sum (fun k => call_has (datas s k) t) n + to_release s t + occurs p t;
  o_app : forall t, 0 <= app_has s t;
  o_next : forall t, (next_thing s <= t)%nat -> refs s t = 0;
  o_data : forall k, (n <= k)%nat -> datas s k = None;
  o_kinds : forall k d, datas s k = Some d -> data_kinds s d;
  o_auto : forall h t, In t (auto s h) -> kinds s t = Object;
  o_mgr : forall h, auto_cb s h <> None \/ auto s h <> [] -> 0 < refs s h /\ kinds s h = Manager;
  o_cb : forall h c, auto_cb s h = Some c <-> cb_for (cbs s c) = Some h;
  o_some : forall h, auto s h <> [] -> auto_cb s h <> None;
  o_refs : forall c h, cb_for (cbs s c) = Some h -> cb_refs (cbs s c) = 1 /\ (c < next_cb s)%nat;
  o_nocb : forall c, (next_cb s <= c)%nat -> cbs s c = {| cb_refs := 0; cb_for := None |};
  o_str : forall t, stringy (kinds s t) -> refs s t <= 1
}.

Lemma to_release_nonneg s t : 0 <= to_release s t.
Proof. apply sum_nonneg. intros; apply occurs_nonneg. Qed.
Lemma calls_nonneg s n t : 0 <= sum (fun k => call_has (datas s k) t) n.
Proof. apply sum_nonneg. intros; apply call_has_nonneg. Qed.

Section Own.
Context {s : cstate} {n : nat} {p : list nat} (O : own s n p).

Lemma refs_nonneg t : 0 <= refs s t.
Proof.
  rewrite (o_count _ _ _ O). pose proof (o_app _ _ _ O t). pose proof (to_release_nonneg s t).
  pose proof (calls_nonneg s n t). pose proof (occurs_nonneg p t). lia.
Qed.
Lemma app_there t : 0 < app_has s t -> 0 < refs s t.
Proof.
  rewrite (o_count _ _ _ O). pose proof (to_release_nonneg s t).
  pose proof (calls_nonneg s n t). pose proof (occurs_nonneg p t). lia.
Qed.
Lemma hand_there t : In t p -> 0 < refs s t.
Proof.
  rewrite occurs_in, (o_count _ _ _ O). pose proof (o_app _ _ _ O t). pose proof (to_release_nonneg s t).
  pose proof (calls_nonneg s n t). lia.
Qed.
Lemma call_there k t : 0 < call_has (datas s k) t -> 0 < refs s t.
Proof.
  intros H. assert (Hk : (k < n)%nat).
  { destruct (Nat.lt_ge_cases k n) as [?|G]; [assumption|]. rewrite (o_data _ _ _ O _ G) in H. cbn [call_has] in H. lia. }
  rewrite (o_count _ _ _ O). pose proof (o_app _ _ _ O t). pose proof (to_release_nonneg s t). pose proof (occurs_nonneg p t).
  pose proof (sum_ge (fun k => call_has (datas s k) t) n k (fun k => call_has_nonneg _ _) Hk). cbn beta in *. lia.
Qed.
Lemma known t : 0 < refs s t -> (t < next_thing s)%nat.
Proof. intros H. destruct (Nat.lt_ge_cases t (next_thing s)) as [?|G]; [assumption|]. rewrite (o_next _ _ _ O _ G) in H. lia. Qed.
Lemma auto_nil h : (next_thing s <= h)%nat -> auto s h = [].
Proof.
  intros G. destruct (auto s h) as [|x l] eqn:E; [reflexivity|].
  destruct (o_mgr _ _ _ O h) as [X _]; [right; rewrite E; discriminate|]. rewrite (o_next _ _ _ O _ G) in X. lia.
Qed.
Lemma auto_ge h t : occurs (auto s h) t <= to_release s t.
Proof.
  destruct (Nat.lt_ge_cases h (next_thing s)) as [L|G].
  - apply (sum_ge (fun h => occurs (auto s h) t) _ h); [intros; apply occurs_nonneg|exact L].
  - rewrite (auto_nil _ G). apply to_release_nonneg.
Qed.
Lemma auto_there h t : In t (auto s h) -> 0 < refs s t.
Proof.
  rewrite occurs_in. intros H. pose proof (auto_ge h t).
  rewrite (o_count _ _ _ O). pose proof (o_app _ _ _ O t). pose proof (calls_nonneg s n t). pose proof (occurs_nonneg p t). lia.
Qed.
Lemma nothing t : refs s t = 0 -> app_has s t = 0 /\ sum (fun k => call_has (datas s k) t) n = 0 /\ to_release s t = 0 /\ occurs p t = 0.
Proof.
  rewrite (o_count _ _ _ O). pose proof (o_app _ _ _ O t). pose proof (to_release_nonneg s t).
  pose proof (calls_nonneg s n t). pose proof (occurs_nonneg p t). lia.
Qed.
End Own.

Lemma own_ca s n p a : own s n p -> own (with_ca s a) n p.
Proof. intros []. constructor; auto. Qed.
Lemma own_grow s n p : own s n p -> own s (S n) p.
Proof.
  intros O. pose proof (o_data _ _ _ O) as D. destruct O. constructor; auto.
  - intros t. rewrite o_count0. cbn [sum]. rewrite (D n) by lia. cbn [call_has]. lia.
  - intros k Hk. apply D. lia.
Qed.
Lemma own_perm s n p q : (forall t, occurs p t = occurs q t) -> own s n p -> own s n q.
Proof. intros H []. constructor; auto. intros t. rewrite o_count0, H. reflexivity. Qed.

(* Changes of the number of references *)
Lemma own_refs s n p q t v : own s n p -> (forall u, v * one (Some t) u + occurs p u = occurs q u) ->
  0 <= v + refs s t -> (v = 0 \/ (t < next_thing s)%nat) ->
  (v + refs s t = 0 -> auto_cb s t = None /\ auto s t = []) -> (stringy (kinds s t) -> v <= 0) ->
  own (with_refs s t (refs s t + v)) n q.
Proof.
  intros O H V K A St. destruct O. constructor; cbn [with_refs refs kinds next_thing datas auto auto_cb cbs next_cb app_has]; auto.
  - intros u. specialize (H u). rewrite <- H. change (to_release (with_refs s t (refs s t + v)) u) with (to_release s u).
    unfold upd. destruct (Nat.eqb_spec u t) as [->|N].
    + rewrite one_same, o_count0. lia.
    + rewrite (one_other t u N), o_count0. lia.
  - intros u Hu. unfold upd. destruct (Nat.eqb_spec u t) as [->|N]; [rewrite o_next0 by exact Hu; destruct K; [lia|exfalso; lia]|auto].
  - intros h Hh. destruct (o_mgr0 h Hh) as [X Y]. split; [|exact Y]. unfold upd. destruct (Nat.eqb_spec h t) as [->|N]; [|exact X].
    destruct (Z.eq_dec (v + refs s t) 0) as [Z0|Z0]; [|lia]. destruct (A Z0) as [A1 A2]. destruct Hh; congruence.
  - intros u Hu. unfold upd. destruct (Nat.eqb_spec u t) as [->|N]; [|auto]. specialize (o_str0 _ Hu). specialize (St Hu). lia.
Qed.

Lemma ref_own s n p t : own s n p -> 0 < refs s t -> ~ stringy (kinds s t) ->
  exists s1, ref s t = Ok s1 /\ s1 = with_refs s t (refs s t + 1) /\ own s1 n (t :: p).
Proof.
  intros O H NS. exists (with_refs s t (refs s t + 1)). split; [unfold ref; apply Z.ltb_lt in H; now rewrite H|]. split; [reflexivity|].
  apply (own_refs _ _ p); auto; try lia.
  - intros u. rewrite occurs_cons. lia.
  - right. exact (known O t H).
  - tauto.
Qed.

Lemma drop_own s n p t : own s n (t :: p) -> kinds s t <> Manager ->
  exists s1, drop s t = Ok s1 /\ s1 = with_refs s t (refs s t - 1) /\ own s1 n p.
Proof.
  intros O NM. pose proof (hand_there O t (or_introl eq_refl)) as H. exists (with_refs s t (refs s t - 1)).
  split; [unfold drop; apply Z.ltb_lt in H; now rewrite H|]. split; [reflexivity|].
  replace (refs s t - 1) with (refs s t + -1) by lia.
  apply (own_refs _ _ (t :: p)); auto; try lia.
  - intros u. rewrite occurs_cons. lia.
  - right. exact (known O t H).
  - intros _. split.
    + destruct (auto_cb s t) eqn:E; [|reflexivity]. destruct (o_mgr _ _ _ O t); [left; congruence|congruence].
    + destruct (auto s t) eqn:E; [reflexivity|]. destruct (o_mgr _ _ _ O t); [right; congruence|congruence].
Qed.

(* What is the same after references have been dropped *)
Record frame (s s1 : cstate) : Prop := {
  f_ca : ca s1 = ca s; f_kinds : kinds s1 = kinds s; f_next : next_thing s1 = next_thing s; f_datas : datas s1 = datas s;
  f_nextcb : next_cb s1 = next_cb s; f_app : app_has s1 = app_has s
}.
Lemma frame_refl s : frame s s.
Proof. constructor; reflexivity. Qed.
Lemma frame_trans a b c : frame a b -> frame b c -> frame a c.
Proof. intros [] []. constructor; congruence. Qed.

Lemma drop_opt_own s n p o : own s n (match o with Some t => t :: p | None => p end) -> not_manager s o ->
  exists s1, drop_opt s o = Ok s1 /\ frame s s1 /\ own s1 n p /\
    (forall t, refs s1 t = refs s t - one o t) /\ auto s1 = auto s /\ auto_cb s1 = auto_cb s /\ cbs s1 = cbs s.
Proof.
  destruct o as [t|]; cbn [drop_opt not_manager]; intros O NM.
  - destruct (drop_own _ _ _ _ O NM) as (s1 & E & -> & O1). eexists. split; [exact E|]. split; [constructor; reflexivity|]. split; [exact O1|].
    split; [|auto]. intros u. cbn [with_refs refs one]. unfold upd. rewrite (Nat.eqb_sym t u). destruct (Nat.eqb_spec u t) as [->|N]; lia.
  - exists s. split; [reflexivity|]. split; [apply frame_refl|]. split; [exact O|]. split; [intros; cbn [one]; lia|auto].
Qed.

Lemma drop_list_ok l : forall s, (forall t, occurs l t <= refs s t) ->
  exists s1, drop_list s l = Ok s1 /\ frame s s1 /\ (forall t, refs s1 t = refs s t - occurs l t) /\
    auto s1 = auto s /\ auto_cb s1 = auto_cb s /\ cbs s1 = cbs s.
Proof.
  induction l as [|t l IH]; intros s H; cbn [drop_list].
  - exists s. split; [reflexivity|]. split; [apply frame_refl|]. split; [intros; rewrite occurs_nil; lia|auto].
  - pose proof (H t) as Ht. rewrite occurs_cons, one_same in Ht. pose proof (occurs_nonneg l t).
    unfold drop. replace (0 <? refs s t) with true by (symmetry; apply Z.ltb_lt; lia). cbn [bind].
    destruct (IH (with_refs s t (refs s t - 1))) as (s1 & E & F & R & A & B & C).
    { intros u. cbn [with_refs refs]. specialize (H u). rewrite occurs_cons in H. unfold upd.
      destruct (Nat.eqb_spec u t) as [->|N]; [rewrite one_same in H; lia|rewrite (one_other t u N) in H; lia]. }
    exists s1. split; [exact E|]. split; [apply (frame_trans _ (with_refs s t (refs s t - 1))); [constructor; reflexivity|exact F]|].
    split; [|auto]. intros u. rewrite R, occurs_cons. cbn [with_refs refs]. unfold upd.
    destruct (Nat.eqb_spec u t) as [->|N]; [rewrite one_same; lia|rewrite (one_other t u N); lia].
Qed.

(* Nothing is to be released by [h] any more *)
Lemma release_change s s1 h : (h < next_thing s)%nat -> next_thing s1 = next_thing s -> auto s1 = upd (auto s) h [] ->
  forall t, to_release s1 t = to_release s t - occurs (auto s h) t.
Proof.
  intros Hh N A t. unfold to_release. rewrite N.
  rewrite (sum_change (fun h => occurs (auto s h) t) (fun h => occurs (auto s1 h) t) _ h Hh).
  - rewrite A, upd_same, occurs_nil. lia.
  - intros j Hj. now rewrite A, upd_other by exact Hj.
Qed.

Lemma release_own s s1 n p h q : own s n p ->
  (* [h] is there, or is going *)
  (h < next_thing s)%nat ->
  ca s1 = ca s -> kinds s1 = kinds s -> next_thing s1 = next_thing s -> datas s1 = datas s -> next_cb s1 = next_cb s -> app_has s1 = app_has s ->
  auto s1 = upd (auto s) h [] -> auto_cb s1 = upd (auto_cb s) h None ->
  (forall c, cb_for (cbs s1 c) = if match cb_for (cbs s c) with Some h1 => Nat.eqb h1 h | None => false end then None else cb_for (cbs s c)) ->
  (forall c h1, cb_for (cbs s1 c) = Some h1 -> cb_refs (cbs s1 c) = cb_refs (cbs s c)) ->
  (forall c, (next_cb s <= c)%nat -> cbs s1 c = cbs s c) ->
  (forall t, refs s1 t = refs s t - occurs (auto s h) t + occurs q t - occurs p t) ->
  (forall t, t <> h -> occurs q t = occurs p t) -> occurs q h <= occurs p h ->
  own s1 n q.
Proof.
  intros O Hh E1 E2 E3 E4 E5 E6 EA EC EF ER EX R Q1 Q2.
  pose proof (release_change s s1 h Hh E3 EA) as RC. pose proof (fun t => auto_ge O h t) as GE. pose proof (fun t => refs_nonneg O t) as NN.
  pose proof (fun t => o_count _ _ _ O t) as CNT. pose proof (fun t => calls_nonneg s n t) as CN.
  pose proof (fun t => known O t) as KN.
  destruct O. constructor.
  - intros t. rewrite R, o_count0, RC, E4, E6. lia.
  - intros t. rewrite E6. auto.
  - intros t Ht. rewrite E3 in Ht. rewrite R. rewrite (o_next0 _ Ht). rewrite (Q1 t) by lia.
    specialize (GE t). specialize (CNT t). rewrite (o_next0 _ Ht) in CNT. specialize (CN t). specialize (o_app0 t).
    pose proof (occurs_nonneg p t). pose proof (to_release_nonneg s t). pose proof (occurs_nonneg (auto s h) t). lia.
  - intros k Hk. rewrite E4. auto.
  - intros k d. rewrite E4. unfold data_kinds, not_manager. rewrite E2. apply o_kinds0.
  - intros h1 t. rewrite EA, E2. unfold upd. destruct (Nat.eqb_spec h1 h); [intros []|apply o_auto0].
  - intros h1. rewrite EA, EC, E2. unfold upd. destruct (Nat.eqb_spec h1 h) as [->|N]; [intros [?|?]; congruence|].
    intros X. destruct (o_mgr0 _ X) as [Y1 Y2]. split; [|exact Y2]. rewrite R, (Q1 h1 N).
    replace (occurs (auto s h) h1) with 0; [lia|]. pose proof (occurs_nonneg (auto s h) h1).
    destruct (Z.eq_dec (occurs (auto s h) h1) 0) as [Z0|Z0]; [auto|]. assert (In h1 (auto s h)) as I by (apply occurs_in; lia).
    rewrite (o_auto0 _ _ I) in Y2. discriminate.
  - intros h1 c. rewrite EC, EF. unfold upd. destruct (Nat.eqb_spec h1 h) as [->|N].
    + split; [discriminate|]. destruct (cb_for (cbs s c)) as [h2|]; [|discriminate]. destruct (Nat.eqb_spec h2 h); congruence.
    + rewrite o_cb0. destruct (cb_for (cbs s c)) as [h2|]; [|reflexivity]. destruct (Nat.eqb_spec h2 h); [split; congruence|reflexivity].
  - intros h1. rewrite EA, EC. unfold upd. destruct (Nat.eqb_spec h1 h); [congruence|auto].
  - intros c h1 X. rewrite (ER _ _ X), E5. rewrite EF in X. apply (o_refs0 c h1).
    destruct (cb_for (cbs s c)) as [h2|]; [|exact X]. destruct (Nat.eqb_spec h2 h); [discriminate|exact X].
  - intros c Hc. rewrite E5 in Hc. rewrite EX by exact Hc. auto.
  - intros t Ht. rewrite E2 in Ht. specialize (o_str0 _ Ht). rewrite R. pose proof (occurs_nonneg (auto s h) t).
    destruct (Nat.eq_dec t h) as [->|N]; [lia|]. rewrite (Q1 _ N). lia.
Qed.

(* The last reference may go *)
Lemma unref_own s n p t : own s n (t :: p) -> exists s1, unref s t = Ok s1 /\ frame s s1 /\ own s1 n p.
Proof.
  intros O. pose proof (hand_there O t (or_introl eq_refl)) as H. pose proof (known O t H) as Kn.
  unfold unref. unfold drop at 1. pose proof (proj2 (Z.ltb_lt _ _) H) as Hb. rewrite Hb. cbn [bind with_refs refs kinds]. rewrite upd_same.
  destruct (tkind_eqb (kinds s t) Manager) eqn:K.
  2:{ rewrite Bool.andb_false_r. assert (NM : kinds s t <> Manager) by (intros E; rewrite E in K; discriminate).
      destruct (drop_own _ _ _ _ O NM) as (s1 & _ & -> & O1). eexists. split; [reflexivity|]. split; [constructor; reflexivity|exact O1]. }
  rewrite Bool.andb_true_r. assert (KM : kinds s t = Manager) by (destruct (kinds s t); try discriminate K; reflexivity).
  destruct (Z.eqb_spec (refs s t - 1) 0) as [Z0|Z0].
  - set (s1 := with_refs s t (refs s t - 1)). unfold finalize. change (auto_cb s1 t) with (auto_cb s t).
    set (s2 := idle_destroy s1 (auto_cb s t)).
    assert (A2 : auto s2 = auto s) by (unfold s2, idle_destroy; destruct (auto_cb s t); reflexivity).
    assert (R2 : refs s2 = upd (refs s) t (refs s t - 1)) by (unfold s2, idle_destroy; destruct (auto_cb s t); reflexivity).
    rewrite A2.
    assert (NI : ~ In t (auto s t)) by (intros I; rewrite (o_auto _ _ _ O _ _ I) in KM; discriminate).
    destruct (drop_list_ok (auto s t) s2) as (s3 & E3 & F3 & R3 & A3 & B3 & C3).
    { intros u. rewrite R2. unfold upd. destruct (Nat.eqb_spec u t) as [->|N].
      - destruct (Z.eq_dec (occurs (auto s t) t) 0); [lia|]. exfalso. apply NI. apply occurs_in. pose proof (occurs_nonneg (auto s t) t). lia.
      - pose proof (auto_ge O t u). rewrite (o_count _ _ _ O). pose proof (o_app _ _ _ O u). pose proof (calls_nonneg s n u).
        pose proof (occurs_nonneg (t :: p) u). lia. }
    rewrite E3. cbn [bind]. eexists. split; [reflexivity|].
    assert (F2 : frame s s2) by (unfold s2, idle_destroy; destruct (auto_cb s t); constructor; reflexivity).
    assert (F : frame s (with_auto s3 t [] None)).
    { apply (frame_trans _ s3); [exact (frame_trans _ _ _ F2 F3)|constructor; reflexivity]. }
    split; [exact F|]. destruct F.
    apply (release_own s _ n (t :: p) t p O Kn); auto.
    + cbn [with_auto auto]. now rewrite A3, A2.
    + cbn [with_auto auto_cb]. rewrite B3. unfold s2, idle_destroy. destruct (auto_cb s t); reflexivity.
    + intros c. cbn [with_auto cbs]. rewrite C3. unfold s2, idle_destroy. destruct (auto_cb s t) as [c0|] eqn:E0.
      * cbn [with_cb cbs s1 with_refs]. unfold upd. destruct (Nat.eqb_spec c c0) as [->|N].
        -- cbn [cb_for]. apply (o_cb _ _ _ O) in E0. rewrite E0, Nat.eqb_refl. reflexivity.
        -- destruct (cb_for (cbs s c)) as [h1|] eqn:E1; [|reflexivity]. destruct (Nat.eqb_spec h1 t) as [->|N1]; [|reflexivity].
           apply (o_cb _ _ _ O) in E1. congruence.
      * cbn [s1 with_refs cbs]. destruct (cb_for (cbs s c)) as [h1|] eqn:E1; [|reflexivity]. destruct (Nat.eqb_spec h1 t) as [->|N1]; [|reflexivity].
        apply (o_cb _ _ _ O) in E1. congruence.
    + intros c h1. cbn [with_auto cbs]. rewrite C3. unfold s2, idle_destroy. destruct (auto_cb s t) as [c0|] eqn:E0; [|reflexivity].
      cbn [with_cb cbs s1 with_refs]. unfold upd. destruct (Nat.eqb_spec c c0) as [->|N]; [discriminate|reflexivity].
    + intros c Hc. cbn [with_auto cbs]. rewrite C3. unfold s2, idle_destroy. destruct (auto_cb s t) as [c0|] eqn:E0; [|reflexivity].
      cbn [with_cb cbs s1 with_refs]. apply (o_cb _ _ _ O) in E0. destruct (o_refs _ _ _ O _ _ E0) as [_ L]. apply upd_other. lia.
    + intros u. cbn [with_auto refs]. rewrite R3, R2, occurs_cons. unfold upd. destruct (Nat.eqb_spec u t) as [->|N]; [rewrite one_same; lia|rewrite (one_other t u N); lia].
    + intros u N. rewrite occurs_cons, (one_other t u N). lia.
    + rewrite occurs_cons, one_same. lia.
  - eexists. split; [reflexivity|]. split; [constructor; reflexivity|].
    replace (refs s t - 1) with (refs s t + -1) by lia. apply (own_refs _ _ (t :: p)); auto; try lia.
    intros u. rewrite occurs_cons. lia.
Qed.

(* Something new *)
Lemma make_own s n p k t s1 : own s n p -> make s k = (t, s1) ->
  own s1 n (t :: p) /\ t = next_thing s /\ kinds s1 t = k /\ ca s1 = ca s /\ datas s1 = datas s /\ app_has s1 = app_has s /\
  refs s t = 0 /\ refs s1 t = 1 /\ (forall u, u <> t -> kinds s1 u = kinds s u /\ refs s1 u = refs s u) /\
  auto s1 = auto s /\ auto_cb s1 = auto_cb s /\ cbs s1 = cbs s /\ next_cb s1 = next_cb s.
Proof.
  intros O E. unfold make in E. injection E as <- <-. set (t := next_thing s).
  assert (R0 : refs s t = 0) by (apply (o_next _ _ _ O); unfold t; lia). pose proof (nothing O t R0) as (N1 & N2 & N3 & N4).
  assert (AN : auto s t = []) by (apply (auto_nil O); unfold t; lia).
  assert (KN : forall u, 0 < refs s u -> u <> t) by (intros u Hu ->; lia).
  split.
  2:{ cbn [kinds ca datas app_has refs auto auto_cb cbs next_cb]. rewrite !upd_same. repeat (split; [reflexivity || exact R0|]).
      split; [|repeat split; reflexivity]. intros u Hu. rewrite !upd_other by exact Hu. auto. }
  assert (RL : forall u, to_release {| ca := ca s; refs := upd (refs s) t 1; kinds := upd (kinds s) t k; next_thing := S t;
         datas := datas s; auto := auto s; auto_cb := auto_cb s; cbs := cbs s; next_cb := next_cb s; app_has := app_has s |} u = to_release s u).
  { intros u. unfold to_release. cbn [next_thing auto]. cbn [sum]. rewrite AN, occurs_nil. fold t. lia. }
  constructor; cbn [refs kinds next_thing datas auto auto_cb cbs next_cb app_has].
  - intros u. rewrite RL, occurs_cons. unfold upd. destruct (Nat.eqb_spec u t) as [->|N].
    + rewrite one_same. lia.
    + rewrite (one_other t u N), (o_count _ _ _ O). lia.
  - apply (o_app _ _ _ O).
  - intros u Hu. rewrite upd_other by lia. apply (o_next _ _ _ O). fold t. lia.
  - apply (o_data _ _ _ O).
  - intros j d Hd. pose proof (o_kinds _ _ _ O _ _ Hd) as (K1 & K2 & K3 & K4 & K5).
    assert (TH : forall u, 0 < call_has (Some d) u -> u <> t) by (intros u Hu; apply KN; apply (call_there O j); rewrite Hd; exact Hu).
    pose proof (fun u => one_nonneg (Some (d_holder d)) u) as P1. pose proof (fun u => one_nonneg (d_name d) u) as P2.
    pose proof (fun u => one_nonneg (d_obj d) u) as P3. pose proof (fun u => one_nonneg (d_result d) u) as P4.
    unfold data_kinds, not_manager in *. cbn [kinds call_has] in *.
    split; [rewrite !upd_other; [exact K1|]; apply TH; specialize (P2 (d_holder d)); specialize (P3 (d_holder d)); specialize (P4 (d_holder d)); rewrite one_same; lia|].
    split; [|split; [|split]].
    + destruct (d_name d) as [u|]; [|auto]. rewrite upd_other; [exact K2|]. apply TH. specialize (P1 u); specialize (P3 u); specialize (P4 u). rewrite (one_same u). lia.
    + destruct (d_obj d) as [u|]; [|auto]. rewrite upd_other; [exact K3|]. apply TH. specialize (P1 u); specialize (P2 u); specialize (P4 u). rewrite (one_same u). lia.
    + destruct (d_result d) as [u|]; [|auto]. rewrite upd_other; [exact K4|]. apply TH. specialize (P1 u); specialize (P2 u); specialize (P3 u). rewrite (one_same u). lia.
    + intros Kl. specialize (K5 Kl). destruct (d_result d) as [u|]; [|auto]. rewrite upd_other; [exact K5|]. apply TH. specialize (P1 u); specialize (P2 u); specialize (P3 u). rewrite (one_same u). lia.
  - intros h u Hu. rewrite upd_other; [exact (o_auto _ _ _ O _ _ Hu)|]. apply KN. exact (auto_there O h u Hu).
  - intros h Hh. destruct (o_mgr _ _ _ O h Hh) as [X Y]. rewrite !upd_other by (apply KN; exact X). auto.
  - apply (o_cb _ _ _ O).
  - apply (o_some _ _ _ O).
  - apply (o_refs _ _ _ O).
  - apply (o_nocb _ _ _ O).
  - intros u. unfold upd. destruct (Nat.eqb_spec u t); [lia|apply (o_str _ _ _ O)].
Qed.

(* Calls *)
Lemma data_own s n p q k d : own s n p -> (k < n)%nat ->
  (forall t, call_has d t + occurs q t = call_has (datas s k) t + occurs p t) ->
  match d with Some d => data_kinds s d | None => True end ->
  own (with_data s k d) n q.
Proof.
  intros O Hk H Kd. destruct O. constructor; cbn [with_data refs kinds next_thing datas auto auto_cb cbs next_cb app_has]; auto.
  - intros t. rewrite o_count0. change (to_release (with_data s k d) t) with (to_release s t).
    rewrite (sum_change (fun j => call_has (datas s j) t) (fun j => call_has (upd (datas s) k d j) t) n k Hk).
    + rewrite upd_same. specialize (H t). lia.
    + intros j Hj. now rewrite upd_other by exact Hj.
  - intros j Hj. rewrite upd_other by lia. auto.
  - intros j d1. unfold upd. destruct (Nat.eqb_spec j k) as [->|N]; [intros ->; exact Kd|apply o_kinds0].
Qed.

(* The application *)
Lemma app_own s n p q t v : own s n p -> (forall u, v * one (Some t) u + occurs q u = occurs p u) -> 0 <= app_has s t + v ->
  own (with_app s t (app_has s t + v)) n q.
Proof.
  intros O H V. destruct O. constructor; cbn [with_app refs kinds next_thing datas auto auto_cb cbs next_cb app_has]; auto.
  - intros u. specialize (H u). change (to_release (with_app s t (app_has s t + v)) u) with (to_release s u). rewrite o_count0. unfold upd.
    destruct (Nat.eqb_spec u t) as [->|N]; [rewrite one_same in H|rewrite (one_other t u N) in H]; lia.
  - intros u. unfold upd. destruct (Nat.eqb_spec u t); auto.
Qed.
