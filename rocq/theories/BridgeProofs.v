(* Proofs about bridges. *)
From Verif Require Import Base BridgeModel BridgeSpec.
Local Open Scope nat_scope.

Lemma upd_same {A} (f : nat -> A) i x : upd f i x i = x.
Proof. unfold upd. rewrite Nat.eqb_refl. reflexivity. Qed.
Lemma upd_other {A} (f : nat -> A) i j x : j <> i -> upd f i x j = f j.
Proof. intro H. unfold upd. destruct (Nat.eqb_spec j i); congruence. Qed.
Lemma name_eqb_eq a b : name_eqb a b = true <-> a = b.
Proof.
  revert b. induction a as [|x a I]; destruct b as [|y b]; cbn; split; try congruence.
  - intro H. apply andb_true_iff in H. destruct H as [E H]. apply Z.eqb_eq in E. apply I in H. congruence.
  - intro H. injection H as -> ->. rewrite Z.eqb_refl. apply I. reflexivity.
Qed.
Lemma name_eqb_refl a : name_eqb a a = true.
Proof. apply name_eqb_eq. reflexivity. Qed.
Lemma updn_same {A} (f : name -> A) i x : updn f i x i = x.
Proof. unfold updn. rewrite name_eqb_refl. reflexivity. Qed.
Lemma updn_other {A} (f : name -> A) i j x : j <> i -> updn f i x j = f j.
Proof. intro H. unfold updn. destruct (name_eqb j i) eqn:E; [apply name_eqb_eq in E; congruence|reflexivity]. Qed.

(* Handlers, references, proxies and names are those which the interfaces know *)
Record weak (s : state) : Prop := Weak {
  w_obj : forall i o, bi_obj (ifs s i) = Some o ->
            o < nobjs s /\ exists id, bi_death (ifs s i) = Some id /\ In (Handler id o i) (handlers s);
  w_h : forall h, In h (handlers s) ->
          bi_obj (ifs s (h_if h)) = Some (h_obj h) /\ bi_death (ifs s (h_if h)) = Some (h_id h) /\ h_id h < nexth s;
  w_nd : NoDup (map h_id (handlers s));
  w_refs : forall o, refs s o = Z.of_nat (length (filter (fun h => Nat.eqb (h_obj h) o) (handlers s)));
  w_px : forall i p, bi_proxy (ifs s i) = Some p ->
           p < nproxies s /\ px_if (proxies s p) = i /\ px_dropped (proxies s p) = false;
  w_px' : forall p, p < nproxies s -> px_dropped (proxies s p) = false ->
            bi_proxy (ifs s (px_if (proxies s p))) = Some p;
  w_nm : forall i k, bi_name (ifs s i) = Some k ->
           k < npnames s /\ pn_if (pnames s k) = i /\ pn_released (pnames s k) = false /\
           pn_name (pnames s k) = src_name s;
  w_nm' : forall k, k < npnames s -> pn_released (pnames s k) = false ->
            bi_name (ifs s (pn_if (pnames s k))) = Some k;
  w_idle : forall i, life_ s <> Live \/ length (ifaces s) <= i -> ifs s i = Bi false None None None None
}.
(* One interface is as it should be between two steps *)
Definition neat (s : state) (i : nat) : Prop :=
  (bi_obj (ifs s i) <> None -> bi_proxy (ifs s i) <> None) /\
  match bi_proxy (ifs s i), bi_name (ifs s i) with
  | Some p, Some k => pn_proxy (pnames s k) = p
  | None, None => True
  | _, _ => False
  end.

(* What stays the same *)
Record same (s s' : state) : Prop := Same {
  sm_life : life_ s' = life_ s;
  sm_ifaces : ifaces s' = ifaces s;
  sm_src : src_name s' = src_name s;
  sm_dest : dest_name s' = dest_name s;
  sm_dead : dead s' = dead s;
  sm_emit : emitting s' = emitting s;
  sm_objs : nobjs s' = nobjs s;
  sm_gone : gone s' = gone s;
  sm_cur : current s' = current s;
  sm_queue : queue s' = queue s;
  sm_run : running s' = running s;
  sm_entry : entry s' = entry s;
  sm_npx : nproxies s <= nproxies s';
  sm_px : forall p, p < nproxies s -> px_if (proxies s' p) = px_if (proxies s p) /\ px_obj (proxies s' p) = px_obj (proxies s p);
  sm_npn : npnames s <= npnames s';
  sm_pn : forall k, k < npnames s -> pn_if (pnames s' k) = pn_if (pnames s k) /\
            pn_proxy (pnames s' k) = pn_proxy (pnames s k) /\ pn_name (pnames s' k) = pn_name (pnames s k)
}.
Lemma same_refl s : same s s.
Proof. constructor; auto. Qed.
Lemma same_trans a b c : same a b -> same b c -> same a c.
Proof.
  intros A B. constructor;
    try (etransitivity; [apply B|apply A]; fail).
  - pose proof (sm_npx _ _ A). pose proof (sm_npx _ _ B). lia.
  - intros p H. destruct (sm_px _ _ A p H) as [U V].
    destruct (sm_px _ _ B p) as [X Y]; [pose proof (sm_npx _ _ A); lia|]. split; congruence.
  - pose proof (sm_npn _ _ A). pose proof (sm_npn _ _ B). lia.
  - intros p H. destruct (sm_pn _ _ A p H) as (U & V & W).
    destruct (sm_pn _ _ B p) as (X & Y & Z0); [pose proof (sm_npn _ _ A); lia|]. repeat split; congruence.
Qed.
Definition others (s s' : state) (i : nat) : Prop := forall j, j <> i -> ifs s' j = ifs s j.
Lemma others_trans a b c i : others a b i -> others b c i -> others a c i.
Proof. intros A B j H. rewrite (B j H). apply A, H. Qed.

Lemma has_in s h : In h (handlers s) -> has_handler s (h_id h) = true.
Proof. intro H. apply existsb_exists. exists h. split; [exact H|apply Nat.eqb_refl]. Qed.
Lemma nodup_id (l : list handler) a b : NoDup (map h_id l) -> In a l -> In b l -> h_id a = h_id b -> a = b.
Proof.
  induction l as [|x l I]; cbn; intros N A B E; [tauto|]. inversion N; subst.
  destruct A as [->|A], B as [->|B]; auto.
  - exfalso. apply H1. rewrite E. apply in_map, B.
  - exfalso. apply H1. rewrite <- E. apply in_map, A.
Qed.
Lemma filter_gone (l : list handler) id : ~ In id (map h_id l) -> filter (fun h => negb (Nat.eqb (h_id h) id)) l = l.
Proof.
  induction l as [|x l I]; cbn; intro H; [reflexivity|].
  destruct (Nat.eqb_spec (h_id x) id); [tauto|]. cbn. rewrite I; tauto.
Qed.
Lemma count_remove (l : list handler) h o : NoDup (map h_id l) -> In h l ->
  length (filter (fun x => Nat.eqb (h_obj x) o) l) =
  (if Nat.eqb (h_obj h) o then 1 else 0) +
  length (filter (fun x => Nat.eqb (h_obj x) o) (filter (fun x => negb (Nat.eqb (h_id x) (h_id h))) l)).
Proof.
  induction l as [|x l I]; cbn; intros N H; [tauto|]. inversion N; subst.
  destruct H as [->|H].
  - rewrite Nat.eqb_refl. cbn. rewrite (filter_gone l _ H2).
    destruct (Nat.eqb (h_obj h) o); reflexivity.
  - destruct (Nat.eqb_spec (h_id x) (h_id h)) as [E|E].
    + exfalso. apply H2. rewrite E. apply in_map, H.
    + cbn. destruct (Nat.eqb (h_obj x) o); cbn; rewrite (I H3 H); lia.
Qed.
Lemma NoDup_map_filter (l : list handler) f : NoDup (map h_id l) -> NoDup (map h_id (filter f l)).
Proof.
  induction l as [|x l I]; cbn; intro N; [constructor|]. inversion N; subst.
  destruct (f x); cbn; [constructor; auto|auto].
  intro Q. apply H1. apply in_map_iff in Q. destruct Q as (y & <- & Q). apply in_map, filter_In in Q || idtac.
  apply filter_In in Q. apply in_map, Q.
Qed.

Ltac here i j := let E := fresh "E" in destruct (Nat.eq_dec j i) as [E|?];
  [first [subst j | rewrite E in *];
   rewrite ?upd_same in *; cbn [bi_obj bi_death bi_proxy bi_name bi_watch] in *
  |rewrite ?(upd_other _ i j) in * by assumption].

Definition drops (s : state) (i : nat) (s' : state) : Prop :=
  weak s' /\ same s s' /\ others s s' i /\ proxies s' = proxies s /\ nproxies s' = nproxies s /\
  pnames s' = pnames s /\ npnames s' = npnames s /\
  ifs s' i = Bi (bi_watch (ifs s i)) None None (bi_name (ifs s i)) (bi_proxy (ifs s i)).

Lemma Bi_eta b d o : bi_death b = d -> bi_obj b = o -> b = Bi (bi_watch b) d o (bi_name b) (bi_proxy b).
Proof. intros <- <-. destruct b; reflexivity. Qed.

(* Without an object there's no handler *)
Definition no_stray (s : state) : Prop := forall i, bi_obj (ifs s i) = None -> bi_death (ifs s i) = None.

Lemma drop_remote_ok s i : weak s -> no_stray s -> exists s', drop_remote_object s i = Ok s' /\ drops s i s' /\ no_stray s'.
Proof.
  intros W NS. unfold drop_remote_object. destruct (bi_obj (ifs s i)) as [o|] eqn:E.
  2:{ exists s. split; [reflexivity|]. split; [|exact NS].
      split; [exact W|]. split; [apply same_refl|]. split; [intros j _; reflexivity|].
      do 4 (split; [reflexivity|]). apply Bi_eta; auto. }
  destruct (w_obj s W i o E) as (L & id & D & H). rewrite D.
  assert (HH : has_handler s id = true) by exact (has_in s _ H).
  assert (R : (0 <? refs s o)%Z = true).
  { apply Z.ltb_lt. rewrite (w_refs s W o), (count_remove _ _ o (w_nd s W) H). cbn [h_obj].
    rewrite Nat.eqb_refl. lia. }
  rewrite HH, R. cbn [andb]. eexists. split; [reflexivity|].
  assert (K : forall h, In h (filter (fun h => negb (Nat.eqb (h_id h) id)) (handlers s)) <-> In h (handlers s) /\ h_id h <> id).
  { intro h. rewrite filter_In. destruct (Nat.eqb_spec (h_id h) id); cbn; split; intros [A B]; split; auto; congruence. }
  split; [|intros j; cbn; here i j; auto].
  split; [constructor; cbn|].
  - intros j o'. here i j; [congruence|]. intro Q. destruct (w_obj s W j o' Q) as (L' & id' & D' & H').
    split; [exact L'|]. exists id'. split; [exact D'|]. apply K. split; [exact H'|]. cbn. intro X. subst id'.
    pose proof (nodup_id _ _ _ (w_nd s W) H H' eq_refl). congruence.
  - intros h Q. apply K in Q. destruct Q as [Q X]. destruct (w_h s W h Q) as (A & B & C).
    here i (h_if h).
    + exfalso. congruence.
    + auto.
  - apply NoDup_map_filter, W.
  - intro o'. pose proof (count_remove _ _ o' (w_nd s W) H) as CR. cbn [h_obj h_id] in CR.
    unfold upd. rewrite !(w_refs s W). destruct (Nat.eqb_spec o' o) as [->|X].
    + rewrite Nat.eqb_refl in CR. lia.
    + rewrite CR. destruct (Nat.eqb_spec o o'); [congruence|]. lia.
  - intros j p Q. apply (w_px s W). here i j; exact Q.
  - intros p A B. pose proof (w_px' s W p A B) as Q. here i (px_if (proxies s p)); [rewrite <- Q; f_equal; congruence|exact Q].
  - intros j p Q. apply (w_nm s W). here i j; exact Q.
  - intros p A B. pose proof (w_nm' s W p A B) as Q. here i (pn_if (pnames s p)); [rewrite <- Q; f_equal; congruence|exact Q].
  - intros j Q. here i j; [|apply (w_idle s W), Q]. rewrite (w_idle s W i Q) in E. discriminate E.
  - split; [constructor; cbn; auto|]. split; [intros j X; cbn; apply upd_other, X|].
    do 4 (split; [reflexivity|]). cbn. apply upd_same.
Qed.

Lemma drop_proxy_ok s i : weak s -> exists s', drop_proxy s i = Ok s' /\ weak s' /\ same s s' /\ others s s' i /\
  pnames s' = pnames s /\ npnames s' = npnames s /\
  ifs s' i = Bi (bi_watch (ifs s i)) (bi_death (ifs s i)) (bi_obj (ifs s i)) (bi_name (ifs s i)) None.
Proof.
  intro W. unfold drop_proxy. destruct (bi_proxy (ifs s i)) as [p|] eqn:E.
  2:{ exists s. split; [reflexivity|]. split; [exact W|]. split; [apply same_refl|]. split; [intros j _; reflexivity|].
      do 2 (split; [reflexivity|]). destruct (ifs s i); cbn in *. congruence. }
  destruct (w_px s W i p E) as (L & I & D). rewrite D. eexists. split; [reflexivity|].
  split; [constructor; cbn|].
  - intros j o. here i j; apply (w_obj s W).
  - intros h Q. destruct (w_h s W h Q) as (A & B & C). here i (h_if h); auto.
  - apply W.
  - apply W.
  - intros j q Q. here i j; [discriminate|]. destruct (w_px s W j q Q) as (A & B & C).
    split; [exact A|]. here p q; [congruence|auto].
  - intros q A. here p q; [discriminate|]. intro B. pose proof (w_px' s W q A B) as Q.
    here i (px_if (proxies s q)); [|exact Q]. congruence.
  - intros j q Q. apply (w_nm s W). here i j; exact Q.
  - intros q A B. pose proof (w_nm' s W q A B) as Q. here i (pn_if (pnames s q)); [rewrite <- Q; f_equal; congruence|exact Q].
  - intros j Q. here i j; [|apply (w_idle s W), Q]. rewrite (w_idle s W i Q) in E. discriminate E.
  - split; [constructor; cbn; auto|].
    + intros q A. here p q; auto.
    + split; [intros j X; cbn; apply upd_other, X|]. do 2 (split; [reflexivity|]). cbn. apply upd_same.
Qed.

Lemma release_name_ok s i : weak s -> exists s', release_name s i = Ok s' /\ weak s' /\ same s s' /\ others s s' i /\
  ifs s' i = Bi (bi_watch (ifs s i)) (bi_death (ifs s i)) (bi_obj (ifs s i)) None (bi_proxy (ifs s i)).
Proof.
  intro W. unfold release_name. destruct (bi_name (ifs s i)) as [p|] eqn:E.
  2:{ exists s. split; [reflexivity|]. split; [exact W|]. split; [apply same_refl|]. split; [intros j _; reflexivity|].
      destruct (ifs s i); cbn in *. congruence. }
  destruct (w_nm s W i p E) as (L & I & D & N). rewrite D. eexists. split; [reflexivity|].
  split; [constructor; cbn|].
  - intros j o. here i j; apply (w_obj s W).
  - intros h Q. destruct (w_h s W h Q) as (A & B & C). here i (h_if h); auto.
  - apply W.
  - apply W.
  - intros j q Q. apply (w_px s W). here i j; exact Q.
  - intros q A B. pose proof (w_px' s W q A B) as Q. here i (px_if (proxies s q)); [rewrite <- Q; f_equal; congruence|exact Q].
  - intros j q Q. here i j; [discriminate|]. destruct (w_nm s W j q Q) as (A & B & C & F).
    split; [exact A|]. here p q; [congruence|auto].
  - intros q A. here p q; [discriminate|]. intro B. pose proof (w_nm' s W q A B) as Q.
    here i (pn_if (pnames s q)); [|exact Q]. congruence.
  - intros j Q. here i j; [|apply (w_idle s W), Q]. rewrite (w_idle s W i Q) in E. discriminate E.
  - split; [constructor; cbn; auto|].
    + intros q A. here p q; auto.
    + split; [intros j X; cbn; apply upd_other, X|]. cbn. apply upd_same.
Qed.

Definition cleared (s : state) (i : nat) : Prop := ifs s i = Bi (bi_watch (ifs s i)) None None None None.

Lemma deactivate_ok s i : weak s -> no_stray s -> exists s', deactivate s i = Ok s' /\ weak s' /\ no_stray s' /\
  same s s' /\ others s s' i /\ ifs s' i = Bi (bi_watch (ifs s i)) None None None None.
Proof.
  intros W NS. unfold deactivate.
  destruct (drop_remote_ok s i W NS) as (a & -> & (Wa & Sa & Oa & _ & _ & _ & _ & Ia) & NSa). cbn [bind].
  destruct (drop_proxy_ok a i Wa) as (b & -> & Wb & Sb & Ob & _ & _ & Ib). cbn [bind].
  destruct (release_name_ok b i Wb) as (c & -> & Wc & Sc & Oc & Ic).
  assert (IC : ifs c i = Bi (bi_watch (ifs s i)) None None None None) by (rewrite Ic, Ib, Ia; reflexivity).
  assert (OC : others s c i) by (eapply others_trans; [exact Oa|eapply others_trans; eassumption]).
  exists c. split; [reflexivity|]. split; [exact Wc|]. split.
  - intro j. destruct (Nat.eq_dec j i) as [->|X]; [rewrite IC; reflexivity|]. rewrite (OC j X). apply NS.
  - split; [eapply same_trans; [exact Sa|eapply same_trans; eassumption]|]. auto.
Qed.

Lemma attach_ok s i f : weak s -> no_stray s -> bridged s i ->
  attach s i f = Disabled \/
  exists s', attach s i f = Ok s' /\ weak s' /\ no_stray s' /\ same s s' /\ others s s' i /\
    proxies s' = proxies s /\ nproxies s' = nproxies s /\ pnames s' = pnames s /\ npnames s' = npnames s /\
    bi_watch (ifs s' i) = bi_watch (ifs s i) /\ bi_name (ifs s' i) = bi_name (ifs s i) /\
    bi_proxy (ifs s' i) = bi_proxy (ifs s i) /\
    bi_obj (ifs s' i) = (match bi_obj (ifs s i) with Some o => Some o | None => f end) /\
    (bi_obj (ifs s i) <> None -> bi_death (ifs s' i) = bi_death (ifs s i)) /\
    (forall o, bi_obj (ifs s i) = None -> f = Some o -> o < nobjs s /\ dead s o = false).
Proof.
  intros W NS [BL BI]. unfold attach. destruct (bi_obj (ifs s i)) as [o|] eqn:E.
  1:{ right. exists s. split; [reflexivity|]. split; [exact W|]. split; [exact NS|]. split; [apply same_refl|].
      split; [intros j _; reflexivity|]. do 7 (split; [reflexivity|]). split; [exact E|]. split; [reflexivity|]. discriminate. }
  destruct f as [o|].
  2:{ right. exists s. split; [reflexivity|]. split; [exact W|]. split; [exact NS|]. split; [apply same_refl|].
      split; [intros j _; reflexivity|]. do 7 (split; [reflexivity|]). split; [exact E|]. split; [congruence|]. discriminate. }
  destruct (Nat.ltb_spec o (nobjs s)) as [L|L]; [|left; reflexivity].
  destruct (dead s o) eqn:D; [left; reflexivity|]. cbn [andb negb]. right.
  eexists. split; [reflexivity|].
  assert (NI : forall h, In h (handlers s) -> h_if h <> i).
  { intros h Q X. destruct (w_h s W h Q) as (A & _). rewrite X in A. congruence. }
  split; [constructor; cbn|].
  - intros j o'. here i j.
    + intro X. injection X as <-. split; [exact L|]. eexists. split; [reflexivity|]. apply in_or_app. right. left. reflexivity.
    + intro Q. destruct (w_obj s W j o' Q) as (L' & id & D' & H). split; [exact L'|]. exists id. split; [exact D'|].
      apply in_or_app. left. exact H.
  - intros h Q. apply in_app_or in Q. destruct Q as [Q|[<-|[]]].
    + destruct (w_h s W h Q) as (A & B & C). rewrite (upd_other _ i _ _ (NI h Q)). auto.
    + cbn [h_if h_obj h_id]. rewrite upd_same. cbn. auto.
  - rewrite map_app. cbn [map h_id]. apply NoDup_Add with (a := nexth s) (l := map h_id (handlers s)).
    + rewrite <- (app_nil_r (map h_id (handlers s))) at 1. apply Add_app.
    + split; [apply W|]. intro Q. apply in_map_iff in Q. destruct Q as (h & X & Q).
      pose proof (w_h s W h Q). lia.
  - intro o'. unfold upd. rewrite filter_app, app_length. cbn [filter h_obj]. rewrite !(w_refs s W).
    rewrite (Nat.eqb_sym o o'). destruct (Nat.eqb_spec o' o) as [->|X]; cbn [length]; lia.
  - intros j p Q. apply (w_px s W). here i j; exact Q.
  - intros p A B. pose proof (w_px' s W p A B) as Q. here i (px_if (proxies s p)); [rewrite <- Q; f_equal; congruence|exact Q].
  - intros j p Q. apply (w_nm s W). here i j; exact Q.
  - intros p A B. pose proof (w_nm' s W p A B) as Q. here i (pn_if (pnames s p)); [rewrite <- Q; f_equal; congruence|exact Q].
  - intros j Q. here i j; [|apply (w_idle s W), Q]. destruct Q as [Q|Q]; [congruence|lia].
  - split; [intro j; cbn; here i j; [discriminate|apply NS]|].
    split; [constructor; cbn; auto|]. split; [intros j X; cbn; apply upd_other, X|].
    do 4 (split; [reflexivity|]). cbn. rewrite upd_same. cbn. do 4 (split; [reflexivity|]). split; [congruence|].
    intros x _ X. injection X as <-. auto.
Qed.

Lemma make_proxy_ok s i : weak s -> no_stray s -> bridged s i -> let s' := make_proxy s i in
  weak s' /\ no_stray s' /\ same s s' /\ others s s' i /\ pnames s' = pnames s /\ npnames s' = npnames s /\
  bi_watch (ifs s' i) = bi_watch (ifs s i) /\ bi_name (ifs s' i) = bi_name (ifs s i) /\
  bi_obj (ifs s' i) = bi_obj (ifs s i) /\ bi_death (ifs s' i) = bi_death (ifs s i) /\
  bi_proxy (ifs s' i) = match bi_obj (ifs s i), bi_proxy (ifs s i) with
                        | Some _, None => Some (nproxies s)
                        | _, x => x
                        end /\
  (forall o, bi_obj (ifs s i) = Some o -> bi_proxy (ifs s i) = None ->
     px_obj (proxies s' (nproxies s)) = o) /\
  (bi_proxy (ifs s i) <> None \/ bi_obj (ifs s i) = None -> s' = s).
Proof.
  intros W NS [BL BI]. cbv zeta. unfold make_proxy.
  destruct (bi_obj (ifs s i)) as [o|] eqn:E; [destruct (bi_proxy (ifs s i)) as [p|] eqn:F|].
  1,3: split; [exact W|]; split; [exact NS|]; split; [apply same_refl|]; split; [intros j _; reflexivity|];
       do 4 (split; [reflexivity|]); split; [assumption|]; split; [reflexivity|]; split; [auto|]; split; congruence.
  split; [constructor; cbn|].
  - intros j x. here i j; intro Q; apply (w_obj s W); congruence.
  - intros h Q. destruct (w_h s W h Q) as (A & B & C). here i (h_if h); repeat split; congruence || assumption.
  - apply W.
  - apply W.
  - intros j q. here i j.
    + intro X. injection X as <-. rewrite upd_same. cbn. auto.
    + intro Q. destruct (w_px s W j q Q) as (A & B & C). rewrite upd_other by lia. split; [lia|auto].
  - intros q A. destruct (Nat.eq_dec q (nproxies s)) as [->|X].
    + rewrite upd_same. cbn. intros _. rewrite upd_same. reflexivity.
    + rewrite (upd_other (proxies s)) by exact X. intro B. assert (A' : q < nproxies s) by lia.
      pose proof (w_px' s W q A' B) as Q. here i (px_if (proxies s q)); [|exact Q].
      exfalso. congruence.
  - intros j q Q. apply (w_nm s W). here i j; exact Q.
  - intros q A B. pose proof (w_nm' s W q A B) as Q. here i (pn_if (pnames s q)); [rewrite <- Q; f_equal; congruence|exact Q].
  - intros j Q. here i j; [|apply (w_idle s W), Q]. destruct Q as [Q|Q]; [congruence|lia].
  - split; [intro j; cbn; here i j; [discriminate|apply NS]|].
    split; [constructor; cbn; auto; intros q A; rewrite upd_other by lia; auto|].
    split; [intros j X; cbn; apply upd_other, X|].
    do 2 (split; [reflexivity|]). cbn. rewrite !upd_same. cbn. do 5 (split; [reflexivity || exact E|]).
    split; [congruence|]. intros [X|X]; congruence.
Qed.

Lemma publish_ok s i : weak s -> no_stray s -> bridged s i -> let s' := publish s i in
  weak s' /\ no_stray s' /\ same s s' /\ others s s' i /\ proxies s' = proxies s /\ nproxies s' = nproxies s /\
  bi_watch (ifs s' i) = bi_watch (ifs s i) /\ bi_proxy (ifs s' i) = bi_proxy (ifs s i) /\
  bi_obj (ifs s' i) = bi_obj (ifs s i) /\ bi_death (ifs s' i) = bi_death (ifs s i) /\
  match bi_proxy (ifs s i), bi_name (ifs s i) with
  | Some p, None => bi_name (ifs s' i) = Some (npnames s) /\ pn_proxy (pnames s' (npnames s)) = p
  | _, _ => s' = s
  end.
Proof.
  intros W NS [BL BI]. cbv zeta. unfold publish.
  destruct (bi_proxy (ifs s i)) as [p|] eqn:E; [destruct (bi_name (ifs s i)) as [k|] eqn:F|].
  1,3: split; [exact W|]; split; [exact NS|]; split; [apply same_refl|]; split; [intros j _; reflexivity|];
       do 3 (split; [reflexivity|]); split; [assumption|]; auto.
  split; [constructor; cbn|].
  - intros j x. here i j; intro Q; apply (w_obj s W); congruence.
  - intros h Q. destruct (w_h s W h Q) as (A & B & C). here i (h_if h); repeat split; congruence || assumption.
  - apply W.
  - apply W.
  - intros j q Q. apply (w_px s W). here i j; congruence.
  - intros q A B. pose proof (w_px' s W q A B) as Q. here i (px_if (proxies s q)); [rewrite <- Q; f_equal; congruence|exact Q].
  - intros j q. here i j.
    + intro X. injection X as <-. rewrite upd_same. cbn. auto.
    + intro Q. destruct (w_nm s W j q Q) as (A & B & C & D). rewrite upd_other by lia. split; [lia|auto].
  - intros q A. destruct (Nat.eq_dec q (npnames s)) as [->|X].
    + rewrite upd_same. cbn. intros _. rewrite upd_same. reflexivity.
    + rewrite (upd_other (pnames s)) by exact X. intro B. assert (A' : q < npnames s) by lia.
      pose proof (w_nm' s W q A' B) as Q. here i (pn_if (pnames s q)); [|exact Q].
      exfalso. congruence.
  - intros j Q. here i j; [|apply (w_idle s W), Q]. destruct Q as [Q|Q]; [congruence|lia].
  - split; [intro j; cbn; here i j; apply NS|].
    split; [constructor; cbn; auto; intros q A; rewrite upd_other by lia; auto|].
    split; [intros j X; cbn; apply upd_other, X|].
    do 2 (split; [reflexivity|]). cbn. rewrite !upd_same. cbn.
    split; [reflexivity|]. split; [congruence|]. do 2 (split; [reflexivity|]). split; reflexivity.
Qed.
