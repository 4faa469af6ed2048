(* What every history of a bridge preserves. *)
From Verif Require Import Base BridgeModel BridgeSpec BridgeProofs.
Local Open Scope nat_scope.

Record good (s : state) : Prop := Good {
  g_weak : weak s;
  g_stray : no_stray s;
  g_neat : forall i, neat s i
}.
(* Handlers are only removed, or added with new numbers *)
Definition hsub (s s' : state) : Prop :=
  nexth s <= nexth s' /\ forall h, In h (handlers s') -> In h (handlers s) \/ nexth s <= h_id h.
Lemma hsub_refl s : hsub s s.
Proof. split; auto. Qed.
Lemma hsub_trans a b c : hsub a b -> hsub b c -> hsub a c.
Proof.
  intros [A B] [C D]. split; [lia|]. intros h H. destruct (D h H) as [X|X]; [destruct (B h X); auto|right; lia].
Qed.
Lemma hsub_eq s s' : handlers s' = handlers s -> nexth s' = nexth s -> hsub s s'.
Proof. intros A B. unfold hsub. rewrite A, B. auto. Qed.
Lemma drop_remote_hsub s i s' : drop_remote_object s i = Ok s' -> hsub s s'.
Proof.
  unfold drop_remote_object. destruct (bi_obj (ifs s i)); [|intro H; injection H as <-; apply hsub_refl].
  destruct (bi_death (ifs s i)); [|discriminate]. destruct (_ && _); [|discriminate].
  intro H. injection H as <-. split; cbn; [lia|]. intros h X. apply filter_In in X. tauto.
Qed.
Lemma deactivate_hsub s i s' : deactivate s i = Ok s' -> hsub s s'.
Proof.
  unfold deactivate. destruct (drop_remote_object s i) as [| |a] eqn:E; try discriminate. cbn [bind].
  destruct (drop_proxy a i) as [| |b] eqn:F; try discriminate. cbn [bind]. intro H.
  apply (hsub_trans s a); [exact (drop_remote_hsub _ _ _ E)|]. apply (hsub_trans a b).
  - revert F. unfold drop_proxy. destruct (bi_proxy (ifs a i)); [destruct (px_dropped _)|]; intro F;
      try discriminate; injection F as <-; apply hsub_eq; reflexivity.
  - revert H. unfold release_name. destruct (bi_name (ifs b i)); [destruct (pn_released _)|]; intro H;
      try discriminate; injection H as <-; apply hsub_eq; reflexivity.
Qed.
Lemma activate_hsub s i f s' : activate s i f = Ok s' -> hsub s s'.
Proof.
  unfold activate. intro H.
  match type of H with bind ?m _ = _ => destruct m as [| |a] eqn:E; try discriminate end. cbn [bind] in H.
  destruct (attach a i f) as [| |b] eqn:F; try discriminate. cbn [bind] in H. injection H as <-.
  apply (hsub_trans s a).
  { destruct (match bi_obj (ifs s i) with Some o => dead s o | None => false end);
      [exact (drop_remote_hsub _ _ _ E)|injection E as <-; apply hsub_refl]. }
  apply (hsub_trans a b).
  { revert F. unfold attach. destruct (bi_obj (ifs a i)); [intro X; injection X as <-; apply hsub_refl|].
    destruct f; [|intro X; injection X as <-; apply hsub_refl]. destruct (_ && _); [|discriminate].
    intro X. injection X as <-. split; cbn; [lia|]. intros h Q. apply in_app_or in Q.
    destruct Q as [Q|[<-|[]]]; [auto|right; cbn; lia]. }
  apply (hsub_trans b (make_proxy b i)).
  { unfold make_proxy. destruct (bi_obj (ifs b i)); [destruct (bi_proxy (ifs b i))|]; apply hsub_eq; reflexivity. }
  generalize (make_proxy b i). intro c. unfold publish. destruct (bi_proxy (ifs c i)); [destruct (bi_name (ifs c i))|];
    apply hsub_eq; reflexivity.
Qed.

Lemma bridged_same s s' i : same s s' -> bridged s i -> bridged s' i.
Proof. intros H [A B]. split; [rewrite (sm_life _ _ H)|rewrite (sm_ifaces _ _ H)]; assumption. Qed.

(* What becomes of the object, of the proxy and of the name *)
Definition kept (s : state) (i : nat) : option nat :=
  match bi_obj (ifs s i) with Some o => if dead s o then None else Some o | None => None end.
Record activated (s : state) (i : nat) (f : option nat) (s' : state) : Prop := Activated {
  a_weak : weak s';
  a_stray : no_stray s';
  a_same : same s s';
  a_others : others s s' i;
  a_watch : bi_watch (ifs s' i) = bi_watch (ifs s i);
  a_obj : bi_obj (ifs s' i) = match kept s i with Some o => Some o | None => f end;
  a_death : kept s i <> None -> bi_death (ifs s' i) = bi_death (ifs s i);
  a_found : forall o, kept s i = None -> f = Some o -> o < nobjs s /\ dead s o = false;
  a_proxy : bi_proxy (ifs s' i) = match bi_proxy (ifs s i) with
                                  | Some p => Some p
                                  | None => match bi_obj (ifs s' i) with Some _ => Some (nproxies s) | None => None end
                                  end;
  a_stands : forall o, bi_proxy (ifs s i) = None -> bi_obj (ifs s' i) = Some o -> px_obj (proxies s' (nproxies s)) = o;
  a_neat : neat s i -> neat s' i
}.
Lemma activate_ok s i f : weak s -> no_stray s -> bridged s i ->
  activate s i f = Disabled \/ exists s', activate s i f = Ok s' /\ activated s i f s'.
Proof.
  intros W NS B. unfold activate.
  assert (X : exists a, (if match bi_obj (ifs s i) with Some o => dead s o | None => false end
                         then drop_remote_object s i else Ok s) = Ok a /\
    weak a /\ no_stray a /\ same s a /\ others s a i /\ proxies a = proxies s /\ nproxies a = nproxies s /\
    pnames a = pnames s /\ npnames a = npnames s /\
    bi_watch (ifs a i) = bi_watch (ifs s i) /\ bi_name (ifs a i) = bi_name (ifs s i) /\
    bi_proxy (ifs a i) = bi_proxy (ifs s i) /\ bi_obj (ifs a i) = kept s i /\
    (kept s i <> None -> bi_death (ifs a i) = bi_death (ifs s i))).
  { unfold kept. destruct (bi_obj (ifs s i)) as [o|] eqn:E; [destruct (dead s o) eqn:D|].
    - destruct (drop_remote_ok s i W NS) as (a & R & (Wa & Sa & Oa & P1 & P2 & P3 & P4 & Ia) & NSa).
      exists a. split; [exact R|]. rewrite Ia. cbn. repeat (split; [assumption || reflexivity|]). congruence.
    - exists s. split; [reflexivity|]. do 2 (split; [assumption|]). split; [apply same_refl|]. split; [intros j _; reflexivity|].
      do 7 (split; [reflexivity|]). split; [exact E|reflexivity].
    - exists s. split; [reflexivity|]. do 2 (split; [assumption|]). split; [apply same_refl|]. split; [intros j _; reflexivity|].
      do 7 (split; [reflexivity|]). split; [exact E|reflexivity]. }
  destruct X as (a & -> & Wa & NSa & Sa & Oa & P1 & P2 & P3 & P4 & A1 & A2 & A3 & A4 & A5). cbn [bind].
  pose proof (bridged_same _ _ _ Sa B) as Ba.
  destruct (attach_ok a i f Wa NSa Ba) as [->|(b & -> & Wb & NSb & Sb & Ob & Q1 & Q2 & Q3 & Q4 & B1 & B2 & B3 & B4 & B5 & B6)];
    [left; reflexivity|]. cbn [bind]. right.
  pose proof (bridged_same _ _ _ Sb Ba) as Bb.
  destruct (make_proxy_ok b i Wb NSb Bb) as (Wc & NSc & Sc & Oc & R1 & R2 & C1 & C2 & C3 & C4 & C5 & C6 & C7).
  set (c := make_proxy b i) in *.
  pose proof (bridged_same _ _ _ Sc Bb) as Bc.
  destruct (publish_ok c i Wc NSc Bc) as (Wd & NSd & Sd & Od & T1 & T2 & D1 & D2 & D3 & D4 & D5).
  set (d := publish c i) in *.
  exists d. split; [reflexivity|].
  assert (SS : same s d) by (eapply same_trans; [exact Sa|]; eapply same_trans; [exact Sb|]; eapply same_trans; eassumption).
  assert (OO : bi_obj (ifs d i) = match kept s i with Some o => Some o | None => f end).
  { rewrite D3, C3, B4, A4. reflexivity. }
  assert (PP : bi_proxy (ifs d i) = match bi_proxy (ifs s i) with
                                  | Some p => Some p
                                  | None => match bi_obj (ifs d i) with Some _ => Some (nproxies s) | None => None end
                                  end).
  { rewrite D2, C5, D3, C3, B3, A3, Q2, P2. destruct (bi_obj (ifs b i)), (bi_proxy (ifs s i)); reflexivity. }
  constructor; auto.
  - eapply others_trans; [exact Oa|]. eapply others_trans; [exact Ob|]. eapply others_trans; eassumption.
  - congruence.
  - intro K. rewrite D4, C4, B5 by (rewrite A4; exact K). apply A5, K.
  - intros o K F. rewrite <- (sm_objs _ _ Sa), <- (sm_dead _ _ Sa). apply B6; [congruence|exact F].
  - intros o N K. rewrite T1, <- P2, <- Q2. apply C6; congruence.
  - intros [NE N]. destruct (bi_proxy (ifs s i)) as [p|] eqn:EP.
    + destruct (bi_name (ifs s i)) as [k|] eqn:EN; [|tauto].
      rewrite C5, B3, A3, C2, B2, A2 in D5.
      assert (DC : d = c) by (destruct (bi_obj (ifs b i)); exact D5).
      split; [rewrite PP; congruence|]. rewrite PP.
      assert (EK : bi_name (ifs d i) = Some k) by (rewrite DC, C2, B2, A2; reflexivity).
      rewrite EK. destruct (w_nm s W i k EN) as (L & _).
      destruct (sm_pn _ _ SS k L) as (_ & -> & _). exact N.
    + destruct (bi_name (ifs s i)) as [k|] eqn:EN; [tauto|].
      rewrite C5, B3, A3, C2, B2, A2 in D5. rewrite <- C3, <- D3 in D5.
      split; rewrite PP; destruct (bi_obj (ifs d i)); auto; try congruence.
      * destruct D5 as [-> E]. rewrite E, Q2, P2. reflexivity.
      * rewrite D5, C2, B2, A2. exact I.
Qed.

Lemma neat_other s s' j : weak s -> same s s' -> ifs s' j = ifs s j -> neat s j -> neat s' j.
Proof.
  intros W S E [A B]. unfold neat. rewrite E. split; [exact A|].
  destruct (bi_proxy (ifs s j)), (bi_name (ifs s j)) as [k|] eqn:N; auto.
  destruct (w_nm s W j k N) as (L & _). destruct (sm_pn _ _ S k L) as (_ & -> & _). exact B.
Qed.
Lemma activate_good s i f : good s -> bridged s i ->
  activate s i f = Disabled \/ exists s', activate s i f = Ok s' /\ good s' /\ same s s'.
Proof.
  intros [W NS N] B. destruct (activate_ok s i f W NS B) as [H|(s' & H & A)]; [auto|]. right. exists s'.
  split; [exact H|]. split; [|apply A]. constructor; try apply A.
  intro j. destruct (Nat.eq_dec j i) as [->|X]; [apply (a_neat _ _ _ _ A), N|].
  apply (neat_other s); auto; [apply A|apply (a_others _ _ _ _ A), X].
Qed.
Lemma neat_clear s i w : ifs s i = Bi w None None None None -> neat s i.
Proof. intro E. unfold neat. rewrite E. cbn. split; auto. Qed.
Lemma deactivate_good s i : good s ->
  exists s', deactivate s i = Ok s' /\ good s' /\ same s s' /\ others s s' i /\
    ifs s' i = Bi (bi_watch (ifs s i)) None None None None.
Proof.
  intros [W NS N]. destruct (deactivate_ok s i W NS) as (s' & H & W' & NS' & S & O & E).
  exists s'. split; [exact H|]. split; [|auto]. constructor; auto.
  intro j. destruct (Nat.eq_dec j i) as [->|X]; [exact (neat_clear _ _ _ E)|].
  apply (neat_other s); auto.
Qed.

Lemma for_all_ind (P : nat -> state -> Prop) f n : forall k s,
  (forall j s, k <= j < k + n -> P j s -> f s j = Disabled \/ exists s', f s j = Ok s' /\ P (S j) s') ->
  P k s -> for_all (seq k n) f s = Disabled \/ exists s', for_all (seq k n) f s = Ok s' /\ P (k + n) s'.
Proof.
  induction n as [|n I]; intros k s H HP; cbn [seq for_all].
  - right. exists s. rewrite Nat.add_0_r. auto.
  - destruct (H k s ltac:(lia) HP) as [->|(a & -> & Ha)]; [left; reflexivity|]. cbn [bind].
    rewrite <- Nat.add_succ_comm. apply I; [|exact Ha]. intros j x J. apply H. lia.
Qed.

Lemma good_eq s s' : good s ->
  life_ s' = life_ s -> ifaces s' = ifaces s -> src_name s' = src_name s -> ifs s' = ifs s ->
  handlers s' = handlers s -> nexth s' = nexth s -> refs s' = refs s -> proxies s' = proxies s ->
  nproxies s' = nproxies s -> pnames s' = pnames s -> npnames s' = npnames s -> nobjs s <= nobjs s' -> good s'.
Proof.
  intros [W NS N] E1 E2 E3 E4 E5 E6 E7 E8 E9 E10 E11 E12. constructor.
  - constructor; rewrite ?E1, ?E2, ?E3, ?E4, ?E5, ?E6, ?E7, ?E8, ?E9, ?E10, ?E11; try apply W.
    intros i o H. destruct (w_obj s W i o H) as [L X]. split; [lia|exact X].
  - intro i. rewrite E4. apply NS.
  - intro i. unfold neat. rewrite E4, E10. apply N.
Qed.
Lemma set_bi_clear s i w : weak s -> no_stray s -> ifs s i = Bi (bi_watch (ifs s i)) None None None None ->
  (w = false \/ bridged s i) -> weak (set_bi s i (Bi w None None None None)) /\ no_stray (set_bi s i (Bi w None None None None)).
Proof.
  intros W NS E C.
  assert (K : bi_obj (ifs s i) = None /\ bi_death (ifs s i) = None /\ bi_proxy (ifs s i) = None /\ bi_name (ifs s i) = None)
    by (rewrite E; auto). destruct K as (K1 & K2 & K3 & K4).
  split; [constructor; cbn|intro j; cbn; here i j; auto; apply NS].
  - intros j o. here i j; [discriminate|apply W].
  - intros h Q. destruct (w_h s W h Q) as (A & B & D). here i (h_if h); [congruence|auto].
  - apply W.
  - apply W.
  - intros j p. here i j; [discriminate|apply W].
  - intros p A B. pose proof (w_px' s W p A B). here i (px_if (proxies s p)); [congruence|assumption].
  - intros j p. here i j; [discriminate|apply W].
  - intros p A B. pose proof (w_nm' s W p A B). here i (pn_if (pnames s p)); [congruence|assumption].
  - intros j Q. here i j; [|apply W, Q]. destruct C as [->|[C D]]; [reflexivity|]. destruct Q; [congruence|lia].
Qed.
Lemma same_set_bi s i b : same s (set_bi s i b).
Proof. constructor; cbn; auto. Qed.
Lemma interface_free_good s i : good s ->
  exists s', interface_free s i = Ok s' /\ good s' /\ same s s' /\ others s s' i /\ ifs s' i = Bi false None None None None.
Proof.
  intro G. unfold interface_free. destruct (deactivate_good s i G) as (a & -> & Ga & S & O & E). cbn [bind].
  eexists. split; [reflexivity|].
  destruct (set_bi_clear a i false (g_weak _ Ga) (g_stray _ Ga)) as [W' NS']; [rewrite E; reflexivity|auto|].
  split; [constructor; auto|].
  - intro j. destruct (Nat.eq_dec j i) as [->|X].
    + apply (neat_clear _ _ false). cbn. apply upd_same.
    + apply (neat_other a); [apply Ga|apply same_set_bi|cbn; apply upd_other, X|apply Ga].
  - split; [eapply same_trans; [exact S|apply same_set_bi]|]. split; [|cbn; apply upd_same].
    intros j X. cbn. rewrite upd_other by exact X. apply O, X.
Qed.
Lemma interface_new_good s i w f : good s -> bridged s i -> ifs s i = Bi false None None None None ->
  interface_new s i w f = Disabled \/
  exists s', interface_new s i w f = Ok s' /\ good s' /\ same s s' /\ others s s' i.
Proof.
  intros G B E. unfold interface_new.
  destruct (set_bi_clear s i w (g_weak _ G) (g_stray _ G)) as [W' NS']; [rewrite E; reflexivity|auto|].
  set (a := set_bi s i (Bi w None None None None)) in *.
  assert (S : same s a) by apply same_set_bi.
  assert (O : others s a i) by (intros j X; cbn; apply upd_other, X).
  destruct (activate_ok a i f W' NS' (bridged_same _ _ _ S B)) as [H|(s' & H & A)]; [auto|]. right. exists s'.
  split; [exact H|]. split; [|split; [eapply same_trans; [exact S|apply A]|eapply others_trans; [exact O|apply A]]].
  constructor; try apply A. intro j. destruct (Nat.eq_dec j i) as [->|X].
  - apply (a_neat _ _ _ _ A). apply (neat_clear _ _ w). cbn. apply upd_same.
  - apply (neat_other s); [apply G|eapply same_trans; [exact S|apply A]| |apply G].
    rewrite (a_others _ _ _ _ A j X). apply O, X.
Qed.

Lemma good_init : good init.
Proof.
  constructor; [constructor; cbn; try discriminate; try tauto; try lia|intros i _; reflexivity|].
  - constructor.
  - intro i. exact (neat_clear init i false eq_refl).
Qed.

Lemma good_life s : good s -> life_ s <> Live -> forall l a b, good (set_life (set_given s l a b) Live).
Proof.
  intros [W NS N] L l a b.
  assert (D : forall i, ifs s i = Bi false None None None None) by (intro i; apply (w_idle s W); auto).
  constructor; [constructor; cbn; try apply W|exact NS|exact N].
  - intros i k. rewrite D. discriminate.
  - intros i _. apply D.
Qed.
Lemma bridge_new2_good s src dest l w f : good s ->
  bridge_new2 s src dest l w f = Disabled \/ exists s', bridge_new2 s src dest l w f = Ok s' /\ good s'.
Proof.
  intro G. unfold bridge_new2. destruct (life_ s) eqn:L; try (left; reflexivity).
  set (a := match src with None => dest | x => x end). set (b := match dest with None => a | x => x end).
  assert (SX : exists s', Ok s = Ok s' /\ good s') by (exists s; auto).
  destruct a as [a'|]; [|auto]. destruct b as [b'|]; [|auto]. destruct l as [|x r]; [auto|].
  set (l := x :: r). set (s0 := set_life (set_given s l a' b') Live).
  assert (G0 : good s0) by (apply good_life; [exact G|congruence]).
  destruct (for_all_ind (fun k t => good t /\ same s0 t /\ forall i, k <= i -> ifs t i = Bi false None None None None)
             (fun s i => interface_new s i (w i) (f i)) (length l) 0 s0) as [H|(s' & H & (H1 & H2 & H3))]; auto.
  - intros j t J (Gt & St & It).
    destruct (interface_new_good t j (w j) (f j) Gt) as [H|(t' & H & Gt' & St' & Ot')]; auto.
    + apply (bridged_same s0); [exact St|]. split; [reflexivity|exact (proj2 J)].
    + right. exists t'. split; [exact H|]. split; [exact Gt'|]. split; [eapply same_trans; eassumption|].
      intros i I. rewrite Ot' by lia. apply It. lia.
  - split; [exact G0|]. split; [apply same_refl|]. intros i _. apply (w_idle s (g_weak s G)). left. congruence.
  - right. exists s'. auto.
Qed.
Lemma bridge_free_good s : good s ->
  bridge_free s = Disabled \/ exists s', bridge_free s = Ok s' /\ good s' /\ life_ s' = Freed /\
    same (set_life s Freed) s' /\ forall i, ifs s' i = Bi false None None None None.
Proof.
  intro G. unfold bridge_free. destruct (life_ s) eqn:L; try (left; reflexivity).
  destruct (for_all_ind (fun k t => good t /\ same s t /\ forall i, i < k \/ count s <= i -> ifs t i = Bi false None None None None)
             interface_free (count s) 0 s) as [->|(s' & -> & (H1 & H2 & H3))]; auto.
  - intros j t J (Gt & St & It).
    destruct (interface_free_good t j Gt) as (t' & H & Gt' & St' & Ot' & E).
    right. exists t'. split; [exact H|]. split; [exact Gt'|]. split; [eapply same_trans; eassumption|].
    intros i I. destruct (Nat.eq_dec i j) as [->|X]; [exact E|]. rewrite Ot' by exact X. apply It. lia.
  - split; [exact G|]. split; [apply same_refl|]. intros i [I|I]; [inversion I|]. apply (w_idle s (g_weak s G)). right. exact I.
  - right. cbn [bind]. eexists. split; [reflexivity|].
    assert (D : forall i, ifs s' i = Bi false None None None None).
    { intro i. apply H3. cbn. lia. }
    split; [|split; [reflexivity|split; [|exact D]]].
    + destruct H1 as [W NS N]. constructor; [constructor; cbn; try apply W|exact NS|exact N]. intros i _. apply D.
    + constructor; cbn; try apply H2. reflexivity.
Qed.
Lemma registered_good s n f : good s ->
  registered s n f = Disabled \/ exists s', registered s n f = Ok s' /\ good s' /\ same s s'.
Proof.
  intro G. unfold registered. destruct (life_ s) eqn:L; try (right; exists s; split; [reflexivity|split; [exact G|apply same_refl]]).
  match goal with |- for_all _ ?g _ = _ \/ _ =>
  destruct (for_all_ind (fun _ t => good t /\ same s t) g (count s) 0 s) as [->|(s' & -> & (H1 & H2))] end; auto.
  - intros j t J (Gt & St). destruct (bi_watch (ifs t j) && name_eqb n (fqname t j)).
    + destruct (activate_good t j (f j) Gt) as [H|(t' & H & Gt' & St')]; auto.
      * apply (bridged_same s); [exact St|]. split; [exact L|exact (proj2 J)].
      * right. exists t'. split; [exact H|]. split; [exact Gt'|eapply same_trans; eassumption].
    + right. exists t. auto.
  - split; [exact G|apply same_refl].
  - right. exists s'. auto.
Qed.
Lemma emit_good s : good s -> emit s = Disabled \/ exists s', emit s = Ok s' /\ good s'.
Proof.
  intro G. unfold emit. destruct (emitting s) as [|id r]; [auto|]. right.
  set (a := set_dying s (dead s) r). assert (Ga : good a) by (apply (good_eq s); auto; reflexivity).
  destruct (find _ (handlers a)) as [h|] eqn:F; [|exists a; auto].
  apply find_some in F. destruct F as [F _]. destruct (w_h a (g_weak a Ga) h F) as (A & B & C).
  destruct (life_ a) eqn:L.
  1,3: exfalso; assert (X : life_ a <> Live) by congruence;
       rewrite (w_idle a (g_weak a Ga) (h_if h) (or_introl X)) in A; discriminate A.
  destruct (deactivate_good a (h_if h) Ga) as (s' & H & G' & _). exists s'. auto.
Qed.
Lemma died_good s o : good s -> good (died s o).
Proof. intro G. unfold died. destruct (dead s o); [exact G|]. apply (good_eq s); auto; reflexivity. Qed.

Theorem step_good s m : good s -> step s m = Disabled \/ exists s', step s m = Ok s' /\ good s'.
Proof.
  intro G. destruct m as [n o nt|o nt|k f|o| |a b l w f| |k|k]; cbn [step].
  - destruct (_ && _); [|auto]. right. eexists. split; [reflexivity|]. apply (good_eq s); auto. cbn. lia.
  - destruct (_ && _); [|auto]. right. eexists. split; [reflexivity|]. apply (good_eq s); auto.
  - destruct (nth_error (queue s) k) as [x|]; [|auto].
    set (a := set_world s (nobjs s) (gone s) (current s) (remove_nth k (queue s))).
    assert (Ga : good a) by (apply (good_eq s); auto; reflexivity).
    destruct x as [n|o].
    + destruct (registered_good a n f Ga) as [H|(s' & H & G' & _)]; [auto|]. right. exists s'. auto.
    + right. eexists. split; [reflexivity|]. apply died_good, Ga.
  - destruct (gone s o); [|auto]. right. eexists. split; [reflexivity|]. apply died_good, G.
  - apply emit_good, G.
  - apply bridge_new2_good, G.
  - destruct (bridge_free_good s G) as [H|(s' & H & G' & _)]; [auto|]. right. exists s'. auto.
  - destruct (_ && _); [|auto]. right. eexists. split; [reflexivity|]. apply (good_eq s); auto.
  - destruct (existsb _ _); [|auto]. right. eexists. split; [reflexivity|]. apply (good_eq s); auto.
Qed.
Theorem run_good l : forall s, good s -> run s l = Disabled \/ exists s', run s l = Ok s' /\ good s'.
Proof.
  induction l as [|m l I]; intros s G; cbn [run]; [right; exists s; auto|].
  destruct (step_good s m G) as [->|(s' & -> & G')]; [auto|]. apply I, G'.
Qed.
Theorem reach_good s : reach s -> good s.
Proof.
  intros [l H]. destruct (run_good l init good_init) as [E|(s' & E & G)]; [congruence|].
  rewrite H in E. injection E as ->. exact G.
Qed.
