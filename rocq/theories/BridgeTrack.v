(* When things happen in order the bridge follows the destination. *)
From Verif Require Import Base BridgeModel BridgeSpec BridgeProofs BridgeInv.
Local Open Scope nat_scope.

(* The interface is attached to what it offers, which lives, or its death is on its way *)
Record part (s : state) (i : nat) : Prop := Part {
  p_px : forall o, bi_obj (ifs s i) = Some o -> exists p, bi_proxy (ifs s i) = Some p /\ px_obj (proxies s p) = o;
  p_ob : bi_proxy (ifs s i) <> None -> bi_obj (ifs s i) <> None;
  p_obj : forall m, bi_obj (ifs s i) = Some m ->
            (dead s m = false /\ (current s (fqname s i) = Some m \/ In (NDeath m) (queue s))) \/
            (dead s m = true /\ exists id, bi_death (ifs s i) = Some id /\ In id (emitting s));
  p_watch : bridged s i -> bi_watch (ifs s i) = true
}.
(* What is registered is offered, or the notification is on its way, after that about the death of
   what is offered *)
Definition tcur (s : state) (i : nat) : Prop :=
  bridged s i -> forall n, current s (fqname s i) = Some n -> bi_obj (ifs s i) <> Some n ->
  exists q1 q2, queue s = (q1 ++ NReg (fqname s i) :: q2)%list /\
    forall m, bi_obj (ifs s i) = Some m -> dead s m = true \/ In (NDeath m) q1.
Record world (s : state) : Prop := World {
  o_cur : forall n o, current s n = Some o -> o < nobjs s /\ gone s o = false;
  o_dead : forall o, dead s o = true -> gone s o = true;
  o_note : forall o, In (NDeath o) (queue s) -> gone s o = true;
  o_emit : forall id, In id (emitting s) -> id < nexth s /\
             forall h, In h (handlers s) -> h_id h = id -> dead s (h_obj h) = true
}.
Record track (s : state) : Prop := Track {
  k_good : good s;
  k_world : world s;
  k_part : forall i, part s i;
  k_cur : forall i, tcur s i
}.

Lemma fqname_same s s' i : same s s' -> fqname s' i = fqname s i.
Proof. intro S. unfold fqname. rewrite (sm_ifaces _ _ S), (sm_dest _ _ S). reflexivity. Qed.
Lemma bridged_back s s' i : same s s' -> bridged s' i -> bridged s i.
Proof. intros H [A B]. split; [rewrite <- (sm_life _ _ H)|rewrite <- (sm_ifaces _ _ H)]; assumption. Qed.
Lemma part_other s s' i : weak s -> same s s' -> ifs s' i = ifs s i -> part s i -> part s' i.
Proof.
  intros W S E [A B C D].
  constructor; rewrite ?E, ?(fqname_same _ _ _ S), ?(sm_dead _ _ S), ?(sm_cur _ _ S), ?(sm_queue _ _ S), ?(sm_emit _ _ S); auto.
  - intros o H. destruct (A o H) as (p & P & Q). exists p. split; [exact P|].
    destruct (w_px s W i p P) as (L & _). destruct (sm_px _ _ S p L) as [_ ->]. exact Q.
  - intro H. apply D, (bridged_back _ _ _ S H).
Qed.
Lemma tcur_other s s' i : same s s' -> ifs s' i = ifs s i -> tcur s i -> tcur s' i.
Proof.
  intros S E T H. pose proof (T (bridged_back _ _ _ S H)) as T'.
  rewrite E, (fqname_same _ _ _ S), (sm_dead _ _ S), (sm_cur _ _ S), (sm_queue _ _ S). exact T'.
Qed.
Lemma world_same s s' : same s s' -> hsub s s' -> world s -> world s'.
Proof.
  intros S [N H] [A B C D]. constructor; rewrite ?(sm_cur _ _ S), ?(sm_objs _ _ S), ?(sm_gone _ _ S), ?(sm_dead _ _ S),
    ?(sm_queue _ _ S), ?(sm_emit _ _ S); auto.
  intros id I. destruct (D id I) as [L K]. split; [lia|]. intros h J E. destruct (H h J) as [X|X]; [auto|lia].
Qed.

Lemma activate_part s i f : good s -> world s -> bridged s i -> part s i -> (bi_obj (ifs s i) <> None -> tcur s i) ->
  (forall m, bi_obj (ifs s i) = Some m -> dead s m = false) -> f = current s (fqname s i) ->
  exists s', activate s i f = Ok s' /\ good s' /\ world s' /\ same s s' /\ others s s' i /\ part s' i /\ tcur s' i.
Proof.
  intros G Wd B P T D F.
  destruct (activate_ok s i f (g_weak _ G) (g_stray _ G) B) as [H|(s' & H & A)].
  { exfalso. unfold activate in H.
    assert (X : match bi_obj (ifs s i) with Some o => dead s o | None => false end = false)
      by (destruct (bi_obj (ifs s i)); auto).
    rewrite X in H. cbn [bind] in H. unfold attach in H. destruct (bi_obj (ifs s i)); [discriminate H|].
    destruct f as [o|]; [|discriminate H]. destruct (o_cur s Wd _ _ (eq_sym F)) as [L GO].
    destruct (Nat.ltb_spec o (nobjs s)); [|lia]. destruct (dead s o) eqn:DD; [|discriminate H].
    rewrite (o_dead s Wd o DD) in GO. discriminate GO. }
  assert (K : kept s i = bi_obj (ifs s i)).
  { unfold kept. destruct (bi_obj (ifs s i)) as [o|]; [rewrite (D o eq_refl)|]; reflexivity. }
  destruct (activate_good s i f G B) as [X|(s'' & X & G' & S)]; [congruence|].
  assert (s'' = s') by congruence. subst s''.
  exists s'. split; [exact H|]. split; [exact G'|].
  split; [exact (world_same _ _ S (activate_hsub _ _ _ _ H) Wd)|]. split; [exact S|]. split; [apply A|].
  pose proof (a_obj _ _ _ _ A) as AO. rewrite K in AO. pose proof (a_proxy _ _ _ _ A) as AP.
  assert (NE : forall o, bi_obj (ifs s i) = Some o -> bi_obj (ifs s' i) = Some o /\ bi_proxy (ifs s' i) = bi_proxy (ifs s i) /\
             bi_death (ifs s' i) = bi_death (ifs s i)).
  { intros o E. rewrite E in AO. split; [exact AO|]. destruct (p_px s i P o E) as (p & E' & _).
    split; [rewrite AP, E'; reflexivity|]. apply (a_death _ _ _ _ A). rewrite K. congruence. }
  split.
  - constructor; rewrite ?(fqname_same _ _ _ S), ?(sm_dead _ _ S), ?(sm_cur _ _ S), ?(sm_queue _ _ S), ?(sm_emit _ _ S).
    + intros o E. destruct (bi_obj (ifs s i)) as [o'|] eqn:EO.
      * destruct (NE o' eq_refl) as (E1 & E2 & _). assert (o' = o) by congruence. subst o'.
        destruct (p_px s i P o EO) as (p & E3 & E4). exists p. split; [congruence|].
        destruct (w_px s (g_weak _ G) i p E3) as (L & _). destruct (sm_px _ _ S p L) as [_ ->]. exact E4.
      * destruct (bi_proxy (ifs s i)) as [p|] eqn:EP.
        { exfalso. apply (p_ob s i P); [congruence|exact EO]. }
        rewrite E in AP. exists (nproxies s). split; [exact AP|]. apply (a_stands _ _ _ _ A); assumption.
    + intro X1. rewrite AP in X1. destruct (bi_proxy (ifs s i)) eqn:EP.
      * destruct (bi_obj (ifs s i)) as [o|] eqn:EO; [congruence|]. exfalso. apply (p_ob s i P); [congruence|exact EO].
      * destruct (bi_obj (ifs s' i)); congruence.
    + intros m E. destruct (bi_obj (ifs s i)) as [o'|] eqn:EO.
      * destruct (NE o' eq_refl) as (E1 & E2 & E3). assert (o' = m) by congruence. subst o'.
        rewrite E3. exact (p_obj s i P m EO).
      * left. assert (Q : current s (fqname s i) = Some m) by congruence.
        split; [|left; exact Q]. destruct (o_cur s Wd _ _ Q) as [_ GO]. destruct (dead s m) eqn:DD; [|reflexivity].
        rewrite (o_dead s Wd m DD) in GO. discriminate GO.
    + intros _. rewrite (a_watch _ _ _ _ A). apply (p_watch s i P B).
  - intros _ n. rewrite (fqname_same _ _ _ S), (sm_dead _ _ S), (sm_cur _ _ S), (sm_queue _ _ S). intros E1 E2.
    destruct (bi_obj (ifs s i)) as [o|] eqn:EO.
    + destruct (NE o eq_refl) as (E3 & _). rewrite E3 in E2 |- *.
      destruct (T ltac:(congruence) B n E1 ltac:(congruence)) as (q1 & q2 & Q & R).
      exists q1, q2. split; [exact Q|]. intros m X1. apply R. congruence.
    + exfalso. congruence.
Qed.

Lemma for_all_ok (P : nat -> state -> Prop) f n : forall k s,
  (forall j s, k <= j < k + n -> P j s -> exists s', f s j = Ok s' /\ P (S j) s') ->
  P k s -> exists s', for_all (seq k n) f s = Ok s' /\ P (k + n) s'.
Proof.
  induction n as [|n I]; intros k s H HP; cbn [seq for_all].
  - exists s. rewrite Nat.add_0_r. auto.
  - destruct (H k s ltac:(lia) HP) as (a & -> & Ha). cbn [bind].
    rewrite <- Nat.add_succ_comm. apply I; [|exact Ha]. intros j x J. apply H. lia.
Qed.
Lemma queue_head (x : note) q q1 n q2 : x :: q = (q1 ++ NReg n :: q2)%list ->
  (q1 = [] /\ x = NReg n /\ q = q2) \/ exists q1', q1 = x :: q1' /\ q = (q1' ++ NReg n :: q2)%list.
Proof.
  destruct q1 as [|y q1]; cbn; intro H; injection H as H1 H2; [left; auto|right]. exists q1. subst. auto.
Qed.

Lemma idle_part s i : ifs s i = Bi (bi_watch (ifs s i)) None None None None -> (bridged s i -> bi_watch (ifs s i) = true) -> part s i.
Proof. intros E B. constructor; auto; rewrite E; cbn; congruence. Qed.

Lemma deliver_reg s n q f : track s -> emitting s = [] -> queue s = NReg n :: q -> truthful s f (fqname s) ->
  exists s', registered (set_world s (nobjs s) (gone s) (current s) q) n f = Ok s' /\ track s'.
Proof.
  intros [G Wd P T] EM QU TR. set (a := set_world s (nobjs s) (gone s) (current s) q).
  assert (Ga : good a) by (apply (good_eq s); auto; reflexivity).
  assert (Wa : world a).
  { destruct Wd as [A1 A2 A3 A4]. constructor; auto. intros o H. apply A3. rewrite QU. right. exact H. }
  assert (Pa : forall i, part a i).
  { intro i. destruct (P i) as [A1 A2 A3 A4]. constructor; auto.
    intros m E. destruct (A3 m E) as [[X [Y|Y]]|Y]; [left; auto|left|right; exact Y].
    split; [exact X|]. right. rewrite QU in Y. destruct Y as [Y|Y]; [discriminate Y|exact Y]. }
  assert (DD : forall i m, bi_obj (ifs s i) = Some m -> dead s m = false).
  { intros i m E. destruct (p_obj s i (P i) m E) as [[X _]|[_ (id & _ & X)]]; [exact X|]. rewrite EM in X. destruct X. }
  assert (Ta : forall i, fqname s i <> n \/ bi_obj (ifs s i) <> None -> tcur a i).
  { intros i C B m E1 E2. destruct (T i B m E1 E2) as (q1 & q2 & Q & R). rewrite QU in Q.
    destruct (queue_head _ _ _ _ _ Q) as [(-> & X & Y)|(q1' & -> & Y)].
    - exfalso. destruct C as [C|C]; [congruence|]. destruct (bi_obj (ifs s i)) as [o|] eqn:EO; [|congruence].
      destruct (R o eq_refl) as [Z|[]]. rewrite (DD i o EO) in Z. discriminate Z.
    - exists q1', q2. split; [exact Y|]. intros o E. destruct (R o E) as [Z|Z]; [auto|].
      right. destruct Z as [Z|Z]; [discriminate Z|exact Z]. }
  unfold registered. change (life_ a) with (life_ s). destruct (life_ s) eqn:L.
  1,3: exists a; split; [reflexivity|]; constructor; auto; intros i [B _]; cbn in B; congruence.
  match goal with |- exists _, for_all _ ?g _ = _ /\ _ => set (step_ := g) end.
  destruct (for_all_ok (fun k t => good t /\ world t /\ same a t /\ (forall i, k <= i -> ifs t i = ifs a i) /\
              (forall i, part t i) /\ (forall i, i < k \/ count a <= i -> tcur t i)) step_ (count a) 0 a)
    as (s' & H & (H1 & H2 & H3 & H4 & H5 & H6)).
  - intros j t J (Gt & Wt & St & It & Pt & Tt). unfold step_.
    assert (Ba : bridged a j) by (split; [exact L|exact (proj2 J)]).
    pose proof (bridged_same _ _ _ St Ba) as Bt.
    rewrite (p_watch t j (Pt j) Bt), (fqname_same _ _ _ St). cbn [andb].
    destruct (name_eqb n (fqname a j)) eqn:EN.
    + apply name_eqb_eq in EN.
      destruct (activate_part t j (f j) Gt Wt Bt (Pt j)) as (t' & H & Gt' & Wt' & St' & Ot' & Pt' & Tt').
      * rewrite (It j ltac:(lia)). intro X. apply (tcur_other a); [exact St|apply It; lia|]. apply Ta. right. exact X.
      * intros m E. rewrite (It j ltac:(lia)) in E. rewrite (sm_dead _ _ St). exact (DD j m E).
      * rewrite (fqname_same _ _ _ St), (sm_cur _ _ St). apply TR.
      * exists t'. split; [exact H|]. split; [exact Gt'|]. split; [exact Wt'|]. split; [eapply same_trans; eassumption|].
        split; [intros i I; rewrite Ot' by lia; apply It; lia|]. split.
        -- intro i. destruct (Nat.eq_dec i j) as [->|X]; [exact Pt'|]. apply (part_other t); auto. apply Gt.
        -- intros i I. destruct (Nat.eq_dec i j) as [->|X]; [exact Tt'|]. apply (tcur_other t); auto. apply Tt. lia.
    + exists t. split; [reflexivity|]. do 3 (split; [assumption|]). split; [intros i I; apply It; lia|]. split; [exact Pt|].
      intros i I. destruct (Nat.eq_dec i j) as [->|X]; [|apply Tt; lia].
      apply (tcur_other a); [exact St|apply It; lia|]. apply Ta. left. intro X.
      change (fqname a j) with (fqname s j) in EN. rewrite <- X, name_eqb_refl in EN. discriminate EN.
  - split; [exact Ga|]. split; [exact Wa|]. split; [apply same_refl|]. split; [reflexivity|]. split; [exact Pa|].
    intros i [I|I]; [inversion I|]. intros [_ B]. exfalso. cbn in B. cbn in I. unfold count in I. cbn in I. lia.
  - exists s'. split; [exact H|]. constructor; auto. intro i. apply H6. lia.
Qed.

Lemma died_track s o : track s -> gone s o = true ->
  (forall i, part s i) -> track (died s o).
Proof.
  intros [G Wd P T] GO _. unfold died. destruct (dead s o) eqn:D; [constructor; auto|].
  set (ids := map h_id (filter (fun h => Nat.eqb (h_obj h) o) (handlers s))).
  constructor.
  - apply (good_eq s); auto; reflexivity.
  - destruct Wd as [A1 A2 A3 A4]. constructor; cbn; auto.
    + intro x. unfold upd. destruct (Nat.eqb_spec x o) as [->|X]; auto.
    + intros id I. apply in_app_or in I. destruct I as [I|I].
      * unfold ids in I. apply in_map_iff in I. destruct I as (h & <- & I). apply filter_In in I. destruct I as [I J].
        apply Nat.eqb_eq in J. destruct (w_h s (g_weak _ G) h I) as (_ & _ & L). split; [exact L|].
        intros h' I' E. rewrite (nodup_id _ h' h (w_nd s (g_weak _ G)) I' I E), J. apply upd_same.
      * destruct (A4 id I) as [L K]. split; [exact L|]. intros h I' E. unfold upd.
        destruct (Nat.eqb (h_obj h) o); [reflexivity|]. apply K; assumption.
  - intro i. destruct (P i) as [A1 A2 A3 A4]. constructor; cbn; auto.
    intros m E. change (bi_obj (ifs s i) = Some m) in E. unfold upd. destruct (Nat.eqb_spec m o) as [->|X].
    + right. split; [reflexivity|]. destruct (w_obj s (g_weak _ G) i o E) as (_ & id & X & Y). exists id. split; [exact X|].
      apply in_or_app. left. apply in_map_iff. exists (Handler id o i). split; [reflexivity|]. apply filter_In.
      split; [exact Y|apply Nat.eqb_refl].
    + destruct (A3 m E) as [Y|(Y & id & Z & V)]; [left; exact Y|right]. split; [exact Y|]. exists id. split; [exact Z|].
      apply in_or_app. right. exact V.
  - intros i B n E1 E2. destruct (T i B n E1 E2) as (q1 & q2 & Q & R). exists q1, q2. split; [exact Q|].
    intros m E. cbn. unfold upd. destruct (Nat.eqb m o); [left; reflexivity|]. apply R, E.
Qed.
Lemma deliver_death s o q : track s -> emitting s = [] -> queue s = NDeath o :: q ->
  track (died (set_world s (nobjs s) (gone s) (current s) q) o).
Proof.
  intros K EM QU. assert (GO : gone s o = true) by (apply (o_note s (k_world s K)); rewrite QU; left; reflexivity).
  pose proof (died_track s o K GO (k_part s K)) as [G Wd P T].
  assert (E : died (set_world s (nobjs s) (gone s) (current s) q) o =
              set_world (died s o) (nobjs s) (gone s) (current s) q).
  { unfold died. cbn. destruct (dead s o); reflexivity. }
  rewrite E. set (d := died s o) in *.
  assert (F : nobjs d = nobjs s /\ gone d = gone s /\ current d = current s /\ queue d = NDeath o :: q /\ dead d o = true).
  { unfold d, died. destruct (dead s o) eqn:X; cbn; auto. rewrite upd_same. auto. }
  destruct F as (F1 & F2 & F3 & F4 & F5). constructor.
  - apply (good_eq d); auto. cbn. lia.
  - destruct Wd as [A1 A2 A3 A4]. rewrite F1, F2, F3 in *. constructor; cbn; auto. intros x X. apply A3. rewrite F4. right. exact X.
  - intro i. destruct (P i) as [A1 A2 A3 A4]. constructor; auto. intros m X. destruct (A3 m X) as [[Y Z]|Y]; [left|right; exact Y].
    split; [exact Y|]. rewrite F3, F4 in Z. destruct Z as [Z|[Z|Z]]; [left; exact Z| |right; exact Z].
    injection Z as ->. cbn in Y. congruence.
  - intros i B n E1 E2. cbn in E1. rewrite <- F3 in E1. destruct (T i B n E1 E2) as (q1 & q2 & Q & R).
    rewrite F4 in Q. destruct (queue_head _ _ _ _ _ Q) as [(_ & X & _)|(q1' & -> & Y)]; [discriminate X|].
    exists q1', q2. split; [exact Y|]. intros m X. destruct (R m X) as [Z|[Z|Z]]; [left; exact Z| |right; exact Z].
    injection Z as ->. left. exact F5.
Qed.

Lemma emit_track s id r : track s -> emitting s = id :: r -> exists s', emit s = Ok s' /\ track s' /\ emitting s' = r /\
  queue s' = queue s /\ current s' = current s /\ life_ s' = life_ s /\ ifaces s' = ifaces s /\ dest_name s' = dest_name s.
Proof.
  intros [G Wd P T] EM. unfold emit. rewrite EM. set (a := set_dying s (dead s) r).
  assert (Ga : good a) by (apply (good_eq s); auto; reflexivity).
  assert (Wa : world a).
  { destruct Wd as [A1 A2 A3 A4]. constructor; auto. intros x X. apply A4. rewrite EM. right. exact X. }
  assert (Pa : forall i, bi_death (ifs s i) <> Some id -> part a i).
  { intros i N. destruct (P i) as [A1 A2 A3 A4]. constructor; auto. intros m E.
    destruct (A3 m E) as [X|(X & id' & Y & Z)]; [left; exact X|right]. split; [exact X|]. exists id'. split; [exact Y|].
    rewrite EM in Z. destruct Z as [Z|Z]; [congruence|exact Z]. }
  destruct (find _ (handlers a)) as [h|] eqn:F.
  - apply find_some in F. destruct F as [F FE]. apply Nat.eqb_eq in FE.
    destruct (w_h s (g_weak _ G) h F) as (A & B & C).
    assert (L : life_ a = Live).
    { change (life_ a) with (life_ s). destruct (life_ s) eqn:X; [|reflexivity|];
      exfalso; (assert (Y : life_ s <> Live) by congruence);
      rewrite (w_idle s (g_weak _ G) (h_if h) (or_introl Y)) in A; discriminate A. }
    rewrite L. destruct (deactivate_good a (h_if h) Ga) as (s' & H & G' & S & O & E).
    exists s'. split; [exact H|].
    assert (DH : dead s (h_obj h) = true).
    { apply (o_emit s Wd id); [rewrite EM; left; reflexivity|exact F|exact FE]. }
    split; [|rewrite (sm_emit _ _ S), (sm_queue _ _ S), (sm_cur _ _ S), (sm_life _ _ S), (sm_ifaces _ _ S), (sm_dest _ _ S); auto 10].
    constructor; auto.
    + exact (world_same _ _ S (deactivate_hsub _ _ _ H) Wa).
    + intro i. destruct (Nat.eq_dec i (h_if h)) as [->|X].
      * apply idle_part; [rewrite E; reflexivity|]. intro Y. rewrite E. cbn [bi_watch].
        apply (p_watch s _ (P (h_if h))). apply (bridged_back _ _ _ S) in Y. exact Y.
      * apply (part_other a); auto; [apply Ga|]. apply Pa. intro Y.
        destruct (bi_obj (ifs s i)) as [o|] eqn:EO.
        -- destruct (w_obj s (g_weak _ G) i o EO) as (_ & id' & Y' & Z). assert (id' = id) by congruence. subst id'.
           pose proof (nodup_id _ _ _ (w_nd s (g_weak _ G)) F Z ltac:(exact FE)) as W. subst h. cbn in X. congruence.
        -- rewrite (g_stray _ G i EO) in Y. discriminate Y.
    + intro i. destruct (Nat.eq_dec i (h_if h)) as [->|X].
      * intros Y n E1 _. apply (bridged_back _ _ _ S) in Y.
        rewrite (fqname_same _ _ _ S), (sm_cur _ _ S) in E1. destruct (o_cur s Wd _ _ E1) as [_ GN].
        destruct (T (h_if h) Y n E1) as (q1 & q2 & Q & R).
        { rewrite A. intro Z. injection Z as Z. rewrite Z in DH. rewrite (o_dead s Wd _ DH) in GN. discriminate GN. }
        exists q1, q2. rewrite (sm_queue _ _ S), (fqname_same _ _ _ S). split; [exact Q|]. rewrite E. discriminate.
      * apply (tcur_other a); auto. exact (T i).
  - exists a. split; [reflexivity|]. split; [|auto 10]. constructor; auto.
    intro i. apply Pa. intro Y. destruct (bi_obj (ifs s i)) as [o|] eqn:EO.
    + destruct (w_obj s (g_weak _ G) i o EO) as (_ & id' & Y' & Z). assert (id' = id) by congruence. subst id'.
      pose proof (find_none _ _ F _ Z) as X. cbn in X. rewrite Nat.eqb_refl in X. discriminate X.
    + rewrite (g_stray _ G i EO) in Y. discriminate Y.
Qed.

Lemma new_track s src dest l w f s' : track s -> orderly s (MNew src dest l w f) ->
  bridge_new2 s src dest l w f = Ok s' -> track s'.
Proof.
  intros K [OW OL]. pose proof K as [G Wd P T]. unfold bridge_new2. destruct (life_ s) eqn:L; try discriminate.
  destruct (match src with None => dest | x => x end) as [a'|] eqn:EA; [|intro H; injection H as <-; exact K].
  destruct (match dest with None => Some a' | x => x end) as [b'|] eqn:EB; [|intro H; injection H as <-; exact K].
  destruct l as [|x r]; [intro H; injection H as <-; exact K|]. set (l := x :: r) in *.
  assert (LF : forall i, f i = current s (nth i l [] ++ [47%Z] ++ b')%list).
  { intro i. apply OL. destruct dest; [left; exact EB|]. right. split; [reflexivity|]. destruct src; congruence. }
  set (s0 := set_life (set_given s l a' b') Live).
  assert (D : forall i, ifs s i = Bi false None None None None) by (intro i; apply (w_idle s (g_weak _ G)); left; congruence).
  intro H.
  destruct (for_all_ok (fun k t => good t /\ world t /\ same s0 t /\ (forall i, k <= i -> ifs t i = Bi false None None None None) /\
              (forall i, i < k -> part t i /\ tcur t i))
             (fun s i => interface_new s i (w i) (f i)) (length l) 0 s0) as (s1 & H' & (H1 & H2 & H3 & H4 & H5)).
  - intros j t J (Gt & Wt & St & It & Pt).
    assert (Bt : bridged t j) by (apply (bridged_same s0); [exact St|]; split; [reflexivity|exact (proj2 J)]).
    unfold interface_new. rewrite OW. set (t0 := set_bi t j (Bi true None None None None)).
    assert (S0 : same t t0) by apply same_set_bi.
    assert (I0 : ifs t0 j = Bi true None None None None) by (cbn; apply upd_same).
    destruct (set_bi_clear t j true (g_weak _ Gt) (g_stray _ Gt)) as [W0 NS0]; [rewrite (It j (le_n j)); reflexivity|auto|].
    assert (G0 : good t0).
    { constructor; auto. intro i. destruct (Nat.eq_dec i j) as [->|X].
      - exact (neat_clear _ _ _ I0).
      - apply (neat_other t); [apply Gt|exact S0|cbn; apply upd_other, X|apply Gt]. }
    destruct (activate_part t0 j (f j) G0) as (t' & A & Gt' & Wt' & St' & Ot' & Pt' & Tt').
    + apply (world_same t); [exact S0|apply hsub_eq; reflexivity|exact Wt].
    + apply (bridged_same t); assumption.
    + apply idle_part; rewrite I0; reflexivity.
    + rewrite I0. cbn. congruence.
    + rewrite I0. discriminate.
    + rewrite LF. rewrite (sm_cur _ _ S0), (sm_cur _ _ St), (fqname_same _ _ _ S0), (fqname_same _ _ _ St). reflexivity.
    + exists t'. split; [exact A|]. split; [exact Gt'|]. split; [exact Wt'|].
      assert (OO : forall i, i <> j -> ifs t' i = ifs t i) by (intros i X; rewrite Ot' by exact X; cbn; apply upd_other, X).
      assert (ST : same t t') by (eapply same_trans; eassumption).
      split; [eapply same_trans; eassumption|]. split; [intros i I; rewrite OO by lia; apply It; lia|].
      intros i I. destruct (Nat.eq_dec i j) as [->|X]; [auto|]. destruct (Pt i ltac:(lia)) as [A1 A2].
      split; [apply (part_other t); auto; apply Gt|apply (tcur_other t); auto].
  - split; [apply good_life; [exact G|congruence]|].
    split; [destruct Wd as [A1 A2 A3 A4]; constructor; auto|]. split; [apply same_refl|].
    split; [intros i _; apply D|]. intros i I. inversion I.
  - assert (s1 = s') by congruence. subst s1. constructor; auto.
    + intro i. destruct (Nat.lt_ge_cases i (length l)) as [I|I]; [apply H5, I|].
      apply idle_part; [rewrite H4 by exact I; reflexivity|]. intros [_ B]. rewrite (sm_ifaces _ _ H3) in B.
      change (ifaces s0) with l in B. lia.
    + intro i. destruct (Nat.lt_ge_cases i (length l)) as [I|I]; [apply H5, I|]. intros [_ B]. rewrite (sm_ifaces _ _ H3) in B.
      change (ifaces s0) with l in B. lia.
Qed.

Lemma part_eq s s' i : part s i -> ifs s' i = ifs s i -> proxies s' = proxies s -> dead s' = dead s ->
  emitting s' = emitting s -> fqname s' i = fqname s i -> life_ s' = life_ s -> ifaces s' = ifaces s ->
  (forall m, bi_obj (ifs s i) = Some m -> current s (fqname s i) = Some m \/ In (NDeath m) (queue s) ->
             current s' (fqname s i) = Some m \/ In (NDeath m) (queue s')) -> part s' i.
Proof.
  intros [A1 A2 A3 A4] E1 E2 E3 E4 E5 E6 E7 C. constructor; rewrite ?E1, ?E2, ?E3, ?E4, ?E5; auto.
  - intros m E. destruct (A3 m E) as [[X Y]|X]; [left; auto|right; exact X].
  - intros [B1 B2]. apply A4. split; congruence.
Qed.

Theorem orderly_step s m s' : track s -> orderly s m -> step s m = Ok s' -> track s'.
Proof.
  intros K O H. pose proof K as [G Wd P T].
  assert (G' : good s') by (destruct (step_good s m G) as [E|(x & E & X)]; congruence).
  destruct m as [n o nt|o nt|k f|o| |a b l w f| |k|k]; cbn [step] in H.
  - destruct O as [-> ON]. destruct (Nat.leb_spec o (nobjs s)) as [LE|]; [|discriminate H].
    destruct (gone s o) eqn:GO; [discriminate H|]. cbn [andb negb] in H.
    assert (QN : forall i m, fqname s i = n -> bi_obj (ifs s i) = Some m -> dead s m = true \/ In (NDeath m) (queue s)).
    { intros i m E X. destruct (p_obj s i (P i) m X) as [[_ [Y|Y]]|[Y _]]; auto. congruence. }
    injection H as <-. constructor; auto.
    + destruct Wd as [A1 A2 A3 A4]. constructor; cbn; auto.
      * intros x y E. destruct (list_eq_dec Z.eq_dec x n) as [->|X].
        -- rewrite updn_same in E. injection E as ->. split; [lia|exact GO].
        -- rewrite updn_other in E by exact X. destruct (A1 x y E). split; [lia|assumption].
      * intros x X. apply in_app_or in X. destruct X as [X|[X|[]]]; [auto|discriminate X].
    + intro i. apply (part_eq s); auto. intros m E C. cbn. destruct C as [C|C].
      * left. rewrite updn_other; [exact C|]. intro X. congruence.
      * right. apply in_or_app. left. exact C.
    + intros i B x E1 E2. match type of E1 with current _ (fqname ?t i) = _ => change (fqname t i) with (fqname s i) in * end.
      cbn [current set_world queue ifs dead] in *.
      destruct (list_eq_dec Z.eq_dec (fqname s i) n) as [X|X].
      * exists (queue s), []. split; [rewrite X; reflexivity|]. intros m E. exact (QN i m X E).
      * rewrite updn_other in E1 by exact X. destruct (T i B x E1 E2) as (q1 & q2 & Q & R).
        exists q1, (q2 ++ [NReg n])%list. split; [rewrite Q, <- app_assoc; reflexivity|exact R].
  - cbn in O. subst nt. destruct (Nat.ltb_spec o (nobjs s)) as [LE|]; [|discriminate H].
    destruct (gone s o) eqn:GO; [discriminate H|]. cbn [andb negb] in H. injection H as <-. constructor; auto.
    + destruct Wd as [A1 A2 A3 A4]. constructor; cbn; auto.
      * intros x y E. destruct (current s x) as [z|] eqn:C; [|discriminate E].
        destruct (Nat.eqb_spec z o) as [->|X]; [discriminate E|]. injection E as ->. destruct (A1 x y C).
        split; [assumption|]. rewrite upd_other by exact X. assumption.
      * intros x X. unfold upd. destruct (Nat.eqb x o); auto.
      * intros x X. unfold upd. apply in_app_or in X. destruct X as [X|[X|[]]]; [destruct (Nat.eqb x o); auto|].
        injection X as ->. rewrite Nat.eqb_refl. reflexivity.
    + intro i. apply (part_eq s); auto. intros m E C. cbn. destruct C as [C|C].
      * rewrite C. destruct (Nat.eqb_spec m o) as [->|X]; [right; apply in_or_app; right; left; reflexivity|left; reflexivity].
      * right. apply in_or_app. left. exact C.
    + intros i B x E1 E2. match type of E1 with current _ (fqname ?t i) = _ => change (fqname t i) with (fqname s i) in * end.
      cbn [current set_world queue ifs dead] in *.
      destruct (current s (fqname s i)) as [z|] eqn:C; [|discriminate E1].
      destruct (Nat.eqb_spec z o) as [->|X]; [discriminate E1|]. injection E1 as ->.
      destruct (T i B x C E2) as (q1 & q2 & Q & R).
      exists q1, (q2 ++ [NDeath o])%list. split; [rewrite Q, <- app_assoc; reflexivity|exact R].
  - destruct O as (-> & EM & TR). destruct (queue s) as [|x q] eqn:QU; [discriminate H|]. cbn [nth_error] in H.
    unfold remove_nth in H. cbn [firstn skipn app] in H. destruct x as [n|o].
    + destruct (deliver_reg s n q f K EM QU TR) as (s1 & H1 & K1). congruence.
    + injection H as <-. exact (deliver_death s o q K EM QU).
  - destruct (gone s o) eqn:GO; [|discriminate H]. injection H as <-. apply died_track; auto.
  - destruct (emitting s) as [|id r] eqn:EM; [unfold emit in H; rewrite EM in H; discriminate H|].
    destruct (emit_track s id r K EM) as (s1 & H1 & K1 & _). congruence.
  - exact (new_track s a b l w f s' K O H).
  - destruct (bridge_free_good s G) as [E|(s1 & E & _ & L & S & D)]; [congruence|].
    assert (s1 = s') by congruence. subst s1. constructor; auto.
    + pose proof H as H0. unfold bridge_free in H0. destruct (life_ s) eqn:LL; try discriminate H0.
      destruct (for_all (seq 0 (count s)) interface_free s) as [| |t] eqn:FA; try discriminate H0.
      assert (HS : hsub s t).
      { clear - FA. revert FA. generalize (seq 0 (count s)). intro l0. revert s. induction l0 as [|j l0 I]; intros s FA; cbn in FA.
        - injection FA as <-. apply hsub_refl.
        - destruct (interface_free s j) as [| |u] eqn:E; try discriminate FA. cbn [bind] in FA.
          apply (hsub_trans s u); [|apply I, FA]. unfold interface_free in E.
          destruct (deactivate s j) as [| |v] eqn:DE; try discriminate E. cbn [bind] in E. injection E as <-.
          apply (hsub_trans s v); [exact (deactivate_hsub _ _ _ DE)|apply hsub_eq; reflexivity]. }
      cbn [bind] in H0. injection H0 as <-. apply (world_same (set_life s Freed)); [exact S|exact HS|].
      destruct Wd as [A1 A2 A3 A4]. constructor; auto.
    + intro i. apply idle_part; [rewrite D; reflexivity|]. intros [B _]. congruence.
    + intros i [B _]. congruence.
  - destruct (_ && _); [|discriminate H]. injection H as <-. constructor; auto.
    + destruct Wd as [A1 A2 A3 A4]. constructor; auto.
    + intro i. apply (part_eq s); auto.
  - destruct (existsb _ _); [|discriminate H]. injection H as <-. constructor; auto.
    + destruct Wd as [A1 A2 A3 A4]. constructor; auto.
    + intro i. apply (part_eq s); auto.
Qed.
Lemma track_init : track init.
Proof.
  constructor; [exact good_init|constructor; cbn; try discriminate; tauto| |].
  - intro i. apply idle_part; [reflexivity|]. intros [B _]. discriminate B.
  - intros i [B _]. discriminate B.
Qed.
Theorem runs_track s l s' : runs s l s' -> track s -> track s'.
Proof. induction 1; auto. intro K. apply IHruns, (orderly_step s m); assumption. Qed.
Theorem runs_run s l s' : runs s l s' -> run s l = Ok s'.
Proof. induction 1; cbn; [reflexivity|]. rewrite H0. exact IHruns. Qed.
