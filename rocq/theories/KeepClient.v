(* The driver's strong references to a handle are those of the objects which have acquired it *)
From Verif Require Import Base RemoteModel RemoteSpec RemoteProofs.
From Coq Require Import Lia.

Fixpoint fsum (f : nat -> Z) (n : nat) : Z := match n with O => 0 | S k => fsum f k + f k end.
Lemma fsum_ext f g n : (forall i, (i < n)%nat -> f i = g i) -> fsum f n = fsum g n.
Proof. induction n as [|n IH]; cbn [fsum]; intros H; [reflexivity|]. rewrite IH by (intros; apply H; lia). rewrite (H n) by lia. reflexivity. Qed.
Lemma fsum_nonneg f n : (forall i, 0 <= f i) -> 0 <= fsum f n.
Proof. intros H. induction n as [|n IH]; cbn [fsum]; [lia|]. specialize (H n). lia. Qed.
Lemma fsum_change f g n o d : (o < n)%nat -> (forall i, i <> o -> g i = f i) -> g o = f o + d -> fsum g n = fsum f n + d.
Proof.
  induction n as [|n IH]; intros L E D; [lia|]. cbn [fsum]. destruct (Nat.eq_dec o n) as [->|N].
  - rewrite (fsum_ext g f n) by (intros; apply E; lia). lia.
  - rewrite IH by (auto; lia). rewrite (E n) by lia. lia.
Qed.
Lemma fsum_pos f n o : (forall i, 0 <= f i) -> (o < n)%nat -> f o <= fsum f n.
Proof.
  intros H. induction n as [|n IH]; intros L; [lia|]. cbn [fsum]. pose proof (fsum_nonneg f n H). pose proof (H n).
  destruct (Nat.eq_dec o n) as [->|N]; [lia|]. assert (o < n)%nat by lia. specialize (IH H2). lia.
Qed.
Lemma fsum_some f n : 0 < fsum f n -> exists o, (o < n)%nat /\ 0 < f o.
Proof.
  induction n as [|n IH]; cbn [fsum]; intros H; [lia|]. destruct (Z_lt_dec 0 (f n)) as [P|P]; [exists n; split; [lia|exact P]|].
  destruct IH as (o & L & Q); [lia|]. exists o. split; [lia|exact Q].
Qed.

Definition grip (x : robj) (h : Z) : Z :=
  if ro_acquired x && (ro_handle x =? h) && negb (gone x) then 1 else 0.
Lemma grip_nonneg x h : 0 <= grip x h.
Proof. unfold grip. destruct (_ && _); lia. Qed.
Definition fine (s : state) (x : robj) : Prop :=
  ro_acquired x = true -> gone x = false -> ro_dead x = false /\ ro_node x = kr_node (kern s (ro_handle x)).
Record kinv (s : state) : Prop := {
  k_sum : forall h, kr_strong (kern s h) = fsum (fun o => grip (objs s o) h) (count s);
  k_fine : forall o, fine s (objs s o)
}.

Definition alike (x y : robj) : Prop :=
  ro_acquired x = ro_acquired y /\ ro_handle x = ro_handle y /\ gone x = gone y /\ ro_dead x = ro_dead y /\ ro_node x = ro_node y.
Lemma alike_refl x : alike x x.
Proof. repeat split. Qed.
Lemma grip_alike x y h : alike x y -> grip x h = grip y h.
Proof. intros (A & B & C & _). unfold grip. rewrite A, B, C. reflexivity. Qed.

(* Nothing which matters has changed *)
Lemma kinv_keep s s1 :
  kinv s -> count s1 = count s -> (forall o, alike (objs s1 o) (objs s o)) ->
  (forall h, kr_strong (kern s1 h) = kr_strong (kern s h) /\ kr_node (kern s1 h) = kr_node (kern s h)) -> kinv s1.
Proof.
  intros [A B] C O K. split.
  - intros h. destruct (K h) as [-> _]. rewrite A, C. apply fsum_ext. intros i _. symmetry. apply grip_alike, O.
  - intros o. specialize (B o). unfold fine in *. destruct (O o) as (O1 & O2 & O3 & O4 & O5).
    rewrite O1, O2, O3, O4, O5. destruct (K (ro_handle (objs s o))) as [_ ->]. exact B.
Qed.
(* One object has changed *)
Lemma kinv_one s s1 o d :
  kinv s -> count s1 = count s -> (o < count s)%nat -> (forall i, i <> o -> alike (objs s1 i) (objs s i)) ->
  (forall h, grip (objs s1 o) h = grip (objs s o) h + d h) ->
  fine s1 (objs s1 o) ->
  (forall h, kr_strong (kern s1 h) = kr_strong (kern s h) + d h /\ kr_node (kern s1 h) = kr_node (kern s h)) -> kinv s1.
Proof.
  intros [A B] C L O G F K. split.
  - intros h. destruct (K h) as [-> _]. rewrite A, C. symmetry. apply (fsum_change _ _ _ o); [exact L| |apply G].
    intros i N. apply grip_alike, O, N.
  - intros i. destruct (Nat.eq_dec i o) as [->|N]; [exact F|]. specialize (B i). unfold fine in *.
    destruct (O i N) as (O1 & O2 & O3 & O4 & O5). rewrite O1, O2, O3, O4, O5.
    destruct (K (ro_handle (objs s i))) as [_ ->]. exact B.
Qed.

Lemma kinv_initial : kinv initial.
Proof. split; [reflexivity|]. intros o H. discriminate. Qed.

Lemma alike_upd s o x i : alike x (objs s o) -> alike (upd (objs s) o x i) (objs s i).
Proof. intros A. unfold upd. destruct (Nat.eqb_spec i o) as [->|N]; [exact A|apply alike_refl]. Qed.

Lemma live_gone s o : acct s -> 0 < ro_refs (objs s o) -> gone (objs s o) = false.
Proof.
  intros (C & _ & _) R. destruct (C o) as (_ & _ & P). unfold gone. destruct (ro_phase (objs s o)); try reflexivity. lia.
Qed.

Lemma kinv_ref s o s1 : kinv s -> obj_ref s o = Ok s1 -> kinv s1 /\ count s1 = count s.
Proof.
  intros K E. destruct (obj_ref_frame _ _ _ E) as [_ ->]. split; [|reflexivity].
  apply (kinv_keep s); [exact K|reflexivity| |auto].
  intros i. apply alike_upd. repeat split.
Qed.
Lemma kinv_unref s o s1 : acct s -> kinv s -> obj_unref s o = Ok s1 -> kinv s1.
Proof.
  intros A K E. destruct (obj_unref_frame _ _ _ E) as [R ->]. pose proof (live_gone s o A R) as G.
  apply (kinv_keep s); [exact K|reflexivity| |auto].
  intros i. apply alike_upd. destruct (1 <? ro_refs (objs s o)); repeat split. rewrite G. reflexivity.
Qed.

Lemma kinv_get s h m s1 : acct s -> kinv s -> obj_get s h m = Ok s1 -> kinv s1.
Proof.
  intros A K E. unfold obj_get in E. destruct (table s h) as [o|].
  - destruct (obj_ref s o) as [| |s2] eqn:ER; try discriminate. cbn [bind] in E. apply ok_inj in E. subst s1.
    destruct (kinv_ref s o s2 K ER) as [K2 _]. apply (kinv_keep s2); auto. intros; apply alike_refl.
  - apply ok_inj in E. subst s1. unfold obj_new. destruct K as [KA KB]. destruct A as (_ & _ & F).
    assert (KG : forall h, grip (objs s (count s)) h = 0).
    { intros z. unfold grip, gone. rewrite (F (count s)) by lia. cbn. rewrite andb_false_r. reflexivity. }
    destruct m; sproj; split; sproj.
    + intros z. rewrite KA. cbn [fsum]. rewrite upd_eq. unfold grip at 3. cbn. rewrite Z.add_0_r. apply fsum_ext.
      intros i L. rewrite upd_neq by lia. reflexivity.
    + intros i. unfold upd. destruct (Nat.eqb_spec i (count s)) as [->|N]; [intros; discriminate|apply KB].
    + intros z. cbn [fsum]. rewrite upd_eq. unfold grip at 2. cbn. rewrite Z.add_0_r.
      unfold zupd. replace (kr_strong (if z =? h then _ else _)) with (kr_strong (kern s z))
        by (destruct (Z.eqb_spec z h) as [->|]; reflexivity).
      rewrite KA. apply fsum_ext. intros i L. rewrite upd_neq by lia. reflexivity.
    + intros i. unfold upd. destruct (Nat.eqb_spec i (count s)) as [->|N]; [intros; discriminate|].
      intros X Y. destruct (KB i X Y) as [P Q]. split; [exact P|]. rewrite Q. sproj. unfold zupd. destruct (Z.eqb_spec (ro_handle (objs s i)) h) as [->|]; reflexivity.
    + intros z. cbn [fsum]. rewrite upd_eq. unfold grip at 2. cbn [ro_acquired ro_handle gone ro_phase andb negb].
      rewrite andb_true_r. rewrite (fsum_ext _ (fun o => grip (objs s o) z)) by (intros i L; rewrite upd_neq by lia; reflexivity).
      rewrite <- KA. unfold zupd. rewrite Z.eqb_refl. rewrite (Z.eqb_sym h z). destruct (Z.eqb_spec z h) as [->|]; cbn; lia.
    + intros i. unfold upd. destruct (Nat.eqb_spec i (count s)) as [->|N].
      * intros _ _. cbn. split; [reflexivity|]. unfold zupd. rewrite ?Z.eqb_refl. cbn. reflexivity.
      * intros X Y. destruct (KB i X Y) as [P Q]. split; [exact P|]. rewrite Q. sproj. unfold zupd. rewrite Z.eqb_refl.
        destruct (Z.eqb_spec (ro_handle (objs s i)) h) as [->|]; reflexivity.
Qed.

Lemma grip_change x y h d :
  ro_handle x = ro_handle y -> (if ro_acquired x && negb (gone x) then 1 else 0) = (if ro_acquired y && negb (gone y) then 1 else 0) + d ->
  grip x h = grip y h + (if ro_handle y =? h then d else 0).
Proof.
  intros H D. unfold grip. rewrite H. destruct (ro_handle y =? h).
  - rewrite !andb_true_r. exact D.
  - rewrite !andb_false_r. reflexivity.
Qed.

Lemma kinv_dispose s o s1 : acct s -> kinv s -> (o < count s)%nat -> dispose_step s o = Ok s1 -> kinv s1.
Proof.
  intros A K L E. unfold dispose_step in E. destruct (ro_phase (objs s o)) eqn:EP; try discriminate.
  - apply ok_inj in E; subst s1. apply (kinv_keep s); [exact K| | |]; destruct (ro_refs (objs s o) =? 1); sproj; auto;
      intros i; apply alike_upd; unfold alike, gone; cbn; rewrite EP; repeat split.
  - destruct (ro_refs (objs s o) - 1 =? 0); apply ok_inj in E; subst s1; apply (kinv_keep s); auto; intros i; apply alike_upd; unfold alike, gone; cbn; rewrite EP; repeat split.
  - apply ok_inj in E; subst s1. apply (kinv_keep s); sproj; auto; intros i; apply alike_upd; unfold alike, gone; cbn; rewrite EP; repeat split.
  - apply ok_inj in E; subst s1. set (d := if ro_acquired (objs s o) then -1 else 0).
    apply (kinv_one s _ o (fun h => if ro_handle (objs s o) =? h then d else 0)); [exact K| |exact L| | | |];
      destruct (ro_dead (objs s o)), (ro_acquired (objs s o)) eqn:EA; subst d; sproj; try reflexivity.
    all: try (intros i N; rewrite upd_neq by exact N; apply alike_refl).
    all: try (intros h; rewrite upd_eq; apply grip_change; [reflexivity|unfold gone; cbn; rewrite EP, EA; reflexivity]).
    all: try (rewrite upd_eq; intros X Y; discriminate Y).
    all: intros h; unfold zupd; rewrite ?Z.eqb_refl; rewrite (Z.eqb_sym (ro_handle (objs s o)) h);
      destruct (Z.eqb_spec h (ro_handle (objs s o))) as [->|]; cbn; split; reflexivity || lia.
Qed.

Lemma kinv_dead_binder s h s1 : acct s -> kinv s -> dead_binder s h = Ok s1 -> kinv s1.
Proof.
  intros A K E. unfold dead_binder in E. destruct (remove_one h (inflight s)) as [l|]; [|discriminate].
  assert (K1 : kinv (set_inflight s l)) by (apply (kinv_keep s); auto; intros; apply alike_refl).
  destruct (table (set_inflight s l) h) as [o|].
  - destruct (obj_ref (set_inflight s l) o) as [| |s2] eqn:ER; try discriminate. cbn [bind] in E.
    destruct (kinv_ref _ _ _ K1 ER) as [K2 _].
    destruct (obj_ref (set_held s2 o (held s2 o + 1)) o) as [| |s3] eqn:ER2; try discriminate. cbn [bind] in E. apply ok_inj in E. subst s1.
    assert (K2b : kinv (set_held s2 o (held s2 o + 1))) by (apply (kinv_keep s2); auto; intros; apply alike_refl).
    destruct (kinv_ref _ _ _ K2b ER2) as [K3 _]. apply (kinv_keep s3); auto; intros; apply alike_refl.
  - apply ok_inj in E. subst s1. apply (kinv_keep s); auto; intros; apply alike_refl.
Qed.

(* An object dies *)
Lemma kinv_dies s o s1 :
  acct s -> kinv s -> 0 < ro_refs (objs s o) ->
  objs s1 = upd (objs s) o (with_life (objs s o) true false (ro_node (objs s o))) -> count s1 = count s ->
  (forall h, kr_strong (kern s1 h) = kr_strong (kern s h) - (if ro_acquired (objs s o) then if h =? ro_handle (objs s o) then 1 else 0 else 0) /\
             kr_node (kern s1 h) = kr_node (kern s h)) -> kinv s1.
Proof.
  intros A K R EO EC EK. pose proof (live_gone s o A R) as G. pose proof (counted_pos s o A R) as L.
  apply (kinv_one s s1 o (fun h => if ro_handle (objs s o) =? h then if ro_acquired (objs s o) then -1 else 0 else 0));
    [exact K|exact EC|exact L| | | |].
  - intros i N. rewrite EO, upd_neq by exact N. apply alike_refl.
  - intros h. rewrite EO, upd_eq. apply grip_change; [reflexivity|]. cbn. rewrite G. destruct (ro_acquired (objs s o)); reflexivity.
  - rewrite EO, upd_eq. intros X. discriminate X.
  - intros h. destruct (EK h) as [-> ->]. split; [|reflexivity]. rewrite (Z.eqb_sym (ro_handle (objs s o)) h).
    destruct (ro_acquired (objs s o)), (h =? ro_handle (objs s o)); lia.
Qed.

Lemma kinv_callback s s1 : acct s -> kinv s -> callback s = Ok s1 -> kinv s1.
Proof.
  intros A K E. unfold callback in E. destruct (main s); try discriminate.
  destruct (queue s) as [|o q]; [discriminate|].
  change (objs (set_queue s q) o) with (objs s o) in E.
  destruct (Z.leb_spec (ro_refs (objs s o)) 0) as [R|R]; [discriminate|].
  destruct (ro_dead (objs s o)).
  - destruct (obj_unref_frame _ _ _ E) as [_ ->]. sproj. pose proof (live_gone s o A R) as G.
    apply (kinv_keep s); sproj; auto. intros i. apply alike_upd. destruct (1 <? ro_refs (objs s o)); repeat split. rewrite G. reflexivity.
  - apply ok_inj in E. subst s1. apply (kinv_dies s o); auto; destruct (ro_acquired (objs s o)); sproj; auto;
      intros h; unfold zupd; destruct (Z.eqb_spec h (ro_handle (objs s o))) as [->|]; cbn; split; reflexivity || lia.
Qed.
Lemma kinv_suicide s o s1 : acct s -> kinv s -> suicide s o = Ok s1 -> kinv s1.
Proof.
  intros A K E. unfold suicide in E. destruct (main s); try discriminate.
  destruct (Z.leb_spec (ro_refs (objs s o)) 0) as [R|R]; [discriminate|].
  destruct (ro_dead (objs s o)); apply ok_inj in E; subst s1; [exact K|].
  apply (kinv_dies s o); auto; destruct (ro_acquired (objs s o)); sproj; auto;
    intros h; unfold zupd; rewrite ?Z.eqb_refl; destruct (Z.eqb_spec h (ro_handle (objs s o))) as [->|]; cbn; split; reflexivity || lia.
Qed.
Lemma kinv_reanimate s o s1 : acct s -> kinv s -> reanimate s o = Ok s1 -> kinv s1.
Proof.
  intros A K E. unfold reanimate in E. destruct (main s); try discriminate.
  destruct (Z.leb_spec (ro_refs (objs s o)) 0) as [R|R]; [discriminate|].
  destruct (ro_dead (objs s o)) eqn:ED; [|apply ok_inj in E; subst s1; exact K].
  destruct (_ && _); apply ok_inj in E; subst s1; [|exact K].
  pose proof (live_gone s o A R) as G.
  assert (EA : ro_acquired (objs s o) = false).
  { destruct (ro_acquired (objs s o)) eqn:X; [|reflexivity]. destruct (k_fine s K o X G). congruence. }
  apply (kinv_one s _ o (fun h => if ro_handle (objs s o) =? h then 1 else 0)); sproj; auto.
  - apply (counted_pos s o A R).
  - intros i N. rewrite upd_neq by exact N. apply alike_refl.
  - intros h. rewrite upd_eq. apply grip_change; [reflexivity|]. rewrite EA. unfold gone in *. cbn. rewrite G. reflexivity.
  - rewrite upd_eq. intros _ _. cbn. split; [reflexivity|]. unfold zupd. rewrite ?Z.eqb_refl. cbn. reflexivity.
  - intros h. unfold zupd. rewrite Z.eqb_refl. rewrite (Z.eqb_sym (ro_handle (objs s o)) h).
    destruct (Z.eqb_spec h (ro_handle (objs s o))) as [->|]; cbn; split; reflexivity || lia.
Qed.
Lemma kinv_main s s1 : acct s -> kinv s -> main_step s = Ok s1 -> kinv s1.
Proof.
  intros A K E. unfold main_step in E. destruct (main s) as [|o cb|o cb|o]; try discriminate.
  - apply ok_inj in E. subst s1. apply (kinv_keep s); auto; destruct (_ && _); auto; intros; apply alike_refl.
  - destruct cb; apply ok_inj in E; subst s1; apply (kinv_keep s); auto; intros; apply alike_refl.
  - destruct (obj_unref s o) as [| |s2] eqn:EU; try discriminate. cbn [bind] in E. apply ok_inj in E. subst s1.
    pose proof (kinv_unref s o s2 A K EU) as K2. apply (kinv_keep s2); auto; intros; apply alike_refl.
Qed.

Lemma kinv_step s m s1 : acct s -> kinv s -> step s m = Ok s1 -> kinv s1.
Proof.
  intros A K E. destruct m as [h md|o|o|o|h| |o| |o|h|h|h]; cbn [step] in E.
  - apply (kinv_get s h md s1 A K E).
  - destruct (0 <? held s o); [|discriminate].
    destruct (obj_ref s o) as [| |s2] eqn:ER; try discriminate. cbn [bind] in E. apply ok_inj in E. subst s1.
    destruct (kinv_ref s o s2 K ER) as [K2 _]. apply (kinv_keep s2); auto; intros; apply alike_refl.
  - destruct (0 <? held s o); [|discriminate].
    destruct (obj_unref_frame _ _ _ E) as [R ->]. sproj. pose proof (live_gone s o A R) as G.
    apply (kinv_keep s); sproj; auto. intros i. apply alike_upd. destruct (1 <? ro_refs (objs s o)); repeat split. rewrite G. reflexivity.
  - destruct (Nat.ltb_spec o (count s)) as [L|L]; [|discriminate]. apply (kinv_dispose s o s1 A K L E).
  - apply (kinv_dead_binder s h s1 A K E).
  - apply (kinv_callback s s1 A K E).
  - destruct (0 <? held s o); [|discriminate]. apply (kinv_suicide s o s1 A K E).
  - apply (kinv_main s s1 A K E).
  - destruct (0 <? held s o); [|discriminate]. apply (kinv_reanimate s o s1 A K E).
  - apply ok_inj in E. subst s1. apply (kinv_keep s); auto; [intros; apply alike_refl|].
    intros z. sproj. unfold zupd. destruct (Z.eqb_spec z h) as [->|]; auto.
  - destruct (kr_dead (kern s h)) eqn:ED; [|discriminate]. destruct (kr_watch (kern s h)); try discriminate.
    apply ok_inj in E. subst s1. apply (kinv_keep s); auto; [intros; apply alike_refl|].
    intros z. sproj. unfold zupd. destruct (Z.eqb_spec z h) as [->|]; auto.
  - destruct (unused s h) eqn:EU; [|discriminate]. apply ok_inj in E. subst s1.
    unfold unused in EU. apply andb_prop in EU. destruct EU as [EU _]. apply Z.eqb_eq in EU.
    destruct K as [KA KB]. split; sproj.
    + intros z. unfold zupd. destruct (Z.eqb_spec z h) as [->|]; [rewrite <- KA, EU; reflexivity|apply KA].
    + intros o X Y. destruct (KB o X Y) as [P Q]. split; [exact P|]. sproj. unfold zupd.
      destruct (Z.eqb_spec (ro_handle (objs s o)) h) as [EH|]; [|exact Q]. exfalso.
      assert (L : (o < count s)%nat).
      { destruct A as (_ & _ & F). destruct (Nat.lt_ge_cases o (count s)) as [L|L]; [exact L|].
        unfold gone in Y. rewrite (F o L) in Y. discriminate. }
      pose proof (fsum_pos (fun i => grip (objs s i) h) (count s) o (fun i => grip_nonneg _ _) L) as B. cbn beta in B.
      rewrite <- KA, EU in B. unfold grip in B. rewrite X, EH, Z.eqb_refl, Y in B. cbn in B. lia.
Qed.

Lemma grip_is s o :
  acct s -> ro_acquired (objs s o) = true -> ro_phase (objs s o) <> PGone -> kinv s ->
  0 < kr_strong (kern s (ro_handle (objs s o))) /\ ro_node (objs s o) = kr_node (kern s (ro_handle (objs s o))).
Proof.
  intros (_ & _ & F) X Y [KA KB].
  assert (G : gone (objs s o) = false) by (unfold gone; destruct (ro_phase (objs s o)); congruence).
  destruct (KB o X G) as [P Q]. split; [|exact Q].
  assert (L : (o < count s)%nat).
  { destruct (Nat.lt_ge_cases o (count s)) as [L|L]; [exact L|]. rewrite (F o L) in Y. contradiction. }
  set (h := ro_handle (objs s o)).
  pose proof (fsum_pos (fun i => grip (objs s i) h) (count s) o (fun i => grip_nonneg _ _) L) as B. cbn beta in B.
  rewrite <- KA in B. unfold grip in B. subst h. rewrite X, Z.eqb_refl, G in B. cbn in B. lia.
Qed.
Lemma strong_is s h : kinv s -> 0 < kr_strong (kern s h) ->
  exists o, (o < count s)%nat /\ ro_acquired (objs s o) = true /\ ro_phase (objs s o) <> PGone /\
            ro_handle (objs s o) = h /\ ro_node (objs s o) = kr_node (kern s h).
Proof.
  intros [KA KB] H. rewrite KA in H. destruct (fsum_some _ _ H) as (o & L & G). exists o. split; [exact L|].
  unfold grip in G. destruct (ro_acquired (objs s o)) eqn:X; [|cbn in G; lia].
  destruct (Z.eqb_spec (ro_handle (objs s o)) h) as [EH|]; [|cbn in G; lia].
  destruct (gone (objs s o)) eqn:Y; [cbn in G; lia|]. split; [reflexivity|].
  split; [unfold gone in Y; intro Z; rewrite Z in Y; discriminate|]. split; [exact EH|].
  destruct (KB o X Y) as [_ Q]. rewrite Q, EH. reflexivity.
Qed.
