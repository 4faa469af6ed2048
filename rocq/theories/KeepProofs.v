(* Objects are kept for their users: the invariant of the processes together *)
From Verif Require Import Base.
From Verif Require LocalModel LocalSpec LocalProofs RemoteModel RemoteProofs KeepClient KeepRelease.
From Verif Require Import KeepModel KeepSpec.
From Coq Require Import Lia.

Lemma existsb_mono {A} (f g : A -> bool) l :
  (forall x, In x l -> f x = true -> g x = true) -> existsb f l = true -> existsb g l = true.
Proof.
  intros H E. rewrite existsb_exists in *. destruct E as (x & I & F). exists x. split; [exact I|]. apply H; assumption.
Qed.

(* ------------------------------------------------------------------ *)
(* What the steps of other processes do to the driver's side of a handle *)
Lemma remote_kern s m s1 h :
  RemoteModel.step s m = RemoteModel.Ok s1 ->
  (RemoteModel.kr_node (RemoteModel.kern s h) <= RemoteModel.kr_node (RemoteModel.kern s1 h))%nat /\
  (RemoteModel.kr_node (RemoteModel.kern s1 h) <> RemoteModel.kr_node (RemoteModel.kern s h) -> m = RemoteModel.Reuse h) /\
  (RemoteModel.kr_strong (RemoteModel.kern s1 h) <= RemoteModel.kr_strong (RemoteModel.kern s h) \/
   (exists md, m = RemoteModel.Get h md /\ RemoteModel.table s h = None) \/ h = RemoteModel.SM_HANDLE).
Proof.
  intros E.
  assert (SAME : RemoteModel.kern s1 h = RemoteModel.kern s h ->
    (RemoteModel.kr_node (RemoteModel.kern s h) <= RemoteModel.kr_node (RemoteModel.kern s1 h))%nat /\
    (RemoteModel.kr_node (RemoteModel.kern s1 h) <> RemoteModel.kr_node (RemoteModel.kern s h) -> m = RemoteModel.Reuse h) /\
    (RemoteModel.kr_strong (RemoteModel.kern s1 h) <= RemoteModel.kr_strong (RemoteModel.kern s h) \/
     (exists md, m = RemoteModel.Get h md /\ RemoteModel.table s h = None) \/ h = RemoteModel.SM_HANDLE)).
  { intros ->. split; [lia|]. split; [congruence|]. left. lia. }
  assert (LESS : RemoteModel.kr_node (RemoteModel.kern s1 h) = RemoteModel.kr_node (RemoteModel.kern s h) ->
    RemoteModel.kr_strong (RemoteModel.kern s1 h) <= RemoteModel.kr_strong (RemoteModel.kern s h) ->
    (RemoteModel.kr_node (RemoteModel.kern s h) <= RemoteModel.kr_node (RemoteModel.kern s1 h))%nat /\
    (RemoteModel.kr_node (RemoteModel.kern s1 h) <> RemoteModel.kr_node (RemoteModel.kern s h) -> m = RemoteModel.Reuse h) /\
    (RemoteModel.kr_strong (RemoteModel.kern s1 h) <= RemoteModel.kr_strong (RemoteModel.kern s h) \/
     (exists md, m = RemoteModel.Get h md /\ RemoteModel.table s h = None) \/ h = RemoteModel.SM_HANDLE)).
  { intros A B. split; [lia|]. split; [congruence|]. left. exact B. }
  destruct m as [z md|o|o|o|z| |o| |o|z|z|z]; cbn [RemoteModel.step] in E.
  - unfold RemoteModel.obj_get in E. destruct (RemoteModel.table s z) as [o|] eqn:T.
    + destruct (RemoteModel.obj_ref s o) as [| |s2] eqn:ER; try discriminate. cbn [RemoteModel.bind] in E. injection E as <-.
      destruct (RemoteProofs.obj_ref_frame _ _ _ ER) as [_ ->]. apply SAME. reflexivity.
    + injection E as <-. destruct (Z.eq_dec h z) as [->|N].
      * destruct md; cbn; unfold RemoteModel.zupd; rewrite ?Z.eqb_refl; cbn.
        all: split; [lia|]; split; [congruence|]; right; left; eexists; split; [reflexivity|exact T].
      * apply SAME. destruct md; cbn; unfold RemoteModel.zupd; rewrite ?Z.eqb_refl; cbn; try (destruct (Z.eqb_spec h z); [contradiction|]); reflexivity.
  - destruct (0 <? RemoteModel.held s o); [|discriminate].
    destruct (RemoteModel.obj_ref s o) as [| |s2] eqn:ER; try discriminate. cbn [RemoteModel.bind] in E. injection E as <-.
    destruct (RemoteProofs.obj_ref_frame _ _ _ ER) as [_ ->]. apply SAME. reflexivity.
  - destruct (0 <? RemoteModel.held s o); [|discriminate].
    destruct (RemoteProofs.obj_unref_frame _ _ _ E) as [_ ->]. apply SAME. reflexivity.
  - destruct (Nat.ltb o (RemoteModel.count s)); [|discriminate]. unfold RemoteModel.dispose_step in E.
    destruct (RemoteModel.ro_phase (RemoteModel.objs s o)); try discriminate.
    + injection E as <-. apply SAME. destruct (_ =? 1); reflexivity.
    + destruct (_ =? 0); injection E as <-; apply SAME; reflexivity.
    + injection E as <-. apply SAME. reflexivity.
    + injection E as <-. apply LESS; destruct (RemoteModel.ro_dead (RemoteModel.objs s o)), (RemoteModel.ro_acquired (RemoteModel.objs s o));
        cbn; unfold RemoteModel.zupd; rewrite ?Z.eqb_refl;
        try (destruct (Z.eqb_spec h (RemoteModel.ro_handle (RemoteModel.objs s o))) as [->|]); cbn; reflexivity || lia.
  - unfold RemoteModel.dead_binder in E. destruct (RemoteModel.remove_one z (RemoteModel.inflight s)) as [l|]; [|discriminate].
    destruct (RemoteModel.table (RemoteModel.set_inflight s l) z) as [o|].
    + destruct (RemoteModel.obj_ref (RemoteModel.set_inflight s l) o) as [| |s2] eqn:ER; try discriminate. cbn [RemoteModel.bind] in E.
      destruct (RemoteModel.obj_ref (RemoteModel.set_held s2 o (RemoteModel.held s2 o + 1)) o) as [| |s3] eqn:ER2; try discriminate.
      cbn [RemoteModel.bind] in E. injection E as <-.
      destruct (RemoteProofs.obj_ref_frame _ _ _ ER) as [_ ->]. destruct (RemoteProofs.obj_ref_frame _ _ _ ER2) as [_ ->]. apply SAME. reflexivity.
    + injection E as <-. apply SAME. reflexivity.
  - unfold RemoteModel.callback in E. destruct (RemoteModel.main s); try discriminate. destruct (RemoteModel.queue s) as [|o q]; [discriminate|].
    change (RemoteModel.objs (RemoteModel.set_queue s q) o) with (RemoteModel.objs s o) in E.
    destruct (_ <=? 0); [discriminate|]. destruct (RemoteModel.ro_dead (RemoteModel.objs s o)).
    + destruct (RemoteProofs.obj_unref_frame _ _ _ E) as [_ ->]. apply SAME. reflexivity.
    + injection E as <-. apply LESS; destruct (RemoteModel.ro_acquired (RemoteModel.objs s o)); cbn; unfold RemoteModel.zupd; rewrite ?Z.eqb_refl;
        try (destruct (Z.eqb_spec h (RemoteModel.ro_handle (RemoteModel.objs s o))) as [->|]); cbn; reflexivity || lia.
  - destruct (0 <? RemoteModel.held s o); [|discriminate].
    unfold RemoteModel.suicide in E. destruct (RemoteModel.main s); try discriminate.
    destruct (_ <=? 0); [discriminate|]. destruct (RemoteModel.ro_dead (RemoteModel.objs s o)); injection E as <-; [apply SAME; reflexivity|].
    apply LESS; destruct (RemoteModel.ro_acquired (RemoteModel.objs s o)); cbn; unfold RemoteModel.zupd; rewrite ?Z.eqb_refl;
        try (destruct (Z.eqb_spec h (RemoteModel.ro_handle (RemoteModel.objs s o))) as [->|]); cbn; reflexivity || lia.
  - unfold RemoteModel.main_step in E. destruct (RemoteModel.main s) as [|o cb|o cb|o]; try discriminate.
    + injection E as <-. apply SAME. destruct (_ && _); reflexivity.
    + destruct cb; injection E as <-; apply SAME; reflexivity.
    + destruct (RemoteModel.obj_unref s o) as [| |s2] eqn:EU; try discriminate. cbn [RemoteModel.bind] in E. injection E as <-.
      destruct (RemoteProofs.obj_unref_frame _ _ _ EU) as [_ ->]. apply SAME. reflexivity.
  - destruct (0 <? RemoteModel.held s o); [|discriminate].
    unfold RemoteModel.reanimate in E. destruct (RemoteModel.main s); try discriminate.
    destruct (_ <=? 0); [discriminate|]. destruct (RemoteModel.ro_dead (RemoteModel.objs s o)); [|injection E as <-; apply SAME; reflexivity].
    destruct (Z.eqb_spec (RemoteModel.ro_handle (RemoteModel.objs s o)) RemoteModel.SM_HANDLE) as [EH|];
      [|cbn [andb] in E; injection E as <-; apply SAME; reflexivity].
    destruct (true && _); injection E as <-; [|apply SAME; reflexivity].
    destruct (Z.eq_dec h RemoteModel.SM_HANDLE) as [->|N].
    + cbn. unfold RemoteModel.zupd. rewrite EH, !Z.eqb_refl. cbn. split; [lia|]. split; [congruence|]. auto.
    + apply SAME. cbn. unfold RemoteModel.zupd. rewrite EH. destruct (Z.eqb_spec h RemoteModel.SM_HANDLE); [contradiction|reflexivity].
  - injection E as <-. apply LESS; cbn; unfold RemoteModel.zupd; destruct (Z.eqb_spec h z) as [->|]; cbn; reflexivity || lia.
  - destruct (RemoteModel.kr_dead (RemoteModel.kern s z)); [|discriminate]. destruct (RemoteModel.kr_watch (RemoteModel.kern s z)); try discriminate.
    injection E as <-. apply LESS; cbn; unfold RemoteModel.zupd; destruct (Z.eqb_spec h z) as [->|]; cbn; reflexivity || lia.
  - destruct (RemoteModel.unused s z) eqn:EU; [|discriminate]. injection E as <-.
    unfold RemoteModel.unused in EU. apply andb_prop in EU. destruct EU as [EU _]. apply Z.eqb_eq in EU.
    destruct (Z.eq_dec h z) as [->|N].
    + cbn. unfold RemoteModel.zupd. rewrite Z.eqb_refl. cbn. split; [lia|]. split; [reflexivity|]. left. lia.
    + apply SAME. cbn. unfold RemoteModel.zupd. destruct (Z.eqb_spec h z); [contradiction|reflexivity].
Qed.

(* What the steps of the process of the object do to what the driver knows, and to the references
   of the application *)
Definition is_work (m : LocalModel.move) : bool := match m with LocalModel.MWork _ _ _ => true | _ => false end.
Definition app_of (s : LocalModel.state) : Z := match LocalModel.obj s with Some o => LocalModel.by_app o | None => 0 end.
Lemma local_frame s m s1 :
  is_work m = false -> LocalModel.step s m = LocalModel.Ok s1 ->
  LocalModel.k_strong s1 = LocalModel.k_strong s /\ LocalModel.k_weak s1 = LocalModel.k_weak s.
Proof.
  intros NW E. destruct m; try discriminate; cbn [LocalModel.step] in E.
  - unfold LocalModel.new_object in E. destruct (LocalModel.obj s); [discriminate|]. injection E as <-. auto.
  - unfold LocalModel.app_ref in E. destruct (LocalModel.obj s); [|discriminate]. destruct (_ <? _); [|discriminate]. injection E as <-. auto.
  - unfold LocalModel.unref in E. destruct (LocalModel.obj s); [|discriminate]. destruct (_ <=? _); [discriminate|]. cbn zeta in E.
    destruct (1 <? _); injection E as <-; auto.
  - unfold LocalModel.dispose in E. destruct (LocalModel.obj s) as [o|]; [|discriminate]. destruct (LocalModel.state_of o); try discriminate.
    destruct (_ =? _); injection E as <-; auto.
  - unfold LocalModel.unref_end in E. destruct (LocalModel.obj s) as [o|]; [|discriminate]. destruct (LocalModel.state_of o); try discriminate;
    destruct (_ <? _); injection E as <-; auto.
  - unfold LocalModel.finalize in E. destruct (LocalModel.obj s) as [o|]; [|discriminate]. destruct (LocalModel.state_of o); try discriminate.
    injection E as <-; auto.
  - unfold LocalModel.clear_handler in E. destruct (LocalModel.obj s) as [o|]; [|discriminate]. destruct (_ <? _); [|discriminate]. injection E as <-; auto.
  - unfold LocalModel.transaction in E. destruct (LocalModel.get_local s); try discriminate; injection E as <-; auto.
  - unfold LocalModel.handle in E. destruct (nth_error _ _) as [t|]; [|discriminate]. destruct (LocalModel.t_queue t) as [|c q]; [discriminate|].
    cbn zeta in E. destruct (LocalModel.get_local _); try discriminate; destruct c; injection E as <-; auto.
  - unfold LocalModel.drain in E. destruct (nth_error _ _) as [[q l]|]; [|discriminate]. destruct q; [|discriminate]. destruct l; [discriminate|].
    unfold LocalModel.with_object in E. destruct (LocalModel.obj s) as [o|]; [|discriminate]. destruct (LocalModel.state_of o); try discriminate; injection E as <-; auto.
  - unfold LocalModel.main_step in E. destruct (LocalModel.tasks s) as [|t r]; [discriminate|].
    unfold LocalModel.with_object in E. destruct (LocalModel.obj s) as [o|]; [|discriminate].
    destruct (LocalModel.state_of o); try discriminate; destruct t; try (destruct (0 <? LocalModel.strong o)); injection E as <-; auto.
Qed.
Lemma local_app s m s1 :
  LocalProofs.inv s -> is_work m = false -> LocalModel.step s m = LocalModel.Ok s1 -> 0 < app_of s ->
  0 < app_of s1 \/ (m = LocalModel.MUnref true /\ app_of s = 1).
Proof.
  intros V NW E P. unfold app_of in *. pose proof (LocalProofs.i_obj _ V) as O.
  destruct m; try discriminate; cbn [LocalModel.step] in E; destruct (LocalModel.obj s) as [o|] eqn:OB; try lia.
  - unfold LocalModel.new_object in E. rewrite OB in E. discriminate.
  - unfold LocalModel.app_ref in E. rewrite OB in E. destruct (_ <? _); [|discriminate]. injection E as <-. cbn. lia.
  - unfold LocalModel.unref in E. rewrite OB in E. destruct (_ <=? _); [discriminate|]. cbn zeta in E.
    destruct a; [destruct (Z.eq_dec (LocalModel.by_app o) 1); [auto|]|]; left; destruct (1 <? _); injection E as <-; cbn; lia.
  - unfold LocalModel.dispose in E. rewrite OB in E. destruct (LocalModel.state_of o); try discriminate.
    destruct (_ =? _); injection E as <-; cbn; lia.
  - unfold LocalModel.unref_end in E. rewrite OB in E. destruct (LocalModel.state_of o); try discriminate;
    destruct (_ <? _); injection E as <-; cbn; lia.
  - unfold LocalModel.finalize in E. rewrite OB in E. destruct (LocalModel.state_of o) eqn:ST; try discriminate.
    pose proof (LocalProofs.o_state _ _ O) as F. rewrite ST in F. destruct F as [(_ & F & _) _]. lia.
  - unfold LocalModel.clear_handler in E. rewrite OB in E. destruct (_ <? _); [|discriminate]. injection E as <-; cbn; lia.
  - unfold LocalModel.transaction, LocalModel.get_local in E. rewrite OB in E. destruct (LocalModel.in_table o); [|injection E as <-; rewrite OB; lia].
    destruct (LocalModel.state_of o); try discriminate; injection E as <-; cbn; lia.
  - unfold LocalModel.handle in E. destruct (nth_error _ _) as [t|]; [|discriminate]. destruct (LocalModel.t_queue t) as [|c q]; [discriminate|].
    cbn zeta in E. unfold LocalModel.get_local in E. cbn [LocalModel.set_threads LocalModel.obj] in E. rewrite OB in E.
    destruct (LocalModel.in_table o); [destruct (LocalModel.state_of o); try discriminate|]; destruct c; injection E as <-; cbn; rewrite ?OB; lia.
  - unfold LocalModel.drain in E. destruct (nth_error _ _) as [[q l]|]; [|discriminate]. destruct q; [|discriminate]. destruct l; [discriminate|].
    unfold LocalModel.with_object in E. rewrite OB in E. destruct (LocalModel.state_of o); try discriminate; injection E as <-; cbn; lia.
  - unfold LocalModel.main_step in E. destruct (LocalModel.tasks s) as [|t r]; [discriminate|].
    unfold LocalModel.with_object in E. rewrite OB in E.
    destruct (LocalModel.state_of o); try discriminate; destruct t; try (destruct (0 <? LocalModel.strong o)); injection E as <-; cbn; lia.
Qed.

(* ------------------------------------------------------------------ *)
Record sinv (n k : nat) (s : sys) : Prop := Sinv {
  v_owner : LocalSpec.reach k (owner s);
  v_proc : forall p, RemoteProofs.acct (proc s p) /\ KeepClient.kinv (proc s p);
  v_bound : forall p h g, bound s p = Some (h, g) ->
            h <> RemoteModel.SM_HANDLE /\ (g <= RemoteModel.kr_node (RemoteModel.kern (proc s p) h))%nat;
  v_bufs : forall p, 0 <= bufs s p /\ (0 < bufs s p -> handle_of s p <> None);
  v_own : 0 <= own_bufs s;
  v_sw : LocalModel.k_strong (owner s) = true -> LocalModel.k_weak (owner s) = true;
  v_told : untold n s = true -> 0 < by_app s
}.

Lemma sinv_init n k : sinv n k (init k).
Proof.
  split; cbn; try discriminate; try lia.
  - constructor.
  - intros p. split; [apply RemoteProofs.acct_initial|apply KeepClient.kinv_initial].
  - unfold untold. cbn. rewrite !andb_true_r. unfold node_weak, node_strong. cbn. rewrite !orb_false_r.
    assert (E1 : forall l, existsb (strong_in (init k)) l = false) by (induction l; [reflexivity|assumption]).
    assert (E2 : forall l, existsb (fun p => match handle_of (init k) p with Some _ => true | None => false end) l = false)
      by (induction l; [reflexivity|assumption]).
    rewrite E1, E2. discriminate.
Qed.

(* Fewer references are no news *)
Lemma untold_less n s s1 :
  owner s1 = owner s ->
  (node_strong n s1 = true -> node_strong n s = true) -> (node_weak n s1 = true -> node_weak n s = true) ->
  untold n s1 = true -> untold n s = true.
Proof.
  intros EO A B. unfold untold. rewrite EO. intros H. apply orb_prop in H. apply orb_true_iff.
  destruct H as [H|H]; apply andb_prop in H; destruct H as [X Y]; [left|right]; rewrite Y, ?A, ?B by exact X; reflexivity.
Qed.
Lemma strong_weak n s : node_strong n s = true -> node_weak n s = true.
Proof. unfold node_weak. intros ->. apply orb_true_r. Qed.
Lemma in_strong n s p : (p < n)%nat -> strong_in s p = true -> node_strong n s = true.
Proof.
  intros L E. unfold node_strong. apply orb_true_iff. left. apply existsb_exists. exists p. split; [|exact E]. apply in_seq. lia.
Qed.

Lemma upd_same {A} (f : nat -> A) p x : RemoteModel.upd f p x p = x.
Proof. apply RemoteProofs.upd_eq. Qed.
Lemma upd_other {A} (f : nat -> A) p x q : q <> p -> RemoteModel.upd f p x q = f q.
Proof. apply RemoteProofs.upd_neq. Qed.

(* ------------------------------------------------------------------ *)
(* Messages *)
Lemma deliver_inv n k s p h s1 :
  sinv n k s -> deliver s p h = Ok s1 ->
  owner s1 = owner s /\ own_bufs s1 = own_bufs s /\
  (forall q, RemoteProofs.acct (proc s1 q) /\ KeepClient.kinv (proc s1 q)) /\
  (forall q z g, bound s1 q = Some (z, g) -> z <> RemoteModel.SM_HANDLE /\ (g <= RemoteModel.kr_node (RemoteModel.kern (proc s1 q) z))%nat) /\
  (forall q, 0 <= bufs s1 q /\ (0 < bufs s1 q -> handle_of s1 q <> None)).
Proof.
  intros [O P B F W SW T] E. unfold deliver in E. destruct (handle_of s p) as [z|] eqn:EH.
  - injection E as <-. cbn. do 2 (split; [reflexivity|]). split; [exact P|]. split; [exact B|].
    intros q. destruct (F q) as [F1 F2]. destruct (Nat.eq_dec q p) as [->|N].
    + rewrite upd_same. split; [lia|]. intros _. unfold handle_of in *. cbn. congruence.
    + rewrite upd_other by exact N. split; [exact F1|]. exact F2.
  - destruct (Z.eqb_spec h RemoteModel.SM_HANDLE) as [|NZ]; [discriminate|].
    destruct (RemoteModel.step (proc s p) (RemoteModel.Reuse h)) as [| |x] eqn:ES; try discriminate. injection E as <-.
    destruct (P p) as [PA PK]. pose proof (RemoteProofs.acct_step _ _ _ PA ES) as A1. pose proof (KeepClient.kinv_step _ _ _ PA PK ES) as K1.
    cbn. do 2 (split; [reflexivity|]). split; [|split].
    + intros q. destruct (Nat.eq_dec q p) as [->|N]; [rewrite upd_same; auto|rewrite upd_other by exact N; apply P].
    + intros q z g. destruct (Nat.eq_dec q p) as [->|N].
      * rewrite !upd_same. intros [= <- <-]. split; [exact NZ|lia].
      * rewrite !upd_other by exact N. apply B.
    + intros q. destruct (F q) as [F1 F2]. destruct (Nat.eq_dec q p) as [->|N].
      * rewrite upd_same. split; [lia|]. intros _. unfold handle_of. cbn. rewrite !upd_same, Nat.eqb_refl. discriminate.
      * rewrite upd_other by exact N. split; [exact F1|]. unfold handle_of in *. cbn. rewrite !upd_other by exact N. exact F2.
Qed.

Lemma lift_ok s x s1 : lift s x = Ok s1 -> exists o, x = LocalModel.Ok o /\ s1 = set_owner s o.
Proof. unfold lift. destruct x; try discriminate. intros [= <-]. eauto. Qed.
Lemma strong_owner n s o : node_strong n (set_owner s o) = node_strong n s.
Proof. reflexivity. Qed.
Lemma weak_owner n s o : node_weak n (set_owner s o) = node_weak n s.
Proof. reflexivity. Qed.

Lemma own_inv n k s m s1 : sinv n k s -> careful n s (Own m) = true -> step n s (Own m) = Ok s1 -> sinv n k s1.
Proof.
  intros V C E. cbn [careful] in C. apply andb_prop in C. destruct C as [C1 C2].
  assert (NW : is_work m = false) by (destruct m; try reflexivity; discriminate).
  assert (E2 : lift s (LocalModel.step (owner s) m) = Ok s1) by (destruct m; try discriminate; exact E).
  destruct (lift_ok _ _ _ E2) as (o & EO & ->). destruct V as [O P B F W SW T].
  destruct (local_frame _ _ _ NW EO) as [FS FW].
  split; cbn; auto.
  - econstructor; [exact O| |exact C1|exact EO]. destruct m; try reflexivity; discriminate.
  - rewrite FS, FW. exact SW.
  - intros U. assert (U0 : untold n s = true).
    { unfold untold in *. rewrite strong_owner, weak_owner in U. cbn in U. rewrite FS, FW in U. exact U. }
    pose proof (T U0) as A. unfold by_app in *. cbn.
    destruct (local_app _ _ _ (LocalProofs.reach_inv _ _ O) NW EO A) as [G|[-> G]]; [exact G|].
    exfalso. unfold by_app in C2. unfold app_of in G. rewrite G, U0 in C2. discriminate.
Qed.

Lemma work_inv n k s i s1 : sinv n k s -> step n s (Work i) = Ok s1 -> sinv n k s1.
Proof.
  intros [O P B F W SW T] E. cbn [step] in E. cbv zeta in E.
  set (st := node_strong n s || LocalModel.k_pstrong (owner s)) in *.
  set (w := node_weak n s || LocalModel.k_pweak (owner s) || st) in *.
  destruct (lift_ok _ _ _ E) as (o & EO & ->).
  pose proof (LocalProofs.reach_inv _ _ O) as V.
  assert (KS : LocalModel.k_strong o = st /\ LocalModel.k_weak o = w).
  { cbn [LocalModel.step] in EO. unfold LocalModel.kernel_work in EO. destruct (nth_error _ _); [|discriminate]. injection EO as <-. auto. }
  destruct KS as [KS KW].
  assert (SS : node_strong n s = true -> st = true) by (intros X; unfold st; rewrite X; reflexivity).
  assert (WW : node_weak n s = true -> w = true) by (intros X; unfold w; rewrite X; reflexivity).
  assert (SW2 : st = true -> w = true) by (intros X; unfold w; rewrite X; apply orb_true_r).
  split; cbn; auto.
  - apply (LocalSpec.reach_step k (owner s) (LocalModel.MWork i w st)); [exact O| |cbn; destruct (LocalModel.obj (owner s)); reflexivity|exact EO]. cbn [LocalSpec.lawful].
    assert (L1 : implb st w = true) by (destruct st; [rewrite SW2; reflexivity|reflexivity]).
    assert (L2 : implb (LocalModel.k_pweak (owner s)) w = true).
    { destruct (LocalModel.k_pweak (owner s)) eqn:X; [|reflexivity]. unfold w. rewrite orb_true_r. reflexivity. }
    assert (L3 : implb (LocalModel.k_pstrong (owner s)) st = true).
    { destruct (LocalModel.k_pstrong (owner s)) eqn:X; [|reflexivity]. unfold st. rewrite orb_true_r. reflexivity. }
    rewrite L1, L2, L3. cbn [andb].
    destruct ((w && negb (LocalModel.k_weak (owner s))) || (st && negb (LocalModel.k_strong (owner s)))) eqn:X; [|reflexivity].
    assert (U : untold n s = true).
    { unfold untold. apply orb_true_iff. apply orb_prop in X. destruct X as [X|X]; apply andb_prop in X; destruct X as [X1 X2].
      - right. rewrite X2, andb_true_r. apply negb_true_iff in X2. unfold w, st in X1.
        destruct (node_weak n s) eqn:Y; [reflexivity|].
        destruct (LocalModel.k_pweak (owner s)) eqn:Y2; [rewrite (LocalProofs.i_pw2 _ V Y2) in X2; discriminate|].
        destruct (node_strong n s) eqn:Y3; [rewrite (strong_weak n s Y3) in Y; discriminate|].
        cbn in X1. rewrite (SW (LocalProofs.i_ps2 _ V X1)) in X2. discriminate.
      - left. rewrite X2, andb_true_r. apply negb_true_iff in X2. unfold st in X1.
        destruct (node_strong n s) eqn:Y3; [reflexivity|].
        cbn in X1. rewrite (LocalProofs.i_ps2 _ V X1) in X2. discriminate. }
    pose proof (T U) as A. unfold by_app in A. cbn [implb]. destruct (LocalModel.obj (owner s)) as [x|]; [apply Z.ltb_lt; exact A|lia].
  - rewrite KS, KW. exact SW2.
  - unfold untold. rewrite strong_owner, weak_owner. cbn. rewrite KS, KW. intros X. exfalso.
    destruct (node_strong n s) eqn:Y; [rewrite (SS eq_refl) in X|]; destruct (node_weak n s) eqn:Y2; try rewrite (WW eq_refl) in X; discriminate.
Qed.

Lemma other_inv n k s p m s1 : sinv n k s -> step n s (Other p m) = Ok s1 -> sinv n k s1.
Proof.
  intros V E. cbn [step] in E. destruct (Nat.ltb_spec p n) as [L|]; [|discriminate]. cbn [andb] in E.
  destruct (possible s p m) eqn:PO; [|discriminate].
  destruct (RemoteModel.step (proc s p) m) as [| |x] eqn:ES; try discriminate. injection E as <-.
  pose proof V as [O P B F W SW T]. destruct (P p) as [PA PK].
  (* the handle there *)
  assert (HH : forall h, handle_of (set_proc s p x) p = Some h -> handle_of s p = Some h).
  { intros h. unfold handle_of. cbn. rewrite upd_same. destruct (bound s p) as [[z g]|] eqn:EB; [|discriminate].
    destruct (B p z g EB) as [_ BG]. destruct (remote_kern _ _ _ z ES) as (K1 & K2 & _).
    destruct (Nat.eqb_spec (RemoteModel.kr_node (RemoteModel.kern x z)) g) as [EG|]; [|discriminate].
    intros [= <-]. destruct (Nat.eqb_spec (RemoteModel.kr_node (RemoteModel.kern (proc s p) z)) g) as [|NG]; [reflexivity|lia]. }
  assert (SI : strong_in (set_proc s p x) p = true -> strong_in s p = true).
  { unfold strong_in at 1. destruct (handle_of (set_proc s p x) p) as [h|] eqn:EH; [|discriminate].
    pose proof (HH h eq_refl) as EH0. cbn [bufs set_proc proc]. rewrite upd_same. intros X. apply orb_prop in X.
    unfold strong_in. rewrite EH0. apply orb_true_iff. destruct X as [X|X]; [left; exact X|]. apply Z.ltb_lt in X.
    destruct (remote_kern _ _ _ h ES) as (_ & _ & [K|[(md & -> & KT)|K]]).
    - right. apply Z.ltb_lt. lia.
    - unfold possible in PO. rewrite EH0, Z.eqb_refl, KT, orb_false_r in PO. cbn in PO. unfold strong_in in PO. rewrite EH0 in PO.
      apply orb_prop in PO. exact PO.
    - exfalso. unfold handle_of in EH0. destruct (bound s p) as [[z g]|] eqn:EB; [|discriminate].
      destruct (Nat.eqb _ _); [|discriminate]. injection EH0 as <-. destruct (B p z g EB) as [BZ _]. contradiction. }
  assert (OTHERS : forall q, q <> p -> handle_of (set_proc s p x) q = handle_of s q /\ strong_in (set_proc s p x) q = strong_in s q).
  { intros q N. assert (A : handle_of (set_proc s p x) q = handle_of s q) by (unfold handle_of; cbn; rewrite upd_other by exact N; reflexivity).
    split; [exact A|]. unfold strong_in. rewrite A. cbn. rewrite upd_other by exact N. reflexivity. }
  assert (NS : node_strong n (set_proc s p x) = true -> node_strong n s = true).
  { unfold node_strong. intros X. apply orb_true_iff. apply orb_prop in X. destruct X as [X|X]; [left|right; exact X].
    revert X. apply existsb_mono. intros q _. destruct (Nat.eq_dec q p) as [->|N]; [exact SI|]. destruct (OTHERS q N) as [_ ->]. auto. }
  split; cbn; auto.
  - intros q. destruct (Nat.eq_dec q p) as [->|N]; [rewrite upd_same|rewrite upd_other by exact N; apply P].
    split; [apply (RemoteProofs.acct_step _ _ _ PA ES)|apply (KeepClient.kinv_step _ _ _ PA PK ES)].
  - intros q h g EB. destruct (B q h g EB) as [B1 B2]. split; [exact B1|].
    destruct (Nat.eq_dec q p) as [->|N]; [rewrite upd_same|rewrite upd_other by exact N; exact B2].
    destruct (remote_kern _ _ _ h ES) as (K1 & _). lia.
  - intros q. destruct (F q) as [F1 F2]. split; [exact F1|]. intros G. destruct (Nat.eq_dec q p) as [->|N].
    + specialize (F2 G). unfold handle_of in *. cbn. rewrite upd_same. destruct (bound s p) as [[z g]|] eqn:EB; [|contradiction].
      destruct (Nat.eqb_spec (RemoteModel.kr_node (RemoteModel.kern (proc s p) z)) g) as [EG|]; [|contradiction].
      destruct (remote_kern _ _ _ z ES) as (K1 & K2 & _).
      destruct (Nat.eqb_spec (RemoteModel.kr_node (RemoteModel.kern x z)) g) as [|NG]; [discriminate|].
      rewrite <- EG in NG. rewrite (K2 NG) in PO. unfold possible, handle_of in PO. rewrite EB, EG, Nat.eqb_refl, Z.eqb_refl in PO. cbn in PO.
      apply Z.leb_le in PO. lia.
    + destruct (OTHERS q N) as [-> _]. apply F2, G.
  - intros U. apply T. revert U. apply untold_less; [reflexivity|exact NS|].
    unfold node_weak. intros X. apply orb_true_iff. apply orb_prop in X. destruct X as [X|X]; [left|right; apply NS, X].
    revert X. apply existsb_mono. intros q _. destruct (Nat.eq_dec q p) as [->|N].
    + destruct (handle_of (set_proc s p x) p) as [h|]; [|discriminate]. rewrite (HH h eq_refl). auto.
    + destruct (OTHERS q N) as [-> _]. auto.
Qed.

Lemma step_inv n k s mv s1 : sinv n k s -> careful n s mv = true -> step n s mv = Ok s1 -> sinv n k s1.
Proof.
  intros V C E. destruct mv as [m|i|p h|p q h|p| |p|p m].
  - apply (own_inv n k s m s1 V C E).
  - apply (work_inv n k s i s1 V E).
  - cbn [step] in E. destruct (Nat.ltb p n); [|discriminate]. cbn [andb] in E. destruct (Z.ltb_spec 0 (by_app s)) as [A|]; [|discriminate].
    destruct (deliver_inv n k s p h s1 V E) as (D1 & D2 & D3 & D4 & D5). destruct V as [O P B F W SW T].
    split; rewrite ?D1, ?D2; auto. intros _. unfold by_app in *. rewrite D1. exact A.
  - cbn [step] in E. destruct (Nat.ltb_spec p n) as [L|]; [|discriminate]. cbn [andb] in E. destruct (Nat.ltb q n); [|discriminate]. cbn [andb] in E.
    destruct (strong_in s p) eqn:SI; [|discriminate].
    destruct (deliver_inv n k s q h s1 V E) as (D1 & D2 & D3 & D4 & D5). destruct V as [O P B F W SW T].
    split; rewrite ?D1, ?D2; auto. intros U. unfold by_app in *. rewrite D1. apply T. revert U.
    pose proof (in_strong n s p L SI) as S1. apply untold_less; [exact D1|intros _; exact S1|intros _; apply strong_weak, S1].
  - cbn [step] in E. destruct (Nat.ltb_spec p n) as [L|]; [|discriminate]. cbn [andb] in E.
    destruct (strong_in s p) eqn:SI; [|discriminate]. injection E as <-. destruct V as [O P B F W SW T].
    split; cbn; auto; try lia. intros U. apply T. revert U. pose proof (in_strong n s p L SI) as S1.
    apply untold_less; [reflexivity|intros _; exact S1|intros _; apply strong_weak, S1].
  - cbn [step] in E. destruct (Z.ltb_spec 0 (own_bufs s)) as [L|]; [|discriminate]. injection E as <-. destruct V as [O P B F W SW T].
    split; cbn; auto; try lia. intros U. apply T. revert U.
    assert (NS : node_strong n (set_own_bufs s (own_bufs s - 1)) = true -> node_strong n s = true).
    { unfold node_strong. intros _. apply orb_true_iff. right. apply Z.ltb_lt, L. }
    apply untold_less; [reflexivity|exact NS|]. intros _. apply strong_weak. unfold node_strong. apply orb_true_iff. right. apply Z.ltb_lt, L.
  - cbn [step] in E. destruct (Nat.ltb_spec p n) as [LP|]; [|discriminate]. cbn [andb] in E.
    destruct (Z.ltb_spec 0 (bufs s p)) as [L|]; [|discriminate]. injection E as <-. destruct V as [O P B F W SW T].
    assert (SI : strong_in s p = true).
    { unfold strong_in. destruct (F p) as [_ F2]. specialize (F2 L). destruct (handle_of s p); [|contradiction].
      apply orb_true_iff. left. apply Z.ltb_lt, L. }
    pose proof (in_strong n s p LP SI) as S1.
    split; cbn; auto; try lia.
    + intros q. destruct (F q) as [F1 F2]. destruct (Nat.eq_dec q p) as [->|N].
      * rewrite upd_same. split; [lia|]. intros _. apply F2, L.
      * rewrite upd_other by exact N. split; [exact F1|exact F2].
    + intros U. apply T. revert U. apply untold_less; [reflexivity|intros _; exact S1|intros _; apply strong_weak, S1].
  - apply (other_inv n k s p m s1 V E).
Qed.
Lemma reach_sinv n k s : reach n k s -> sinv n k s.
Proof. induction 1; [apply sinv_init|]. eapply step_inv; eauto. Qed.

(* ------------------------------------------------------------------ *)
Lemma kept n k s : sinv n k s -> node_strong n s = true -> reachable s.
Proof.
  intros [O P B F W SW T] NS. pose proof (LocalProofs.reach_inv _ _ O) as V. unfold reachable.
  destruct (LocalModel.k_strong (owner s)) eqn:KS.
  - destruct (LocalProofs.strong_alive _ V KS) as (o & A & I & _). exists o. split; [exact A|]. destruct A as [A1 A2].
    unfold LocalModel.get_local. rewrite A1, I. destruct (LocalModel.state_of o); congruence.
  - assert (U : untold n s = true) by (unfold untold; rewrite NS, KS; reflexivity).
    pose proof (T U) as A. unfold by_app in A. pose proof (LocalProofs.i_obj _ V) as X.
    destruct (LocalModel.obj (owner s)) as [o|] eqn:OB; [|lia]. exists o.
    pose proof (LocalProofs.o_state _ _ X) as Y. unfold LocalProofs.counted, LocalProofs.blank in Y.
    unfold LocalSpec.alive, LocalModel.get_local. rewrite OB.
    destruct (LocalModel.state_of o); try (destruct Y as [(_ & Y & _) _]; lia); destruct Y as [(Y & _) _]; rewrite Y;
      (split; [split; [reflexivity|discriminate]|reflexivity]).
Qed.

Lemma has_strong n k s p : sinv n k s -> (p < n)%nat -> has s p -> node_strong n s = true.
Proof.
  intros [O P B F W SW T] L (o & LO & A & G & EB). apply (in_strong n s p L). destruct (P p) as [PA PK].
  destruct (KeepClient.grip_is _ o PA A G PK) as [K1 K2].
  unfold strong_in, handle_of. rewrite EB, K2, Nat.eqb_refl. apply orb_true_iff. right. apply Z.ltb_lt. exact K1.
Qed.
Lemma holds_has n k s p o : sinv n k s -> holds s p o -> has s p.
Proof.
  intros [O P B F W SW T] (H & D & A & EB). destruct (P p) as [PA _]. exists o.
  pose proof (RemoteProofs.held_pos _ o PA H) as R. split; [apply (RemoteProofs.counted_pos _ o PA R)|]. split; [exact A|]. split; [|exact EB].
  destruct PA as (C & _ & _). destruct (C o) as (_ & _ & Q). intros E. rewrite E in Q. lia.
Qed.
Lemma used_strong n k s : sinv n k s -> used n s -> node_strong n s = true.
Proof.
  intros V [(p & L & [H|H])|H].
  - apply (has_strong n k s p V L H).
  - apply (in_strong n s p L). destruct V as [O P B F W SW T]. destruct (F p) as [_ F2]. specialize (F2 H).
    unfold strong_in. destruct (handle_of s p); [|contradiction]. apply orb_true_iff. left. apply Z.ltb_lt, H.
  - unfold node_strong. apply orb_true_iff. right. apply Z.ltb_lt, H.
Qed.
Lemma strong_used n k s : sinv n k s -> node_strong n s = true -> used n s.
Proof.
  intros [O P B F W SW T] E. unfold node_strong in E. apply orb_prop in E. destruct E as [E|E]; [|right; apply Z.ltb_lt, E].
  left. apply existsb_exists in E. destruct E as (p & I & E). apply in_seq in I. exists p. split; [lia|].
  unfold strong_in in E. destruct (handle_of s p) as [h|] eqn:EH; [|discriminate]. apply orb_prop in E. destruct E as [E|E].
  - right. apply Z.ltb_lt, E.
  - left. apply Z.ltb_lt in E. destruct (P p) as [_ PK]. destruct (KeepClient.strong_is _ h PK E) as (o & L & A & G & H1 & H2).
    exists o. cbv zeta. split; [exact L|]. split; [exact A|]. split; [exact G|].
    unfold handle_of in EH. destruct (bound s p) as [[z g]|]; [|discriminate].
    destruct (Nat.eqb_spec (RemoteModel.kr_node (RemoteModel.kern (proc s p) z)) g) as [EG|]; [|discriminate].
    injection EH as EZ. rewrite H1, H2, <- EZ, EG. reflexivity.
Qed.

Lemma good_reach n k l : forall s s1, reach n k s -> good n s l = true -> run n s l = Ok s1 -> reach n k s1.
Proof.
  induction l as [|mv l IH]; cbn [good run]; intros s s1 R G E; [injection E as <-; exact R|].
  apply andb_prop in G. destruct G as [G1 G2]. destruct (step n s mv) as [| |s2] eqn:S2; try discriminate.
  apply (IH s2); auto. econstructor; eauto.
Qed.

(* ------------------------------------------------------------------ *)
Lemma released n k s :
  reach n k s -> (0 < k)%nat -> ~ used n s -> by_app s = 0 ->
  exists l s1, forallb by_itself l = true /\ good n s l = true /\ run n s l = Ok s1 /\ LocalModel.obj (owner s1) = None.
Proof.
  intros R K U A.
  assert (B : 0 <= KeepRelease.weight (owner s)) by apply KeepRelease.weight_nonneg, (LocalProofs.reach_inv k), (v_owner n), reach_sinv, R.
  remember (Z.to_nat (KeepRelease.weight (owner s))) as w eqn:EW. revert s R U A B EW.
  induction w as [w IH] using (well_founded_induction Wf_nat.lt_wf). intros s R U A B EW.
  pose proof (reach_sinv n k s R) as V. pose proof (v_owner _ _ _ V) as RO. pose proof (LocalProofs.reach_inv _ _ RO) as W.
  destruct (LocalModel.obj (owner s)) as [o|] eqn:OB; [|exists [], s; auto].
  unfold by_app in A. rewrite OB in A.
  assert (GO : forall mv x, by_itself mv = true -> careful n s mv = true -> step n s mv = Ok (set_owner s x) ->
            KeepRelease.weight x < KeepRelease.weight (owner s) -> match LocalModel.obj x with Some o1 => LocalModel.by_app o1 = 0 | None => True end ->
            exists l s1, forallb by_itself l = true /\ good n s l = true /\ run n s l = Ok s1 /\ LocalModel.obj (owner s1) = None).
  { intros mv x M1 M2 M3 M4 M5. pose proof (reach_step n k s mv _ R M2 M3) as R1.
    assert (B1 : 0 <= KeepRelease.weight x) by exact (KeepRelease.weight_nonneg _ (LocalProofs.reach_inv k _ (v_owner n k _ (reach_sinv n k _ R1)))).
    destruct (IH (Z.to_nat (KeepRelease.weight x)) ltac:(lia) (set_owner s x) R1) as (l & s1 & L1 & L2 & L3 & L4); auto.
    - unfold by_app. cbn. destruct (LocalModel.obj x); auto.
    - exists (mv :: l), s1. cbn [forallb good run]. rewrite M1, M2, M3. auto. }
  destruct (KeepRelease.progress _ o W OB A) as [Q|(m & x & P1 & P2 & P3 & P4 & P5)].
  - pose proof (KeepRelease.quiet_app _ o W Q OB A) as KS. destruct (KeepRelease.quiet_pending _ W Q) as [PS PW].
    assert (NS : node_strong n s = false) by (destruct (node_strong n s) eqn:X; [|reflexivity]; exfalso; apply U, (strong_used n k s V X)).
    destruct (KeepRelease.quiet_work _ o 0 (node_weak n s) W Q OB KS) as (x & E1 & E2 & E3);
      [rewrite (KeepRelease.reach_threads _ _ RO); exact K|].
    apply (GO (Work 0) x); [reflexivity|reflexivity| |exact E2|rewrite E3; exact A].
    cbn [step]. rewrite NS, PS, PW, !orb_false_r. cbn [orb]. cbn zeta. rewrite ?orb_false_r, E1. reflexivity.
  - apply (GO (Own m) x); [| | |exact P4|exact P5].
    + destruct m; try discriminate; try reflexivity. destruct a; [discriminate|reflexivity].
    + cbn [careful]. rewrite P2. destruct m; try reflexivity. destruct a; [discriminate|reflexivity].
    + cbn [step]. destruct m; try discriminate; rewrite P3; reflexivity.
Qed.

Lemma run_app n s l1 l2 : run n s (l1 ++ l2) = match run n s l1 with Ok s1 => run n s1 l2 | x => x end.
Proof. revert s. induction l1 as [|m l IH]; intros s; cbn; [reflexivity|]. destruct (step n s m); auto. Qed.

Lemma message_kept n k s :
  reach n k s -> (exists p, (p < n)%nat /\ 0 < bufs s p) \/ 0 < own_bufs s -> reachable s.
Proof.
  intros R H. pose proof (reach_sinv n k s R) as V. apply (kept n k s V). apply (used_strong n k s V).
  destruct H as [(p & L & H)|H]; [left; exists p; auto|right; exact H].
Qed.

Lemma deliver_counted s q h s1 : deliver s q h = Ok s1 ->
  (forall p, bufs s1 p = bufs s p + if Nat.eqb q p then 1 else 0) /\ own_bufs s1 = own_bufs s.
Proof.
  unfold deliver. intros E.
  assert (G : forall a b, Ok (set_bufs a q (bufs a q + 1)) = Ok b -> bufs a = bufs s -> own_bufs a = own_bufs s ->
    (forall p, bufs b p = bufs s p + if Nat.eqb q p then 1 else 0) /\ own_bufs b = own_bufs s).
  { intros a b [= <-] Hb Ho. cbn [set_bufs bufs own_bufs]. split; [|exact Ho]. intros p. unfold RemoteModel.upd. rewrite Hb.
    rewrite (Nat.eqb_sym q p). destruct (Nat.eqb_spec p q) as [->|]; lia. }
  destruct (handle_of s q); [exact (G s s1 E eq_refl eq_refl)|].
  destruct (h =? RemoteModel.SM_HANDLE); [discriminate|]. destruct (RemoteModel.step (proc s q) (RemoteModel.Reuse h)); try discriminate.
  refine (G _ s1 E _ _); reflexivity.
Qed.

Lemma counted n h : forall s s1, run n s h = Ok s1 ->
  (forall p, bufs s1 p = bufs s p + messages p h) /\ own_bufs s1 = own_bufs s + calls h.
Proof.
  induction h as [|mv h IH]; intros s s1; cbn [run messages calls].
  - intros [= <-]. split; intros; lia.
  - destruct (step n s mv) as [| |s2] eqn:E; try discriminate. intros R. destruct (IH _ _ R) as [B O].
    assert (L : forall x, lift s x = Ok s2 -> bufs s2 = bufs s /\ own_bufs s2 = own_bufs s).
    { intros x. unfold lift. destruct x; try discriminate. intros [= <-]. split; reflexivity. }
    assert (C : (forall p, bufs s2 p = bufs s p + match mv with
        | Send q _ | Pass _ q _ => if Nat.eqb q p then 1 else 0
        | Free q => if Nat.eqb q p then -1 else 0 | _ => 0 end) /\
      own_bufs s2 = own_bufs s + match mv with Call _ => 1 | FreeOwn => -1 | _ => 0 end).
    { destruct mv as [m|i|q x|q0 q x|q| |q|q m]; cbn [step] in E.
      - assert (H : exists x, lift s x = Ok s2) by (destruct m; try discriminate; eauto).
        destruct H as (x & H). destruct (L _ H) as [-> ->]. split; intros; lia.
      - destruct (L _ E) as [-> ->]. split; intros; lia.
      - destruct (_ && _); [|discriminate]. destruct (deliver_counted _ _ _ _ E) as [H1 ->]. split; [exact H1|lia].
      - destruct (_ && _); [|discriminate]. destruct (deliver_counted _ _ _ _ E) as [H1 ->]. split; [exact H1|lia].
      - destruct (_ && _); [|discriminate]. injection E as <-. cbn [set_own_bufs bufs own_bufs]. split; intros; lia.
      - destruct (_ <? _); [|discriminate]. injection E as <-. cbn [set_own_bufs bufs own_bufs]. split; intros; lia.
      - destruct (_ && _); [|discriminate]. injection E as <-. cbn [set_bufs bufs own_bufs]. split; [|lia]. intros p.
        unfold RemoteModel.upd. rewrite (Nat.eqb_sym q p). destruct (Nat.eqb_spec p q) as [->|]; lia.
      - destruct (_ && _); [|discriminate]. destruct (RemoteModel.step (proc s q) m); try discriminate. injection E as <-.
        cbn [set_proc bufs own_bufs]. split; intros; lia. }
    destruct C as [C1 C2]. split; [intros p; rewrite B, C1; lia|lia].
Qed.
