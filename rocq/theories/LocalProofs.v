(* Proofs about the references to a local object. *)
From Verif Require Import Base.
From Verif Require Import LocalModel LocalSpec.
Local Arguments Z.add : simpl never.
Local Arguments Z.sub : simpl never.
Local Arguments Z.of_nat : simpl never.

Definition cmd_eqb (a b : cmd) : bool :=
  match a, b with CIncrefs, CIncrefs | CAcquire, CAcquire | CRelease, CRelease | CDecrefs, CDecrefs => true | _, _ => false end.
Definition later_eqb (a b : later) : bool :=
  match a, b with LRelease, LRelease | LDecrefs, LDecrefs => true | _, _ => false end.
Definition task_eqb (a b : task) : bool :=
  match a, b with TIncrefs, TIncrefs | TAcquire, TAcquire | TRelease, TRelease | TDecrefs, TDecrefs => true | _, _ => false end.

Fixpoint count {A} (f : A -> bool) (l : list A) : Z :=
  match l with [] => 0 | x :: r => b2z (f x) + count f r end.
Fixpoint sumz {A} (f : A -> Z) (l : list A) : Z :=
  match l with [] => 0 | x :: r => f x + sumz f r end.
Lemma count_app {A} f (l m : list A) : count f (l ++ m) = count f l + count f m.
Proof. induction l; cbn; [reflexivity|]. rewrite IHl. lia. Qed.
Lemma count_nonneg {A} f (l : list A) : 0 <= count f l.
Proof. induction l; cbn; [lia|]. unfold b2z. destruct (f a); lia. Qed.
Lemma sumz_replace {A} f (l : list A) i x y :
  nth_error l i = Some x -> sumz f (replace_nth l i y) = sumz f l - f x + f y.
Proof.
  revert i. induction l as [|a l IH]; destruct i; cbn; try discriminate.
  - intros [= ->]. lia.
  - intros E. rewrite (IH _ E). lia.
Qed.
Lemma sumz_nonneg {A} (f : A -> Z) l : (forall x, 0 <= f x) -> 0 <= sumz f l.
Proof. intros H. induction l; cbn; [lia|]. specialize (H a). lia. Qed.
Lemma sumz_pos {A} (f : A -> Z) l i x : (forall x, 0 <= f x) -> nth_error l i = Some x -> f x <= sumz f l.
Proof.
  intros H. revert i. induction l as [|a l IH]; destruct i; cbn; try discriminate.
  - intros [= ->]. pose proof (sumz_nonneg f l H). lia.
  - intros E. pose proof (IH _ E). pose proof (H a). lia.
Qed.
Lemma sumz_zero {A} (f : A -> Z) l : (forall x, In x l -> f x = 0) -> sumz f l = 0.
Proof. induction l; cbn; intros H; [reflexivity|]. rewrite (H a) by auto. rewrite IHl; auto. Qed.

Definition nq (c : cmd) (s : state) : Z := sumz (fun t => count (cmd_eqb c) (t_queue t)) (threads s).
Definition nl (l : later) (s : state) : Z := sumz (fun t => count (later_eqb l) (t_later t)) (threads s).
Definition nt (t : task) (s : state) : Z := count (task_eqb t) (tasks s).
Local Arguments nq : simpl never.
Local Arguments nl : simpl never.
Local Arguments nt : simpl never.
Lemma nq_nonneg c s : 0 <= nq c s.
Proof. apply sumz_nonneg. intros. apply count_nonneg. Qed.
Lemma nl_nonneg c s : 0 <= nl c s.
Proof. apply sumz_nonneg. intros. apply count_nonneg. Qed.
Lemma nt_nonneg c s : 0 <= nt c s.
Proof. apply count_nonneg. Qed.

(* The number of weak references goes with the callbacks *)
Definition dw (t : task) : Z := match t with TIncrefs => 1 | TDecrefs => -1 | _ => 0 end.
Fixpoint ok_weak (w : Z) (l : list task) : Prop :=
  match l with [] => 0 <= w | t :: r => 0 <= w /\ ok_weak (w + dw t) r end.
Definition after (w : Z) (l : list task) : Z := w + count (task_eqb TIncrefs) l - count (task_eqb TDecrefs) l.
Lemma ok_weak_now w l : ok_weak w l -> 0 <= w.
Proof. destruct l; cbn; tauto. Qed.
Lemma ok_weak_snoc w l t : ok_weak w l -> 0 <= after w l + dw t -> ok_weak w (l ++ [t]).
Proof.
  revert w. induction l as [|a l IH]; intros w; unfold after.
  - cbn. intros. split; lia.
  - cbn [ok_weak Datatypes.app count]. intros [A B] C. split; [exact A|]. apply IH; [exact B|]. unfold after.
    destruct a; cbn in *; lia.
Qed.

Definition blank (s : state) (o : object) : Prop :=
  in_table o = false /\ by_app o = 0 /\ by_lib o = 0 /\ strong o = 0 /\ tasks s = [] /\ nl LRelease s = 0 /\ nl LDecrefs s = 0.
Definition total (s : state) (o : object) : Z :=
  by_app o + by_lib o + strong o + Z.of_nat (length (tasks s)) + nl LRelease s + nl LDecrefs s.
Definition counted (s : state) (o : object) : Prop :=
  in_table o = true /\
  after (weak o) (tasks s) = b2z (k_weak s) - nq CIncrefs s + nq CDecrefs s + nl LDecrefs s.
Record obj_ok (s : state) (o : object) : Prop := ObjOk {
  o_app : 0 <= by_app o;
  o_lib : 0 <= by_lib o;
  o_strong : strong o = b2z (k_strong s && negb (k_pstrong s)) + nq CRelease s + nl LRelease s + nt TRelease s;
  o_weak : ok_weak (weak o) (tasks s);
  o_state : match state_of o with
            | Idle => counted s o /\ refs o = total s o /\ 1 <= refs o
            | Begun => counted s o /\ refs o = total s o + 1
            | Left_ => counted s o /\ refs o = total s o + 1 /\ 2 <= refs o
            | Removed => blank s o /\ refs o = 1
            | Final => blank s o /\ refs o = 0
            end
}.
Record inv (s : state) : Prop := Inv {
  i_err : k_errors s = 0;
  i_acks : k_acquires s = k_acks s + b2z (k_pstrong s);
  i_ps : nq CAcquire s + nt TAcquire s = b2z (k_pstrong s);
  i_ps2 : k_pstrong s = true -> k_strong s = true;
  i_pw : nq CIncrefs s = b2z (k_pweak s);
  i_pw2 : k_pweak s = true -> k_weak s = true;
  i_app : 0 < nq CAcquire s + nq CIncrefs s -> exists o, obj s = Some o /\ 0 < by_app o;
  i_obj : match obj s with
          | None => tasks s = [] /\ nl LRelease s = 0 /\ nl LDecrefs s = 0 /\ k_strong s = false /\ nq CRelease s = 0
          | Some o => obj_ok s o
          end
}.

Lemma inv_init n : inv (init n).
Proof.
  assert (Q : forall c, nq c (init n) = 0).
  { intros c. unfold nq, init. cbn. apply sumz_zero. intros t I. apply repeat_spec in I. subst. reflexivity. }
  assert (L : forall c, nl c (init n) = 0).
  { intros c. unfold nl, init. cbn. apply sumz_zero. intros t I. apply repeat_spec in I. subst. reflexivity. }
  split; rewrite ?Q; cbn; auto; try discriminate; try lia.
Qed.

(* Counting after a thread has changed *)
Lemma nq_replace s i t t2 c l :
  nth_error (threads s) i = Some t -> l = replace_nth (threads s) i t2 ->
  sumz (fun t => count (cmd_eqb c) (t_queue t)) l = nq c s - count (cmd_eqb c) (t_queue t) + count (cmd_eqb c) (t_queue t2).
Proof. intros E ->. unfold nq. rewrite (sumz_replace _ _ _ _ _ E). reflexivity. Qed.
Lemma nl_replace s i t t2 c l :
  nth_error (threads s) i = Some t -> l = replace_nth (threads s) i t2 ->
  sumz (fun t => count (later_eqb c) (t_later t)) l = nl c s - count (later_eqb c) (t_later t) + count (later_eqb c) (t_later t2).
Proof. intros E ->. unfold nl. rewrite (sumz_replace _ _ _ _ _ E). reflexivity. Qed.

Lemma incoming_none s : incoming s = false -> nq CAcquire s = 0 /\ nq CIncrefs s = 0.
Proof.
  unfold incoming, nq. induction (threads s) as [|t l IH]; cbn; [auto|].
  intros E. apply orb_false_iff in E. destruct E as [A B]. destruct (IH B) as [C D]. rewrite C, D.
  assert (H : count (cmd_eqb CAcquire) (t_queue t) = 0 /\ count (cmd_eqb CIncrefs) (t_queue t) = 0); [|lia].
  clear - A. induction (t_queue t) as [|c q IH]; cbn in *; [auto|].
  apply orb_false_iff in A. destruct A as [A1 A2]. destruct (IH A2) as [-> ->]. destruct c; cbn in *; auto; discriminate.
Qed.
Lemma idle_none s c : idle s = true -> nq c s = 0.
Proof.
  unfold idle, nq. intros E. apply sumz_zero. intros t I. rewrite forallb_forall in E. specialize (E t I).
  destruct (t_queue t); [reflexivity|discriminate].
Qed.

(* Steps which change only the object *)
Lemma inv_obj s o p :
  inv s -> obj s = Some o -> (0 < by_app o -> 0 < by_app p \/ (nq CAcquire s = 0 /\ nq CIncrefs s = 0)) ->
  obj_ok (set_obj s (Some p)) p -> inv (set_obj s (Some p)).
Proof.
  intros [E A P P2 W W2 AP O] OB AH OK. split; try assumption; cbn.
  intros N. change (0 < nq CAcquire s + nq CIncrefs s) in N. destruct (AP N) as (o2 & B & C). rewrite OB in B. injection B as <-.
  destruct (AH C) as [H|H]; [exists p; auto|lia].
Qed.
Ltac unf := unfold counted, total, blank, nq, nl, nt in *; cbn [k_weak k_strong k_pweak k_pstrong k_errors k_acquires k_acks obj threads tasks
  refs strong weak in_table state_of handler by_app by_lib set_obj set_threads set_tasks add_refs set_lib with_counts] in *.

Lemma new_inv s s1 : inv s -> careful s MNew = true -> new_object s = Ok s1 -> inv s1.
Proof.
  intros V C E. unfold new_object in E. destruct (obj s) eqn:OB; [discriminate|]. injection E as <-.
  cbn in C. apply andb_prop in C. destruct C as [C1 C2]. apply negb_true_iff in C1.
  pose proof (idle_none s) as ID.
  destruct V as [E A P P2 W W2 AP O]. rewrite OB in O. destruct O as (O1 & O2 & O3 & O4 & O5).
  split; try assumption; cbn.
  - intros _. eexists. split; [reflexivity|]. cbn. lia.
  - split; cbn; try lia.
    + change (0 = b2z (k_strong s && negb (k_pstrong s)) + nq CRelease s + nl LRelease s + count (task_eqb TRelease) (tasks s)).
      rewrite O1, O2, O4, O5. reflexivity.
    + rewrite O1. cbn. lia.
    + unfold counted, total. cbn. change (nl ?a (set_obj s _)) with (nl a s). change (nq ?a (set_obj s _)) with (nq a s).
      rewrite O1, O2, O3, C1, !ID by assumption. cbn. split; [split; reflexivity|]. lia.
Qed.

Lemma app_ref_inv s s1 : inv s -> app_ref s = Ok s1 -> inv s1.
Proof.
  intros V E. unfold app_ref in E. destruct (obj s) as [o|] eqn:OB; [|discriminate].
  destruct (Z.ltb_spec 0 (by_app o)); [|discriminate]. injection E as <-.
  pose proof (i_obj _ V) as O. rewrite OB in O. destruct O as [A B C D F].
  apply (inv_obj s o); auto; [cbn; intros; left; lia|]. split; cbn; try assumption; try lia.
  unf. destruct (state_of o); intuition lia.
Qed.

Lemma unref_inv s a s1 : inv s -> careful s (MUnref a) = true -> unref s a = Ok s1 -> inv s1.
Proof.
  intros V K E. unfold unref in E. cbn in K. destruct (obj s) as [o|] eqn:OB; [|discriminate].
  destruct (Z.leb_spec (if a then by_app o else by_lib o) 0); [discriminate|].
  apply andb_prop in K. destruct K as [K1 K2]. apply negb_true_iff in K1, K2.
  pose proof (i_obj _ V) as O. rewrite OB in O. destruct O as [A B C D F].
  assert (AH : 0 < by_app o -> 0 < by_app o - (if a then 1 else 0) \/ (nq CAcquire s = 0 /\ nq CIncrefs s = 0)).
  { intros P. destruct a; [|left; lia]. cbn in K1. destruct (Z.eqb_spec (by_app o) 1); [|left; lia].
    right. apply incoming_none. exact K1. }
  cbn zeta in E. destruct (Z.ltb_spec 1 (refs o)); injection E as <-.
  - apply (inv_obj s o); auto. split; cbn; try assumption; try (destruct a; lia).
    destruct (Z.eqb_spec (refs o) 2) as [R2|R2]; unf; destruct (state_of o); cbn in K2; try discriminate;
      destruct a; intuition lia.
  - apply (inv_obj s o); auto. split; cbn; try assumption; try (destruct a; lia).
    pose proof (nl_nonneg LRelease s). pose proof (nl_nonneg LDecrefs s). pose proof (nq_nonneg CRelease s).
    pose proof (nt_nonneg TRelease s).
    assert (ST : 0 <= strong o) by (rewrite C; unfold b2z; destruct (k_strong s && negb (k_pstrong s)); lia).
    unf. destruct (state_of o); destruct a; intuition lia.
Qed.

Lemma dispose_inv s s1 : inv s -> dispose s = Ok s1 -> inv s1.
Proof.
  intros V E. unfold dispose in E. destruct (obj s) as [o|] eqn:OB; [|discriminate].
  destruct (state_of o) eqn:ST; try discriminate.
  pose proof (i_obj _ V) as O. rewrite OB in O. destruct O as [A B C D F]. rewrite ST in F.
  pose proof (nl_nonneg LRelease s) as N1. pose proof (nl_nonneg LDecrefs s) as N2. pose proof (nq_nonneg CRelease s) as N3.
  pose proof (nt_nonneg TRelease s) as N4.
  assert (SP : 0 <= strong o) by (rewrite C; unfold b2z; destruct (k_strong s && negb (k_pstrong s)); lia).
  destruct (Z.eqb_spec (refs o) 1) as [R|R]; injection E as <-.
  - apply (inv_obj s o); auto. split; cbn; try assumption. destruct F as [_ F]. unfold total in F. unfold blank. cbn.
    change (nl ?a (set_obj s _)) with (nl a s).
    assert (tasks s = []) by (destruct (tasks s); [reflexivity|cbn in F; lia]).
    split; [|exact R]. repeat (split; [try assumption; try reflexivity; lia|]). lia.
  - apply (inv_obj s o); auto. split; cbn; try assumption. unf. intuition lia.
Qed.
Lemma unref_end_inv s s1 : inv s -> unref_end s = Ok s1 -> inv s1.
Proof.
  intros V E. unfold unref_end in E. destruct (obj s) as [o|] eqn:OB; [|discriminate].
  pose proof (i_obj _ V) as O. rewrite OB in O. destruct O as [A B C D F].
  destruct (state_of o) eqn:ST; try discriminate; destruct (Z.ltb_spec 1 (refs o)); injection E as <-;
    apply (inv_obj s o); auto; split; cbn; try assumption; unf; intuition lia.
Qed.
Lemma finalize_inv s s1 : inv s -> finalize s = Ok s1 -> inv s1.
Proof.
  intros V E. unfold finalize in E. destruct (obj s) as [o|] eqn:OB; [|discriminate].
  destruct (state_of o) eqn:ST; try discriminate. injection E as <-.
  pose proof (i_obj _ V) as O. rewrite OB in O. destruct O as [A B C D F]. rewrite ST in F.
  destruct F as [(F1 & F2 & F3 & F4 & F5 & F6 & F7) _]. destruct V as [E0 A0 P P2 W W2 AP O].
  pose proof (nl_nonneg LRelease s) as N1. pose proof (nq_nonneg CRelease s) as N3. pose proof (nt_nonneg TRelease s) as N4.
  pose proof (nq_nonneg CAcquire s) as N5. pose proof (nq_nonneg CIncrefs s) as N6.
  assert (Z0 : nq CAcquire s + nq CIncrefs s = 0).
  { destruct (Z.eq_dec (nq CAcquire s + nq CIncrefs s) 0) as [H|H]; [exact H|].
    destruct (AP ltac:(lia)) as (o2 & O2 & O3). rewrite OB in O2. injection O2 as <-. lia. }
  assert (PS : k_pstrong s = false).
  { destruct (k_pstrong s); [|reflexivity]. unfold nt in P. rewrite F5 in P. cbn in P. lia. }
  assert (KS : k_strong s = false).
  { destruct (k_strong s); [|reflexivity]. rewrite PS in C. cbn in C. lia. }
  split; try assumption; cbn.
  - change (0 < nq CAcquire s + nq CIncrefs s -> exists o, None = Some o /\ 0 < by_app o). lia.
  - repeat (split; [assumption|]). change (nq CRelease s = 0). rewrite KS in C. cbn in C. lia.
Qed.
Lemma drop_inv s s1 : inv s -> clear_handler s = Ok s1 -> inv s1.
Proof.
  intros V E. unfold clear_handler in E. destruct (obj s) as [o|] eqn:OB; [|discriminate].
  destruct (0 <? by_app o); [|discriminate]. injection E as <-.
  pose proof (i_obj _ V) as O. rewrite OB in O. destruct O as [A B C D F].
  apply (inv_obj s o); auto. split; assumption.
Qed.
Lemma transaction_inv s s1 : inv s -> transaction s = Ok s1 -> inv s1.
Proof.
  intros V E. unfold transaction, get_local in E. destruct (obj s) as [o|] eqn:OB; [|congruence].
  destruct (in_table o) eqn:T; [|congruence].
  pose proof (i_obj _ V) as O. rewrite OB in O. destruct O as [A B C D F].
  destruct (state_of o) eqn:ST; try discriminate; injection E as <-;
    (apply (inv_obj s o); auto; split; cbn; try assumption; try lia; rewrite ST; unf; intuition lia || intuition congruence).
Qed.

Lemma work_inv s i w st s1 : inv s -> lawful s (MWork i w st) = true -> kernel_work s i w st = Ok s1 -> inv s1.
Proof.
  intros V L E. unfold kernel_work in E. destruct (nth_error (threads s) i) as [t|] eqn:T; [|discriminate].
  injection E as <-. cbn in L. apply andb_prop in L. destruct L as [L L4]. apply andb_prop in L. destruct L as [L L3].
  apply andb_prop in L. destruct L as [L1 L2].
  destruct V as [E0 A0 P P2 W W2 AP O].
  assert (Q : forall c, nq c (State w st (k_pweak s || w && negb (k_weak s)) (k_pstrong s || st && negb (k_strong s)) (k_errors s)
       (k_acquires s + (if st && negb (k_strong s) then 1 else 0)) (k_acks s) (obj s)
       (replace_nth (threads s) i (Thread (t_queue t ++ work w st s) (t_later t))) (tasks s)) =
       nq c s + count (cmd_eqb c) (work w st s)).
  { intros c. unfold nq at 1. cbn [threads]. rewrite (nq_replace s i t _ c _ T eq_refl). cbn. rewrite count_app. lia. }
  assert (N : forall c, nl c (State w st (k_pweak s || w && negb (k_weak s)) (k_pstrong s || st && negb (k_strong s)) (k_errors s)
       (k_acquires s + (if st && negb (k_strong s) then 1 else 0)) (k_acks s) (obj s)
       (replace_nth (threads s) i (Thread (t_queue t ++ work w st s) (t_later t))) (tasks s)) = nl c s).
  { intros c. unfold nl at 1. cbn [threads]. rewrite (nl_replace s i t _ c _ T eq_refl). cbn. lia. }
  set (s1 := State _ _ _ _ _ _ _ _ _ _) in *.
  assert (CNT : forall c, count (cmd_eqb c) (work w st s) =
     match c with CIncrefs => b2z (w && negb (k_weak s)) | CAcquire => b2z (st && negb (k_strong s))
                | CRelease => b2z (negb st && k_strong s) | CDecrefs => b2z (negb w && k_weak s) end).
  { intros c. unfold work. destruct w, st, (k_weak s), (k_strong s), c; reflexivity. }
  assert (NT : forall c, nt c s1 = nt c s) by reflexivity.
  split.
  - exact E0.
  - cbn. rewrite A0. destruct (k_pstrong s); cbn.
    + rewrite P2 by reflexivity. rewrite andb_false_r. cbn. lia.
    + destruct (st && negb (k_strong s)); cbn; lia.
  - rewrite Q, CNT, NT. cbn. destruct (k_pstrong s).
    + rewrite P2 by reflexivity. rewrite andb_false_r. cbn in *. lia.
    + cbn in *. lia.
  - cbn. destruct (k_pstrong s); [destruct st; [auto|discriminate]|]. cbn. destruct st; [auto|discriminate].
  - rewrite Q, CNT. cbn. destruct (k_pweak s).
    + rewrite W2 by reflexivity. rewrite andb_false_r. cbn in *. lia.
    + cbn in *. lia.
  - cbn. destruct (k_pweak s); [destruct w; [auto|discriminate]|]. cbn. destruct w; [auto|discriminate].
  - rewrite !Q, !CNT. cbn [obj]. intros H.
    destruct (w && negb (k_weak s) || st && negb (k_strong s)) eqn:NEW.
    + cbn in L4. destruct (obj s) as [o|]; [|discriminate]. exists o. split; [reflexivity|].
      apply Z.ltb_lt. exact L4.
    + apply orb_false_iff in NEW. destruct NEW as [-> ->] in H. cbn in H. apply AP. lia.
  - change (obj s1) with (obj s). destruct (obj s) as [o|] eqn:OB.
    + destruct O as [OA OB2 OC OD OF]. split; try assumption.
      * rewrite Q, CNT, N, NT. cbn. rewrite OC. clear - L3 P2.
        destruct (k_pstrong s); cbn in *.
        { rewrite P2 by reflexivity. destruct st; [cbn; lia|discriminate]. }
        destruct st, (k_strong s); cbn; lia.
      * assert (CW : counted s o -> counted s1 o).
        { intros [C1 C2]. split; [exact C1|]. change (tasks s1) with (tasks s). rewrite !Q, !CNT, N. cbn.
          rewrite C2. clear - L2 W2. destruct w, (k_weak s), (k_pweak s); cbn in *; lia. }
        assert (TT : total s1 o = total s o).
        { unfold total. rewrite !N. reflexivity. }
        assert (BB : blank s o -> blank s1 o).
        { unfold blank. rewrite !N. auto. }
        rewrite TT. destruct (state_of o); intuition.
    + destruct O as (O1 & O2 & O3 & O4 & O5). rewrite Q, CNT, !N. cbn. rewrite O4 in *.
      destruct st; cbn in *.
      { rewrite orb_true_r in L4. discriminate. }
      repeat split; auto. lia.
Qed.

Lemma in_app_dec (o : object) : {0 < by_app o} + {by_app o <= 0}.
Proof. destruct (Z_lt_dec 0 (by_app o)); [left|right]; lia. Qed.

(* What a step of a thread does to the numbers *)
Lemma handle_inv s i s1 : inv s -> handle s i = Ok s1 -> inv s1.
Proof.
  intros V E. unfold handle in E. destruct (nth_error (threads s) i) as [t|] eqn:T; [|discriminate].
  destruct (t_queue t) as [|c q] eqn:TQ; [discriminate|]. cbn zeta in E.
  destruct V as [E0 A0 P P2 W W2 AP O].
  assert (Q : forall d, sumz (fun t => count (cmd_eqb d) (t_queue t)) (replace_nth (threads s) i (Thread q (t_later t))) = nq d s - b2z (cmd_eqb d c)).
  { intros d. rewrite (nq_replace s i t _ d _ T eq_refl). rewrite TQ. cbn. lia. }
  assert (Q2 : forall d l, sumz (fun t => count (cmd_eqb d) (t_queue t)) (replace_nth (threads s) i (Thread q (t_later t ++ l))) = nq d s - b2z (cmd_eqb d c)).
  { intros d l. rewrite (nq_replace s i t _ d _ T eq_refl). rewrite TQ. cbn. lia. }
  assert (N : forall d, sumz (fun t => count (later_eqb d) (t_later t)) (replace_nth (threads s) i (Thread q (t_later t))) = nl d s).
  { intros d. rewrite (nl_replace s i t _ d _ T eq_refl). cbn. lia. }
  assert (N2 : forall d l, sumz (fun t => count (later_eqb d) (t_later t)) (replace_nth (threads s) i (Thread q (t_later t ++ l))) = nl d s + count (later_eqb d) l).
  { intros d l. rewrite (nl_replace s i t _ d _ T eq_refl). cbn. rewrite count_app. lia. }
  assert (POS : forall d, b2z (cmd_eqb d c) <= nq d s).
  { intros d. unfold nq. pose proof (sumz_pos (fun t => count (cmd_eqb d) (t_queue t)) _ _ _ (fun x => count_nonneg _ _) T) as H.
    cbn in H. rewrite TQ in H. cbn in H. pose proof (count_nonneg (cmd_eqb d) q). lia. }
  pose proof (nq_nonneg CAcquire s) as NA. pose proof (nq_nonneg CIncrefs s) as NI. pose proof (nt_nonneg TAcquire s) as NTA.
  pose proof (nq_nonneg CDecrefs s) as ND. pose proof (nl_nonneg LDecrefs s) as NLD.
  unfold get_local in E. cbn [obj set_threads] in E. destruct (obj s) as [o|] eqn:OB.
  2:{ (* no object *)
      destruct O as (O1 & O2 & O3 & O4 & O5).
      assert (NONE : nq CAcquire s + nq CIncrefs s = 0).
      { destruct (Z.eq_dec (nq CAcquire s + nq CIncrefs s) 0) as [H|H]; [exact H|].
        destruct (AP ltac:(lia)) as (o & H1 & _). discriminate. }
      destruct c; cbn in POS.
      - pose proof (POS CIncrefs). cbn in *. lia.
      - pose proof (POS CAcquire). cbn in *. lia.
      - pose proof (POS CRelease). cbn in *. lia.
      - injection E as <-. split; cbn [k_errors k_acquires k_acks k_pstrong k_strong k_weak k_pweak obj set_threads]; try assumption.
        + unfold nq. cbn [threads set_threads]. rewrite Q. unfold nt. cbn. unfold nt in P. lia.
        + unfold nq. cbn [threads set_threads]. rewrite Q. cbn. lia.
        + unfold nq. cbn [threads set_threads]. rewrite !Q. cbn. lia.
        + rewrite OB. unfold nl, nq. cbn [threads set_threads tasks]. rewrite !Q, !N. cbn. repeat split; auto; lia. }
  (* with an object, perhaps one which isn't found *)
  destruct O as [OA OL OS OW OF].
  destruct (in_table o) eqn:IT.
  2:{ assert (BL : blank s o /\ (state_of o = Removed \/ state_of o = Final)).
      { destruct (state_of o); try (destruct OF as [[F1 _] _]; congruence); tauto. }
      destruct BL as [(B1 & B2 & B3 & B4 & B5 & B6 & B7) BS].
      assert (NONE : nq CAcquire s + nq CIncrefs s = 0).
      { destruct (Z.eq_dec (nq CAcquire s + nq CIncrefs s) 0) as [H|H]; [exact H|].
        destruct (AP ltac:(lia)) as (o2 & H1 & H2). injection H1 as <-. lia. }
      pose proof (nq_nonneg CRelease s). pose proof (nl_nonneg LRelease s). pose proof (nt_nonneg TRelease s).
      assert (R0 : nq CRelease s = 0) by (unfold b2z in OS; destruct (k_strong s && negb (k_pstrong s)); lia).
      destruct c.
      - pose proof (POS CIncrefs). cbn in *. lia.
      - pose proof (POS CAcquire). cbn in *. lia.
      - pose proof (POS CRelease). cbn in *. lia.
      - injection E as <-. split; cbn [k_errors k_acquires k_acks k_pstrong k_strong k_weak k_pweak obj set_threads]; try assumption.
        + unfold nq. cbn [threads set_threads]. rewrite Q. unfold nt. cbn. unfold nt in P. lia.
        + unfold nq. cbn [threads set_threads]. rewrite Q. cbn. lia.
        + unfold nq. cbn [threads set_threads]. rewrite !Q. cbn. lia.
        + rewrite OB. split; try assumption.
          * unfold nq, nl. cbn [threads set_threads k_strong k_pstrong]. rewrite Q, N. cbn. unfold nt in *. cbn. lia.
          * assert (BB : blank (set_threads s (replace_nth (threads s) i (Thread q (t_later t)))) o).
            { unfold blank, nl. cbn [threads set_threads tasks]. rewrite !N. auto 10. }
            destruct BS as [BS|BS]; rewrite BS in *; tauto. }
  assert (CT : counted s o /\ state_of o <> Removed /\ state_of o <> Final).
  { destruct (state_of o); try (destruct OF as [[F1 _] _]; congruence); intuition congruence. }
  destruct CT as [[C1 C2] [S1 S2]].
  assert (KN : match state_of o with Final => Dangling | _ => Known o end = Known o) by (destruct (state_of o); congruence).
  rewrite KN in E. destruct c; injection E as <-.
  - (* INCREFS *)
    pose proof (POS CIncrefs) as PI. cbn in PI.
    assert (PW : k_pweak s = true) by (destruct (k_pweak s); [reflexivity|cbn in W; lia]).
    rewrite PW in W. cbn in W. specialize (W2 PW).
    destruct (AP ltac:(lia)) as (o2 & H1 & H2). injection H1 as <-.
    split; cbn [k_errors k_acquires k_acks k_pstrong k_strong k_weak k_pweak obj set_threads schedule increfs_done set_tasks set_obj];
      try assumption; try discriminate.
    + rewrite PW. lia.
    + unfold nq, nt. cbn [threads tasks schedule increfs_done set_tasks set_obj set_threads]. rewrite Q, count_app. cbn. unfold nt in P. lia.
    + unfold nq. cbn [threads tasks schedule increfs_done set_tasks set_obj set_threads]. rewrite Q. cbn. lia.
    + intros _. eexists. split; [reflexivity|]. cbn. lia.
    + split; cbn [by_app by_lib strong weak add_refs]; try assumption.
      * unfold nq, nl, nt. cbn [threads tasks schedule increfs_done set_tasks set_obj set_threads k_strong k_pstrong].
        rewrite Q, N, count_app. cbn. unfold nt in OS. lia.
      * cbn [tasks schedule increfs_done set_tasks set_obj set_threads]. apply ok_weak_snoc; [exact OW|].
        rewrite C2. cbn. rewrite W2. cbn. lia.
      * unfold counted, total, nq, nl, after.
        cbn [in_table threads tasks schedule increfs_done set_tasks set_obj set_threads k_weak by_app by_lib strong weak add_refs state_of refs].
        rewrite !Q, !N, !count_app, app_length. cbn. unfold after in C2.
        unfold counted, total in OF. destruct (state_of o); try congruence; intuition lia.
  - (* ACQUIRE *)
    pose proof (POS CAcquire) as PI. cbn in PI.
    destruct (AP ltac:(lia)) as (o2 & H1 & H2). injection H1 as <-.
    split; cbn [k_errors k_acquires k_acks k_pstrong k_strong k_weak k_pweak obj set_threads schedule set_tasks set_obj];
      try assumption; try discriminate.
    + unfold nq, nt. cbn [threads tasks schedule set_tasks set_obj set_threads]. rewrite Q, count_app. cbn. unfold nt in P. lia.
    + unfold nq. cbn [threads tasks schedule set_tasks set_obj set_threads]. rewrite Q. cbn. lia.
    + intros _. eexists. split; [reflexivity|]. cbn. lia.
    + split; cbn [by_app by_lib strong weak add_refs]; try assumption.
      * unfold nq, nl, nt. cbn [threads tasks schedule set_tasks set_obj set_threads k_strong k_pstrong].
        rewrite Q, N, count_app. cbn. unfold nt in OS. lia.
      * cbn [tasks schedule set_tasks set_obj set_threads]. apply ok_weak_snoc; [exact OW|].
        rewrite C2. cbn. rewrite W. clear - W2 ND NLD. destruct (k_pweak s); [rewrite W2 by reflexivity|destruct (k_weak s)]; cbn; lia.
      * unfold counted, total, nq, nl, after.
        cbn [in_table threads tasks schedule set_tasks set_obj set_threads k_weak by_app by_lib strong weak add_refs state_of refs].
        rewrite !Q, !N, !count_app, app_length. cbn. unfold after in C2.
        unfold counted, total in OF. destruct (state_of o); try congruence; intuition lia.
  - (* RELEASE *)
    split; cbn [k_errors k_acquires k_acks k_pstrong k_strong k_weak k_pweak obj set_threads set_obj]; try assumption.
    + unfold nq. cbn [threads set_obj set_threads]. rewrite Q2. unfold nt. cbn. unfold nt in P. lia.
    + unfold nq. cbn [threads set_obj set_threads]. rewrite Q2. cbn. lia.
    + unfold nq. cbn [threads set_obj set_threads]. rewrite !Q2. cbn. intros H. destruct (AP ltac:(lia)) as (o2 & H1 & H2).
      injection H1 as <-. eexists. split; [reflexivity|]. exact H2.
    + split; cbn [by_app by_lib strong weak add_refs]; try assumption.
      * unfold nq, nl, nt. cbn [threads tasks set_tasks set_obj set_threads k_strong k_pstrong].
        rewrite Q2, N2. cbn. unfold nt in OS. lia.
      * unfold counted, total, nq, nl, after.
        cbn [in_table threads tasks set_tasks set_obj set_threads k_weak by_app by_lib strong weak add_refs state_of refs].
        rewrite !Q2, !N2. cbn. unfold after in C2.
        unfold counted, total in OF. destruct (state_of o); try congruence; intuition lia.
  - (* DECREFS *)
    split; cbn [k_errors k_acquires k_acks k_pstrong k_strong k_weak k_pweak obj set_threads set_obj]; try assumption.
    + unfold nq. cbn [threads set_obj set_threads]. rewrite Q2. unfold nt. cbn. unfold nt in P. lia.
    + unfold nq. cbn [threads set_obj set_threads]. rewrite Q2. cbn. lia.
    + unfold nq. cbn [threads set_obj set_threads]. rewrite !Q2. cbn. intros H. destruct (AP ltac:(lia)) as (o2 & H1 & H2).
      injection H1 as <-. eexists. split; [reflexivity|]. exact H2.
    + split; cbn [by_app by_lib strong weak add_refs]; try assumption.
      * unfold nq, nl, nt. cbn [threads tasks set_tasks set_obj set_threads k_strong k_pstrong].
        rewrite Q2, N2. cbn. unfold nt in OS. lia.
      * unfold counted, total, nq, nl, after.
        cbn [in_table threads tasks set_tasks set_obj set_threads k_weak by_app by_lib strong weak add_refs state_of refs].
        rewrite !Q2, !N2. cbn. unfold after in C2.
        unfold counted, total in OF. destruct (state_of o); try congruence; intuition lia.
Qed.

Lemma strong_nonneg s o : obj_ok s o -> 0 <= strong o.
Proof.
  intros [A B C D F]. rewrite C. pose proof (nl_nonneg LRelease s). pose proof (nq_nonneg CRelease s).
  pose proof (nt_nonneg TRelease s). unfold b2z. destruct (k_strong s && negb (k_pstrong s)); lia.
Qed.
(* Whoever has a reference has it to an object which isn't being destroyed *)
Lemma not_blank s o : obj_ok s o -> tasks s <> [] \/ 0 < nl LRelease s + nl LDecrefs s \/ 0 < by_app o \/ 0 < by_lib o \/ 0 < strong o ->
  state_of o <> Removed /\ state_of o <> Final /\ counted s o.
Proof.
  intros [A B C D F] H. destruct (state_of o); unfold blank in F; intuition (try congruence; try lia).
Qed.

Lemma drain_inv s i s1 : inv s -> drain s i = Ok s1 -> inv s1.
Proof.
  intros V E. unfold drain in E. destruct (nth_error (threads s) i) as [[[|c q] [|l r]]|] eqn:T; try discriminate.
  unfold with_object in E. destruct (obj s) as [o|] eqn:OB; [|discriminate].
  destruct V as [E0 A0 P P2 W W2 AP O]. rewrite OB in O.
  assert (NLP : 0 < nl LRelease s + nl LDecrefs s).
  { pose proof (sumz_pos (fun t => count (later_eqb LRelease) (t_later t)) _ _ _ (fun x => count_nonneg _ _) T) as H1.
    pose proof (sumz_pos (fun t => count (later_eqb LDecrefs) (t_later t)) _ _ _ (fun x => count_nonneg _ _) T) as H2.
    cbn in H1, H2. pose proof (count_nonneg (later_eqb LRelease) r). pose proof (count_nonneg (later_eqb LDecrefs) r).
    unfold nl. destruct l; cbn in *; lia. }
  destruct (not_blank s o O ltac:(auto)) as (S1 & S2 & C1 & C2).
  set (tk := match l with LRelease => TRelease | LDecrefs => TDecrefs end) in *.
  assert (E1 : s1 = schedule (set_threads s (replace_nth (threads s) i (Thread [] r))) (set_lib o 1) tk)
    by (destruct (state_of o); congruence).
  clear E. subst s1. destruct O as [OA OL OS OW OF].
  assert (Q : forall d, sumz (fun t => count (cmd_eqb d) (t_queue t)) (replace_nth (threads s) i (Thread [] r)) = nq d s).
  { intros d. rewrite (nq_replace s i _ _ d _ T eq_refl). cbn. lia. }
  assert (N : forall d, sumz (fun t => count (later_eqb d) (t_later t)) (replace_nth (threads s) i (Thread [] r)) = nl d s - b2z (later_eqb d l)).
  { intros d. rewrite (nl_replace s i _ _ d _ T eq_refl). cbn. lia. }
  assert (NLD : b2z (later_eqb LDecrefs l) <= nl LDecrefs s).
  { pose proof (sumz_pos (fun t => count (later_eqb LDecrefs) (t_later t)) _ _ _ (fun x => count_nonneg _ _) T) as H2.
    change (b2z (later_eqb LDecrefs l) + count (later_eqb LDecrefs) r <= nl LDecrefs s) in H2.
    pose proof (count_nonneg (later_eqb LDecrefs) r). lia. }
  pose proof (nq_nonneg CDecrefs s) as ND.
  split; cbn [k_errors k_acquires k_acks k_pstrong k_strong k_weak k_pweak obj set_threads schedule set_tasks set_obj]; try assumption.
  - unfold nq, nt. cbn [threads tasks schedule set_tasks set_obj set_threads]. rewrite Q, count_app. unfold nt in P.
    destruct l; cbn; lia.
  - unfold nq. cbn [threads tasks schedule set_tasks set_obj set_threads]. rewrite Q. exact W.
  - unfold nq. cbn [threads tasks schedule set_tasks set_obj set_threads]. rewrite !Q. intros H.
    destruct (AP H) as (o2 & H1 & H2). rewrite OB in H1. injection H1 as <-. eexists. split; [reflexivity|]. exact H2.
  - split; cbn [by_app by_lib strong weak add_refs set_lib]; try assumption; try lia.
    + unfold nq, nl, nt. cbn [threads tasks schedule set_tasks set_obj set_threads k_strong k_pstrong].
      rewrite Q, N, count_app. unfold nt in OS. destruct l; cbn; lia.
    + cbn [tasks schedule set_tasks set_obj set_threads]. apply ok_weak_snoc; [exact OW|]. rewrite C2, W.
      clear - W2 ND NLD. destruct l; cbn in *; destruct (k_pweak s); try rewrite W2 by reflexivity; cbn; try destruct (k_weak s); cbn; lia.
    + unfold counted, total, nq, nl, after.
      cbn [in_table threads tasks schedule set_tasks set_obj set_threads k_weak by_app by_lib strong weak add_refs set_lib state_of refs].
      rewrite !Q, !N, !count_app, app_length. cbn [length]. unfold after in C2. unfold counted, total in OF.
      destruct l; cbn; destruct (state_of o); try congruence; intuition lia.
Qed.

Lemma main_inv s s1 : inv s -> main_step s = Ok s1 -> inv s1.
Proof.
  intros V E. unfold main_step in E. destruct (tasks s) as [|t r] eqn:T; [discriminate|]. cbn zeta in E.
  unfold with_object in E. destruct (obj s) as [o|] eqn:OB; [|discriminate].
  destruct V as [E0 A0 P P2 W W2 AP O]. rewrite OB in O.
  destruct (not_blank s o O ltac:(left; congruence)) as (S1 & S2 & C1 & C2).
  pose proof (strong_nonneg s o O) as SN. destruct O as [OA OL OS OW OF].
  rewrite T in OW, C2. cbn [ok_weak] in OW. destruct OW as [OW0 OW].
  unfold nt in P, OS. rewrite T in P, OS. unfold after in C2.
  unfold counted, total in OF. rewrite T in OF. cbn [length] in OF. rewrite Nat2Z.inj_succ in OF.
  pose proof (nq_nonneg CAcquire s) as NA. pose proof (count_nonneg (task_eqb TAcquire) r) as NTA.
  pose proof (nq_nonneg CRelease s) as NR. pose proof (count_nonneg (task_eqb TRelease) r) as NTR. pose proof (nl_nonneg LRelease s) as NLR.
  assert (AP2 : forall p, by_app p = by_app o -> 0 < nq CAcquire s + nq CIncrefs s -> exists o0, Some p = Some o0 /\ 0 < by_app o0).
  { intros p HP H. destruct (AP H) as (o2 & H1 & H2). rewrite OB in H1. injection H1 as <-. exists p. split; [reflexivity|lia]. }
  destruct t; cbn [count task_eqb b2z dw] in *.
  - assert (E1 : s1 = set_obj (set_tasks s r) (Some (with_counts o (refs o) (strong o) (weak o + 1)))) by (destruct (state_of o); congruence).
    subst s1. split; cbn [k_errors k_acquires k_acks k_pstrong k_strong k_weak k_pweak obj set_tasks set_obj]; try assumption.
    + apply AP2. reflexivity.
    + split; cbn [by_app by_lib strong weak with_counts]; try lia; try assumption.
      * unfold counted, total, after. cbn [in_table weak tasks with_counts set_obj set_tasks state_of refs by_app by_lib strong k_weak].
        change (nl ?a (set_obj (set_tasks s r) _)) with (nl a s). change (nq ?a (set_obj (set_tasks s r) _)) with (nq a s).
        destruct (state_of o); try congruence; intuition lia.
  - assert (PS : k_pstrong s = true) by (destruct (k_pstrong s); [reflexivity|cbn in P; lia]).
    assert (KS : k_strong s = true) by (apply P2; exact PS).
    assert (E1 : s1 = acquire_done (set_obj (set_tasks s r) (Some (with_counts o (refs o + 1) (strong o + 1) (weak o))))) by (destruct (state_of o); congruence).
    rewrite PS in *. rewrite KS in *. cbn in P, OS.
    subst s1. split; cbn [k_errors k_acquires k_acks k_pstrong k_strong k_weak k_pweak obj set_tasks set_obj acquire_done];
      try assumption; try discriminate.
    + rewrite PS. lia.
    + cbn in *. lia.
    + unfold nt. cbn. change (nq CAcquire s + count (task_eqb TAcquire) r = 0). lia.
    + apply AP2. reflexivity.
    + split; cbn [by_app by_lib strong weak with_counts]; try lia.
      * unfold nt. cbn. rewrite KS. cbn. change (strong o + 1 = 1 + nq CRelease s + nl LRelease s + count (task_eqb TRelease) r). lia.
      * cbn. rewrite Z.add_0_r in OW. exact OW.
      * unfold counted, total, after. cbn [in_table weak tasks with_counts set_obj set_tasks state_of refs by_app by_lib strong k_weak acquire_done].
        change (nl ?a (acquire_done (set_obj (set_tasks s r) _))) with (nl a s).
        change (nq ?a (acquire_done (set_obj (set_tasks s r) _))) with (nq a s).
        destruct (state_of o); try congruence; intuition lia.
  - assert (SP : 0 < strong o) by (unfold b2z in OS; destruct (k_strong s && negb (k_pstrong s)); lia).
    rewrite (proj2 (Z.ltb_lt _ _) SP) in E.
    assert (E1 : s1 = set_obj (set_tasks s r) (Some (with_counts o (refs o - 1) (strong o - 1) (weak o)))) by (destruct (state_of o); congruence).
    subst s1. split; cbn [k_errors k_acquires k_acks k_pstrong k_strong k_weak k_pweak obj set_tasks set_obj]; try assumption.
    + apply AP2. reflexivity.
    + split; cbn [by_app by_lib strong weak with_counts]; try lia.
      * unfold nt. cbn. change (strong o - 1 = b2z (k_strong s && negb (k_pstrong s)) + nq CRelease s + nl LRelease s + count (task_eqb TRelease) r). lia.
      * cbn. rewrite Z.add_0_r in OW. exact OW.
      * unfold counted, total, after. cbn [in_table weak tasks with_counts set_obj set_tasks state_of refs by_app by_lib strong k_weak].
        change (nl ?a (set_obj (set_tasks s r) _)) with (nl a s). change (nq ?a (set_obj (set_tasks s r) _)) with (nq a s).
        pose proof (nl_nonneg LDecrefs s). destruct (state_of o); try congruence; intuition lia.
  - assert (E1 : s1 = set_obj (set_tasks s r) (Some (with_counts o (refs o) (strong o) (weak o - 1)))) by (destruct (state_of o); congruence).
    subst s1. split; cbn [k_errors k_acquires k_acks k_pstrong k_strong k_weak k_pweak obj set_tasks set_obj]; try assumption.
    + apply AP2. reflexivity.
    + split; cbn [by_app by_lib strong weak with_counts]; try lia; try assumption.
      * unfold counted, total, after. cbn [in_table weak tasks with_counts set_obj set_tasks state_of refs by_app by_lib strong k_weak].
        change (nl ?a (set_obj (set_tasks s r) _)) with (nl a s). change (nq ?a (set_obj (set_tasks s r) _)) with (nq a s).
        destruct (state_of o); try congruence; intuition lia.
Qed.

Lemma step_inv s mv s1 : inv s -> lawful s mv = true -> careful s mv = true -> step s mv = Ok s1 -> inv s1.
Proof.
  intros V L C E. destruct mv; cbn [step] in E.
  - eapply new_inv; eauto.
  - eapply app_ref_inv; eauto.
  - eapply unref_inv; eauto.
  - eapply dispose_inv; eauto.
  - eapply unref_end_inv; eauto.
  - eapply finalize_inv; eauto.
  - eapply drop_inv; eauto.
  - eapply work_inv; eauto.
  - eapply transaction_inv; eauto.
  - eapply handle_inv; eauto.
  - eapply drain_inv; eauto.
  - eapply main_inv; eauto.
Qed.
Lemma reach_inv n s : reach n s -> inv s.
Proof. induction 1; [apply inv_init|]. eapply step_inv; eauto. Qed.

(* No crash *)
Lemma known s : inv s -> get_local s <> Dangling.
Proof.
  intros V. unfold get_local. destruct (obj s) as [o|] eqn:OB; [|discriminate].
  destruct (in_table o) eqn:T; [|discriminate].
  pose proof (i_obj _ V) as O. rewrite OB in O. destruct O as [A B C D F].
  destruct (state_of o); try discriminate. destruct F as [[F1 _] _]. congruence.
Qed.
Lemma no_crash s mv : inv s -> step s mv <> Crash.
Proof.
  intros V. pose proof (known s V) as K. pose proof (i_obj _ V) as O. destruct mv; cbn [step].
  - unfold new_object. destruct (obj s); discriminate.
  - unfold app_ref. destruct (obj s) as [o|]; [destruct (0 <? by_app o)|]; discriminate.
  - unfold unref. destruct (obj s) as [o|]; [|discriminate]. destruct (_ <=? 0); [discriminate|].
    cbn zeta. destruct (1 <? refs o); discriminate.
  - unfold dispose. destruct (obj s) as [o|]; [|discriminate]. destruct (state_of o); try discriminate.
    destruct (refs o =? 1); discriminate.
  - unfold unref_end. destruct (obj s) as [o|]; [|discriminate]. destruct (state_of o); try discriminate;
    destruct (1 <? refs o); discriminate.
  - unfold finalize. destruct (obj s) as [o|]; [|discriminate]. destruct (state_of o); discriminate.
  - unfold clear_handler. destruct (obj s) as [o|]; [destruct (0 <? by_app o)|]; discriminate.
  - unfold kernel_work. destruct (nth_error (threads s) i); discriminate.
  - unfold transaction. destruct (get_local s); congruence.
  - unfold handle. destruct (nth_error (threads s) i) as [t|]; [|discriminate]. destruct (t_queue t) as [|c q]; [discriminate|].
    cbn zeta. change (get_local (set_threads s _)) with (get_local s).
    destruct (get_local s); [destruct c; discriminate|congruence|destruct c; discriminate].
  - unfold drain. destruct (nth_error (threads s) i) as [[[|c q] [|l r]]|] eqn:T; try discriminate.
    assert (NLP : 0 < nl LRelease s + nl LDecrefs s).
    { pose proof (sumz_pos (fun t => count (later_eqb LRelease) (t_later t)) _ _ _ (fun x => count_nonneg _ _) T) as H1.
      pose proof (sumz_pos (fun t => count (later_eqb LDecrefs) (t_later t)) _ _ _ (fun x => count_nonneg _ _) T) as H2.
      cbn in H1, H2. pose proof (count_nonneg (later_eqb LRelease) r). pose proof (count_nonneg (later_eqb LDecrefs) r).
      unfold nl. destruct l; cbn in *; lia. }
    unfold with_object. destruct (obj s) as [o|]; [|destruct O as (_ & O1 & O2 & _); lia].
    destruct (not_blank s o O ltac:(auto)) as (S1 & S2 & _). destruct (state_of o); congruence || discriminate.
  - unfold main_step. destruct (tasks s) as [|t r] eqn:T; [discriminate|]. cbn zeta. unfold with_object.
    destruct (obj s) as [o|]; [|destruct O; congruence].
    destruct (not_blank s o O ltac:(left; congruence)) as (S1 & S2 & _).
    destruct (state_of o); try congruence; destruct t; try discriminate; destruct (0 <? strong o); discriminate.
Qed.

(* The kernel has a strong reference: the object is there *)
Lemma strong_alive s : inv s -> k_strong s = true -> exists o, alive s o /\ in_table o = true /\ 0 < refs o.
Proof.
  intros V K. pose proof (i_obj _ V) as O. destruct (obj s) as [o|] eqn:OB; [|destruct O as (_ & _ & _ & O & _); congruence].
  exists o.
  assert (H : tasks s <> [] \/ 0 < nl LRelease s + nl LDecrefs s \/ 0 < by_app o \/ 0 < by_lib o \/ 0 < strong o).
  { destruct (k_pstrong s) eqn:PS.
    - pose proof (i_ps _ V) as P. rewrite PS in P. cbn in P. pose proof (nq_nonneg CAcquire s). pose proof (nq_nonneg CIncrefs s).
      destruct (Z.eq_dec (nq CAcquire s) 0) as [Z0|Z0].
      + left. unfold nt in P. destruct (tasks s); [cbn in P; lia|discriminate].
      + destruct (i_app _ V ltac:(lia)) as (o2 & H1 & H2). rewrite OB in H1. injection H1 as <-. auto.
    - pose proof (o_strong _ _ O) as S0. rewrite K, PS in S0. cbn in S0. pose proof (nl_nonneg LRelease s).
      pose proof (nq_nonneg CRelease s). pose proof (nt_nonneg TRelease s). right. right. right. right. lia. }
  destruct (not_blank s o O H) as (S1 & S2 & C1 & _). split; [split; assumption|]. split; [exact C1|].
  pose proof (strong_nonneg s o O). destruct O as [OA OL OS OW OF].
  pose proof (nl_nonneg LRelease s). pose proof (nl_nonneg LDecrefs s).
  unfold total in OF. destruct (state_of o); try congruence; intuition lia.
Qed.

Lemma quiet_counts s o : inv s -> quiet s -> obj s = Some o ->
  strong o = b2z (k_strong s) /\ weak o = b2z (k_weak s) /\ refs o = by_app o + strong o /\ k_acks s = k_acquires s.
Proof.
  intros V (Q1 & Q2 & Q3) OB. destruct (Q3 o OB) as [QL QI].
  assert (NQ : forall c, nq c s = 0).
  { intros c. apply sumz_zero. intros t I. destruct (Q1 t I) as [-> _]. reflexivity. }
  assert (NL : forall c, nl c s = 0).
  { intros c. apply sumz_zero. intros t I. destruct (Q1 t I) as [_ ->]. reflexivity. }
  destruct V as [E0 A0 P P2 W W2 AP O]. rewrite OB in O. destruct O as [OA OL OS OW OF]. rewrite QI in OF.
  unfold counted, total, after in OF. unfold nt in *. rewrite Q2 in *. rewrite !NQ in *. rewrite !NL in *. cbn in *.
  assert (PS : k_pstrong s = false) by (destruct (k_pstrong s); [cbn in P; lia|reflexivity]).
  rewrite PS in *. cbn in *. rewrite andb_true_r in OS. lia.
Qed.

Lemma quiet_acked s : inv s -> idle s = true -> tasks s = [] -> k_acks s = k_acquires s /\ k_pstrong s = false /\ k_pweak s = false.
Proof.
  intros V I T. pose proof (i_acks _ V) as A. pose proof (i_ps _ V) as P. pose proof (i_pw _ V) as W.
  rewrite !idle_none in * by exact I. unfold nt in P. rewrite T in P. cbn in P.
  destruct (k_pstrong s), (k_pweak s); cbn in *; lia.
Qed.

(* The acknowledgement comes after the effect *)
Lemma ack_effect s mv s1 : inv s -> lawful s mv = true -> careful s mv = true -> step s mv = Ok s1 ->
  k_acks s1 <> k_acks s ->
  k_acks s1 = k_acks s + 1 /\ k_pstrong s = true /\ k_pstrong s1 = false /\
  exists o o1, obj s = Some o /\ obj s1 = Some o1 /\ strong o1 = strong o + 1.
Proof.
  intros V L C E N. pose proof (step_inv s mv s1 V L C E) as V1. destruct mv; cbn [step] in E.
  - unfold new_object in E. destruct (obj s); [discriminate|]. injection E as <-. cbn in N. congruence.
  - unfold app_ref in E. destruct (obj s) as [o|]; [|discriminate]. destruct (0 <? by_app o); [|discriminate]. injection E as <-. cbn in N. congruence.
  - unfold unref in E. destruct (obj s) as [o|]; [|discriminate]. destruct (_ <=? 0); [discriminate|]. cbn zeta in E.
    destruct (1 <? refs o); injection E as <-; cbn in N; congruence.
  - unfold dispose in E. destruct (obj s) as [o|]; [|discriminate]. destruct (state_of o); try discriminate.
    destruct (refs o =? 1); injection E as <-; cbn in N; congruence.
  - unfold unref_end in E. destruct (obj s) as [o|]; [|discriminate]. destruct (state_of o); try discriminate;
    destruct (1 <? refs o); injection E as <-; cbn in N; congruence.
  - unfold finalize in E. destruct (obj s) as [o|]; [|discriminate]. destruct (state_of o); try discriminate; injection E as <-; cbn in N; congruence.
  - unfold clear_handler in E. destruct (obj s) as [o|]; [|discriminate]. destruct (0 <? by_app o); [|discriminate]. injection E as <-; cbn in N; congruence.
  - unfold kernel_work in E. destruct (nth_error (threads s) i); [|discriminate]. injection E as <-. cbn in N. congruence.
  - unfold transaction in E. destruct (get_local s); try discriminate; injection E as <-; cbn in N; congruence.
  - unfold handle in E. destruct (nth_error (threads s) i) as [t|] eqn:T; [|discriminate]. destruct (t_queue t) as [|c q] eqn:TQ; [discriminate|].
    cbn zeta in E. change (get_local (set_threads s _)) with (get_local s) in E.
    destruct (get_local s) eqn:G; [destruct c; injection E as <-; cbn in N; try congruence|discriminate|destruct c; injection E as <-; cbn in N; congruence].
    exfalso.
    assert (0 < nq CAcquire s).
    { unfold nq. pose proof (sumz_pos (fun t => count (cmd_eqb CAcquire) (t_queue t)) _ _ _ (fun x => count_nonneg _ _) T) as H.
      cbn in H. rewrite TQ in H. cbn in H. pose proof (count_nonneg (cmd_eqb CAcquire) q). lia. }
    pose proof (nq_nonneg CIncrefs s). destruct (i_app _ V ltac:(lia)) as (o & H1 & H2).
    pose proof (i_obj _ V) as O. rewrite H1 in O. destruct (not_blank s o O ltac:(auto)) as (S1 & S2 & S3 & _).
    unfold get_local in G. rewrite H1, S3 in G. destruct (state_of o); congruence.
  - unfold drain in E. destruct (nth_error (threads s) i) as [[[|c q] [|l r]]|] eqn:T; try discriminate.
    unfold with_object in E. destruct (obj s) as [o|]; [|discriminate].
    destruct (state_of o); try discriminate; injection E as <-; cbn in N; congruence.
  - unfold main_step in E. destruct (tasks s) as [|t r] eqn:T; [discriminate|]. cbn zeta in E. unfold with_object in E.
    destruct (obj s) as [o|] eqn:OB; [|discriminate].
    assert (PS : t = TAcquire -> k_pstrong s = true).
    { intros ->. pose proof (i_ps _ V) as P. unfold nt in P. rewrite T in P. cbn in P.
      pose proof (nq_nonneg CAcquire s). pose proof (count_nonneg (task_eqb TAcquire) r).
      destruct (k_pstrong s); [reflexivity|cbn in P; lia]. }
    destruct (state_of o); try discriminate; destruct t;
      try (injection E as <-; cbn in N; congruence);
      try (destruct (0 <? strong o); injection E as <-; cbn in N; congruence);
      (injection E as <-; cbn; specialize (PS eq_refl); split; [reflexivity|]; split; [exact PS|]; split; [reflexivity|];
       eexists; eexists; split; [reflexivity|]; split; reflexivity).
Qed.

(* Dropping changes the handler only *)
Lemma without_idem s : without_handler (without_handler s) = without_handler s.
Proof. unfold without_handler. destruct s, obj; reflexivity. Qed.
Lemma without_step s t mv : without_handler s = without_handler t -> same (step s mv) (step t mv).
Proof.
  intros E. destruct s as [a1 a2 a3 a4 a5 a6 a7 o l tk], t as [b1 b2 b3 b4 b5 b6 b7 p m uk].
  unfold without_handler, set_obj in E. cbn in E. injection E as -> -> -> -> -> -> -> EO -> ->.
  destruct o as [[r1 r2 r3 r4 r5 r6 r7 r8]|], p as [[q1 q2 q3 q4 q5 q6 q7 q8]|]; try discriminate.
  2:{ destruct mv; cbn; try exact I; try reflexivity.
      - unfold kernel_work. cbn. destruct (nth_error m i); reflexivity || exact I.
      - unfold handle. cbn. destruct (nth_error m i) as [x|]; [|exact I]. destruct (t_queue x) as [|c q]; [exact I|]. destruct c; reflexivity.
      - unfold drain. cbn. destruct (nth_error m i) as [[[|c q] [|x y]]|]; exact I || reflexivity.
      - unfold main_step. cbn. destruct uk; exact I. }
  injection EO as -> -> -> -> -> -> ->.
  destruct mv; cbn; try exact I.
  - unfold app_ref. cbn. destruct (0 <? q7); reflexivity || exact I.
  - unfold unref. cbn. destruct ((if a then q7 else q8) <=? 0); [exact I|]. destruct (1 <? q1); reflexivity.
  - unfold dispose. cbn. destruct q5; try exact I. destruct (q1 =? 1); reflexivity.
  - unfold unref_end. cbn. destruct q5; try exact I; destruct (1 <? q1); reflexivity.
  - unfold finalize. cbn. destruct q5; exact I || reflexivity.
  - unfold clear_handler. cbn. destruct (0 <? q7); reflexivity || exact I.
  - unfold kernel_work. cbn. destruct (nth_error m i); reflexivity || exact I.
  - unfold transaction, get_local. cbn. destruct q4; [destruct q5|]; reflexivity || exact I.
  - unfold handle, get_local. cbn. destruct (nth_error m i) as [x|]; [|exact I]. destruct (t_queue x) as [|c q]; [exact I|].
    destruct q4; [destruct q5|]; destruct c; reflexivity || exact I.
  - unfold drain, with_object. cbn. destruct (nth_error m i) as [[[|c q] [|x y]]|]; try exact I.
    destruct q5; reflexivity || exact I.
  - unfold main_step, with_object. cbn. destruct uk as [|u uk]; [exact I|].
    destruct q5; try exact I; destruct u; try reflexivity; cbn; destruct (0 <? q2); reflexivity.
Qed.
Lemma without_run l : forall s t, without_handler s = without_handler t -> same (run s l) (run t l).
Proof.
  induction l as [|mv l IH]; intros s t E; cbn; [exact E|].
  pose proof (without_step s t mv E) as H. destruct (step s mv), (step t mv); cbn in *; try contradiction; auto.
Qed.
Lemma dropped s s1 : step s MDrop = Ok s1 ->
  without_handler s1 = without_handler s /\ exists o, obj s1 = Some o /\ handler o = false.
Proof.
  cbn. unfold clear_handler. destruct (obj s) as [o|] eqn:OB; [|discriminate]. destruct (0 <? by_app o); [|discriminate].
  intros [= <-]. split; [unfold without_handler, set_obj; cbn; rewrite OB; reflexivity|].
  eexists. split; reflexivity.
Qed.
