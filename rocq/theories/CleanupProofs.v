(* Proofs about cleanups *)
From Verif Require Import Base CleanupModel CleanupSpec.

(* Sums over numbered things *)
Fixpoint isum {A} (f : nat -> A -> Z) (i : nat) (l : list A) : Z :=
  match l with [] => 0 | x :: r => f i x + isum f (S i) r end.

Lemma isum_app {A} (f : nat -> A -> Z) l1 : forall i l2,
  isum f i (l1 ++ l2) = isum f i l1 + isum f (i + length l1)%nat l2.
Proof.
  induction l1 as [|x l1 IH]; intros i l2; cbn [app isum length].
  - rewrite Nat.add_0_r. reflexivity.
  - rewrite IH. replace (S i + length l1)%nat with (i + S (length l1))%nat by lia. lia.
Qed.

Lemma isum_ext {A} (f g : nat -> A -> Z) l : forall i,
  (forall k x, nth_error l k = Some x -> f (i + k)%nat x = g (i + k)%nat x) ->
  isum f i l = isum g i l.
Proof.
  induction l as [|x l IH]; intros i H; cbn [isum]; [reflexivity|].
  rewrite (IH (S i)).
  - pose proof (H 0%nat x eq_refl) as H0. rewrite Nat.add_0_r in H0. rewrite H0. reflexivity.
  - intros k y Hk. pose proof (H (S k) y Hk) as H1.
    replace (i + S k)%nat with (S i + k)%nat in H1 by lia. exact H1.
Qed.

Lemma isum_change {A} (f g : nat -> A -> Z) l : forall i k old new,
  nth_error l k = Some old ->
  (forall j x, j <> k -> nth_error l j = Some x -> f (i + j)%nat x = g (i + j)%nat x) ->
  isum g i (set_at l k new) = isum f i l - f (i + k)%nat old + g (i + k)%nat new.
Proof.
  induction l as [|x l IH]; intros i k old new Hk H; [destruct k; discriminate|].
  destruct k as [|k]; cbn [set_at isum].
  - injection Hk as ->. rewrite (isum_ext g f l (S i)).
    + rewrite Nat.add_0_r. lia.
    + intros j y Hj. pose proof (H (S j) y ltac:(lia) Hj) as H1.
      replace (S i + j)%nat with (i + S j)%nat by lia. symmetry. exact H1.
  - rewrite (IH (S i) k old new Hk).
    + pose proof (H 0%nat x ltac:(lia) eq_refl) as H0. rewrite Nat.add_0_r in H0.
      replace (S i + k)%nat with (i + S k)%nat by lia. lia.
    + intros j y Hne Hj. pose proof (H (S j) y ltac:(lia) Hj) as H1.
      replace (S i + j)%nat with (i + S j)%nat by lia. exact H1.
Qed.

Lemma isum_zero {A} (f : nat -> A -> Z) l : forall i,
  (forall k x, nth_error l k = Some x -> f (i + k)%nat x = 0) -> isum f i l = 0.
Proof.
  intros i H. rewrite (isum_ext f (fun _ _ => 0) l i H). clear H. revert i.
  induction l as [|x l IH]; intros i; cbn [isum]; [reflexivity|]. rewrite IH. reflexivity.
Qed.

Lemma isum_nonneg {A} (f : nat -> A -> Z) l : forall i,
  (forall k x, 0 <= f k x) -> 0 <= isum f i l.
Proof. induction l as [|x l IH]; intros i H; cbn [isum]; [lia|]. specialize (IH (S i) H). specialize (H i x). lia. Qed.

Lemma isum_ge {A} (f : nat -> A -> Z) l : forall i k x,
  (forall k x, 0 <= f k x) -> nth_error l k = Some x -> f (i + k)%nat x <= isum f i l.
Proof.
  induction l as [|y l IH]; intros i k x H Hk; [destruct k; discriminate|]. destruct k as [|k]; cbn [isum].
  - injection Hk as ->. rewrite Nat.add_0_r. pose proof (isum_nonneg f l (S i) H). lia.
  - pose proof (IH (S i) k x H Hk) as H1. replace (S i + k)%nat with (i + S k)%nat in H1 by lia.
    specialize (H i y). lia.
Qed.

Lemma at_nth {A} (l : list (option A)) n x : at_ l n = Some x -> nth_error l n = Some (Some x).
Proof. unfold at_. destruct (nth_error l n) as [[y|]|]; congruence. Qed.

Lemma nth_at {A} (l : list (option A)) n x : nth_error l n = Some (Some x) -> at_ l n = Some x.
Proof. unfold at_. intros ->. reflexivity. Qed.

Lemma length_set_at {A} (l : list A) : forall n x, length (set_at l n x) = length l.
Proof. induction l as [|y l IH]; intros [|n] x; cbn [set_at length]; try reflexivity. rewrite IH. reflexivity. Qed.

Lemma nth_set_at_same {A} (l : list A) : forall n x, (n < length l)%nat -> nth_error (set_at l n x) n = Some x.
Proof.
  induction l as [|y l IH]; intros [|n] x; cbn [set_at length nth_error]; try lia; [reflexivity|].
  intros H. apply IH. lia.
Qed.

Lemma nth_set_at_other {A} (l : list A) : forall n m x, n <> m -> nth_error (set_at l n x) m = nth_error l m.
Proof.
  induction l as [|y l IH]; intros [|n] [|m] x H; cbn [set_at nth_error]; try reflexivity; try congruence.
  apply IH. congruence.
Qed.

Lemma at_set_at {A} (l : list (option A)) n m x :
  (n < length l)%nat -> at_ (set_at l n x) m = if Nat.eqb m n then x else at_ l m.
Proof.
  intros H. unfold at_. destruct (Nat.eqb_spec m n) as [->|Hne].
  - rewrite nth_set_at_same by assumption. destruct x; reflexivity.
  - rewrite nth_set_at_other by congruence. reflexivity.
Qed.

Lemma at_lt {A} (l : list (option A)) n x : at_ l n = Some x -> (n < length l)%nat.
Proof. intros H. apply at_nth in H. apply nth_error_Some. congruence. Qed.

Lemma at_app {A} (l : list (option A)) x n :
  at_ (l ++ [x]) n = if Nat.eqb n (length l) then x else at_ l n.
Proof.
  unfold at_. destruct (Nat.eqb_spec n (length l)) as [->|Hne].
  - rewrite nth_error_app2 by lia. rewrite Nat.sub_diag. cbn [nth_error]. destruct x; reflexivity.
  - destruct (Nat.ltb_spec n (length l)).
    + rewrite nth_error_app1 by assumption. reflexivity.
    + rewrite nth_error_app2 by lia. destruct (n - length l)%nat as [|d] eqn:E; [lia|].
      cbn [nth_error]. rewrite (proj2 (nth_error_None l n)) by lia. destruct d; reflexivity.
Qed.

Lemma zcount_app i a b : zcount i (a ++ b) = zcount i a + zcount i b.
Proof. unfold zcount. rewrite count_occ_app. lia. Qed.

Lemma zcount_cons i x l : zcount i (x :: l) = (if item_dec x i then 1 else 0) + zcount i l.
Proof. unfold zcount. cbn [count_occ]. destruct (item_dec x i); lia. Qed.

Lemma zcount_nil i : zcount i [] = 0. Proof. reflexivity. Qed.

Lemma zcount_nonneg i l : 0 <= zcount i l. Proof. unfold zcount. lia. Qed.

Lemma zcount_in i l : In i l -> 1 <= zcount i l.
Proof. intros H. apply (count_occ_In item_dec) in H. unfold zcount. lia. Qed.

Lemma zcount_pos i l : 1 <= zcount i l -> In i l.
Proof. intros H. apply (count_occ_In item_dec). unfold zcount in H. lia. Qed.

Lemma ran_app a b : ran (a ++ b) = ran a ++ ran b. Proof. apply flat_map_app. Qed.
Lemma freed_app a b : freed (a ++ b) = freed a ++ freed b. Proof. apply flat_map_app. Qed.
Lemma closed_app a b : closed (a ++ b) = closed a ++ closed b. Proof. apply flat_map_app. Qed.

(* What unreferencing doesn't touch *)
Definition same_but_conts (s s1 : state) : Prop :=
  msgs s1 = msgs s /\ bufs s1 = bufs s /\ lists s1 = lists s.

Lemma sbc_refl s : same_but_conts s s. Proof. repeat split. Qed.
Lemma sbc_trans a b c : same_but_conts a b -> same_but_conts b c -> same_but_conts a c.
Proof. intros (A1 & A2 & A3) (B1 & B2 & B3). unfold same_but_conts. repeat split; congruence. Qed.

Lemma close_all_same fds : forall s s1 t, close_all s fds = (s1, t) ->
  same_but_conts s s1 /\ conts s1 = conts s /\ ran t = [] /\ freed t = [].
Proof.
  induction fds as [|fd r IH]; intros s s1 t; cbn [close_all do_close].
  - intros E. injection E as <- <-. split; [apply sbc_refl|]. auto.
  - destruct (close_all _ r) as [s2 t2] eqn:E2. intros E. injection E as <- <-.
    destruct (IH _ _ _ E2) as ((H1 & H1b & H1c) & H2 & H3 & H4).
    cbn [set_fdt msgs bufs lists conts] in *. repeat split; try assumption.
Qed.

Lemma contents_unref_same s c s1 t : contents_unref s c = Some (s1, t) ->
  same_but_conts s s1 /\ ran t = [].
Proof.
  unfold contents_unref. destruct (at_ (conts s) c) as [k|]; [|discriminate].
  destruct (_ =? 0).
  - destruct (close_all s (c_fds k)) as [s2 t2] eqn:E. intros H. injection H as <- <-.
    destruct (close_all_same _ _ _ _ E) as ((H1 & H1b & H1c) & _ & H3 & _).
    split; [repeat split; assumption|]. rewrite ran_app, H3. reflexivity.
  - intros H. injection H as <- <-. repeat split.
Qed.

Lemma contents_ref_same s c s1 : contents_ref s c = Some s1 -> same_but_conts s s1.
Proof.
  unfold contents_ref. destruct (at_ (conts s) c) as [k|]; [|discriminate].
  intros H. injection H as <-. repeat split.
Qed.

Lemma run_item_same s i s1 t : run_item s i = Some (s1, t) -> same_but_conts s s1 /\ ran t = [i].
Proof.
  unfold run_item. destruct i; try (intros H; injection H as <- <-; split; [apply sbc_refl|reflexivity]).
  - cbn [do_close]. intros H. injection H as <- <-. split; [repeat split|reflexivity].
  - destruct (contents_unref s c) as [[s2 t2]|] eqn:E; [|discriminate]. intros H. injection H as <- <-.
    destruct (contents_unref_same _ _ _ _ E) as [H1 H2]. split; [exact H1|].
    change (ItContents c :: ran t2 = [ItContents c]). rewrite H2. reflexivity.
Qed.

Lemma run_items_same l : forall s s1 t, run_items s l = Some (s1, t) -> same_but_conts s s1 /\ ran t = l.
Proof.
  induction l as [|i l IH]; intros s s1 t; cbn [run_items].
  - intros H. injection H as <- <-. split; [apply sbc_refl|reflexivity].
  - destruct (run_item s i) as [[s2 t2]|] eqn:E; [|discriminate].
    destruct (run_items s2 l) as [[s3 t3]|] eqn:E2; [|discriminate]. intros H. injection H as <- <-.
    destruct (run_item_same _ _ _ _ E) as [H1 H2]. destruct (IH _ _ _ E2) as [H3 H4].
    split; [eapply sbc_trans; eassumption|]. rewrite ran_app, H2, H4. reflexivity.
Qed.

Lemma unref_all_same l : forall s s1 t, unref_all s l = Some (s1, t) -> same_but_conts s s1 /\ ran t = [].
Proof.
  induction l as [|i l IH]; intros s s1 t; cbn [unref_all].
  - intros H. injection H as <- <-. split; [apply sbc_refl|reflexivity].
  - destruct (contents_unref s i) as [[s2 t2]|] eqn:E; [|discriminate].
    destruct (unref_all s2 l) as [[s3 t3]|] eqn:E2; [|discriminate]. intros H. injection H as <- <-.
    destruct (contents_unref_same _ _ _ _ E) as [H1 H2]. destruct (IH _ _ _ E2) as [H3 H4].
    split; [eapply sbc_trans; eassumption|]. rewrite ran_app, H2, H4. reflexivity.
Qed.

Lemma ref_all_same l : forall s s1, ref_all s l = Some s1 -> same_but_conts s s1.
Proof.
  induction l as [|i l IH]; intros s s1; cbn [ref_all].
  - intros H. injection H as <-. apply sbc_refl.
  - destruct (contents_ref s i) as [s2|] eqn:E; [|discriminate]. intros H.
    eapply sbc_trans; [eapply contents_ref_same; eassumption|eapply IH; eassumption].
Qed.

(* References to messages *)
Definition refs_ok (h : list op) (s : state) : Prop :=
  (forall m x, at_ (msgs s) m = Some x -> m_refs x = references m h) /\
  (forall m, (length (msgs s) <= m)%nat -> references m h = 1).

Lemma references_snoc m h o : references m (h ++ [o]) = references m h + delta m o.
Proof. unfold references. rewrite fold_left_app. reflexivity. Qed.

Lemma append_contents_msg s x b locals s1 x1 :
  append_contents s x b locals = Some (s1, x1) ->
  same_but_conts s s1 /\ m_refs x1 = m_refs x /\ m_contents x1 = m_contents x /\
  (forall i, (forall c, i <> ItContents c) ->
     zcount i (cleanup_free (m_cleanup x1)) =
     zcount i (cleanup_free (m_cleanup x)) +
     match b with Some _ => zcount i (map ItLocal locals) | None => 0 end).
Proof.
  unfold append_contents. destruct b as [c|].
  - destruct (contents_ref s c) as [s2|] eqn:E; [|discriminate]. intros H. injection H as <- <-.
    split; [eapply contents_ref_same; eassumption|]. cbn [with_cleanup m_refs m_contents m_cleanup].
    split; [reflexivity|]. split; [reflexivity|]. intros i Hi.
    assert (H1 : forall cl, zcount i (cleanup_free (fold_left (fun cl o => cleanup_add cl (Some (ItLocal o))) locals cl)) =
              zcount i (cleanup_free cl) + zcount i (map ItLocal locals)).
    { induction locals as [|o r IH]; intros cl; cbn [fold_left map].
      - rewrite ?zcount_nil. lia.
      - rewrite IH, zcount_cons. destruct cl as [l|]; cbn [cleanup_add cleanup_free].
        + rewrite zcount_app, zcount_cons. rewrite ?zcount_nil. lia.
        + rewrite zcount_cons. rewrite ?zcount_nil. lia. }
    rewrite H1. f_equal. destruct (m_cleanup x) as [l|]; cbn [cleanup_add cleanup_free].
    + rewrite zcount_app, zcount_cons. destruct (item_dec (ItContents c) i) as [<-|_]; [destruct (Hi c); reflexivity|].
      rewrite ?zcount_nil. lia.
    + rewrite zcount_cons. destruct (item_dec (ItContents c) i) as [<-|_]; [destruct (Hi c); reflexivity|]. reflexivity.
  - intros H. injection H as <- <-. split; [apply sbc_refl|]. repeat split. intros. lia.
Qed.

(* How many times an item, of those which are registered now, will run *)
Definition due (i : item) (h later : list op) (k : nat) (x : option msg) : Z :=
  match x with
  | Some m => zcount i (cleanup_free (m_cleanup m)) * b2z (ended h later k)
  | None => 0
  end.

Definition to_run (i : item) (h later : list op) (s : state) : Z := isum (due i h later) 0 (msgs s).

Definition reg_now (i : item) (h : list op) (o : op) (r : list op) : Z :=
  zsum (map (fun mi => if item_dec (snd mi) i then b2z (ended (h ++ [o]) r (fst mi)) else 0) (registered o)).

Lemma ends_other h o m j : j <> m ->
  (forall n b l, o = OSetContents n b l -> n = m) -> (forall n, o = OUnref n -> n = m) ->
  ends h o j = false.
Proof.
  intros Hne H1 H2. destruct o; cbn [ends]; try reflexivity.
  - rewrite (H2 _ eq_refl). destruct (Nat.eqb_spec m j); [congruence|reflexivity].
  - rewrite (H1 _ _ _ eq_refl). destruct (Nat.eqb_spec m j); [congruence|reflexivity].
Qed.

Definition target (o : op) : option nat :=
  match o with
  | ORef m | OUnref m | OAlloc m _ | OAppendFd m _ _ | OAppendContents m _ _ | OSetContents m _ _ => Some m
  | OCleanup m _ _ | OWriterCleanup m _ _ => m
  | _ => None
  end.

(* A call which is about one message *)
Lemma change_one i h o r s s1 m x y :
  target o = Some m -> at_ (msgs s) m = Some x -> msgs s1 = set_at (msgs s) m y ->
  to_run i (h ++ [o]) r s1 =
    to_run i h (o :: r) s - zcount i (cleanup_free (m_cleanup x)) * b2z (ended h (o :: r) m) + due i (h ++ [o]) r m y.
Proof.
  intros Ht Hx Hs. unfold to_run. rewrite Hs.
  rewrite (isum_change (due i h (o :: r)) _ _ _ m (Some x)).
  - reflexivity.
  - apply at_nth. exact Hx.
  - intros j z Hne Hj. cbn [plus]. unfold due. destruct z as [z|]; [|reflexivity]. cbn [ended].
    rewrite (ends_other h o m j Hne); [reflexivity| |].
    + intros n b l ->. cbn [target] in Ht. congruence.
    + intros n ->. cbn [target] in Ht. congruence.
Qed.

Lemma change_put i h o r s m x y :
  target o = Some m -> at_ (msgs s) m = Some x ->
  to_run i (h ++ [o]) r (put_msg s m y) =
    to_run i h (o :: r) s - zcount i (cleanup_free (m_cleanup x)) * b2z (ended h (o :: r) m) + due i (h ++ [o]) r m y.
Proof. intros Ht Hx. apply (change_one i h o r s (put_msg s m y) m x y Ht Hx). reflexivity. Qed.

(* A call which isn't about messages *)
Lemma change_none i h o r s s1 :
  target o = None -> msgs s1 = msgs s -> to_run i (h ++ [o]) r s1 = to_run i h (o :: r) s.
Proof.
  intros Ht Hs. unfold to_run. rewrite Hs. apply isum_ext. intros k x _. change (0 + k)%nat with k. unfold due.
  destruct x as [x|]; [|reflexivity]. cbn [ended].
  assert (E : ends h o k = false) by (destruct o; cbn [target] in Ht; try discriminate; reflexivity).
  rewrite E. reflexivity.
Qed.

Lemma change_one_refs h o s s1 m x y :
  target o = Some m -> at_ (msgs s) m = Some x -> msgs s1 = set_at (msgs s) m y ->
  match y with Some z => m_refs z = m_refs x + delta m o | None => True end ->
  refs_ok h s -> refs_ok (h ++ [o]) s1.
Proof.
  intros Ht Hx Hs Hy [R1 R2]. pose proof (at_lt _ _ _ Hx) as Hlt.
  assert (Hd : forall k, k <> m -> delta k o = 0).
  { intros k Hk. destruct o; cbn [target] in Ht; try discriminate; try reflexivity; cbn [delta];
      match goal with |- context[Nat.eqb ?n k] => destruct (Nat.eqb_spec n k); [exfalso; congruence|reflexivity] end. }
  split.
  - intros k z. rewrite Hs, at_set_at by assumption. rewrite references_snoc.
    destruct (Nat.eqb_spec k m) as [->|Hne].
    + intros ->. rewrite Hy, (R1 _ _ Hx). reflexivity.
    + intros Hz. rewrite (R1 _ _ Hz), (Hd k Hne). lia.
  - intros k Hk. rewrite Hs, length_set_at in Hk. rewrite references_snoc, (R2 k Hk), Hd by lia. reflexivity.
Qed.

Lemma change_none_refs h o s s1 :
  target o = None -> msgs s1 = msgs s -> refs_ok h s -> refs_ok (h ++ [o]) s1.
Proof.
  intros Ht Hs [R1 R2].
  assert (Hd : forall k, delta k o = 0) by (intros k; destruct o; cbn [target] in Ht; try discriminate; reflexivity).
  split.
  - intros k z. rewrite Hs, references_snoc, Hd. intros Hz. rewrite (R1 _ _ Hz). lia.
  - intros k. rewrite Hs, references_snoc, Hd. intros Hk. rewrite (R2 _ Hk). lia.
Qed.


Lemma reg_locals i h o r m locals :
  (zsum (map (fun mi => if item_dec (snd mi) i then b2z (ended (h ++ [o]) r (fst mi)) else 0)
     (map (fun x => (m, ItLocal x)) locals))) = zcount i (map ItLocal locals) * b2z (ended (h ++ [o]) r m).
Proof.
  induction locals as [|x l IH]; cbn [map zsum fst snd]; [reflexivity|].
  rewrite IH, zcount_cons. destruct (item_dec (ItLocal x) i); lia.
Qed.

Lemma add_item_count s m it s1 t1 :
  add_item s m it = Done s1 t1 ->
  t1 = [] /\ exists x, at_ (msgs s) m = Some x /\
    msgs s1 = set_at (msgs s) m (Some (with_cleanup x (cleanup_add (m_cleanup x) it))) /\
    forall i, zcount i (cleanup_free (cleanup_add (m_cleanup x) it)) =
      zcount i (cleanup_free (m_cleanup x)) + match it with Some y => if item_dec y i then 1 else 0 | None => 0 end.
Proof.
  unfold add_item. destruct (at_ (msgs s) m) as [x|]; [|discriminate]. intros H. injection H as <- <-.
  split; [reflexivity|]. exists x. split; [reflexivity|]. split; [reflexivity|]. intros i.
  destruct it as [y|]; cbn [cleanup_add]; [|lia].
  destruct (m_cleanup x) as [l|]; cbn [cleanup_free].
  - rewrite zcount_app, zcount_cons, zcount_nil. lia.
  - rewrite zcount_cons, zcount_nil. lia.
Qed.

Lemma step_count i h o r s s1 t1 :
  (forall c, i <> ItContents c) -> refs_ok h s -> step s o = Done s1 t1 ->
  refs_ok (h ++ [o]) s1 /\
  zcount i (ran t1) + to_run i (h ++ [o]) r s1 = to_run i h (o :: r) s + reg_now i h o r + zcount i (immediate o).
Proof.
  intros Hi R E.
  assert (Hadd : forall m it o', o = o' -> target o = Some m -> ends h o m = false -> delta m o = 0 ->
    forall s0, msgs s0 = msgs s -> add_item s0 m it = Done s1 t1 ->
    immediate o = [] ->
    registered o = match it with Some y => [(m, y)] | None => [] end ->
    refs_ok (h ++ [o]) s1 /\
    zcount i (ran t1) + to_run i (h ++ [o]) r s1 = to_run i h (o :: r) s + reg_now i h o r + zcount i (immediate o)).
  { intros m it o' _ Ht He Hd s0 Hs0 Ea Him Hreg.
    destruct (add_item_count _ _ _ _ _ Ea) as (-> & x & Hx & Hm & Hc). rewrite Hs0 in Hx, Hm.
    split.
    - eapply change_one_refs; try eassumption. cbn [with_cleanup m_refs]. lia.
    - rewrite (change_one i h o r s s1 m x _ Ht Hx Hm). cbn [due with_cleanup m_cleanup]. rewrite Hc.
      unfold reg_now. rewrite Hreg, Him. cbn [ended]. rewrite He. cbn [orb ran flat_map]. rewrite zcount_nil.
      destruct it as [y|]; cbn [map zsum fst snd]; [|lia]. destruct (item_dec y i); lia. }
  destruct o as [|m|m|m d p|m d p|m p|m fd dup|m b locals|m b locals|fds|b|b|l b|l|l|fd|fd]; cbn [step] in E.
  - (* ONew *) injection E as <- <-. destruct R as [R1 R2]. split.
    + split.
      * intros m x. cbn [set_msgs msgs]. rewrite at_app, references_snoc. cbn [delta].
        destruct (Nat.eqb_spec m (length (msgs s))) as [->|Hne].
        -- intros Hx. injection Hx as <-. cbn [m_refs]. rewrite (R2 _ (le_n _)). reflexivity.
        -- intros Hx. rewrite (R1 _ _ Hx). lia.
      * intros m. cbn [set_msgs msgs]. rewrite app_length, references_snoc. cbn [length delta]. intros Hm.
        rewrite R2 by lia. reflexivity.
    + unfold to_run. cbn [set_msgs msgs]. rewrite isum_app. cbn [isum due m_cleanup cleanup_free].
      rewrite zcount_nil. unfold reg_now. cbn [registered map zsum immediate ran flat_map]. rewrite zcount_nil.
      rewrite (isum_ext (due i (h ++ [ONew]) r) (due i h (ONew :: r))); [lia|].
      intros k x _. unfold due. cbn [ended ends orb]. reflexivity.
  - (* ORef *) destruct (at_ (msgs s) m) as [x|] eqn:Ex; [|discriminate]. injection E as <- <-. split.
    + eapply change_one_refs; [reflexivity|exact Ex|reflexivity| |exact R]. cbn [m_refs delta].
      rewrite Nat.eqb_refl. reflexivity.
    + rewrite (change_put i h (ORef m) r s m x _ eq_refl Ex).
      cbn [due m_cleanup ended ends orb]. unfold reg_now. cbn [registered map zsum immediate ran flat_map].
      rewrite !zcount_nil. lia.
  - (* OUnref *) destruct (at_ (msgs s) m) as [x|] eqn:Ex; [|discriminate].
    pose proof (proj1 R _ _ Ex) as Hr.
    destruct (Z.eqb_spec (m_refs x - 1) 0) as [Hz|Hz].
    + destruct (run_items (put_msg s m None) (cleanup_free (m_cleanup x))) as [[s2 t2]|] eqn:E2; [|discriminate].
      destruct (run_items_same _ _ _ _ E2) as [(M2 & _) T2].
      assert (Hfin : msgs s1 = set_at (msgs s) m None /\ ran t1 = cleanup_free (m_cleanup x)).
      { destruct (m_contents x) as [c|].
        - destruct (contents_unref s2 c) as [[s3 t3]|] eqn:E3; [|discriminate]. injection E as <- <-.
          destruct (contents_unref_same _ _ _ _ E3) as [(M3 & _) T3].
          rewrite ran_app, T2, T3, app_nil_r. split; [|reflexivity]. rewrite M3, M2. reflexivity.
        - injection E as <- <-. rewrite M2. split; [reflexivity|exact T2]. }
      destruct Hfin as [Hm Ht]. split.
      * eapply change_one_refs; [reflexivity|exact Ex|exact Hm|exact I|exact R].
      * rewrite (change_one i h (OUnref m) r s s1 m x _ eq_refl Ex Hm). rewrite Ht.
        cbn [due ended ends]. rewrite Nat.eqb_refl. replace (references m h =? 1) with true by (symmetry; apply Z.eqb_eq; lia).
        unfold reg_now. cbn [registered map zsum immediate andb orb b2z]. rewrite !zcount_nil. lia.
    + injection E as <- <-. split.
      * eapply change_one_refs; [reflexivity|exact Ex|reflexivity| |exact R]. cbn [m_refs delta].
        rewrite Nat.eqb_refl. lia.
      * rewrite (change_put i h (OUnref m) r s m x _ eq_refl Ex).
        cbn [due m_cleanup ended ends]. rewrite Nat.eqb_refl.
        replace (references m h =? 1) with false by (symmetry; apply Z.eqb_neq; lia).
        unfold reg_now. cbn [registered map zsum immediate andb orb ran flat_map]. rewrite !zcount_nil. lia.
  - (* OCleanup *) destruct m as [m|].
    + eapply Hadd; [reflexivity|reflexivity|reflexivity|reflexivity|reflexivity|exact E|reflexivity|].
      destruct d; reflexivity.
    + injection E as <- <-. split; [eapply change_none_refs; [reflexivity|reflexivity|exact R]|].
      rewrite (change_none i h _ r s) by (reflexivity || assumption). unfold reg_now.
      destruct d; cbn [registered map zsum immediate ran flat_map app]; rewrite ?zcount_nil; lia.
  - (* OWriterCleanup *) destruct m as [m|].
    + eapply Hadd; [reflexivity|reflexivity|reflexivity|reflexivity|reflexivity|exact E|reflexivity|].
      destruct d; reflexivity.
    + injection E as <- <-. split; [eapply change_none_refs; [reflexivity|reflexivity|exact R]|].
      rewrite (change_none i h _ r s) by (reflexivity || assumption). unfold reg_now.
      destruct d; cbn [registered map zsum immediate ran flat_map app]; rewrite ?zcount_nil; lia.
  - (* OAlloc *)
    eapply Hadd; [reflexivity|reflexivity|reflexivity|reflexivity|reflexivity|exact E|reflexivity|reflexivity].
  - (* OAppendFd *) destruct dup as [d|].
    + destruct (fdt s d); [discriminate|].
      eapply (Hadd m (Some (ItClose d)) _ eq_refl eq_refl eq_refl eq_refl); [|exact E|reflexivity|reflexivity].
      reflexivity.
    + eapply Hadd; [reflexivity|reflexivity|reflexivity|reflexivity|reflexivity|exact E|reflexivity|reflexivity].
  - (* OAppendContents *) destruct (at_ (msgs s) m) as [x|] eqn:Ex; [|discriminate].
    destruct (buf_arg s b) as [c|] eqn:Eb; [|discriminate].
    destruct (append_contents s x c locals) as [[s2 x2]|] eqn:E2; [|discriminate]. injection E as <- <-.
    destruct (append_contents_msg _ _ _ _ _ _ E2) as ((M2 & _) & R3 & _ & C3).
    assert (Hm : msgs (put_msg s2 m (Some x2)) = set_at (msgs s) m (Some x2))
      by (unfold put_msg; cbn [set_msgs msgs]; rewrite M2; reflexivity).
    split.
    + eapply change_one_refs; [reflexivity|exact Ex|exact Hm| |exact R]. cbn [delta]. lia.
    + rewrite (change_one i h (OAppendContents m b locals) r s _ m x _ eq_refl Ex Hm). cbn [due ended ends orb]. rewrite (C3 i Hi).
      unfold reg_now. cbn [immediate ran flat_map]. rewrite !zcount_nil.
      destruct b as [n|]; cbn [buf_arg] in Eb.
      * destruct (at_ (bufs s) n); [|discriminate]. injection Eb as <-. cbn [registered].
        rewrite (reg_locals i h). lia.
      * injection Eb as <-. cbn [registered map zsum]. lia.
  - (* OSetContents *) destruct (at_ (msgs s) m) as [x|] eqn:Ex; [|discriminate].
    destruct (buf_arg s b) as [c|] eqn:Eb; [|discriminate].
    destruct (cleanup_reset (m_cleanup x)) as [cl todo] eqn:Ecl.
    assert (Hcl : cleanup_free cl = [] /\ todo = cleanup_free (m_cleanup x)).
    { unfold cleanup_reset in Ecl. destruct (m_cleanup x); injection Ecl as <- <-; auto. }
    destruct Hcl as [Hcl ->].
    destruct (run_items _ _) as [[s2 t2]|] eqn:E2; [|discriminate].
    destruct (append_contents s2 (with_cleanup x cl) c locals) as [[s3 x3]|] eqn:E3; [|discriminate].
    destruct (match m_contents x with Some old => contents_unref s3 old | None => Some (s3, []) end) as [[s4 t4]|] eqn:E4; [|discriminate].
    destruct (match c with Some k => contents_ref s4 k | None => Some s4 end) as [s5|] eqn:E5; [|discriminate].
    injection E as <- <-.
    destruct (run_items_same _ _ _ _ E2) as [(M2 & _) T2].
    destruct (append_contents_msg _ _ _ _ _ _ E3) as ((M3 & _) & R3 & _ & C3).
    assert (H4 : msgs s4 = msgs s3 /\ ran t4 = []).
    { destruct (m_contents x) as [old|].
      - destruct (contents_unref_same _ _ _ _ E4) as [(M4 & _) T4]. auto.
      - injection E4 as <- <-. auto. }
    assert (H5 : msgs s5 = msgs s4).
    { destruct c as [k|]; [|congruence]. exact (proj1 (contents_ref_same _ _ _ E5)). }
    destruct H4 as [M4 T4].
    set (y := {| m_refs := m_refs x3; m_cleanup := m_cleanup x3; m_contents := c |}).
    assert (Hm : msgs (put_msg s5 m (Some y)) = set_at (msgs s) m (Some y)).
    { unfold put_msg. cbn [set_msgs msgs]. rewrite H5, M4, M3, M2. unfold put_msg. cbn [set_msgs msgs].
      clear. generalize (msgs s). revert m. induction m as [|m IH]; intros [|z l]; cbn [set_at]; try reflexivity.
      rewrite IH. reflexivity. }
    split.
    + eapply change_one_refs; [reflexivity|exact Ex|exact Hm| |exact R]. cbn [y m_refs delta].
      rewrite R3. cbn [with_cleanup m_refs]. lia.
    + rewrite (change_one i h (OSetContents m b locals) r s _ m x _ eq_refl Ex Hm). unfold y. cbn [due ended ends m_cleanup].
      rewrite Nat.eqb_refl. cbn [orb]. rewrite (C3 i Hi). cbn [with_cleanup m_cleanup]. rewrite Hcl.
      rewrite ran_app, T2, T4, app_nil_r.
      unfold reg_now. cbn [immediate b2z]. rewrite !zcount_nil.
      destruct b as [n|]; cbn [buf_arg] in Eb.
      * destruct (at_ (bufs s) n); [|discriminate]. injection Eb as <-. cbn [registered].
        rewrite (reg_locals i h). lia.
      * injection Eb as <-. cbn [registered map zsum]. lia.
  - (* OBufNew *) destruct (_ && _); [|discriminate]. injection E as <- <-.
    split; [eapply change_none_refs; [reflexivity| |exact R]; reflexivity|].
    rewrite (change_none i h _ r s) by (reflexivity || assumption). unfold reg_now. cbn. lia.
  - destruct (at_ (bufs s) b) as [c|]; [|discriminate]. destruct (contents_ref s c) as [s2|] eqn:E2; [|discriminate].
    injection E as <- <-. pose proof (proj1 (contents_ref_same _ _ _ E2)) as M.
    split; [eapply change_none_refs; [reflexivity| |exact R]; exact M|].
    rewrite (change_none i h _ r s) by (reflexivity || assumption). unfold reg_now. cbn. lia.
  - destruct (at_ (bufs s) b) as [c|]; [|discriminate].
    destruct (contents_unref (set_bufs s (set_at (bufs s) b None)) c) as [[s2 t2]|] eqn:E2; [|discriminate].
    injection E as <- <-. destruct (contents_unref_same _ _ _ _ E2) as [(M & _) T]. cbn [set_bufs msgs] in M.
    split; [eapply change_none_refs; [reflexivity| |exact R]; exact M|].
    rewrite (change_none i h _ r s) by (reflexivity || assumption). rewrite T. unfold reg_now. cbn. lia.
  - destruct (at_ (bufs s) b) as [c|]; [|discriminate]. destruct (contents_ref s c) as [s2|] eqn:E2; [|discriminate].
    pose proof (proj1 (contents_ref_same _ _ _ E2)) as M.
    assert (Hx : msgs s1 = msgs s /\ t1 = []).
    { destruct l as [n|].
      - destruct (at_ (lists s2) n); [|discriminate]. injection E as <- <-. auto.
      - injection E as <- <-. auto. }
    destruct Hx as [M1 ->].
    split; [eapply change_none_refs; [reflexivity| |exact R]; exact M1|].
    rewrite (change_none i h _ r s) by (reflexivity || assumption). unfold reg_now. cbn. lia.
  - destruct (at_ (lists s) l) as [cs|]; [|discriminate]. destruct (ref_all s cs) as [s2|] eqn:E2; [|discriminate].
    injection E as <- <-. pose proof (proj1 (ref_all_same _ _ _ E2)) as M.
    split; [eapply change_none_refs; [reflexivity| |exact R]; exact M|].
    rewrite (change_none i h _ r s) by (reflexivity || assumption). unfold reg_now. cbn. lia.
  - destruct (at_ (lists s) l) as [cs|]; [|discriminate].
    destruct (unref_all (set_lists s (set_at (lists s) l None)) cs) as [[s2 t2]|] eqn:E2; [|discriminate].
    injection E as <- <-. destruct (unref_all_same _ _ _ _ E2) as [(M & _) T]. cbn [set_lists msgs] in M.
    split; [eapply change_none_refs; [reflexivity| |exact R]; exact M|].
    rewrite (change_none i h _ r s) by (reflexivity || assumption). rewrite T. unfold reg_now. cbn. lia.
  - destruct (fdt s fd); [discriminate|]. injection E as <- <-.
    split; [eapply change_none_refs; [reflexivity| |exact R]; reflexivity|].
    rewrite (change_none i h _ r s) by (reflexivity || assumption). unfold reg_now. cbn. lia.
  - destruct (fdt s fd) as [[]|]; try discriminate. injection E as <- <-.
    split; [eapply change_none_refs; [reflexivity| |exact R]; reflexivity|].
    rewrite (change_none i h _ r s) by (reflexivity || assumption). unfold reg_now. cbn. lia.
Qed.

Lemma run_count i : (forall c, i <> ItContents c) -> forall later h s s1 tr,
  refs_ok h s -> run s later = Done s1 tr ->
  zcount i (ran tr) = to_run i h later s + expected_runs i h later.
Proof.
  intros Hi. induction later as [|o r IH]; intros h s s1 tr R; cbn [run].
  - intros E. injection E as <- <-. cbn [expected_runs ran flat_map]. rewrite zcount_nil.
    unfold to_run. rewrite isum_zero; [reflexivity|]. intros k x _. unfold due. destruct x; [|reflexivity].
    cbn [ended b2z]. lia.
  - destruct (step s o) as [s2 t2| |] eqn:E2; try discriminate.
    destruct (run s2 r) as [s3 t3| |] eqn:E3; try discriminate. intros E. injection E as <- <-.
    destruct (step_count i h o r s s2 t2 Hi R E2) as [R2 Hc].
    rewrite ran_app, zcount_app, (IH _ _ _ _ R2 E3). cbn [expected_runs]. unfold reg_now in Hc. lia.
Qed.

Lemma refs_init : refs_ok [] init_state.
Proof. split; [intros [|m] x; discriminate|reflexivity]. Qed.

Lemma to_run_init i h l : to_run i h l init_state = 0. Proof. reflexivity. Qed.
