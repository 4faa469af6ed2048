(* Proofs about polling of the service manager *)
From Verif Require Import Base PollModel.
From Coq Require Import Sorted.
From Coq Require Permutation.

Lemma str_eqbP a b : reflect (a = b) (str_eqb a b).
Proof. unfold str_eqb. destruct (list_eq_dec Z.eq_dec a b); constructor; assumption. Qed.

Lemma str_le_refl a : str_le a a = true.
Proof. induction a as [|x a IH]; cbn [str_le]; [reflexivity|]. rewrite Z.ltb_irrefl. exact IH. Qed.

Lemma str_le_antisym a : forall b, str_le a b = true -> str_le b a = true -> a = b.
Proof.
  induction a as [|x a IH]; intros [|y b]; cbn [str_le]; try discriminate; [reflexivity|].
  destruct (Z.ltb_spec x y), (Z.ltb_spec y x); try discriminate; try lia.
  intros H1 H2. assert (x = y) by lia. subst. f_equal. apply IH; assumption.
Qed.

Lemma str_le_trans a : forall b c, str_le a b = true -> str_le b c = true -> str_le a c = true.
Proof.
  induction a as [|x a IH]; intros [|y b] [|z c]; cbn [str_le]; try discriminate; try reflexivity.
  destruct (Z.ltb_spec x y), (Z.ltb_spec y x), (Z.ltb_spec y z), (Z.ltb_spec z y),
    (Z.ltb_spec x z), (Z.ltb_spec z x); try discriminate; try reflexivity; try lia.
  apply IH.
Qed.

Lemma str_le_total a : forall b, str_le a b = false -> str_le b a = true.
Proof.
  induction a as [|x a IH]; intros [|y b]; cbn [str_le]; try discriminate; try reflexivity.
  destruct (Z.ltb_spec x y), (Z.ltb_spec y x); try discriminate; try reflexivity; try lia. apply IH.
Qed.

Lemma find_none l s : strv_find l s = None <-> ~ In s l.
Proof.
  induction l as [|x l IH]; cbn [strv_find In]; [intuition|].
  destruct (str_eqbP x s) as [->|Hne]; [split; [discriminate|intuition]|].
  destruct (strv_find l s) as [n|].
  - split; [discriminate|]. intros H. exfalso. apply H. right.
    destruct (in_dec (list_eq_dec Z.eq_dec) s l) as [|Hn]; [assumption|].
    apply IH in Hn. discriminate.
  - rewrite <- (proj1 IH eq_refl) || idtac. split; [|reflexivity]. intros _ [H|H]; [congruence|].
    apply (proj1 IH eq_refl H).
Qed.

Lemma find_some l s : forall i, strv_find l s = Some i ->
  exists a b, l = a ++ s :: b /\ length a = i /\ ~ In s a.
Proof.
  induction l as [|x l IH]; cbn [strv_find]; intros i; [discriminate|].
  destruct (str_eqbP x s) as [->|Hne].
  - intros E. injection E as <-. exists [], l. repeat split. intros [].
  - destruct (strv_find l s) as [n|] eqn:En; [|discriminate]. intros E. injection E as <-.
    destruct (IH n eq_refl) as (a & b & -> & H1 & H2). exists (x :: a), b.
    repeat split; [cbn [length]; lia|]. intros [H|H]; [congruence|contradiction].
Qed.

Lemma sorted_tail a s b :
  StronglySorted (fun x y => str_le x y = true) (a ++ s :: b) ->
  StronglySorted (fun x y => str_le x y = true) b /\
  Forall (fun y => str_le s y = true) b /\ Forall (fun x => str_le x s = true) a.
Proof.
  induction a as [|x a IH]; cbn [app]; intros H; inversion H; subst.
  - repeat split; auto.
  - destruct (IH H2) as (H4 & H5 & H6). repeat split; auto. constructor; [|assumption].
    rewrite Forall_forall in H3. apply H3. apply in_app_iff. right. left. reflexivity.
Qed.

(* Whatever is in the list, names which weren't there before are reported, and what is
   reported is in the list *)
Lemma new_names_complete services : forall old x,
  In x services -> ~ In x old -> In x (new_names old services).
Proof.
  induction services as [|s rest IH]; intros old x; [contradiction|]. cbn [new_names].
  intros Hin Hn. destruct old as [|o old].
  - destruct Hin as [->|Hin]; [left; reflexivity|right; apply IH; auto].
  - destruct (strv_find (o :: old) s) as [i|] eqn:E.
    + apply find_some in E. destruct E as (a & b & E & Hl & _).
      destruct Hin as [->|Hin].
      * exfalso. apply Hn. rewrite E. apply in_app_iff. right. left. reflexivity.
      * apply IH; [assumption|]. intros H. apply Hn.
        assert (Hs : forall n (l : list bytes), In x (skipn n l) -> In x l).
        { intros n l. rewrite <- (firstn_skipn n l) at 2. intros Hx. apply in_app_iff. auto. }
        exact (Hs _ _ H).
    + destruct Hin as [->|Hin]; [left; reflexivity|right; apply IH; auto].
Qed.

Lemma new_names_in services : forall old x, In x (new_names old services) -> In x services.
Proof.
  induction services as [|s rest IH]; intros old x; [contradiction|]. cbn [new_names].
  destruct old as [|o old].
  - intros [->|H]; [left; reflexivity|right; eapply IH; eassumption].
  - destruct (strv_find (o :: old) s).
    + intros H. right; eapply IH; eassumption.
    + intros [->|H]; [left; reflexivity|right; eapply IH; eassumption].
Qed.

Lemma new_names_nodup services : forall old, NoDup services -> NoDup (new_names old services).
Proof.
  induction services as [|s rest IH]; intros old H; [constructor|]. inversion H; subst. cbn [new_names].
  destruct old as [|o old].
  - constructor; [|apply IH; assumption]. intros Hs. apply new_names_in in Hs. contradiction.
  - destruct (strv_find (o :: old) s).
    + apply IH; assumption.
    + constructor; [|apply IH; assumption]. intros Hs. apply new_names_in in Hs. contradiction.
Qed.

(* In sorted lists without repetitions, names which were there aren't reported *)
Lemma new_names_sound services : forall old x,
  StronglySorted (fun a b => str_le a b = true) services -> NoDup services ->
  StronglySorted (fun a b => str_le a b = true) old ->
  In x (new_names old services) -> ~ In x old.
Proof.
  induction services as [|s rest IH]; intros old x Hs Hd Ho; [contradiction|].
  inversion Hs as [|? ? Hs1 Hs2]; subst. inversion Hd as [|? ? Hd1 Hd2]; subst. cbn [new_names].
  destruct old as [|o old]; [intros _ []|].
  destruct (strv_find (o :: old) s) as [i|] eqn:E.
  - apply find_some in E. destruct E as (a & b & E & Hl & Hna).
    intros Hx. assert (Hxr : In x rest) by (eapply new_names_in; eassumption).
    rewrite E in *. destruct (sorted_tail _ _ _ Ho) as (T1 & T2 & T3).
    assert (Esk : skipn (S i) (a ++ s :: b) = b).
    { subst i. change (a ++ s :: b) with (a ++ [s] ++ b). rewrite app_assoc.
      rewrite skipn_app. replace (S (length a) - length (a ++ [s]))%nat with 0%nat by (rewrite app_length; cbn [length]; lia).
      rewrite skipn_all2 by (rewrite app_length; cbn [length]; lia). reflexivity. }
    rewrite Esk in Hx. pose proof (IH b x Hs1 Hd2 T1 Hx) as Hnb.
    intros Hin. apply in_app_iff in Hin. destruct Hin as [Hin|[Hin|Hin]].
    + (* x <= s <= x *)
      rewrite Forall_forall in T3, Hs2. assert (x = s) by (apply str_le_antisym; [apply T3|apply Hs2]; assumption).
      subst x. contradiction.
    + subst x. contradiction.
    + contradiction.
  - apply find_none in E. intros [<-|Hx]; [assumption|].
    exact (IH _ _ Hs1 Hd2 Ho Hx).
Qed.

Section Run.
Variable sort : list bytes -> list bytes.
Hypothesis Hsort : strv_sort_contract sort.

Definition sorted_state (p : poll) : Prop :=
  match po_list p with
  | Some l => StronglySorted (fun a b => str_le a b = true) l
  | None => True
  end.

Lemma poll_report p services p1 out :
  sorted_state p -> poll_list sort p (Some services) = (p1, out) ->
  sorted_state p1 /\ (exists l, po_list p1 = Some l /\ Permutation.Permutation services l) /\
  (forall x, In x services -> (forall l, po_list p = Some l -> ~ In x l) -> In x out) /\
  (NoDup services -> NoDup out /\
     forall x, In x out -> In x services /\ forall l, po_list p = Some l -> ~ In x l).
Proof.
  intros Hp E. cbn [poll_list] in E. injection E as <- <-.
  destruct (Hsort services) as [Hperm Hsorted].
  split; [exact Hsorted|]. split; [exists (sort services); auto|]. split.
  - intros x Hx Hn. apply new_names_complete.
    + apply (Permutation.Permutation_in _ Hperm); assumption.
    + destruct (po_list p) as [l|]; [exact (Hn l eq_refl)|intros []].
  - intros Hd. pose proof (Permutation.Permutation_NoDup Hperm Hd) as Hd1. split.
    + apply new_names_nodup; assumption.
    + intros x Hx. split.
      * apply (Permutation.Permutation_in _ (Permutation.Permutation_sym Hperm)).
        eapply new_names_in; eassumption.
      * intros l El. unfold sorted_state in Hp. rewrite El in Hp. rewrite El in Hx.
        eapply new_names_sound; eassumption.
Qed.

Lemma run_app es1 : forall p es2 p2 outs,
  poll_run sort p (es1 ++ es2) = Some (p2, outs) ->
  exists p1 o1 o2, poll_run sort p es1 = Some (p1, o1) /\ poll_run sort p1 es2 = Some (p2, o2) /\
    outs = o1 ++ o2 /\ length o1 = length es1.
Proof.
  induction es1 as [|e es1 IH]; intros p es2 p2 outs; cbn [app poll_run].
  - intros E. exists p, [], outs. auto.
  - destruct (poll_step sort p e) as [[p1 o]|]; [|discriminate].
    destruct (poll_run sort p1 (es1 ++ es2)) as [[p3 os]|] eqn:E1; [|discriminate].
    intros E. injection E as -> <-.
    destruct (IH _ _ _ _ E1) as (q & o1 & o2 & H1 & H2 & -> & H4).
    rewrite H1. exists q, (o :: o1), o2. cbn [length]. auto.
Qed.

(* The list of the last answer *)
Definition last_answer (es : list poll_event) : option (list bytes) :=
  fold_left (fun acc e => match e with PTimer => acc | PAnswer s => s end) es None.

Lemma state_after es : forall p p1 outs,
  sorted_state p -> poll_run sort p es = Some (p1, outs) ->
  sorted_state p1 /\
  po_list p1 = fold_left (fun acc e => match e with PTimer => acc | PAnswer s => option_map sort s end)
                 es (po_list p).
Proof.
  induction es as [|e es IH]; intros p p1 outs Hp; cbn [poll_run].
  - intros E. injection E as <- <-. auto.
  - destruct (poll_step sort p e) as [[q o]|] eqn:Es; [|discriminate].
    destruct (poll_run sort q es) as [[p3 os]|] eqn:E1; [|discriminate].
    intros E. injection E as <- <-. cbn [fold_left].
    assert (Hq : sorted_state q /\ po_list q = match e with PTimer => po_list p | PAnswer s => option_map sort s end).
    { destruct e as [|services]; cbn [poll_step] in Es.
      - injection Es as <- _. unfold poll_timer. destruct (po_busy p); cbn [fst]; auto.
      - destruct (po_busy p); [|discriminate].
        destruct services as [l|]; cbn [poll_list] in Es; injection Es as <- <-;
          (split; [|reflexivity]); [exact (proj2 (Hsort l))|exact I]. }
    destruct Hq as [Hq1 Hq2]. destruct (IH q p3 os Hq1 E1) as [H1 H2]. rewrite <- Hq2. auto.
Qed.
End Run.

From Verif Require Import PollSpec.

Lemma before_same es : forall known, no_failures es -> names_before known es = names_before_ok known es.
Proof.
  induction es as [|e es IH]; intros known H; [reflexivity|].
  assert (H1 : no_failures es) by (intros Hi; apply H; right; exact Hi).
  destruct e as [|[l|]]; cbn [names_before names_before_ok]; try (apply IH; exact H1).
  exfalso. apply H. left. reflexivity.
Qed.

Section Hist.
Variable sort : list bytes -> list bytes.
Hypothesis Hsort : strv_sort_contract sort.

Definition some_list (o : option (list bytes)) : list bytes := match o with Some l => l | None => [] end.

Lemma names_after es : forall o known,
  (forall x, In x known <-> In x (some_list o)) -> forall x,
  In x (names_before known es) <->
  In x (some_list (fold_left (fun acc e => match e with PTimer => acc | PAnswer s => option_map sort s end) es o)).
Proof.
  induction es as [|e es IH]; intros o known H x; cbn [names_before fold_left]; [apply H|].
  destruct e as [|[l|]]; apply IH; try assumption.
  - intros y. cbn [option_map some_list]. destruct (Hsort l) as [Hp _].
    split; apply Permutation.Permutation_in; [exact Hp|apply Permutation.Permutation_sym; exact Hp].
  - intros y. cbn. tauto.
Qed.

Lemma poll_history before services after p outs :
  poll_run sort poll_create (before ++ PAnswer (Some services) :: after) = Some (p, outs) ->
  exists out, nth_error outs (length before) = Some out /\
    (forall x, In x services -> ~ In x (names_before [] before) -> In x out) /\
    (NoDup services -> NoDup out /\
       forall x, In x out -> In x services /\ ~ In x (names_before [] before)).
Proof.
  intros E. apply run_app in E. destruct E as (q & o1 & o2 & E1 & E2 & -> & Hl).
  assert (H0 : sorted_state poll_create) by exact I.
  destruct (state_after sort Hsort before _ _ _ H0 E1) as [Hq Eq].
  cbn [poll_run poll_step] in E2. destruct (po_busy q); [|discriminate].
  destruct (poll_list sort q (Some services)) as [q1 out] eqn:El.
  destruct (poll_run sort q1 after) as [[q2 os]|]; [|discriminate]. injection E2 as _ <-.
  exists out. rewrite nth_error_app2 by lia. rewrite Hl, Nat.sub_diag. split; [reflexivity|].
  destruct (poll_report sort Hsort _ _ _ _ Hq El) as (_ & _ & H3 & H4).
  assert (Hn : forall x, In x (names_before [] before) <-> In x (some_list (po_list q))).
  { intros x. rewrite Eq. apply names_after. intros y. cbn. tauto. }
  split.
  - intros x Hx Hn1. apply H3; [assumption|]. intros l Hl1 Hin. apply Hn1. apply Hn. rewrite Hl1. exact Hin.
  - intros Hd. destruct (H4 Hd) as [H5 H6]. split; [exact H5|]. intros x Hx. destruct (H6 x Hx) as [H7 H8].
    split; [exact H7|]. intros Hin. apply Hn in Hin. destruct (po_list q) as [l|]; [|contradiction].
    exact (H8 l eq_refl Hin).
Qed.

Lemma poll_known es p outs x :
  poll_run sort poll_create es = Some (p, outs) ->
  is_known_name p x = true <-> In x (names_before [] es).
Proof.
  intros E. assert (H0 : sorted_state poll_create) by exact I.
  destruct (state_after sort Hsort es _ _ _ H0 E) as [_ Eq].
  rewrite (names_after es None []) by (intros y; cbn; tauto).
  change None with (po_list poll_create). rewrite <- Eq. unfold is_known_name.
  destruct (po_list p) as [l|]; cbn [some_list]; [|split; [discriminate|contradiction]].
  pose proof (find_none l x) as Hf. destruct (strv_find l x) eqn:Ef.
  - split; [|reflexivity]. intros _.
    destruct (find_some _ _ _ Ef) as (a & b & -> & _). apply in_app_iff. right. left. reflexivity.
  - split; [discriminate|]. intros H. exfalso. exact (proj1 Hf eq_refl H).
Qed.
End Hist.
