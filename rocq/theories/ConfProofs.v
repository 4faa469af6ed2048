(* Proofs about the configuration *)
From Coq Require Import String Ascii.
From Verif Require Import Base ObjModel ConfModel ConfSpec.
Open Scope string_scope.

Lemma same_key_true g k g' k' : same_key g k g' k' = true <-> g = g' /\ k = k'.
Proof. unfold same_key. rewrite andb_true_iff, !String.eqb_eq. tauto. Qed.

Lemma same_key_refl g k : same_key g k g k = true.
Proof. apply same_key_true. auto. Qed.

Lemma kf_get_set kf g k v g' k' :
  kf_get (kf_set kf g k v) g' k' = if same_key g' k' g k then Some v else kf_get kf g' k'.
Proof.
  induction kf as [|[[g1 k1] v1] r IH]; cbn [kf_set kf_get]; [reflexivity|].
  destruct (same_key g k g1 k1) eqn:E.
  - apply same_key_true in E. destruct E as [<- <-]. cbn [kf_get].
    destruct (same_key g' k' g k); reflexivity.
  - cbn [kf_get]. rewrite IH. destruct (same_key g' k' g1 k1) eqn:E1; [|reflexivity].
    destruct (same_key g' k' g k) eqn:E2; [|reflexivity].
    apply same_key_true in E1, E2. destruct E1 as [-> ->], E2 as [-> ->].
    rewrite same_key_refl in E. discriminate.
Qed.

(* the last assignment in a list *)
Fixpoint last_of (l : list assignment) (g k : string) : option string :=
  match l with
  | [] => None
  | (g', k', v') :: r =>
    match last_of r g k with
    | Some v => Some v
    | None => if same_key g k g' k' then Some v' else None
    end
  end.

Lemma last_of_none l g k : last_of l g k = None <-> forall v, ~ In (g, k, v) l.
Proof.
  induction l as [|[[g1 k1] v1] r IH]; cbn [last_of].
  - split; [intros _ v []|reflexivity].
  - split.
    + intros H v [E|E].
      * inversion E; subst. rewrite same_key_refl in H. destruct (last_of r g k); discriminate.
      * destruct (last_of r g k) eqn:L; [discriminate|]. apply (proj1 IH eq_refl v E).
    + intros H. destruct (last_of r g k) eqn:L.
      * exfalso. assert (N : last_of r g k = None) by (rewrite L; apply IH; intros v Hv; apply (H v); right; exact Hv).
        congruence.
      * destruct (same_key g k g1 k1) eqn:E; [|reflexivity].
        apply same_key_true in E. destruct E as [<- <-]. exfalso. apply (H v1). left; reflexivity.
Qed.

Lemma sets_last l g k v : sets l g k v <-> last_of l g k = Some v.
Proof.
  split.
  - intros (pre & post & -> & Hn). induction pre as [|[[g1 k1] v1] pre IH]; cbn [last_of app].
    + apply last_of_none in Hn. rewrite Hn, same_key_refl. reflexivity.
    + rewrite IH. reflexivity.
  - induction l as [|[[g1 k1] v1] r IH]; cbn [last_of]; [discriminate|].
    destruct (last_of r g k) as [w|] eqn:L.
    + intros H. destruct (IH H) as (pre & post & -> & Hn).
      exists ((g1, k1, v1) :: pre), post. split; [reflexivity|exact Hn].
    + destruct (same_key g k g1 k1) eqn:E; [|discriminate]. intros H. inversion H; subst.
      apply same_key_true in E. destruct E as [<- <-].
      exists [], r. split; [reflexivity|]. apply last_of_none. exact L.
Qed.

Lemma kf_get_assign l : forall kf g k,
  kf_get (kf_assign kf l) g k = match last_of l g k with Some v => Some v | None => kf_get kf g k end.
Proof.
  unfold kf_assign. induction l as [|[[g1 k1] v1] r IH]; intros kf g k; cbn [fold_left last_of]; [reflexivity|].
  rewrite IH, kf_get_set. destruct (last_of r g k); [reflexivity|].
  destruct (same_key g k g1 k1); reflexivity.
Qed.

(* the keys are different *)
Definition keys (kf : keyfile) : list (string * string) := map fst kf.

Lemma kf_set_keys kf g k v x : In x (keys (kf_set kf g k v)) <-> In x (keys kf) \/ x = (g, k).
Proof.
  unfold keys. induction kf as [|[[g1 k1] v1] r IH]; cbn [kf_set map In fst].
  - intuition congruence.
  - destruct (same_key g k g1 k1) eqn:E; cbn [map In fst].
    + apply same_key_true in E. destruct E as [<- <-]. intuition congruence.
    + rewrite IH. intuition congruence.
Qed.

Lemma kf_set_nodup kf g k v : NoDup (keys kf) -> NoDup (keys (kf_set kf g k v)).
Proof.
  induction kf as [|[[g1 k1] v1] r IH]; cbn [kf_set]; intros H.
  - repeat constructor. intros [].
  - inversion H as [|x y H1 H2]; subst. destruct (same_key g k g1 k1) eqn:E.
    + apply same_key_true in E. destruct E as [<- <-]. constructor; assumption.
    + cbn [keys map fst]. constructor; [|apply IH; exact H2].
      fold (keys (kf_set r g k v)). rewrite kf_set_keys. intros [Hi|Hi]; [exact (H1 Hi)|].
      inversion Hi; subst. rewrite same_key_refl in E. discriminate.
Qed.

Lemma kf_assign_nodup l : forall kf, NoDup (keys kf) -> NoDup (keys (kf_assign kf l)).
Proof.
  unfold kf_assign. induction l as [|[[g k] v] r IH]; intros kf H; cbn [fold_left]; [exact H|].
  apply IH. apply kf_set_nodup. exact H.
Qed.

Lemma nodup_last kf g k : NoDup (keys kf) -> last_of kf g k = kf_get kf g k.
Proof.
  induction kf as [|[[g1 k1] v1] r IH]; intros H; cbn [last_of kf_get]; [reflexivity|].
  inversion H as [|x y H1 H2]; subst. rewrite (IH H2).
  destruct (same_key g k g1 k1) eqn:E; [|destruct (kf_get r g k); reflexivity].
  apply same_key_true in E. destruct E as [<- <-].
  assert (N : kf_get r g k = None).
  { rewrite <- (IH H2). apply last_of_none. intros v Hv. apply H1.
    unfold keys. apply (in_map fst) in Hv. exact Hv. }
  rewrite N. reflexivity.
Qed.

Lemma kf_get_load a g k : kf_get (kf_load a) g k = last_of a g k.
Proof. unfold kf_load. rewrite kf_get_assign. destruct (last_of a g k); reflexivity. Qed.

Lemma kf_get_merge d a g k :
  kf_get (merge_keyfiles d (kf_load a)) g k =
  match last_of a g k with Some v => Some v | None => kf_get d g k end.
Proof.
  unfold merge_keyfiles. rewrite kf_get_assign.
  rewrite nodup_last by (apply kf_assign_nodup; constructor). rewrite kf_get_load. reflexivity.
Qed.

(* ------------------------------------------------------------------ *)
(* Files *)
Fixpoint last_file (files : list dirent) (g k : string) : option string :=
  match files with
  | [] => None
  | (_, _, c) :: r =>
    match last_file r g k with
    | Some v => Some v
    | None => match c with Some a => last_of a g k | None => None end
    end
  end.

Definition oget (o : option keyfile) (g k : string) : option string :=
  match o with Some f => kf_get f g k | None => None end.

Lemma overrides_get files : forall out g k,
  oget (load_overrides out files) g k =
  match last_file files g k with Some v => Some v | None => oget out g k end.
Proof.
  induction files as [|[[name reg] c] r IH]; intros out g k; cbn [load_overrides last_file]; [reflexivity|].
  destruct c as [a|].
  - rewrite IH. destruct (last_file r g k); [reflexivity|]. cbn [oget].
    destruct out as [o|]; cbn [oget].
    + rewrite kf_get_merge. reflexivity.
    + rewrite kf_get_load. destruct (last_of a g k); reflexivity.
  - rewrite IH. destruct (last_file r g k); reflexivity.
Qed.

Lemma leb_trans a b c : String.leb a b = true -> String.leb b c = true -> String.leb a c = true.
Proof.
  assert (Hchar : forall x y, Ascii.compare x y = Lt <-> (N_of_ascii x < N_of_ascii y)%N).
  { intros x y. unfold Ascii.compare. apply N.compare_lt_iff. }
  assert (Hceq : forall x y, Ascii.compare x y = Eq <-> x = y).
  { intros x y. split; [apply Ascii.compare_eq_iff|intros ->]. unfold Ascii.compare. apply N.compare_refl. }
  assert (Hle : forall a b, String.leb a b = true <-> String.compare a b <> Gt).
  { intros x y. unfold String.leb. destruct (String.compare x y); split; try discriminate; try reflexivity; intros H; try congruence. }
  rewrite !Hle. revert b c. induction a as [|x a IH]; intros b c.
  - destruct b, c; cbn; try discriminate; auto.
  - destruct b as [|y b]; [cbn; congruence|]. destruct c as [|z c]; [cbn; congruence|]. cbn.
    destruct (Ascii.compare x y) eqn:E1; [..|congruence].
    + apply Hceq in E1. subst y. destruct (Ascii.compare x z) eqn:E2; try congruence. intros H1 H2. eapply IH; eauto.
    + destruct (Ascii.compare y z) eqn:E2; [..|congruence].
      * apply Hceq in E2. subst z. rewrite E1. discriminate.
      * apply Hchar in E1, E2. assert (E3 : Ascii.compare x z = Lt) by (apply Hchar; eapply N.lt_trans; eassumption). rewrite E3. discriminate.
Qed.

Lemma leb_total a b : String.leb a b = true \/ String.leb b a = true.
Proof. apply String.leb_total. Qed.

Lemma leb_antisym a b : String.leb a b = true -> String.leb b a = true -> a = b.
Proof. apply String.leb_antisym. Qed.

Definition fname (e : dirent) : string := fst (fst e).

Lemma insert_in e l x : In x (insert_sorted e l) <-> x = e \/ In x l.
Proof.
  induction l as [|y r IH]; cbn [insert_sorted].
  - cbn. intuition congruence.
  - destruct (String.leb (fst (fst e)) (fst (fst y))); cbn [In]; [intuition congruence|].
    rewrite IH. intuition congruence.
Qed.

Lemma sort_in l x : In x (sort_files l) <-> In x l.
Proof.
  induction l as [|e r IH]; cbn [sort_files]; [reflexivity|]. rewrite insert_in, IH. cbn. intuition congruence.
Qed.

Fixpoint ordered (l : list dirent) : Prop :=
  match l with
  | [] => True
  | e :: r => Forall (fun x => String.leb (fname e) (fname x) = true) r /\ ordered r
  end.

Lemma insert_ordered e l : ordered l -> ordered (insert_sorted e l).
Proof.
  induction l as [|y r IH]; cbn [insert_sorted ordered]; intros H; [split; constructor|].
  destruct H as [H1 H2]. destruct (String.leb (fst (fst e)) (fst (fst y))) eqn:E; cbn [ordered].
  - split; [|split; assumption]. constructor; [exact E|].
    eapply Forall_impl; [|exact H1]. intros x Hx. eapply leb_trans; [exact E|exact Hx].
  - split; [|apply IH; exact H2]. apply Forall_forall. intros x Hx. apply insert_in in Hx.
    destruct Hx as [->|Hx].
    + destruct (leb_total (fname y) (fname e)) as [Hle|Hle]; [exact Hle|]. unfold fname in Hle. congruence.
    + rewrite Forall_forall in H1. apply H1. exact Hx.
Qed.

Lemma sort_ordered l : ordered (sort_files l).
Proof. induction l as [|e r IH]; cbn [sort_files]; [exact I|]. apply insert_ordered. exact IH. Qed.

Lemma last_file_some files g k v : ordered files -> last_file files g k = Some v ->
  exists name reg a, In (name, reg, Some a) files /\ last_of a g k = Some v /\
    forall name' reg' a' v', In (name', reg', Some a') files -> last_of a' g k = Some v' ->
      String.leb name' name = true.
Proof.
  induction files as [|[[name reg] c] r IH]; cbn [last_file ordered]; intros Ho H; [discriminate|].
  destruct Ho as [Ho1 Ho2]. destruct (last_file r g k) as [w|] eqn:L.
  - inversion H; subst. destruct (IH Ho2 eq_refl) as (n & rg & a & H1 & H2 & H3).
    exists n, rg, a. split; [right; exact H1|]. split; [exact H2|].
    intros n' r' a' v' [E|E] Hl; [|eapply H3; eauto].
    inversion E; subst. rewrite Forall_forall in Ho1. apply (Ho1 _ H1).
  - destruct c as [a|]; [|discriminate]. exists name, reg, a. split; [left; reflexivity|]. split; [exact H|].
    intros n' r' a' v' [E|E] Hl.
    + inversion E; subst. destruct (leb_total n' n'); assumption.
    + exfalso. assert (Hn : forall l, last_file l g k = None -> In (n', r', Some a') l -> last_of a' g k = None).
      { clear. induction l as [|[[x y] c] l IH]; cbn [last_file]; intros Hn [].
        - inversion H; subst. destruct (last_file l g k); [discriminate|]. exact Hn.
        - apply IH; [|assumption]. destruct (last_file l g k); [discriminate|reflexivity]. }
      rewrite (Hn _ L E) in Hl. discriminate.
Qed.

Lemma last_file_none files g k : last_file files g k = None <->
  forall name reg a, In (name, reg, Some a) files -> last_of a g k = None.
Proof.
  induction files as [|[[name reg] c] r IH]; cbn [last_file].
  - split; [intros _ ? ? ? []|reflexivity].
  - destruct (last_file r g k) as [w|] eqn:L.
    + split; [discriminate|]. intros H. exfalso. assert (N : Some w = None); [|discriminate].
      apply IH. intros n rg a Ha. eapply H. right; exact Ha.
    + split.
      * intros H n rg a [E|E]; [inversion E; subst; exact H|]. eapply (proj1 IH eq_refl). exact E.
      * intros H. destruct c as [a|]; [|reflexivity]. eapply H. left; reflexivity.
Qed.

(* Suffixes *)
Lemma substring_length n m s : (n + m <= String.length s)%nat -> String.length (substring n m s) = m.
Proof.
  revert n m. induction s as [|c s IH]; intros n m H; cbn in H.
  - assert (n = 0 /\ m = 0)%nat as [-> ->] by lia. reflexivity.
  - destruct n as [|n].
    + destruct m as [|m]; cbn; [reflexivity|]. rewrite IH by (cbn; lia). reflexivity.
    + cbn. apply IH. lia.
Qed.

Lemma substring_all s : substring 0 (String.length s) s = s.
Proof. induction s; cbn; [reflexivity|]. rewrite IHs. reflexivity. Qed.

Lemma substring_split n s : (n <= String.length s)%nat ->
  s = substring 0 n s ++ substring n (String.length s - n) s.
Proof.
  revert n. induction s as [|c s IH]; intros n H; cbn in H.
  - assert (n = 0)%nat as -> by lia. reflexivity.
  - destruct n as [|n]; cbn.
    + rewrite substring_all. reflexivity.
    + rewrite <- IH by lia. reflexivity.
Qed.

Lemma app_length s t : String.length (s ++ t) = (String.length s + String.length t)%nat.
Proof. induction s; cbn; congruence. Qed.

Lemma substring_app s t : substring (String.length s) (String.length t) (s ++ t) = t.
Proof. induction s; cbn; [apply substring_all|exact IHs]. Qed.

Lemma has_suffix_spec s suf : has_suffix s suf = true <-> exists base, s = base ++ suf.
Proof.
  unfold has_suffix. rewrite andb_true_iff, Nat.leb_le, String.eqb_eq. split.
  - intros [H1 H2]. exists (substring 0 (String.length s - String.length suf) s).
    rewrite <- H2 at 2. set (n := (String.length s - String.length suf)%nat).
    replace (String.length suf) with (String.length s - n)%nat by lia.
    apply substring_split. lia.
  - intros (base & ->). rewrite app_length. split; [lia|].
    replace (String.length base + String.length suf - String.length suf)%nat with (String.length base) by lia.
    apply substring_app.
Qed.

Lemma collect_override dir name reg a :
  In (name, reg, Some a) (collect_files dir ".conf") <-> reg = true /\ override_file dir name a.
Proof.
  unfold collect_files, override_file. rewrite sort_in, filter_In, andb_true_iff, has_suffix_spec.
  split.
  - intros [H1 [H2 ->]]. auto.
  - intros [-> [H1 H2]]. auto.
Qed.

(* ------------------------------------------------------------------ *)
(* Presets *)
Lemma apply_preset_get l : forall kf g k,
  kf_get (apply_preset kf l) g k =
  match kf_get kf g k with
  | Some v => Some v
  | None => kf_get l g k
  end.
Proof.
  unfold apply_preset. induction l as [|[[g1 k1] v1] r IH]; intros kf g k; cbn [fold_left kf_get].
  - destruct (kf_get kf g k); reflexivity.
  - rewrite IH. destruct (kf_get kf g1 k1) as [w|] eqn:E1.
    + destruct (kf_get kf g k) as [v|] eqn:E; [reflexivity|].
      destruct (same_key g k g1 k1) eqn:E2; [|reflexivity].
      apply same_key_true in E2. destruct E2 as [-> ->]. congruence.
    + rewrite kf_get_set. destruct (same_key g k g1 k1) eqn:E2; [|reflexivity].
      apply same_key_true in E2. destruct E2 as [-> ->]. rewrite E1. reflexivity.
Qed.

Definition preset_for (n : Z) : list assignment :=
  if (0 <? n)%Z then match find_preset n config_presets with Some p => p | None => [] end else [].

Lemma preset_implied n g k v : kf_get (preset_for n) g k = Some v <-> implied n g k v.
Proof.
  unfold preset_for, implied.
  assert (C : forall l, (kf_get l g k = Some v <-> implied n g k v) -> kf_get l g k = Some v <-> implied n g k v) by auto.
  destruct (Z.ltb_spec 0 n) as [H0|H0].
  2: { cbn [kf_get]. split; [discriminate|]. intros [_ [[_ H]|[_ H]]]; lia. }
  cbn [find_preset config_presets].
  assert (K : forall g' k' v', (kf_get [(g', k', v')] g k = Some v <-> g = g' /\ k = k' /\ v = v')).
  { intros. cbn [kf_get]. destruct (same_key g k g' k') eqn:E.
    - apply same_key_true in E. destruct E as [-> ->]. intuition congruence.
    - split; [discriminate|]. intros (-> & -> & _). rewrite same_key_refl in E. discriminate. }
  assert (KF : forall l : list assignment, NoDup (keys l) ->
    (kf_get l g k = Some v <-> In (g, k, v) l)).
  { clear. induction l as [|[[g1 k1] v1] r IH]; intros Hn; cbn [kf_get In]; [split; [discriminate|tauto]|].
    inversion Hn as [|x y N1 N2]; subst. destruct (same_key g k g1 k1) eqn:E.
    - apply same_key_true in E. destruct E as [<- <-]. split.
      + intros H; inversion H; auto.
      + intros [H|H]; [congruence|]. exfalso. apply N1. apply (in_map fst) in H. exact H.
    - rewrite (IH N2). split; [auto|]. intros [H|H]; [|exact H]. inversion H; subst.
      rewrite same_key_refl in E. discriminate. }
  assert (ND : NoDup (keys config_31) /\ NoDup (keys config_30) /\ NoDup (keys config_29) /\ NoDup (keys config_28)).
  { repeat split; cbn; repeat constructor; cbn; intuition discriminate. }
  destruct ND as (N1 & N2 & N3 & N4).
  destruct (Z.leb_spec 31 n); [rewrite (KF _ N1)|destruct (Z.leb_spec 30 n); [rewrite (KF _ N2)|
    destruct (Z.leb_spec 29 n); [rewrite (KF _ N3)|destruct (Z.leb_spec 28 n); [rewrite (KF _ N4)|]]]];
    cbn [In config_31 config_30 config_29 config_28 kf_get].
  1-4: (split;
    [ intros Hi; repeat (destruct Hi as [Hi|Hi]; [inversion Hi; subst; clear Hi|]); try contradiction;
      (split; [auto|]); (left; split; [reflexivity|]; lia) || (left; split; [reflexivity|]; intuition lia) || (right; split; [reflexivity|]; intuition lia)
    | intros [[->| ->] [[-> Hv]|[-> Hv]]];
      repeat match type of Hv with _ \/ _ => destruct Hv as [Hv|Hv] end; destruct Hv as [Hv1 ->]; try lia; auto 8 ]).
  split; [discriminate|]. intros [_ [[_ H9]|[_ H9]]]; lia.
Qed.

(* ------------------------------------------------------------------ *)
Section Files.
  Variables (to_int : string -> Z) (file : option (list assignment)) (dir : list dirent).
  Let merged : option keyfile :=
    load_overrides (match file with Some a => Some (kf_load a) | None => None end)
      (collect_files dir ".conf").

  (* names in a directory are unique *)
  Hypothesis Hdir : NoDup (map fname dir).

  Lemma dir_unique name r1 c1 r2 c2 :
    In (name, r1, c1) dir -> In (name, r2, c2) dir -> c1 = c2.
  Proof.
    revert Hdir. induction dir as [|e l IH]; intros Hn H1 H2; [destruct H1|].
    inversion Hn as [|x y N1 N2]; subst. destruct H1 as [->|H1], H2 as [H2|H2].
    - congruence.
    - exfalso. apply N1. apply (in_map fname) in H2. exact H2.
    - subst e. exfalso. apply N1. apply (in_map fname) in H1. exact H1.
    - apply IH; assumption.
  Qed.

  Lemma explicit_merged g k v : oget merged g k = Some v <-> explicit file dir g k v.
  Proof.
    unfold merged. rewrite overrides_get. unfold explicit.
    pose proof (sort_ordered (filter (fun '(name, regular, _) => has_suffix name ".conf" && regular) dir)) as Ho.
    fold (collect_files dir ".conf") in Ho.
    destruct (last_file (collect_files dir ".conf") g k) as [w|] eqn:L.
    - destruct (last_file_some _ _ _ _ Ho L) as (name & reg & a & H1 & H2 & H3).
      apply collect_override in H1. destruct H1 as [-> H1].
      split.
      + intros H; inversion H; subst. left. exists name, a. split; [exact H1|].
        split; [apply sets_last; exact H2|]. intros n' a' v' H4 H5. apply sets_last in H5.
        eapply (H3 n' true a' v'); [apply collect_override; auto|exact H5].
      + intros [(n & a2 & H4 & H5 & H6)|(H4 & _)].
        * apply sets_last in H5.
          assert (En : n = name).
          { apply leb_antisym.
            - eapply (H3 n true a2 v); [apply collect_override; auto|exact H5].
            - eapply (H6 name a w); [exact H1|apply sets_last; exact H2]. }
          subst n. assert (Some a = Some a2) by (eapply dir_unique; [apply H1|apply H4]). congruence.
        * exfalso. apply (H4 name a w H1). apply sets_last. exact H2.
    - assert (Hno : forall n a v', override_file dir n a -> ~ sets a g k v').
      { intros n a v' H1 H2. apply sets_last in H2. pose proof (proj1 (last_file_none _ _ _) L) as Hn.
        rewrite (Hn n true a) in H2; [discriminate|]. apply collect_override. auto. }
      split.
      + intros H. right. split; [exact Hno|]. destruct file as [a|]; [|discriminate].
        exists a. split; [reflexivity|]. apply sets_last. cbn [oget] in H. rewrite kf_get_load in H. exact H.
      + intros [(n & a2 & H4 & H5 & _)|(_ & a & -> & H5)].
        * exfalso. eapply Hno; eauto.
        * cbn [oget]. rewrite kf_get_load. apply sets_last. exact H5.
  Qed.

  Lemma explicit_none g k : oget merged g k = None <-> forall v, ~ explicit file dir g k v.
  Proof.
    split.
    - intros H v Hv. apply explicit_merged in Hv. congruence.
    - intros H. destruct (oget merged g k) as [v|] eqn:E; [|reflexivity].
      exfalso. apply (H v). apply explicit_merged. exact E.
  Qed.

  Theorem precedence g k v :
    config_value (load_files to_int file dir) g k = Some v <-> effective to_int file dir g k v.
  Proof.
    unfold load_files, config_value, effective. fold merged.
    destruct merged as [out|] eqn:Em.
    - set (n := match kf_get out "General" "ApiLevel" with Some s => to_int s | None => 0%Z end).
      assert (Hlevel : forall m, api_level to_int file dir m <-> m = n).
      { intros m. unfold api_level, n.
        pose proof (explicit_merged "General" "ApiLevel") as X1.
        pose proof (explicit_none "General" "ApiLevel") as X2. rewrite Em in X1, X2. cbn [oget] in X1, X2.
        destruct (kf_get out "General" "ApiLevel") as [s|].
        - split.
          + intros [(u & H1 & ->)|[H1 _]]; [|exfalso; apply (H1 s), X1; reflexivity].
            apply X1 in H1. congruence.
          + intros ->. left. exists s. split; [apply X1; reflexivity|reflexivity].
        - split.
          + intros [(u & H1 & _)|[_ H1]]; [apply X1 in H1; discriminate|exact H1].
          + intros ->. right. split; [apply X2; reflexivity|reflexivity]. }
      assert (Hget : kf_get (with_presets to_int out) g k =
        match kf_get out g k with Some w => Some w | None => kf_get (preset_for n) g k end).
      { unfold with_presets, preset_for. fold n. destruct (0 <? n)%Z.
        - destruct (find_preset n config_presets) as [p|].
          + apply apply_preset_get.
          + destruct (kf_get out g k); reflexivity.
        - destruct (kf_get out g k); reflexivity. }
      rewrite Hget. pose proof (explicit_merged g k) as X1. pose proof (explicit_none g k) as X2.
      rewrite Em in X1, X2. cbn [oget] in X1, X2.
      destruct (kf_get out g k) as [w|].
      + rewrite <- X1. split; [auto|]. intros [H|[H _]]; [exact H|]. exfalso. apply (H w), X1. reflexivity.
      + rewrite preset_implied. split.
        * intros H. right. split; [apply X2; reflexivity|]. exists n. split; [apply Hlevel; reflexivity|exact H].
        * intros [H|(_ & m & H1 & H2)]; [apply X1 in H; discriminate|]. apply Hlevel in H1. subst m. exact H2.
    - split; [discriminate|]. pose proof (explicit_merged g k) as X1. rewrite Em in X1. cbn [oget] in X1.
      intros [H|(_ & n & H1 & H2)]; [apply X1 in H; discriminate|].
      assert (n = 0%Z).
      { destruct H1 as [(u & H3 & _)|[_ H3]]; [|exact H3].
        apply explicit_merged in H3. rewrite Em in H3. discriminate. }
      subst n. destruct H2 as [_ [[_ H2]|[_ H2]]]; lia.
  Qed.
End Files.

(* ------------------------------------------------------------------ *)
(* Choices *)
Section Table.
  Context {A : Type}.
  Implicit Type t : table A.

  Lemma lookup_remove t k k' : ht_lookup (ht_remove t k) k' = if k' =? k then None else ht_lookup t k'.
  Proof.
    induction t as [|[k1 a] r IH]; cbn [ht_remove filter ht_lookup fst].
    - destruct (k' =? k); reflexivity.
    - fold (ht_remove r k). destruct (String.eqb_spec k k1) as [->|Hne]; cbn [negb].
      + rewrite IH. destruct (k' =? k1); reflexivity.
      + cbn [ht_lookup]. rewrite IH. destruct (String.eqb_spec k' k1) as [->|Hne2]; [|reflexivity].
        destruct (String.eqb_spec k1 k); [congruence|reflexivity].
  Qed.

  Lemma lookup_insert t k a k' : ht_lookup (ht_insert t k a) k' = if k' =? k then Some a else ht_lookup t k'.
  Proof.
    unfold ht_insert. cbn [ht_lookup]. destruct (k' =? k) eqn:E; [reflexivity|]. rewrite lookup_remove, E. reflexivity.
  Qed.

  Lemma lookup_default t d a k : ht_lookup (map_add_default t d a) k =
    match ht_lookup t k with Some x => Some x | None => if k =? d then Some a else None end.
  Proof.
    unfold map_add_default. destruct (ht_lookup t d) as [x|] eqn:E.
    - destruct (ht_lookup t k) as [y|] eqn:E2; [reflexivity|].
      destruct (String.eqb_spec k d); [congruence|reflexivity].
    - rewrite lookup_insert. destruct (String.eqb_spec k d) as [->|]; [rewrite E; reflexivity|].
      destruct (ht_lookup t k); reflexivity.
  Qed.

  Lemma config_load_fold group (mapper : string -> option A) (kf : keyfile) : forall t dev,
    NoDup (keys kf) ->
    ht_lookup (fold_left (fun t '(g, dev, sval) =>
      if g =? group then
        match mapper sval with Some val => ht_insert t dev val | None => t end
      else t) kf t) dev =
    match kf_get kf group dev with
    | Some v => match mapper v with Some a => Some a | None => ht_lookup t dev end
    | None => ht_lookup t dev
    end.
  Proof.
    induction kf as [|[[g k] v] r IH]; intros t dev Hn; cbn [fold_left kf_get]; [reflexivity|].
    inversion Hn as [|x y N1 N2]; subst. rewrite (IH _ _ N2). unfold same_key.
    rewrite (String.eqb_sym group g).
    destruct (String.eqb_spec g group) as [->|Hg]; cbn [andb]; [|reflexivity].
    destruct (String.eqb_spec dev k) as [->|Hk].
    - assert (E : kf_get r group k = None).
      {
        rewrite <- nodup_last by exact N2. apply last_of_none. intros w Hw. apply N1.
        apply (in_map fst) in Hw. exact Hw. }
      rewrite E. destruct (mapper v); [|reflexivity]. rewrite lookup_insert, String.eqb_refl. reflexivity.
    - destruct (mapper v) as [a|]; [|reflexivity]. rewrite lookup_insert.
      destruct (String.eqb_spec dev k); [contradiction|]. reflexivity.
  Qed.

  Lemma config_load_get group (mapper : string -> option A) kf dev :
    (forall k, kf = Some k -> NoDup (keys k)) ->
    ht_lookup (config_load kf group mapper) dev =
    match config_value kf group dev with Some v => mapper v | None => None end.
  Proof.
    intros Hn. unfold config_load, config_value. destruct kf as [k|]; [|reflexivity].
    rewrite config_load_fold by (apply Hn; reflexivity). cbn [ht_lookup].
    destruct (kf_get k group dev) as [v|]; [|reflexivity]. destruct (mapper v); reflexivity.
  Qed.
End Table.

Lemma apply_preset_nodup l : forall kf, NoDup (keys kf) -> NoDup (keys (apply_preset kf l)).
Proof.
  unfold apply_preset. induction l as [|[[g k] v] r IH]; intros kf H; cbn [fold_left]; [exact H|].
  apply IH. destruct (kf_get kf g k); [exact H|]. apply kf_set_nodup. exact H.
Qed.

Lemma load_files_nodup to_int file dir kf :
  load_files to_int file dir = Some kf -> NoDup (keys kf).
Proof.
  unfold load_files.
  assert (Hl : forall files out, (forall k, out = Some k -> NoDup (keys k)) ->
    forall k, load_overrides out files = Some k -> NoDup (keys k)).
  { induction files as [|[[n rg] [a|]] r IH]; intros out Ho k; cbn [load_overrides].
    - apply Ho.
    - apply IH. intros k1 H; inversion H; subst. destruct out as [o|].
      + apply kf_assign_nodup. apply Ho. reflexivity.
      + apply kf_assign_nodup. constructor.
    - apply IH. exact Ho. }
  destruct (load_overrides _ _) as [out|] eqn:E; [|discriminate]. intros H; inversion H; subst.
  assert (Hn : NoDup (keys out)).
  { eapply Hl; [|exact E]. intros k Hk. destruct file as [a|]; [|discriminate]. inversion Hk; subst.
    apply kf_assign_nodup. constructor. }
  unfold with_presets. destruct (_ <? _)%Z; [|exact Hn].
  destruct (find_preset _ _); [|exact Hn]. apply apply_preset_nodup. exact Hn.
Qed.

Lemma lower_same c : same_letter c (ascii_lower c).
Proof.
  destruct c as [[] [] [] [] [] [] [] []];
    first [left; reflexivity
          |right; match goal with |- exists _ _ _, _ /\ _ /\ ((?c = _ /\ _) \/ _) => exists (nat_of_ascii c - 65)%nat end;
           do 2 eexists; split; [reflexivity|]; split; [reflexivity|]; left; split; reflexivity].
Qed.
Lemma same_lower c d : same_letter c d -> ascii_lower c = ascii_lower d.
Proof.
  intros [<-|(i & x & y & X & Y & H)]; [reflexivity|].
  do 26 (destruct i as [|i]; [cbn in X, Y; injection X as <-; injection Y as <-; destruct H as [(-> & ->)|(-> & ->)]; reflexivity|]).
  cbn in X. destruct i; discriminate.
Qed.
Lemma lower_name p : lower (protocol_name p) = protocol_name p.
Proof. destruct p; reflexivity. Qed.
Lemma lower_known v p : protocol_known v p <-> lower v = protocol_name p.
Proof.
  unfold protocol_known. split.
  - intros H. rewrite <- lower_name. revert H. generalize (protocol_name p). induction v as [|c v IH]; intros [|d n] H; cbn in *;
      inversion H; subst; [reflexivity|]. f_equal; [now apply same_lower|]. now apply IH.
  - intros <-. clear p. induction v as [|c v IH]; cbn; constructor; auto. apply lower_same.
Qed.

Lemma protocol_find_known v p : protocol_find v = Some p <-> protocol_known v p.
Proof.
  rewrite lower_known. unfold protocol_find, protocol_list. cbn [protocol_find_in].
  change (lower "aidl") with "aidl". change (lower "aidl2") with "aidl2".
  change (lower "aidl3") with "aidl3". change (lower "hidl") with "hidl".
  generalize (lower v). intros s.
  repeat match goal with |- context [?x =? s] => destruct (String.eqb_spec x s) as [<-|] end;
    destruct p; cbn [protocol_name]; split; intros H; try discriminate; try reflexivity; try congruence.
Qed.

Lemma sm_find_known v t : sm_value_map v = Some t <-> sm_known v t.
Proof.
  unfold sm_value_map, sm_types, sm_known. cbn [ht_lookup].
  repeat match goal with |- context [v =? ?x] => destruct (String.eqb_spec v x) as [->|] end;
    destruct t; cbn [sm_name]; split; intros H; try discriminate; try reflexivity; try congruence.
Qed.

(* One-time initialisation, in general *)
Definition first_choice {A} (map : table A) (default : A) : choice A :=
  match ht_lookup map "Default" with
  | Some p => (Some (ht_remove map "Default"), p)
  | None => (Some map, default)
  end.
Definition choose {A} (st : choice A) (dev : string) : A :=
  match fst st with
  | Some map => match ht_lookup map dev with Some p => p | None => snd st end
  | None => snd st
  end.

Lemma choose_chosen {A} (known : string -> A -> Prop) (mapper : string -> option A) kf group d1 a1 d2 a2 default dev :
  (forall v a, mapper v = Some a <-> known v a) -> d1 <> "Default" -> d2 <> "Default" -> d1 <> d2 ->
  (forall k, kf = Some k -> NoDup (keys k)) ->
  let map := map_add_default (map_add_default (config_load kf group mapper) d1 a1) d2 a2 in
  forall a, choose (first_choice map default) dev = a <->
    chosen known (config_value kf group) [(d1, a1); (d2, a2)] default dev a.
Proof.
  intros Hk H1 H2 H12 Hn map a.
  assert (Hget : forall k, ht_lookup map k =
    match config_value kf group k with
    | Some v => match mapper v with Some x => Some x | None => if k =? d1 then Some a1 else if k =? d2 then Some a2 else None end
    | None => if k =? d1 then Some a1 else if k =? d2 then Some a2 else None end).
  { intros k. unfold map. rewrite !lookup_default, config_load_get by exact Hn.
    destruct (config_value kf group k) as [v|]; [destruct (mapper v); [reflexivity|]|];
      (destruct (k =? d1); [reflexivity|]; reflexivity). }
  assert (Hconf : forall d, (exists x, (exists v, config_value kf group d = Some v /\ known v x) /\
       match config_value kf group d with Some v => mapper v | None => None end = Some x) \/
     (forall x, ~ exists v, config_value kf group d = Some v /\ known v x) /\
       match config_value kf group d with Some v => mapper v | None => None end = None).
  { intros d. destruct (config_value kf group d) as [v|].
    - destruct (mapper v) as [x|] eqn:E.
      + left. exists x. split; [|reflexivity]. exists v. split; [reflexivity|apply Hk; exact E].
      + right. split; [|reflexivity]. intros x (w & Hw & Hx). inversion Hw; subst. apply Hk in Hx. congruence.
    - right. split; [|reflexivity]. intros x (w & Hw & _). discriminate. }
  assert (Hfun : forall d x y, (exists v, config_value kf group d = Some v /\ known v x) ->
     (exists v, config_value kf group d = Some v /\ known v y) -> x = y).
  { intros d x y (v & E1 & K1) (w & E2 & K2). assert (v = w) by congruence. subst w.
    apply Hk in K1, K2. congruence. }
  assert (Hdef : snd (first_choice map default) =
    match match config_value kf group "Default" with Some v => mapper v | None => None end with
    | Some x => x | None => default end).
  { unfold first_choice. rewrite Hget.
    destruct (String.eqb_spec "Default" d1); [congruence|]. destruct (String.eqb_spec "Default" d2); [congruence|].
    destruct (config_value kf group "Default") as [v|]; [destruct (mapper v)|]; reflexivity. }
  assert (Hch : choose (first_choice map default) dev =
    match match config_value kf group dev with Some v => mapper v | None => None end with
    | Some x => x
    | None => if dev =? d1 then a1 else if dev =? d2 then a2 else snd (first_choice map default)
    end).
  { unfold choose.
    assert (Hmap : exists t, fst (first_choice map default) = Some t /\
      forall k, k <> "Default" -> ht_lookup t k = ht_lookup map k).
    { unfold first_choice. destruct (ht_lookup map "Default") as [x|].
      - exists (ht_remove map "Default"). split; [reflexivity|]. intros k Hne. rewrite lookup_remove.
        destruct (String.eqb_spec k "Default"); [contradiction|reflexivity].
      - exists map. auto. }
    destruct (String.eqb_spec dev "Default") as [->|Hd].
    - destruct (String.eqb_spec "Default" d1); [congruence|]. destruct (String.eqb_spec "Default" d2); [congruence|].
      unfold first_choice. rewrite Hget.
      destruct (String.eqb_spec "Default" d1); [congruence|]. destruct (String.eqb_spec "Default" d2); [congruence|].
      destruct (config_value kf group "Default") as [v|] eqn:Ev; [destruct (mapper v) as [x|] eqn:Em|]; cbn [fst snd];
        rewrite ?lookup_remove; try reflexivity.
      + rewrite Hget, Ev, Em.
        destruct (String.eqb_spec "Default" d1); [congruence|]. destruct (String.eqb_spec "Default" d2); [congruence|]. reflexivity.
      + rewrite Hget, Ev.
        destruct (String.eqb_spec "Default" d1); [congruence|]. destruct (String.eqb_spec "Default" d2); [congruence|]. reflexivity.
    - destruct Hmap as (t & -> & Ht). rewrite (Ht dev Hd), Hget.
      destruct (config_value kf group dev) as [v|]; [destruct (mapper v); [reflexivity|]|];
        (destruct (dev =? d1); [reflexivity|]; destruct (dev =? d2); reflexivity). }
  rewrite Hch, Hdef. unfold chosen.
  destruct (Hconf dev) as [(x & Hx & ->)|(Hx & ->)].
  - split.
    + intros <-. left. exact Hx.
    + intros [H|[H _]]; [apply (Hfun dev x a Hx H)|]. exfalso. apply (H x Hx).
  - assert (Hb : (exists x, In (dev, x) [(d1, a1); (d2, a2)] /\
        (forall y, In (dev, y) [(d1, a1); (d2, a2)] -> y = x) /\
        (if dev =? d1 then a1 else if dev =? d2 then a2 else
         match match config_value kf group "Default" with Some v => mapper v | None => None end with
         | Some x => x | None => default end) = x) \/
      ((forall x, ~ In (dev, x) [(d1, a1); (d2, a2)]) /\ (dev =? d1) = false /\ (dev =? d2) = false)).
    { cbn [In]. destruct (String.eqb_spec dev d1) as [->|N1].
      - left. exists a1. split; [auto|]. split; [|reflexivity]. intros y [E|[E|[]]]; congruence.
      - destruct (String.eqb_spec dev d2) as [->|N2].
        + left. exists a2. split; [auto|]. split; [|reflexivity]. intros y [E|[E|[]]]; congruence.
        + right. split; [|auto]. intros x [E|[E|[]]]; congruence. }
    destruct Hb as [(x & B1 & B2 & ->)|(B1 & -> & ->)].
    + split.
      * intros <-. right. split; [exact Hx|]. left. exact B1.
      * intros [H|[_ [H|[H _]]]]; [exfalso; apply (Hx a H)|symmetry; apply B2; exact H|exfalso; apply (H x B1)].
    + destruct (Hconf "Default") as [(x & Hd & ->)|(Hd & ->)].
      * split.
        -- intros <-. right. split; [exact Hx|]. right. split; [exact B1|]. left. exact Hd.
        -- intros [H|[_ [H|[_ [H|[H _]]]]]];
             [exfalso; apply (Hx a H)|exfalso; apply (B1 a H)|apply (Hfun "Default" x a Hd H)|exfalso; apply (H x Hd)].
      * split.
        -- intros <-. right. split; [exact Hx|]. right. split; [exact B1|]. right. split; [exact Hd|reflexivity].
        -- intros [H|[_ [H|[_ [H|[_ H]]]]]];
             [exfalso; apply (Hx a H)|exfalso; apply (B1 a H)|exfalso; apply (Hd a H)|symmetry; exact H].
Qed.

Definition protocol_ready (kf : option keyfile) (st : choice protocol) : Prop :=
  fst st = None \/ st = first_choice (protocol_load_config kf) Aidl.
Definition sm_ready (kf : option keyfile) (st : choice sm_kind) : Prop :=
  fst st = None \/ st = first_choice (sm_load_config kf) SmAidl.

Lemma protocol_step kf st dev : protocol_ready kf st ->
  protocol_for_device kf st (Some dev) =
    (choose (first_choice (protocol_load_config kf) Aidl) dev, first_choice (protocol_load_config kf) Aidl).
Proof.
  intros [H|H]; unfold protocol_for_device.
  - rewrite H. reflexivity.
  - assert (E : exists t, fst st = Some t).
    { rewrite H. unfold first_choice. destruct (ht_lookup _ _); eexists; reflexivity. }
    destruct E as (t & E). rewrite E. rewrite <- H. unfold choose. rewrite E. reflexivity.
Qed.

Lemma sm_step kf st dev : sm_ready kf st ->
  sm_choose kf st dev None =
    (Some (choose (first_choice (sm_load_config kf) SmAidl) dev), first_choice (sm_load_config kf) SmAidl).
Proof.
  intros [H|H]; unfold sm_choose.
  - rewrite H. reflexivity.
  - assert (E : exists t, fst st = Some t).
    { rewrite H. unfold first_choice. destruct (ht_lookup _ _); eexists; reflexivity. }
    destruct E as (t & E). rewrite E. rewrite <- H. unfold choose. rewrite E. reflexivity.
Qed.

Lemma protocol_lookups_ready kf devs : forall st, protocol_ready kf st ->
  forall n dev, nth_error devs n = Some (Some dev) ->
  nth_error (protocol_lookups kf st devs) n = Some (choose (first_choice (protocol_load_config kf) Aidl) dev).
Proof.
  induction devs as [|d r IH]; intros st Hs n dev Hn; [destruct n; discriminate|].
  cbn [protocol_lookups]. destruct d as [d|].
  - rewrite (protocol_step kf st d Hs). destruct n as [|n]; cbn [nth_error] in *.
    + inversion Hn; subst. reflexivity.
    + apply IH; [right; reflexivity|exact Hn].
  - cbn [protocol_for_device]. destruct n as [|n]; cbn [nth_error] in *; [discriminate|]. apply IH; assumption.
Qed.

Theorem protocol_choice to_int file dir devs n dev :
  nth_error devs n = Some (Some dev) ->
  let kf := load_files to_int file dir in
  exists p, nth_error (protocol_lookups kf protocol_init devs) n = Some p /\
    chosen protocol_known (config_value kf "Protocol")
      [("/dev/binder", Aidl); ("/dev/hwbinder", Hidl)] Aidl dev p.
Proof.
  intros Hn kf. eexists. split; [apply (protocol_lookups_ready kf devs protocol_init); [left; reflexivity|exact Hn]|].
  eapply (choose_chosen protocol_known protocol_find kf "Protocol" "/dev/binder" Aidl "/dev/hwbinder" Hidl Aidl dev);
    try discriminate; [apply protocol_find_known| |reflexivity].
  intros k Hk. eapply load_files_nodup. exact Hk.
Qed.

Lemma sm_lookups_ready kf qs : forall st, sm_ready kf st ->
  forall n dev name, nth_error qs n = Some (dev, name) ->
  nth_error (sm_lookups kf st qs) n = Some match name with
    | Some s => sm_value_map s
    | None => Some (choose (first_choice (sm_load_config kf) SmAidl) dev) end.
Proof.
  induction qs as [|[d q] r IH]; intros st Hs n dev name Hn; [destruct n; discriminate|].
  cbn [sm_lookups]. destruct q as [q|].
  - cbn [sm_choose]. destruct n as [|n]; cbn [nth_error] in *.
    + inversion Hn; subst. reflexivity.
    + apply IH; assumption.
  - rewrite (sm_step kf st d Hs). destruct n as [|n]; cbn [nth_error] in *.
    + inversion Hn; subst. reflexivity.
    + apply IH; [right; reflexivity|exact Hn].
Qed.

Theorem sm_choice to_int file dir qs n dev name :
  nth_error qs n = Some (dev, name) ->
  let kf := load_files to_int file dir in
  exists t, nth_error (sm_lookups kf sm_init qs) n = Some t /\
    match name with
    | Some s => forall k, t = Some k <-> s = sm_name k
    | None => exists k, t = Some k /\
        chosen sm_known (config_value kf "ServiceManager")
          [("/dev/binder", SmAidl); ("/dev/hwbinder", SmHidl)] SmAidl dev k
    end.
Proof.
  intros Hn kf. eexists. split; [apply (sm_lookups_ready kf qs sm_init); [left; reflexivity|exact Hn]|].
  destruct name as [s|].
  - intros k. apply sm_find_known.
  - eexists. split; [reflexivity|].
    eapply (choose_chosen sm_known sm_value_map kf "ServiceManager" "/dev/binder" SmAidl "/dev/hwbinder" SmHidl SmAidl dev);
      try discriminate; [apply sm_find_known| |reflexivity].
    intros k Hk. eapply load_files_nodup. exact Hk.
Qed.
