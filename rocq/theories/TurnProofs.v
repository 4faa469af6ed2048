(* Proofs about loopers which wait *)
From Verif Require Import Base TurnModel TurnSpec.

Lemma run_app s l1 l2 : run s (l1 ++ l2) = match run s l1 with Some s1 => run s1 l2 | None => None end.
Proof.
  revert s. induction l1 as [|m l1 IH]; intros s; [reflexivity|]. cbn [Datatypes.app run].
  destruct (step s m); [apply IH|reflexivity].
Qed.
Lemma run_snoc s l m s2 : run s (l ++ [m]) = Some s2 -> exists s1, run s l = Some s1 /\ step s1 m = Some s2.
Proof.
  rewrite run_app. destruct (run s l) as [s1|]; [|discriminate]. cbn [run]. intros H. exists s1. split; [reflexivity|].
  destruct (step s1 m); congruence.
Qed.

Lemma put_same s i x : lps (put s i x) i = x.
Proof. cbn. rewrite Nat.eqb_refl. reflexivity. Qed.
Lemma put_other s i j x : j <> i -> lps (put s i x) j = lps s j.
Proof. intros H. cbn. destruct (Nat.eqb_spec j i); [contradiction|reflexivity]. Qed.

(* What a step does to one looper: the cases *)
Inductive change (s : state) (i : nat) : move -> looper -> Prop :=
| ChNone m : own i m = false -> m <> MFlag i -> m <> MPipe i -> change s i m (lps s i)
| ChPoll err rev : ph (lps s i) = Polling ->
    (0 < work s \/ err = true \/ pipe (lps s i) = true) -> rev = (if pipe (lps s i) then 1 else 0) ->
    change s i (MPoll i err) (Looper (Polled ((if 0 <? work s then 1 else 0) + (if err then 8 else 0)) rev) (exit_ (lps s i)) (pipe (lps s i)))
| ChSignal : ph (lps s i) = Polling -> change s i (MSignal i) (Looper (Polled (-1) 0) (exit_ (lps s i)) (pipe (lps s i)))
| ChTest res rev : ph (lps s i) = Polled res rev ->
    change s i (MTest i) (Looper (if goes_on (lps s i) res then if negb (Z.land res 1 =? 0) then Reading rev else HasRead rev else Out)
      (exit_ (lps s i)) (pipe (lps s i)))
| ChRead rev : ph (lps s i) = Reading rev -> 0 < work s ->
    change s i (MRead i true) (Looper (HasRead rev) (exit_ (lps s i)) (pipe (lps s i)))
| ChFail rev : ph (lps s i) = Reading rev -> change s i (MRead i false) (Looper Out (exit_ (lps s i)) (pipe (lps s i)))
| ChAfter rev : ph (lps s i) = HasRead rev ->
    change s i (MAfter i) (Looper (if negb (rev =? 0) || exit_ (lps s i) then Out else Polling) (exit_ (lps s i)) (pipe (lps s i)))
| ChFlag : change s i (MFlag i) (Looper (ph (lps s i)) true (pipe (lps s i)))
| ChPipe : exit_ (lps s i) = true -> change s i (MPipe i) (Looper (ph (lps s i)) true true).

Lemma step_change s m s1 i : step s m = Some s1 -> change s i m (lps s1 i).
Proof.
  intros H. destruct m as [|j err|j|j|j ok|j|j|j]; cbn [step] in H.
  - injection H as <-. cbn [set_work lps]. apply ChNone; [reflexivity|discriminate..].
  - unfold poll_end in H. destruct (ph (lps s j)) eqn:Ep; try discriminate.
    unfold k_poll in H. 
    destruct (_ && _) eqn:E in H; [discriminate|]. cbn [driver_poll] in H. injection H as <-.
    destruct (Nat.eq_dec i j) as [->|Hn].
    + unfold goto. rewrite put_same. apply (ChPoll s j err (if pipe (lps s j) then 1 else 0)); [exact Ep| |reflexivity].
      destruct (Z.ltb_spec 0 (work s)); [left; lia|]. destruct err; [right; left; reflexivity|].
      destruct (pipe (lps s j)); [right; right; reflexivity|]. discriminate.
    + unfold goto. rewrite put_other by exact Hn. apply ChNone; [cbn; apply Nat.eqb_neq; congruence|discriminate..].
  - unfold poll_interrupted in H. destruct (ph (lps s j)) eqn:Ep; try discriminate. cbn [driver_poll] in H. injection H as <-.
    destruct (Nat.eq_dec i j) as [->|Hn]; unfold goto.
    + rewrite put_same. apply ChSignal. exact Ep.
    + rewrite put_other by exact Hn. apply ChNone; [cbn; apply Nat.eqb_neq; congruence|discriminate..].
  - unfold test in H. destruct (ph (lps s j)) eqn:Ep; try discriminate. injection H as <-.
    destruct (Nat.eq_dec i j) as [->|Hn]; unfold goto.
    + rewrite put_same. exact (ChTest s j res revents Ep).
    + rewrite put_other by exact Hn. apply ChNone; [cbn; apply Nat.eqb_neq; congruence|discriminate..].
  - unfold read_end in H. destruct (ph (lps s j)) eqn:Ep; try discriminate.
    destruct ok; [destruct (Z.ltb_spec 0 (work s)); [|discriminate]|]; injection H as <-;
    (destruct (Nat.eq_dec i j) as [->|Hn]; unfold goto, set_work; cbn [lps];
     [cbn [put lps]; rewrite Nat.eqb_refl|cbn [put lps]; destruct (Nat.eqb_spec i j); [contradiction|]]).
    + apply (ChRead s j revents); assumption.
    + apply ChNone; [cbn; apply Nat.eqb_neq; congruence|discriminate..].
    + apply (ChFail s j revents); assumption.
    + apply ChNone; [cbn; apply Nat.eqb_neq; congruence|discriminate..].
  - unfold after in H. destruct (ph (lps s j)) eqn:Ep; try discriminate. injection H as <-.
    destruct (Nat.eq_dec i j) as [->|Hn]; unfold goto.
    + rewrite put_same. exact (ChAfter s j revents Ep).
    + rewrite put_other by exact Hn. apply ChNone; [cbn; apply Nat.eqb_neq; congruence|discriminate..].
  - unfold stop_flag in H. injection H as <-. destruct (Nat.eq_dec i j) as [->|Hn].
    + rewrite put_same. apply ChFlag.
    + rewrite put_other by exact Hn. apply ChNone; [reflexivity|congruence..].
  - unfold stop_pipe in H. destruct (exit_ (lps s j)) eqn:Ee; [|discriminate]. injection H as <-.
    destruct (Nat.eq_dec i j) as [->|Hn].
    + rewrite put_same. apply ChPipe. exact Ee.
    + rewrite put_other by exact Hn. apply ChNone; [reflexivity|congruence..].
Qed.

(* The flag and the pipe *)
Lemma exit_stays s m s1 i : step s m = Some s1 -> exit_ (lps s i) = true -> exit_ (lps s1 i) = true.
Proof. intros H E. pose proof (step_change s m s1 i H) as C. inversion C; cbn; congruence. Qed.
Lemma pipe_stays s m s1 i : step s m = Some s1 -> pipe (lps s i) = true -> pipe (lps s1 i) = true.
Proof. intros H E. pose proof (step_change s m s1 i H) as C. inversion C; cbn; congruence. Qed.

Lemma told_state l s i : run init l = Some s -> 
  (In (MFlag i) l -> exit_ (lps s i) = true) /\ (In (MPipe i) l -> pipe (lps s i) = true).
Proof.
  revert s. induction l as [|m l IH] using rev_ind; intros s H; [split; intros []|].
  apply run_snoc in H. destruct H as (s1 & H1 & H2). destruct (IH s1 H1) as (A & B).
  split; intros Hin; apply in_app_iff in Hin; destruct Hin as [Hin|[->|[]]].
  - apply (exit_stays _ _ _ _ H2). auto.
  - pose proof (step_change s1 _ s i H2) as C. inversion C; subst; cbn in *; congruence.
  - apply (pipe_stays _ _ _ _ H2). auto.
  - pose proof (step_change s1 _ s i H2) as C. inversion C; subst; cbn in *; congruence.
Qed.
(* ... and the other way round *)
Lemma not_told l s i : run init l = Some s ->
  (exit_ (lps s i) = true -> In (MFlag i) l) /\ (pipe (lps s i) = true -> In (MFlag i) l /\ In (MPipe i) l).
Proof.
  revert s. induction l as [|m l IH] using rev_ind; intros s H; [injection H as <-; split; discriminate|].
  apply run_snoc in H. destruct H as (s1 & H1 & H2). destruct (IH s1 H1) as (A & B).
  pose proof (step_change s1 _ s i H2) as C. rewrite !in_app_iff.
  inversion C as [m1 C1 C2 C3 C4 C5| | | | | | | | ]; subst; cbn [exit_ pipe]; try (rewrite <- C5);
    (split; [intros E; try (left; auto; fail); try (right; left; reflexivity)
            |intros E; try (destruct (B E) as (B1 & B2); split; left; assumption)]).
  split; [left; auto|right; left; reflexivity].
Qed.

(* How much a looper does after it has been told to exit *)
Definition left_to_do (p : phase) : nat :=
  match p with Polling => 2 | Polled _ _ => 1 | Reading _ => 2 | HasRead _ => 1 | Out => 0 end.
Lemma does_less s m s1 i : step s m = Some s1 -> exit_ (lps s i) = true ->
  (left_to_do (ph (lps s1 i)) + (if own i m then 1 else 0) <= left_to_do (ph (lps s i)))%nat.
Proof.
  intros H E. pose proof (step_change s m s1 i H) as C.
  inversion C as [m1 C1 C2 C3 C4 C5| | | | | | | | ]; subst; cbn [own]; rewrite ?Nat.eqb_refl; cbn [ph left_to_do];
    repeat match goal with Q : ph (lps s i) = _ |- _ => rewrite Q; clear Q end; cbn [left_to_do]; try lia.
  - rewrite C1; try rewrite <- C5; lia.
  - unfold goes_on. rewrite E. cbn [negb andb left_to_do]. lia.
  - rewrite E, orb_true_r. cbn [left_to_do]. lia.
Qed.
Lemma does_little l : forall s s2 i, run s l = Some s2 -> exit_ (lps s i) = true ->
  (left_to_do (ph (lps s2 i)) + own_steps i l <= left_to_do (ph (lps s i)))%nat.
Proof.
  induction l as [|m l IH]; intros s s2 i H E.
  - injection H as <-. cbn. lia.
  - cbn [run] in H. destruct (step s m) as [s1|] eqn:Es; [|discriminate].
    pose proof (does_less s m s1 i Es E) as D. pose proof (IH s1 s2 i H (exit_stays s m s1 i Es E)) as D2.
    unfold own_steps in *. cbn [filter]. destruct (own i m); cbn [length]; lia.
Qed.

(* Only a looper which is in ioctl already can take a command then, and it takes one *)
Definition takes (p : phase) : nat := match p with Reading _ => 1 | _ => 0 end.
Definition is_read (i : nat) (m : move) : bool := match m with MRead j _ => Nat.eqb j i | _ => false end.
Lemma reads_little l : forall s s2 i, run s l = Some s2 -> exit_ (lps s i) = true ->
  (length (filter (is_read i) l) + takes (ph (lps s2 i)) <= takes (ph (lps s i)))%nat.
Proof.
  induction l as [|m l IH]; intros s s2 i H E.
  - injection H as <-. cbn. lia.
  - cbn [run] in H. destruct (step s m) as [s1|] eqn:Es; [|discriminate].
    pose proof (IH s1 s2 i H (exit_stays s m s1 i Es E)) as D2.
    assert (D : ((if is_read i m then 1 else 0) + takes (ph (lps s1 i)) <= takes (ph (lps s i)))%nat).
    { pose proof (step_change s m s1 i Es) as C.
      inversion C as [m1 C1 C2 C3 C4 C5| | | | | | | | ]; subst; cbn [is_read]; rewrite ?Nat.eqb_refl; cbn [ph takes];
        repeat match goal with Q : ph (lps s i) = _ |- _ => rewrite Q; clear Q end; cbn [takes]; try lia.
      - destruct m; cbn [is_read own] in *; try lia. rewrite C1. lia.
      - unfold goes_on. rewrite E. cbn [negb andb takes]. lia.
      - destruct (negb (rev =? 0) || exit_ (lps s i)); cbn [takes]; lia. }
    cbn [filter]. destruct (is_read i m); cbn [length]; lia.
Qed.

(* Waiting *)
Lemma waits_where i s : waits i s -> ph (lps s i) <> Out ->
  (ph (lps s i) = Polling /\ work s <= 0 /\ pipe (lps s i) = false) \/
  (exists rev, ph (lps s i) = Reading rev /\ work s <= 0).
Proof.
  intros W Ho. destruct (ph (lps s i)) as [|res rev|rev|rev|] eqn:Ep; [| | | |congruence].
  - left. split; [reflexivity|].
    specialize (W (MPoll i false) ltac:(cbn; apply Nat.eqb_refl) ltac:(discriminate)
      ltac:(intros [H|H]; discriminate)).
    cbn [step] in W. unfold poll_end, k_poll in W. rewrite Ep in W.
    destruct (Z.ltb_spec 0 (work s)); destruct (pipe (lps s i)); cbn in W; try discriminate. split; [lia|reflexivity].
  - specialize (W (MTest i) ltac:(cbn; apply Nat.eqb_refl) ltac:(discriminate) ltac:(intros [H|H]; discriminate)).
    cbn [step] in W. unfold test in W. rewrite Ep in W. discriminate.
  - right. exists rev. split; [reflexivity|].
    specialize (W (MRead i true) ltac:(cbn; apply Nat.eqb_refl) ltac:(discriminate) ltac:(intros [H|H]; discriminate)).
    cbn [step] in W. unfold read_end in W. rewrite Ep in W. destruct (Z.ltb_spec 0 (work s)); [discriminate|lia].
  - specialize (W (MAfter i) ltac:(cbn; apply Nat.eqb_refl) ltac:(discriminate) ltac:(intros [H|H]; discriminate)).
    cbn [step] in W. unfold after in W. rewrite Ep in W. discriminate.
Qed.

Lemma work_step s m s1 : step s m = Some s1 ->
  work s1 = match m with MArrive => work s + 1 | MRead _ true => work s - 1 | _ => work s end.
Proof.
  intros H. destruct m as [|j err|j|j|j ok|j|j|j]; cbn [step] in H.
  - injection H as <-. reflexivity.
  - unfold poll_end in H. destruct (ph _); try discriminate. destruct (k_poll s j err) as [[r1 r2]|]; [|discriminate].
    cbn in H. injection H as <-. reflexivity.
  - unfold poll_interrupted in H. destruct (ph _); try discriminate. cbn in H. injection H as <-. reflexivity.
  - unfold test in H. destruct (ph _); try discriminate. injection H as <-. reflexivity.
  - unfold read_end in H. destruct (ph _); try discriminate. destruct ok; [destruct (0 <? work s); [|discriminate]|]; injection H as <-; reflexivity.
  - unfold after in H. destruct (ph _); try discriminate. injection H as <-. reflexivity.
  - injection H as <-. reflexivity.
  - unfold stop_pipe in H. destruct (exit_ _); [|discriminate]. injection H as <-. reflexivity.
Qed.

(* A looper which is alone has something to read *)
Lemma work_is_there l s i : run init l = Some s -> alone i l ->
  0 <= work s /\
  match ph (lps s i) with
  | Polled res rev => (res =? 0) = false -> Z.land res 1 <> 0 -> 0 < work s
  | Reading _ => 0 < work s
  | _ => True
  end.
Proof.
  revert s. induction l as [|m l IH] using rev_ind; intros s H (A1 & A2); [injection H as <-; split; [reflexivity|exact Logic.I]|].
  apply run_snoc in H. destruct H as (s1 & H1 & H2).
  destruct (IH s1 H1) as (B1 & B2).
  { split; [intros Hin; apply A1; apply in_app_iff; left; exact Hin|intros j ok Hin; apply (A2 j ok); apply in_app_iff; left; exact Hin]. }
  pose proof (step_change s1 m s i H2) as C. pose proof (work_step s1 m s H2) as W.
  assert (Hr : forall j ok, m = MRead j ok -> j = i) by (intros j ok ->; apply (A2 j ok), in_app_iff; right; left; reflexivity).
  assert (Hs : m <> MSignal i) by (intros ->; apply A1, in_app_iff; right; left; reflexivity).
  inversion C as [m1 C1 C2 C3 C4 C5|err rev Cp Cw Cr| |res rev Cp|rev Cp Cw|rev Cp|rev Cp| |Ce]; subst; cbn [ph] in *.
  - destruct m as [|j err|j|j|j ok|j|j|j]; rewrite W; try (split; [lia|]; try rewrite <- C5; exact B2).
    + split; [lia|]. destruct (ph (lps s1 i)); try exact Logic.I; try (intros X1 X2; specialize (B2 X1 X2)); lia.
    + rewrite (Hr j ok eq_refl) in C1. cbn in C1. rewrite Nat.eqb_refl in C1. discriminate.
  - rewrite W. split; [exact B1|]. intros _ Hl. destruct (Z.ltb_spec 0 (work s1)); [lia|].
    destruct err; contradiction Hl; reflexivity.
  - contradiction Hs. reflexivity.
  - rewrite W. split; [exact B1|]. rewrite Cp in B2.
    destruct (goes_on (lps s1 i) res); [|exact Logic.I]. destruct (Z.eqb_spec (Z.land res 1) 0) as [El|El]; cbn [negb]; [exact Logic.I|].
    apply B2; [|exact El]. destruct (Z.eqb_spec res 0) as [Er|]; [contradiction El; rewrite Er; reflexivity|reflexivity].
  - rewrite W. split; [lia|exact Logic.I].
  - rewrite W. split; [lia|exact Logic.I].
  - rewrite W. split; [lia|]. destruct (_ || _); exact Logic.I.
  - rewrite W. split; [lia|exact B2].
  - rewrite W. split; [lia|exact B2].
Qed.

(* Who leaves *)
Lemma left_because l s i : run init l = Some s ->
  match ph (lps s i) with
  | Out => exit_ (lps s i) = true \/ exists m, In m l /\ device_fails i m
  | Polled res rev => (Z.land res 1 <> 0 \/ (res = 0 /\ rev <> 0) \/ In (MPoll i true) l) /\ (rev <> 0 -> exit_ (lps s i) = true)
  | Reading rev | HasRead rev => rev <> 0 -> exit_ (lps s i) = true
  | Polling => True
  end.
Proof.
  revert s. induction l as [|m l IH] using rev_ind; intros s H; [injection H as <-; exact Logic.I|].
  pose proof H as Hall. apply run_snoc in H. destruct H as (s1 & H1 & H2). pose proof (IH s1 H1) as B.
  assert (B' : match ph (lps s1 i) with
    | Out => exit_ (lps s i) = true \/ exists x, In x (l ++ [m]) /\ device_fails i x
    | Polled res rev => (Z.land res 1 <> 0 \/ (res = 0 /\ rev <> 0) \/ In (MPoll i true) (l ++ [m])) /\ (rev <> 0 -> exit_ (lps s i) = true)
    | Reading rev | HasRead rev => rev <> 0 -> exit_ (lps s i) = true
    | Polling => True end).
  { pose proof (exit_stays s1 m s i H2) as X. destruct (ph (lps s1 i)); auto.
    - destruct B as (B1 & B2). split; [|auto]. rewrite in_app_iff. tauto.
    - destruct B as [B|(x & Q1 & Q2)]; [left; auto|right; exists x; rewrite in_app_iff; auto]. }
  clear B. pose proof (step_change s1 m s i H2) as C.
  inversion C as [m1 C1 C2 C3 C4 C5|err rev Cp Cw Cr| |res rev Cp|rev Cp Cw|rev Cp|rev Cp| |Ce];
    repeat match goal with Q : Looper _ _ _ = lps s i |- _ => rewrite <- Q in *; clear Q end; subst; cbn [ph exit_ pipe] in *.
  - rewrite <- C5 in B'. exact B'.
  - pose proof (not_told l s1 i H1) as (_ & Nt). pose proof (told_state l s1 i H1) as (Ts & _).
    split.
    + destruct err; [right; right; apply in_app_iff; right; left; reflexivity|].
      destruct (Z.ltb_spec 0 (work s1)); [left; discriminate|right; left]. split; [reflexivity|].
      destruct Cw as [Cw|[Cw|Cw]]; [lia|discriminate|rewrite Cw; discriminate].
    + destruct (pipe (lps s1 i)); [intros _; apply Ts, Nt; reflexivity|lia].
  - split; [left; discriminate|lia].
  - rewrite Cp in B'. destruct B' as (B1 & B2). unfold goes_on.
    destruct (exit_ (lps s1 i)) eqn:Ee; cbn [negb andb]; [left; reflexivity|].
    destruct (Z.eqb_spec (Z.land res POLLIN) 0) as [El|El]; cbn [negb orb].
    + destruct (Z.eqb_spec res 0) as [Er|Er].
      * subst. cbn. exact B2.
      * right. destruct B1 as [B1|[(B1 & _)|B1]]; [contradiction|contradiction|]. exists (MPoll i true). split; [exact B1|left; reflexivity].
    + change POLLIN with 1 in El. destruct (Z.eqb_spec (Z.land res 1) 0); [contradiction|]. exact B2.
  - rewrite Cp in B'. exact B'.
  - right. exists (MRead i false). split; [apply in_app_iff; right; left; reflexivity|right; reflexivity].
  - rewrite Cp in B'. destruct (Z.eqb_spec rev 0); cbn [negb orb].
    + destruct (exit_ (lps s1 i)); [left; reflexivity|exact Logic.I].
    + left. auto.
  - destruct (ph (lps s1 i)); solve [exact Logic.I|intros _; reflexivity|left; reflexivity|destruct B' as (B1 & _); split; [exact B1|intros _; reflexivity]].
  - destruct (ph (lps s1 i)); solve [exact Logic.I|intros _; reflexivity|left; reflexivity|destruct B' as (B1 & _); split; [exact B1|intros _; reflexivity]].
Qed.

(* A looper in ioctl without commands stays there *)
Lemma stays_reading i l : forall s s2 rev, run s l = Some s2 -> ph (lps s i) = Reading rev -> work s <= 0 ->
  ~ In MArrive l -> ~ In (MRead i false) l ->
  ph (lps s2 i) = Reading rev /\ work s2 <= 0.
Proof.
  induction l as [|m l IH]; intros s s2 rev H Ep Ew Ha Hf.
  - injection H as <-. auto.
  - cbn [run] in H. destruct (step s m) as [s1|] eqn:Es; [|discriminate].
    apply (IH s1 s2 rev H); [| |intros X; apply Ha; right; exact X|intros X; apply Hf; right; exact X].
    + pose proof (step_change s m s1 i Es) as C.
      inversion C as [m1 C1 C2 C3 C4 C5| | | | |rev1 Cp| | | ]; subst; cbn [ph]; try congruence; try lia.
      exfalso. apply Hf. left. reflexivity.
    + rewrite (work_step s m s1 Es). destruct m as [| | | |j []| | | ]; try exact Ew; [|lia].
      exfalso. apply Ha. left. reflexivity.
Qed.
Lemma stuck_waits i s rev : ph (lps s i) = Reading rev -> work s <= 0 -> waits i s.
Proof.
  intros Ep Ew m Ho Hs Hf. destruct m as [|j err|j|j|j ok|j|j|j]; cbn [own] in Ho; try discriminate;
    apply Nat.eqb_eq in Ho; subst j; cbn [step]; unfold poll_end, poll_interrupted, test, read_end, after; rewrite Ep; try reflexivity.
  destruct ok; [destruct (Z.ltb_spec 0 (work s)); [lia|reflexivity]|]. contradiction Hf. right. reflexivity.
Qed.
