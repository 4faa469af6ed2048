From Verif Require Import Base BaseLemmas FlagModel FlagSpec.

Definition w32 (v : Z) : Prop := 0 <= v /\ forall b, 32 <= b -> Z.testbit v b = false.

Lemma w32_range v : 0 <= v < 2 ^ 32 -> w32 v.
Proof.
  intros H. split; [lia|]. intros b Hb. destruct (Z.eq_dec v 0) as [->|]; [apply Z.testbit_0_l|].
  apply Z.bits_above_log2; [lia|]. apply Z.log2_lt_pow2; [lia|].
  apply Z.lt_le_trans with (2 ^ 32); [lia|]. apply Z.pow_le_mono_r; lia.
Qed.
Lemma w32_lor a b : w32 a -> w32 b -> w32 (Z.lor a b).
Proof. intros [A1 A2] [B1 B2]. split; [apply Z.lor_nonneg; lia|]. intros i Hi. rewrite Z.lor_spec, A2, B2 by lia. reflexivity. Qed.
Lemma w32_land a b : w32 a -> w32 (Z.land a b).
Proof. intros [A1 A2]. split; [apply Z.land_nonneg; lia|]. intros i Hi. rewrite Z.land_spec, A2 by lia. reflexivity. Qed.

Lemma not32_bit v b : 0 <= b < 32 -> Z.testbit (not32 v) b = negb (Z.testbit v b).
Proof.
  intros H. unfold not32. change (2 ^ 32 - 1) with (Z.ones 32). rewrite Z.lxor_spec, Z.ones_spec_low by lia.
  destruct (Z.testbit v b); reflexivity.
Qed.
Lemma clear_bit w m b : w32 w -> 0 <= b -> Z.testbit (Z.land w (not32 m)) b = Z.testbit w b && negb (Z.testbit m b).
Proof.
  intros [_ Hw] Hb. rewrite Z.land_spec. destruct (Z.lt_ge_cases b 32) as [H|H].
  - rewrite not32_bit by lia. reflexivity.
  - rewrite (Hw b) by lia. reflexivity.
Qed.
Lemma nonzero_bit v : v <> 0 -> 0 <= v -> exists b, 0 <= b /\ Z.testbit v b = true.
Proof. intros H1 H2. exists (Z.log2 v). split; [apply Z.log2_nonneg|]. apply Z.bit_log2. lia. Qed.
Lemma common_bit a b i : Z.testbit a i = true -> Z.testbit b i = true -> Z.land a b <> 0.
Proof.
  intros H1 H2 E. assert (Z.testbit (Z.land a b) i = true) by (rewrite Z.land_spec, H1, H2; reflexivity).
  rewrite E, Z.testbit_0_l in H. discriminate.
Qed.

Lemma count_snoc {A} (f : A -> bool) l x : count f (l ++ [x]) = count f l + Z.b2z (f x).
Proof.
  unfold count. rewrite filter_app, blen_app. cbn [filter]. destruct (f x); rewrite ?blen_cons, blen_nil; cbn; lia.
Qed.

Lemma upd_same {A} (f : nat -> A) i v : upd f i v i = v.
Proof. unfold upd. rewrite Nat.eqb_refl. reflexivity. Qed.
Lemma upd_other {A} (f : nat -> A) i v j : j <> i -> upd f i v j = f j.
Proof. intros H. unfold upd. destruct (Nat.eqb_spec j i); [contradiction|reflexivity]. Qed.

Lemma NoDup_app_snoc {A} (l : list A) x : NoDup l -> ~ In x l -> NoDup (l ++ [x]).
Proof.
  intros H1 H2. induction H1 as [|a l Ha Hl IH]; cbn [app].
  - apply NoDup_cons; [intros []|apply NoDup_nil].
  - apply NoDup_cons.
    + rewrite in_app_iff. intros [H|[H|[]]]; [exact (Ha H)|]. apply H2. left. symmetry. exact H.
    + apply IH. intros H. apply H2. right. exact H.
Qed.

(* the continuations of a wait *)
Definition after_sleep (m : Z) (result : option Z) : eprog :=
  match result with
  | Some errno => ERet (- errno) None
  | None =>
    FetchAnd (not32 m) (fun old_value =>
      let state := Z.land old_value m in
      ERet (if negb (state =? 0) then 0 else - EAGAIN) (Some state))
  end.

Section Flag.
  Variable calls : nat -> list ecall.
  Hypothesis Hcalls : forall i c, In c (calls i) -> call_ok c.

  Definition thread_ok (i : nat) (t : ethread) : Prop :=
    match t with
    | Idle => True
    | Running c p =>
      In c (calls i) /\
      ((exists m tm v timed, c = Wait m tm /\ p = FutexWait v m timed (after_sleep m) /\ Z.land v m = 0) \/
       (exists m tm, c = Wait m tm /\ p = after_sleep m None) \/
       (exists m, c = Wake m /\ p = FutexWake (2 ^ 32 - 1) m (fun woken => ERet woken None)))
    | Asleep c m _ k => In c (calls i) /\ exists tm, c = Wait m tm /\ k = after_sleep m
    end.

  Definition asleep (t : ethread) : Prop := match t with Asleep _ _ _ _ => True | _ => False end.

  (* Nothing is about to be lost by a thread *)
  Definition no_loss (y : esystem) (w : nat) : Prop :=
    forall c m timed k b, eth y w = Asleep c m timed k -> 0 <= b ->
      Z.testbit (word y) b = true -> Z.testbit m b = true -> wake_pending y b.

  Definition flag_inv (y : esystem) : Prop :=
    w32 (word y) /\
    (forall b, 0 <= b -> count (gets b) (returned y) + Z.b2z (Z.testbit (word y) b) <= count (sets b) (begun y)) /\
    Forall result_ok (returned y) /\
    (forall i, thread_ok i (eth y i)) /\
    (forall i c, In c (calls_of y i) -> In c (calls i)) /\
    NoDup (queue_of y) /\ (forall i, In i (queue_of y) <-> asleep (eth y i)) /\
    (forall w, alone calls w -> no_loss y w).

  Definition waking (t : ethread) : Prop := exists c n m k, t = Running c (FutexWake n m k).

  Lemma no_loss_upd y y' i t' w : eth y' = upd (eth y) i t' -> ~ asleep t' -> ~ waking (eth y i) ->
    (forall b, 0 <= b -> Z.testbit (word y') b = true -> Z.testbit (word y) b = true \/ wake_pending y' b) ->
    no_loss y w -> no_loss y' w.
  Proof.
    intros E Ha Hw Hb H c m timed k b Hs Hb0 H1 H2. rewrite E in Hs.
    destruct (Nat.eq_dec w i) as [->|Hne].
    { rewrite upd_same in Hs. subst t'. exfalso. apply Ha. exact I. }
    rewrite upd_other in Hs by exact Hne. destruct (Hb b Hb0 H1) as [Ho|Hp]; [|exact Hp].
    destruct (H c m timed k b Hs Hb0 Ho H2) as (j & c' & n & m' & k' & Ej & Em).
    assert (j <> i) by (intros ->; apply Hw; repeat eexists; exact Ej).
    exists j, c', n, m', k'. rewrite E, upd_other by assumption. split; assumption.
  Qed.

  Lemma queue_same y y' i t' : eth y' = upd (eth y) i t' -> queue_of y' = queue_of y -> ~ asleep t' -> ~ asleep (eth y i) ->
    (forall j, In j (queue_of y) <-> asleep (eth y j)) -> (forall j, In j (queue_of y') <-> asleep (eth y' j)).
  Proof.
    intros E1 E2 H1 H2 H j. rewrite E1, E2, H. destruct (Nat.eq_dec j i) as [->|Hne].
    - rewrite upd_same. split; intros; contradiction.
    - rewrite upd_other by exact Hne. reflexivity.
  Qed.

  Lemma queue_f (f : nat -> ethread) q i t' : ~ asleep t' -> ~ asleep (f i) ->
    (forall j, In j q <-> asleep (f j)) -> forall j, In j q <-> asleep (upd f i t' j).
  Proof.
    intros H1 H2 H j. rewrite H. destruct (Nat.eq_dec j i) as [->|Hne].
    - rewrite upd_same. split; intros; contradiction.
    - rewrite upd_other by exact Hne. reflexivity.
  Qed.

  Lemma threads_f (f : nat -> ethread) i t' : thread_ok i t' -> (forall j, thread_ok j (f j)) -> forall j, thread_ok j (upd f i t' j).
  Proof.
    intros H1 H2 j. destruct (Nat.eq_dec j i) as [->|Hne].
    - rewrite upd_same. exact H1.
    - rewrite upd_other by exact Hne. apply H2.
  Qed.

  Lemma threads_upd y y' i t' : eth y' = upd (eth y) i t' -> thread_ok i t' ->
    (forall j, thread_ok j (eth y j)) -> (forall j, thread_ok j (eth y' j)).
  Proof.
    intros E H1 H2 j. rewrite E. destruct (Nat.eq_dec j i) as [->|Hne].
    - rewrite upd_same. exact H1.
    - rewrite upd_other by exact Hne. apply H2.
  Qed.

  (* a thread which isn't waking anybody up does something else than going to sleep *)
  Lemma frame y y' i t' : flag_inv y -> eth y' = upd (eth y) i t' -> thread_ok i t' -> ~ asleep t' -> ~ asleep (eth y i) ->
    ~ waking (eth y i) -> queue_of y' = queue_of y -> w32 (word y') ->
    (forall b, 0 <= b -> count (gets b) (returned y') + Z.b2z (Z.testbit (word y') b) <= count (sets b) (begun y')) ->
    Forall result_ok (returned y') ->
    (forall j c, In c (calls_of y' j) -> In c (calls_of y j)) ->
    (forall b, 0 <= b -> Z.testbit (word y') b = true -> Z.testbit (word y) b = true \/ wake_pending y' b) ->
    flag_inv y'.
  Proof.
    intros (I1 & I2 & I3 & I4 & I5 & I6 & I7 & I8) E Ht Ha1 Ha2 Hw Eq H1 H2 H3 H4 H5.
    split; [exact H1|]. split; [exact H2|]. split; [exact H3|].
    split; [eapply threads_upd; eassumption|]. split; [intros j c Hc; apply I5, H4, Hc|].
    split; [rewrite Eq; exact I6|]. split; [eapply queue_same; eassumption|].
    intros w Hal. eapply no_loss_upd; eauto.
  Qed.

  Lemma testbit_zero_land v m b : Z.land v m = 0 -> Z.testbit v b = true -> Z.testbit m b = false.
  Proof.
    intros E H. destruct (Z.testbit m b) eqn:Em; [|reflexivity].
    exfalso. exact (common_bit _ _ _ H Em E).
  Qed.

  (* fetch_and of a wait: what is returned is what has been cleared *)
  Lemma split_bits w m b : w32 w -> 0 <= b ->
    Z.b2z (Z.testbit (Z.land w m) b) + Z.b2z (Z.testbit (Z.land w (not32 m)) b) = Z.b2z (Z.testbit w b).
  Proof.
    intros Hw Hb. rewrite clear_bit, Z.land_spec by assumption. destruct (Z.testbit w b), (Z.testbit m b); reflexivity.
  Qed.

  Lemma not_waking_idle : ~ waking Idle. Proof. intros (c & n & m & k & E). discriminate. Qed.

  Lemma sub_clear w m b : w32 w -> 0 <= b -> Z.testbit (Z.land w (not32 m)) b = true -> Z.testbit w b = true.
  Proof. intros Hw Hb. rewrite clear_bit by assumption. destruct (Z.testbit w b); [reflexivity|discriminate]. Qed.

  Definition begin_call (y : esystem) (i : nat) (c : ecall) (r : list ecall) : esystem :=
    {| word := word y; queue_of := queue_of y; eth := eth y; calls_of := upd (calls_of y) i r;
       begun := begun y ++ [(i, c)]; returned := returned y |}.

  Lemma begin_wait y i m tm r : flag_inv y -> eth y i = Idle -> calls_of y i = Wait m tm :: r ->
    flag_inv (act (begin_call y i (Wait m tm) r) i (Wait m tm) (eprog_of (Wait m tm))).
  Proof.
    intros HI Ei Ec. pose proof HI as (I1 & I2 & I3 & I4 & I5 & I6 & I7 & I8).
    assert (Hin : In (Wait m tm) (calls i)) by (apply I5; rewrite Ec; left; reflexivity).
    assert (Hc : forall j c, In c (upd (calls_of y) i r j) -> In c (calls_of y j)).
    { intros j c. destruct (Nat.eq_dec j i) as [->|Hne]; [rewrite upd_same, Ec; intros; right; assumption|].
      rewrite upd_other by exact Hne. auto. }
    assert (Hna : ~ asleep (eth y i)) by (rewrite Ei; auto).
    assert (Hnw : ~ waking (eth y i)) by (rewrite Ei; apply not_waking_idle).
    assert (Hcount : forall b, count (sets b) (begun y ++ [(i, Wait m tm)]) = count (sets b) (begun y)).
    { intros b. rewrite count_snoc. cbn. lia. }
    unfold eprog_of, wait_timeout. cbn [negb]. destruct (Z.eqb_spec m 0) as [->|Hm].
    - cbn [act proceed]. apply (frame y _ i Idle); cbn [word queue_of eth calls_of begun returned set_word set_queue begin_call]; auto; try exact I.
      + intros b Hb. rewrite Hcount, count_snoc. cbn. specialize (I2 b Hb). lia.
      + apply Forall_app. split; [exact I3|]. apply Forall_cons; [|apply Forall_nil]. right. cbn. split; [lia|]. left. reflexivity.
    - cbn [act begin_call word]. set (w := word y) in *.
      assert (Hw' : w32 (Z.land w (not32 m))) by (apply w32_land; exact I1).
      assert (Hsub : forall b, 0 <= b -> Z.testbit (Z.land w (not32 m)) b = true -> Z.testbit w b = true).
      { intros b Hb. apply sub_clear; assumption. }
      cbv zeta. destruct (Z.eqb_spec (Z.land w m) 0) as [Hz|Hz]; cbn [negb].
      + assert (Hsame : forall b, 0 <= b -> Z.testbit (Z.land w (not32 m)) b = Z.testbit w b).
        { intros b Hb. rewrite clear_bit by assumption. destruct (Z.testbit w b) eqn:Eb; [|reflexivity].
          rewrite (testbit_zero_land _ _ _ Hz Eb). reflexivity. }
        destruct (Z.eqb_spec tm 0) as [->|Htm]; cbn [proceed set_word].
        * apply (frame y _ i Idle); cbn [word queue_of eth calls_of begun returned set_word set_queue begin_call]; auto; try exact I.
          -- intros b Hb. rewrite Hcount, count_snoc, Hsame by exact Hb. cbn. specialize (I2 b Hb). fold w in I2. lia.
          -- apply Forall_app. split; [exact I3|]. apply Forall_cons; [|apply Forall_nil]. right. cbn. split; [lia|]. left. reflexivity.
        * apply (frame y _ i (Running (Wait m tm) (FutexWait w m (0 <? tm) (after_sleep m)))); cbn [word queue_of eth calls_of begun returned set_word set_queue begin_call]; auto.
          -- split; [exact Hin|]. left. exists m, tm, w, (0 <? tm). auto.
          -- intros b Hb. rewrite Hcount, Hsame by exact Hb. apply I2. exact Hb.
      + cbn [proceed set_word]. apply (frame y _ i Idle); cbn [word queue_of eth calls_of begun returned set_word set_queue begin_call]; auto; try exact I.
        * intros b Hb. rewrite Hcount, count_snoc. cbn [gets]. specialize (I2 b Hb). fold w in I2.
          pose proof (split_bits w m b I1 Hb). lia.
        * apply Forall_app. split; [exact I3|]. apply Forall_cons; [|apply Forall_nil]. left. split; [reflexivity|].
          exists (Z.land w m). split; [reflexivity|]. split; [exact Hz|]. rewrite <- Z.land_assoc, Z.land_diag. reflexivity.
  Qed.

  Lemma begin_wake y i m r : flag_inv y -> eth y i = Idle -> calls_of y i = Wake m :: r ->
    flag_inv (act (begin_call y i (Wake m) r) i (Wake m) (eprog_of (Wake m))).
  Proof.
    intros HI Ei Ec. pose proof HI as (I1 & I2 & I3 & I4 & I5 & I6 & I7 & I8).
    assert (Hin : In (Wake m) (calls i)) by (apply I5; rewrite Ec; left; reflexivity).
    assert (Hm32 : w32 m) by (apply w32_range; exact (Hcalls _ _ Hin)).
    assert (Hc : forall j c, In c (upd (calls_of y) i r j) -> In c (calls_of y j)).
    { intros j c. destruct (Nat.eq_dec j i) as [->|Hne]; [rewrite upd_same, Ec; intros; right; assumption|].
      rewrite upd_other by exact Hne. auto. }
    assert (Hna : ~ asleep (eth y i)) by (rewrite Ei; auto).
    assert (Hnw : ~ waking (eth y i)) by (rewrite Ei; apply not_waking_idle).
    assert (Hcount : forall b, count (sets b) (begun y ++ [(i, Wake m)]) = count (sets b) (begun y) + Z.b2z (Z.testbit m b)).
    { intros b. rewrite count_snoc. reflexivity. }
    unfold eprog_of, wake. cbn [negb]. destruct (Z.eqb_spec m 0) as [->|Hm].
    - cbn [act proceed]. apply (frame y _ i Idle); cbn [word queue_of eth calls_of begun returned set_word set_queue begin_call]; auto; try exact I.
      + intros b Hb. rewrite Hcount, count_snoc. cbn [gets Z.b2z]. specialize (I2 b Hb).
        destruct (Z.testbit 0 b); cbn [Z.b2z]; lia.
      + apply Forall_app. split; [exact I3|]. apply Forall_cons; [|apply Forall_nil]. cbn. lia.
    - cbn [act begin_call word]. set (w := word y) in *.
      assert (Hw' : w32 (Z.lor w m)) by (apply w32_lor; assumption).
      assert (Hacc : forall b, 0 <= b -> count (gets b) (returned y) + Z.b2z (Z.testbit (Z.lor w m) b) <=
        count (sets b) (begun y) + Z.b2z (Z.testbit m b)).
      { intros b Hb. specialize (I2 b Hb). fold w in I2. rewrite Z.lor_spec. destruct (Z.testbit w b), (Z.testbit m b); cbn [orb Z.b2z] in *; lia. }
      destruct (Z.eqb_spec (Z.land (not32 w) m) 0) as [Hz|Hz]; cbn [negb proceed set_word].
      + apply (frame y _ i Idle); cbn [word queue_of eth calls_of begun returned set_word set_queue begin_call]; auto; try exact I.
        * intros b Hb. rewrite Hcount, count_snoc. cbn [gets Z.b2z]. specialize (Hacc b Hb). lia.
        * apply Forall_app. split; [exact I3|]. apply Forall_cons; [|apply Forall_nil]. cbn. lia.
        * intros b Hb. fold w. rewrite Z.lor_spec. destruct (Z.testbit w b) eqn:Ew; [left; reflexivity|]. cbn [orb]. intros Em. exfalso.
          assert (b < 32) by (destruct (Z.lt_ge_cases b 32); [assumption|]; destruct Hm32 as [_ Hm32]; rewrite Hm32 in Em by lia; discriminate).
          apply (common_bit (not32 w) m b); [rewrite not32_bit, Ew by lia; reflexivity|exact Em|exact Hz].
      + apply (frame y _ i (Running (Wake m) (FutexWake (2 ^ 32 - 1) m (fun woken => ERet woken None)))); cbn [word queue_of eth calls_of begun returned set_word set_queue begin_call]; auto.
        * split; [exact Hin|]. right. right. exists m. auto.
        * intros b Hb. rewrite Hcount. apply Hacc. exact Hb.
        * intros b Hb. fold w. rewrite Z.lor_spec. destruct (Z.testbit w b) eqn:Ew; [left; reflexivity|]. cbn [orb]. intros Em. right.
          exists i, (Wake m), (2 ^ 32 - 1), m, (fun woken => ERet woken None). cbn [eth]. rewrite upd_same. auto.
  Qed.

  (* ---------------------------------------------------------------- *)
  (* sleepers who leave the queue *)
  Lemma leave_in j i q : In j (leave_queue i q) <-> In j q /\ j <> i.
  Proof.
    unfold leave_queue. rewrite filter_In. destruct (Nat.eqb_spec j i); cbn [negb]; split; intros [H1 H2]; split; auto; discriminate || contradiction.
  Qed.

  Lemma resumed y i result c m timed k : flag_inv y -> eth y i = Asleep c m timed k ->
    (forall e, result = Some e -> 0 < e) -> flag_inv (resume y i result) /\
    exists t', eth (resume y i result) = upd (eth y) i t' /\ ~ asleep t' /\ ~ waking t'.
  Proof.
    intros (I1 & I2 & I3 & I4 & I5 & I6 & I7 & I8) Ei He. unfold resume. rewrite Ei.
    pose proof (I4 i) as Ht. rewrite Ei in Ht. destruct Ht as (Hin & tm & -> & ->).
    assert (Hq : forall t' q', ~ asleep t' -> (forall j, In j q' <-> In j (queue_of y) /\ j <> i) ->
      forall j, In j q' <-> asleep (upd (eth y) i t' j)).
    { intros t' q' Hna Hq' j. rewrite Hq', I7. destruct (Nat.eq_dec j i) as [->|Hne].
      - rewrite upd_same. split; [intros [_ H]; contradiction|intros; contradiction].
      - rewrite upd_other by exact Hne. split; [intros [H _]; exact H|auto]. }
    assert (Hloss : forall y' t' w, alone calls w -> eth y' = upd (eth y) i t' -> ~ asleep t' -> word y' = word y -> no_loss y' w).
    { intros y' t' w Hal E Hna Ew. apply (no_loss_upd y y' i t'); auto.
      - rewrite Ei. intros (c' & n & m' & k' & E'). discriminate.
      - intros b Hb. rewrite Ew. auto. }
    destruct result as [e|]; cbn [after_sleep proceed set_queue word queue_of eth calls_of begun returned].
    - specialize (He e eq_refl). split.
      + split; [exact I1|]. cbn [word queue_of eth calls_of begun returned set_word set_queue begin_call].
        split; [intros b Hb; rewrite count_snoc; cbn; specialize (I2 b Hb); lia|].
        split; [apply Forall_app; split; [exact I3|]; apply Forall_cons; [|apply Forall_nil]; right; cbn; split; [lia|left; reflexivity]|].
        split; [apply threads_f; [exact I|exact I4]|]. split; [exact I5|].
        split; [apply NoDup_filter; exact I6|]. split; [apply Hq; [auto|intros; apply leave_in]|].
        intros w Hal. eapply Hloss; [exact Hal|reflexivity|auto|reflexivity].
      + exists Idle. split; [reflexivity|]. split; [auto|apply not_waking_idle].
    - split.
      + split; [exact I1|]. cbn [word queue_of eth calls_of begun returned set_word set_queue begin_call].
        split; [exact I2|]. split; [exact I3|].
        split; [apply threads_f; [|exact I4]|].
        { split; [exact Hin|]. right. left. exists m, tm. auto. }
        split; [exact I5|]. split; [apply NoDup_filter; exact I6|]. split; [apply Hq; [auto|intros; apply leave_in]|].
        intros w Hal. eapply Hloss; [exact Hal|reflexivity|auto|reflexivity].
      + eexists. split; [reflexivity|]. split; [auto|]. intros (c' & n & m' & k' & E'). discriminate.
  Qed.

  (* FUTEX_WAKE with -1: the first who matches, if there is one *)
  Lemma wake_one mask y : forall q,
    (futex_wake (-1) mask q 0 y = (0, y) /\
      forall i c m timed k, In i q -> eth y i = Asleep c m timed k -> Z.land m mask = 0) \/
    (exists i c m timed k, In i q /\ eth y i = Asleep c m timed k /\ Z.land m mask <> 0 /\
      futex_wake (-1) mask q 0 y = (1, resume y i None)).
  Proof.
    induction q as [|i q IH]; cbn [futex_wake].
    - left. split; [reflexivity|]. intros i c m timed k [].
    - assert (Hskip : (forall c m timed k, eth y i = Asleep c m timed k -> Z.land m mask = 0) ->
        (futex_wake (-1) mask q 0 y = (0, y) /\
          forall i0 c m timed k, In i0 (i :: q) -> eth y i0 = Asleep c m timed k -> Z.land m mask = 0) \/
        (exists i0 c m timed k, In i0 (i :: q) /\ eth y i0 = Asleep c m timed k /\ Z.land m mask <> 0 /\
          futex_wake (-1) mask q 0 y = (1, resume y i0 None))).
      { intros Hi. destruct IH as [[E H]|(i0 & c & m & timed & k & H1 & H2 & H3 & H4)].
        - left. split; [exact E|]. intros i0 c m timed k [<-|Hin] He; [eapply Hi; exact He|eapply H; eassumption].
        - right. exists i0, c, m, timed, k. split; [right; exact H1|]. auto. }
      destruct (eth y i) as [|c p|c m timed k] eqn:Ei.
      + apply Hskip. intros; discriminate.
      + apply Hskip. intros; discriminate.
      + destruct (Z.eqb_spec (Z.land m mask) 0) as [Hz|Hz].
        * apply Hskip. intros c' m' timed' k' E. injection E as _ <- _ _. exact Hz.
        * right. exists i, c, m, timed, k. split; [left; reflexivity|]. split; [exact Ei|]. split; [exact Hz|].
          change (-1 <=? 0 + 1) with true. reflexivity.
  Qed.

  Lemma futex_wake_step y i m : flag_inv y -> eth y i = Running (Wake m) (FutexWake (2 ^ 32 - 1) m (fun woken => ERet woken None)) ->
    flag_inv (act y i (Wake m) (FutexWake (2 ^ 32 - 1) m (fun woken => ERet woken None))).
  Proof.
    intros HI Ei. cbn [act]. change (sgn 32 (2 ^ 32 - 1)) with (-1).
    assert (Hfin : forall y1 ret, flag_inv y1 -> eth y1 i = eth y i -> 0 <= ret -> word y1 = word y ->
      (forall w c mw timed k b, alone calls w -> eth y1 w = Asleep c mw timed k -> Z.testbit mw b = true -> Z.testbit m b = true -> False) ->
      flag_inv (proceed y1 i (Wake m) (ERet ret None))).
    { intros y1 ret (J1 & J2 & J3 & J4 & J5 & J6 & J7 & J8) E1 Hret Ew Hno.
      cbn [proceed]. split; [exact J1|]. cbn [word queue_of eth calls_of begun returned set_word set_queue begin_call].
      split; [intros b Hb; rewrite count_snoc; cbn; specialize (J2 b Hb); lia|].
      split; [apply Forall_app; split; [exact J3|]; apply Forall_cons; [exact Hret|apply Forall_nil]|].
      split; [apply threads_f; [exact I|exact J4]|]. split; [exact J5|]. split; [exact J6|].
      split; [apply queue_f; [exact (fun H => H)|rewrite E1, Ei; auto|exact J7]|].
      intros w Hal c mw timed k b Hs Hb H1 H2. cbn [eth word] in *.
      assert (Hwi : w <> i) by (intros ->; rewrite upd_same in Hs; discriminate).
      rewrite upd_other in Hs by exact Hwi.
      destruct (J8 w Hal c mw timed k b Hs Hb H1 H2) as (j & c' & n & m' & k' & Ej & Em).
      destruct (Nat.eq_dec j i) as [->|Hne].
      - exfalso. rewrite E1, Ei in Ej. injection Ej as _ _ Emm _. subst m'. eapply Hno; eassumption.
      - exists j, c', n, m', k'. cbn [eth]. rewrite upd_other by exact Hne. auto. }
    pose proof HI as (I1 & I2 & I3 & I4 & I5 & I6 & I7 & I8).
    destruct (wake_one m y (queue_of y)) as [[E H]|(i0 & c & m0 & timed & k & H1 & H2 & H3 & H4)].
    - rewrite E. apply Hfin; auto; try lia. intros w c mw timed k b Hal Hs B1 B2.
      assert (Hin : In w (queue_of y)) by (apply I7; rewrite Hs; exact I).
      exact (common_bit _ _ _ B1 B2 (H w c mw timed k Hin Hs)).
    - rewrite H4. destruct (resumed y i0 None c m0 timed k HI H2) as [Hr (t' & Et & Hna & Hnw)]; [intros; discriminate|].
      assert (Hii : i <> i0) by (intros ->; rewrite Ei in H2; discriminate).
      apply Hfin; auto; try lia.
      + rewrite Et, upd_other by exact Hii. reflexivity.
      + unfold resume. rewrite H2. pose proof (I4 i0) as Ht. rewrite H2 in Ht. destruct Ht as (_ & tm & -> & ->). reflexivity.
      + intros w cw mw timedw kw b Hal Hs B1 B2. rewrite Et in Hs.
        assert (Hwi : w <> i0) by (intros ->; rewrite upd_same in Hs; subst t'; apply Hna; exact I).
        rewrite upd_other in Hs by exact Hwi. apply Hwi. symmetry.
        pose proof (I4 w) as Tw. rewrite Hs in Tw. destruct Tw as (Iw & tw & -> & _).
        pose proof (I4 i0) as T0. rewrite H2 in T0. destruct T0 as (I0 & t0 & -> & _).
        pose proof (I4 i) as Ti. rewrite Ei in Ti. destruct Ti as (Ii & _).
        eapply (Hal i m i0 m0 t0 mw tw); try eassumption. eapply common_bit; eassumption.
  Qed.

  Lemma flag_step y e : flag_inv y -> flag_inv (estep y e).
  Proof.
    intros HI. pose proof HI as (I1 & I2 & I3 & I4 & I5 & I6 & I7 & I8).
    destruct e as [i|i|i]; cbn [estep].
    - destruct (eth y i) as [|c p|c m timed k] eqn:Ei.
      + destruct (calls_of y i) as [|c r] eqn:Ec; [exact HI|].
        destruct c as [m tm|m]; [apply begin_wait|apply begin_wake]; assumption.
      + pose proof (I4 i) as Ht. rewrite Ei in Ht.
        destruct Ht as (Hin & [(m & tm & v & timed & -> & -> & Hz)|[(m & tm & -> & ->)|(m & -> & ->)]]).
        * cbn [act]. destruct (Z.eqb_spec (word y) v) as [<-|Hne].
          -- unfold set_thread, set_queue. cbn [word queue_of eth calls_of begun returned set_word set_queue begin_call].
             split; [exact I1|]. split; [exact I2|]. split; [exact I3|].
             split; [apply threads_f; [|exact I4]; split; [exact Hin|exists tm; auto]|].
             split; [exact I5|]. cbn [word queue_of eth calls_of begun returned set_word set_queue begin_call].
             assert (Hni : ~ In i (queue_of y)) by (rewrite I7, Ei; auto).
             split; [apply NoDup_app_snoc; assumption|]. split.
             { intros j. rewrite in_app_iff, I7. cbn [In]. destruct (Nat.eq_dec j i) as [->|Hne].
               - rewrite upd_same. cbn. tauto.
               - rewrite upd_other by exact Hne. split; [intros [H|[H|[]]]; [exact H|congruence]|auto]. }
             intros w Hal c0 mw timed0 k0 b Hs Hb H1 H2. cbn [eth word] in *. destruct (Nat.eq_dec w i) as [->|Hne].
             ++ rewrite upd_same in Hs. injection Hs as _ <- _ _. exfalso. exact (common_bit _ _ _ H1 H2 Hz).
             ++ rewrite upd_other in Hs by exact Hne.
                destruct (I8 w Hal c0 mw timed0 k0 b Hs Hb H1 H2) as (j & c' & n & m' & k' & Ej & Em).
                assert (j <> i) by (intros ->; rewrite Ei in Ej; discriminate).
                exists j, c', n, m', k'. cbn [eth]. rewrite upd_other by assumption. auto.
          -- cbn [after_sleep proceed].
             apply (frame y _ i Idle); cbn [word queue_of eth calls_of begun returned set_word set_queue begin_call]; auto; try exact I; try (rewrite Ei; auto).
             ++ intros (c' & n & m' & k' & E'). discriminate.
             ++ intros b Hb. rewrite count_snoc. cbn. specialize (I2 b Hb). lia.
             ++ apply Forall_app. split; [exact I3|]. apply Forall_cons; [|apply Forall_nil]. right. cbn. split; [lia|left; reflexivity].
        * cbn [after_sleep act proceed set_word]. cbv zeta.
          apply (frame y _ i Idle); cbn [word queue_of eth calls_of begun returned set_word set_queue begin_call]; auto; try exact I; try (rewrite Ei; auto).
          -- intros (c' & n & m' & k' & E'). discriminate.
          -- apply w32_land. exact I1.
          -- intros b Hb. rewrite count_snoc. cbn [gets]. specialize (I2 b Hb).
             pose proof (split_bits (word y) m b I1 Hb). lia.
          -- apply Forall_app. split; [exact I3|]. apply Forall_cons; [|apply Forall_nil].
             destruct (Z.eqb_spec (Z.land (word y) m) 0) as [Hz|Hz]; cbn [negb].
             ++ right. rewrite Hz. split; [cbn; lia|right; reflexivity].
             ++ left. split; [reflexivity|]. eexists. split; [reflexivity|]. split; [exact Hz|]. rewrite <- Z.land_assoc, Z.land_diag. reflexivity.
          -- intros b Hb H. left. eapply sub_clear; eassumption.
        * apply futex_wake_step; assumption.
      + exact HI.
    - destruct (eth y i) as [|c p|c m timed k] eqn:Ei; [exact HI|exact HI|]. destruct timed; [|exact HI].
      eapply resumed; [exact HI|exact Ei|]. intros e E. injection E as <-. reflexivity.
    - destruct (eth y i) as [|c p|c m timed k] eqn:Ei; [unfold resume; rewrite Ei; exact HI|unfold resume; rewrite Ei; exact HI|].
      eapply resumed; [exact HI|exact Ei|]. intros e E. injection E as <-. reflexivity.
  Qed.

  Lemma flag_start : flag_inv (estart calls).
  Proof.
    split; [split; [cbn; lia|intros; apply Z.testbit_0_l]|]. cbn [estart word queue_of eth calls_of begun returned].
    split; [intros b Hb; rewrite Z.testbit_0_l; reflexivity || (unfold count, blen; cbn; lia)|]. split; [apply Forall_nil|].
    split; [intros i; exact I|]. split; [auto|]. split; [apply NoDup_nil|].
    split; [intros i; split; intros []|]. intros w Hal c m timed k b Hs. discriminate.
  Qed.

  Lemma flag_run schedule : flag_inv (erun schedule (estart calls)).
  Proof.
    unfold erun. generalize flag_start. generalize (estart calls).
    induction schedule as [|e r IH]; intros y H; cbn [fold_left]; [exact H|]. apply IH, flag_step, H.
  Qed.
End Flag.

Lemma no_lost_wake : forall calls schedule w,
  (forall i c, In c (calls i) -> call_ok c) -> alone calls w ->
  let y := erun schedule (estart calls) in
  forall c m timed k, eth y w = Asleep c m timed k ->
  (forall b, ~ wake_pending y b) -> Z.land (word y) m = 0.
Proof.
  intros calls schedule w Hc Ha y c m timed k Hs Hp.
  destruct (flag_run calls Hc schedule) as (H1 & _ & _ & _ & _ & _ & _ & H8).
  destruct (Z.eq_dec (Z.land (word y) m) 0) as [E|E]; [exact E|exfalso].
  destruct (nonzero_bit _ E) as (b & Hb & Et); [apply Z.land_nonneg; left; apply H1|].
  rewrite Z.land_spec in Et. apply andb_true_iff in Et. destruct Et as [E1 E2].
  exact (Hp b (H8 w Ha c m timed k b Hs Hb E1 E2)).
Qed.
