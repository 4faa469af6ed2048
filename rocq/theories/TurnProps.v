(* Property theorems about loopers which wait for commands and for the request to exit. The words are in TurnSpec.v. *)
From Verif Require Import Base TurnModel TurnSpec TurnProofs.

(* C78: a looper stays in its loop until it is told to exit or the device fails; signals don't end it. *)
Theorem C78_stays :
  forall (l : list move) (s : state) (i : nat), run init l = Some s -> has_left i s ->
  In (MFlag i) l \/ exists m, In m l /\ device_fails i m.
Proof.
  intros l s i H Ho. pose proof (left_because l s i H) as B. unfold has_left in Ho. rewrite Ho in B.
  destruct B as [B|B]; [left; exact (proj1 (not_told l s i H) B)|right; exact B].
Qed.
Print Assumptions C78_stays.

(* C78: while it's in the loop, it reads commands which are there: it gets to the next one in at most four steps, none
   of which waits for anything. *)
Theorem C78_reads :
  forall (l : list move) (s : state) (i : nat), run init l = Some s -> 0 < work s ->
  ~ In (MFlag i) l -> (forall m, In m l -> ~ device_fails i m) ->
  exists ms s2, run s ms = Some s2 /\ (length ms <= 4)%nat /\ (forall m, In m ms -> own i m = true /\ ~ device_fails i m) /\
    work s2 = work s - 1.
Proof.
  intros l s i H Hw Hn Hf.
  pose proof (left_because l s i H) as B. pose proof (not_told l s i H) as (N1 & N2).
  assert (Ee : exit_ (lps s i) = false) by (destruct (exit_ (lps s i)); [contradiction Hn; auto|reflexivity]).
  assert (Epi : pipe (lps s i) = false) by (destruct (pipe (lps s i)); [contradiction Hn; apply N2; reflexivity|reflexivity]).
  assert (Hlt : (0 <? work s) = true) by (apply Z.ltb_lt; exact Hw).
  assert (Hown : forall m, In m [MAfter i; MPoll i false; MTest i; MRead i true] -> own i m = true /\ ~ device_fails i m).
  { intros m [<-|[<-|[<-|[<-|[]]]]]; (split; [apply Nat.eqb_refl|intros [X|X]; discriminate]). }
  (* from each place *)
  assert (R : forall s rev, 0 < work s -> ph (lps s i) = Reading rev ->
    exists s2, run s [MRead i true] = Some s2 /\ work s2 = work s - 1).
  { intros s0 rev Hw0 E. apply Z.ltb_lt in Hw0. cbn [run step]. unfold read_end. rewrite E, Hw0. eexists. split; reflexivity. }
  assert (T : forall s res rev, 0 < work s -> exit_ (lps s i) = false -> ph (lps s i) = Polled res rev -> Z.land res 1 <> 0 ->
    exists s2, run s [MTest i; MRead i true] = Some s2 /\ work s2 = work s - 1).
  { intros s0 res rev Hw0 E0 E Hl.
    destruct (step s0 (MTest i)) as [s1|] eqn:Es; [|cbn [step] in Es; unfold test in Es; rewrite E in Es; discriminate].
    destruct (R s1 rev) as (s2 & R1 & R2).
    - rewrite (work_step s0 (MTest i) s1 Es). exact Hw0.
    - cbn [step] in Es. unfold test in Es. rewrite E in Es. injection Es as <-. unfold goto. rewrite put_same. cbn [ph].
      unfold goes_on. rewrite E0. change POLLIN with 1. destruct (Z.eqb_spec (Z.land res 1) 0); [contradiction|]. reflexivity.
    - exists s2. split; [|rewrite R2, (work_step s0 (MTest i) s1 Es); reflexivity].
      change [MTest i; MRead i true] with ([MTest i] ++ [MRead i true]). rewrite run_app. cbn [run]. rewrite Es. exact R1. }
  assert (P : forall s, 0 < work s -> exit_ (lps s i) = false -> ph (lps s i) = Polling ->
    exists s2, run s [MPoll i false; MTest i; MRead i true] = Some s2 /\ work s2 = work s - 1).
  { intros s0 Hw0 E0 E. pose proof Hw0 as Hw1. apply Z.ltb_lt in Hw1.
    destruct (step s0 (MPoll i false)) as [s1|] eqn:Es.
    2: { cbn [step] in Es. unfold poll_end, k_poll in Es. rewrite E, Hw1 in Es. cbn in Es. discriminate. }
    pose proof Es as Es2. cbn [step] in Es2. unfold poll_end, k_poll in Es2. rewrite E, Hw1 in Es2.
    cbn [andb Z.eqb Z.add POLLIN driver_poll] in Es2. injection Es2 as Es2.
    destruct (T s1 1 (if pipe (lps s0 i) then 1 else 0)) as (s2 & R1 & R2).
    - rewrite (work_step s0 (MPoll i false) s1 Es). exact Hw0.
    - rewrite <- Es2. unfold goto. rewrite put_same. exact E0.
    - rewrite <- Es2. unfold goto. rewrite put_same. reflexivity.
    - discriminate.
    - exists s2. split; [|rewrite R2, (work_step s0 (MPoll i false) s1 Es); reflexivity].
      change [MPoll i false; MTest i; MRead i true] with ([MPoll i false] ++ [MTest i; MRead i true]).
      rewrite run_app. cbn [run]. cbn [run] in R1. rewrite Es. exact R1. }
  destruct (ph (lps s i)) as [|res rev|rev|rev|] eqn:Ep.
  - destruct (P s Hw Ee Ep) as (s2 & P1 & P2). exists [MPoll i false; MTest i; MRead i true], s2.
    split; [exact P1|]. split; [cbn; lia|]. split; [|exact P2]. intros m Hm. apply Hown. right. exact Hm.
  - destruct B as (B1 & B2). destruct B1 as [B1|[B1|B1]].
    + destruct (T s res rev Hw Ee Ep B1) as (s2 & P1 & P2). exists [MTest i; MRead i true], s2.
      split; [exact P1|]. split; [cbn; lia|]. split; [|exact P2]. intros m Hm. apply Hown. right. right. exact Hm.
    + destruct B1 as (_ & B1). specialize (B2 B1). congruence.
    + exfalso. exact (Hf _ B1 (or_introl eq_refl)).
  - destruct (R s rev Hw Ep) as (s2 & P1 & P2). exists [MRead i true], s2.
    split; [exact P1|]. split; [cbn; lia|]. split; [|exact P2]. intros m Hm. apply Hown. right. right. right. exact Hm.
  - destruct (step s (MAfter i)) as [s1|] eqn:Es; [|cbn [step] in Es; unfold after in Es; rewrite Ep in Es; discriminate].
    pose proof Es as Es2. cbn [step] in Es2. unfold after in Es2. rewrite Ep, Ee, orb_false_r in Es2.
    destruct (Z.eqb_spec rev 0) as [Er|Er]; [|specialize (B Er); congruence]. injection Es2 as Es2.
    destruct (P s1) as (s2 & P1 & P2).
    + rewrite (work_step s (MAfter i) s1 Es). exact Hw.
    + rewrite <- Es2. unfold goto. rewrite put_same. exact Ee.
    + rewrite <- Es2. unfold goto. rewrite put_same. reflexivity.
    + exists [MAfter i; MPoll i false; MTest i; MRead i true], s2. split.
      { change (run s ([MAfter i] ++ [MPoll i false; MTest i; MRead i true]) = Some s2). rewrite run_app. cbn [run].
        cbn [run] in P1. rewrite Es. exact P1. }
      split; [cbn; lia|]. split; [exact Hown|]. rewrite P2, (work_step s (MAfter i) s1 Es). reflexivity.
  - exfalso. destruct B as [B|(m & B1 & B2)]; [congruence|exact (Hf m B1 B2)].
Qed.
Print Assumptions C78_reads.

(* C78: after it was told to exit, it takes at most two more steps, and reads at most once: only if it was in the call
   already. *)
Theorem C78_little_left :
  forall (l l2 : list move) (s s2 : state) (i : nat), run init l = Some s -> In (MFlag i) l -> run s l2 = Some s2 ->
  (own_steps i l2 <= 2)%nat /\
  (length (filter (fun m => match m with MRead j _ => Nat.eqb j i | _ => false end) l2) <=
   match ph (lps s i) with Reading _ => 1 | _ => 0 end)%nat.
Proof.
  intros l l2 s s2 i H Ht H2. pose proof (proj1 (told_state l s i H) Ht) as E. split.
  - pose proof (does_little l2 s s2 i H2 E) as D. unfold left_to_do in D. destruct (ph (lps s i)); lia.
  - pose proof (reads_little l2 s s2 i H2 E) as D. unfold takes, is_read in D. destruct (ph (lps s i)); lia.
Qed.
Print Assumptions C78_little_left.

(* C78, partial: and it doesn't wait for anything until it has left, if its poll was never interrupted and nobody else
   takes commands. *)
Theorem C78_exits_partial :
  forall (l : list move) (s : state) (i : nat), run init l = Some s -> alone i l -> told i l -> waits i s -> has_left i s.
Proof.
  intros l s i H Ha (T1 & T2) Hw. unfold has_left.
  assert (D : {ph (lps s i) = Out} + {ph (lps s i) <> Out}) by (destruct (ph (lps s i)); (left; reflexivity) || (right; discriminate)).
  destruct D as [D|D]; [exact D|]. exfalso.
  pose proof (proj2 (told_state l s i H) T2) as Ep. destruct (work_is_there l s i H Ha) as (_ & B).
  destruct (waits_where i s Hw D) as [(_ & _ & E)|(rev & E & Ew)]; [congruence|]. rewrite E in B. lia.
Qed.
Print Assumptions C78_exits_partial.

(* C78, refuted: if a signal interrupts poll, the looper takes the result -1 for something to read, and waits in ioctl
   where nobody can tell it to exit. It waits until there is a command, whatever else happens. *)
Theorem C78_interrupted_refuted :
  forall (l : list move) (s : state) (i : nat), run init l = Some s -> ph (lps s i) = Polling -> ~ In (MFlag i) l ->
  work s <= 0 ->
  exists s1, run s [MSignal i; MTest i; MFlag i; MPipe i] = Some s1 /\
  forall l2 s2, run s1 l2 = Some s2 -> ~ In MArrive l2 -> ~ In (MRead i false) l2 -> waits i s2 /\ ~ has_left i s2.
Proof.
  intros l s i H Ep Hn Hw.
  assert (Ee : exit_ (lps s i) = false).
  { destruct (exit_ (lps s i)) eqn:Ee; [|reflexivity]. contradiction Hn. exact (proj1 (not_told l s i H) Ee). }
  destruct (run s [MSignal i; MTest i; MFlag i; MPipe i]) as [s1|] eqn:E1.
  2: { exfalso. revert E1. cbn [run step]. unfold poll_interrupted. rewrite Ep.
       unfold test, stop_flag, stop_pipe, goes_on, goto, put. repeat (cbn; rewrite ?Nat.eqb_refl, ?Ee). discriminate. }
  exists s1. split; [reflexivity|].
  assert (Q : ph (lps s1 i) = Reading 0 /\ work s1 = work s).
  { revert E1. cbn [run step]. unfold poll_interrupted. rewrite Ep.
    unfold test, stop_flag, stop_pipe, goes_on, goto, put. repeat (cbn; rewrite ?Nat.eqb_refl, ?Ee). intros E1. injection E1 as <-. cbn. rewrite Nat.eqb_refl. split; reflexivity. }
  destruct Q as (Q & Qw). rewrite <- Qw in Hw. intros l2 s2 H2 Ha Hf.
  destruct (stays_reading i l2 s1 s2 0 H2 Q Hw Ha Hf) as (Q1 & Q2).
  split; [exact (stuck_waits i s2 0 Q1 Q2)|unfold has_left; congruence].
Qed.
Print Assumptions C78_interrupted_refuted.

(* C78, refuted: the same happens, without any signal, to a looper which is overtaken by another one: poll tells both
   of them about the same command. *)
Theorem C78_overtaken_refuted :
  forall (l : list move) (s : state) (i j : nat), run init l = Some s -> i <> j ->
  ph (lps s i) = Polling -> ph (lps s j) = Polling -> ~ In (MFlag i) l -> ~ In (MFlag j) l -> work s = 0 ->
  exists s1, run s [MArrive; MPoll i false; MPoll j false; MTest i; MTest j; MRead j true; MFlag i; MPipe i] = Some s1 /\
  forall l2 s2, run s1 l2 = Some s2 -> ~ In MArrive l2 -> ~ In (MRead i false) l2 -> waits i s2 /\ ~ has_left i s2.
Proof.
  intros l s i j H Hij Ei Ej Ni Nj Hw.
  assert (Xi : exit_ (lps s i) = false).
  { destruct (exit_ (lps s i)) eqn:Ee; [|reflexivity]. contradiction Ni. exact (proj1 (not_told l s i H) Ee). }
  assert (Xj : exit_ (lps s j) = false).
  { destruct (exit_ (lps s j)) eqn:Ee; [|reflexivity]. contradiction Nj. exact (proj1 (not_told l s j H) Ee). }
  assert (Pi : pipe (lps s i) = false).
  { destruct (pipe (lps s i)) eqn:Ee; [|reflexivity]. contradiction Ni. apply (proj2 (not_told l s i H) Ee). }
  assert (Pj : pipe (lps s j) = false).
  { destruct (pipe (lps s j)) eqn:Ee; [|reflexivity]. contradiction Nj. apply (proj2 (not_told l s j H) Ee). }
  assert (Eij : Nat.eqb i j = false) by (apply Nat.eqb_neq; exact Hij).
  assert (Eji : Nat.eqb j i = false) by (apply Nat.eqb_neq; congruence).
  destruct s as [f w]. cbn [work lps] in *. subst w.
  destruct (run (State f 0) [MArrive; MPoll i false; MPoll j false; MTest i; MTest j; MRead j true; MFlag i; MPipe i]) as [s1|] eqn:E1.
  2: { exfalso. revert E1. cbn [run step]. unfold poll_end, k_poll, test, read_end, stop_flag, stop_pipe, goes_on, goto, put, set_work.
       repeat (cbn; rewrite ?Nat.eqb_refl, ?Eij, ?Eji, ?Xi, ?Xj, ?Ei, ?Ej, ?Pi, ?Pj). discriminate. }
  exists s1. split; [reflexivity|].
  assert (Q : ph (lps s1 i) = Reading 0 /\ work s1 = 0).
  { revert E1. cbn [run step]. unfold poll_end, k_poll, test, read_end, stop_flag, stop_pipe, goes_on, goto, put, set_work.
    repeat (cbn; rewrite ?Nat.eqb_refl, ?Eij, ?Eji, ?Xi, ?Xj, ?Ei, ?Ej, ?Pi, ?Pj).
    intros E1. injection E1 as <-. cbn. rewrite Nat.eqb_refl. split; reflexivity. }
  destruct Q as (Q & Qw). intros l2 s2 H2 Ha Hf.
  destruct (stays_reading i l2 s1 s2 0 H2 Q ltac:(lia) Ha Hf) as (Q1 & Q2).
  split; [exact (stuck_waits i s2 0 Q1 Q2)|unfold has_left; congruence].
Qed.
Print Assumptions C78_overtaken_refuted.

(* non-vacuity: a looper reads a command, waits, and leaves when it's told to, while another one is still there; and the
   states of the refutations are reachable: the initial one is such a state *)
Definition c78_history : list move :=
  [MArrive; MPoll 0 false; MTest 0; MRead 0 true; MAfter 0; MFlag 0; MPipe 0; MPoll 0 false; MTest 0].
Example C78_ex :
  alone 0 c78_history /\ told 0 c78_history /\
  option_map (fun s => (ph (lps s 0%nat), ph (lps s 1%nat), work s)) (run init c78_history) = Some (Out, Polling, 0).
Proof.
  split; [split|split; [split|reflexivity]].
  - intros H. repeat (destruct H as [H|H]; [discriminate|]). exact H.
  - intros j ok H. repeat (destruct H as [H|H]; [congruence|]). destruct H.
  - cbn. auto 10.
  - cbn. auto 10.
Qed.
Example C78_init_ex : run init [] = Some init /\ ph (lps init 0%nat) = Polling /\ work init = 0 /\
  exists s, run init [MArrive] = Some s /\ 0 < work s.
Proof. repeat split. eexists. split; [reflexivity|]. reflexivity. Qed.
