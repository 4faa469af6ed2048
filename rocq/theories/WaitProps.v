(* Property theorems about waiting for a service manager. The vocabulary is in WaitSpec.v,
   the modelled functions are in WaitModel.v. *)
From Coq Require Import ZArith List Lia Bool.
From Verif Require Import Base WaitModel WaitSpec WaitProofs.

(* C43: a wait with a limit ends, whatever happens; the thread sleeps no longer than the
   limit, and exactly that long if the manager doesn't appear. It returns success if and only
   if the last check has found the manager, and nothing is done after a successful check. *)
Theorem C43_limited_wait :
  forall (alive : nat -> bool) (max : Z), 0 <= max ->
  (exists fuel r l, wait alive true fuel max = Some (r, l)) /\
  (forall fuel r l, wait alive true fuel max = Some (r, l) ->
     slept l <= max /\
     (r = false -> slept l = max /\ forall b, In b (checks l) -> b = false) /\
     (r = true -> exists before, checks l = before ++ [true] /\
        (forall b, In b before -> b = false) /\ exists a, l = a ++ [Check true])).
Proof.
  intros alive max H. split; [apply wait_terminates; auto|]. intros fuel r l E.
  destruct (wait_limited fuel alive max r l H E) as (H1 & H2 & (_ & G2 & G3) & _).
  assert (FF : forall p, Forall (eq false) p -> forall b, In b p -> b = false).
  { intros p F b Hb. rewrite Forall_forall in F. symmetry. auto. }
  split; auto. split.
  - intros ->. split; [auto|]. apply FF. auto.
  - intros ->. destruct (G2 eq_refl) as (p & Ep & F). exists p. split; [auto|].
    split; [apply FF; auto|]. eapply wait_ends; eauto.
Qed.
Print Assumptions C43_limited_wait.

(* C43: the checks. The first one is made at once, the next ones after pauses of 100, 200 and
   so on up to 1000 milliseconds, the last one exactly when the limit is reached. Every check
   is a real one. *)
Theorem C43_when_checks_are_made :
  forall (alive : nat -> bool) (max : Z) (fuel : nat) (r : bool) (l : list act),
  wait alive true fuel max = Some (r, l) ->
  forall n b, nth_error (checks l) n = Some b ->
    b = alive n /\
    check_time l n = Some (if max <? 0 then pauses n else Z.min max (pauses n)).
Proof.
  intros alive max fuel r l E n b Hn.
  assert (Hl : (n < length (checks l))%nat) by (apply nth_error_Some; congruence).
  destruct (Z.ltb_spec max 0) as [H|H].
  - destruct (wait_unlimited fuel alive max r l H E) as (_ & (G1 & _) & T). split; [exact (G1 n b Hn)|auto].
  - destruct (wait_limited fuel alive max r l H E) as (_ & _ & (G1 & _) & T). split; [exact (G1 n b Hn)|auto].
Qed.
Print Assumptions C43_when_checks_are_made.

(* C43: a manager which can be found by the check number n is found by it, unless the limit
   is over before that; so the wait ends at that moment *)
Theorem C43_returns_as_soon_as_found :
  forall (alive : nat -> bool) (max : Z) (n : nat),
  alive n = true -> (forall m, (m < n)%nat -> alive m = false) ->
  max < 0 \/ pauses n <= max ->
  exists fuel l, wait alive true fuel max = Some (true, l) /\
    slept l = pauses n /\ checks l = repeat false n ++ [true].
Proof. exact wait_finds. Qed.
Print Assumptions C43_returns_as_soon_as_found.

(* C43: without a limit the wait ends if and only if the manager appears, and then with
   success *)
Theorem C43_unlimited_wait :
  forall (alive : nat -> bool) (max : Z), max < 0 ->
  ((exists fuel r l, wait alive true fuel max = Some (r, l)) <-> exists n, alive n = true) /\
  (forall fuel r l, wait alive true fuel max = Some (r, l) -> r = true).
Proof.
  intros alive max H. split.
  - split; [|intros [n A]; eapply wait_appears; eauto].
    intros (fuel & r & l & E). destruct (wait_unlimited fuel alive max r l H E) as (-> & (G1 & G2 & _) & _).
    destruct (G2 eq_refl) as (p & Ep & _). exists (length p).
    rewrite <- (Nat.add_0_l (length p)). symmetry. apply G1. rewrite Ep.
    rewrite nth_error_app2, Nat.sub_diag by lia. reflexivity.
  - intros fuel r l E. apply (wait_unlimited fuel alive max r l H E).
Qed.
Print Assumptions C43_unlimited_wait.

(* C43: nothing is done and nothing is waited for if the manager is known to be present *)
Theorem C43_present :
  forall (alive : nat -> bool) (max : Z) (fuel : nat),
  wait alive false fuel max = Some (true, []).
Proof. reflexivity. Qed.
Print Assumptions C43_present.

(* C43: each sleep takes exactly its time, however often it's interrupted by signals *)
Theorem C43_interrupted_sleep :
  forall (ms : Z) (parts : list Z), 0 <= ms ->
  (forall p, In p parts -> 0 <= p) ->
  (forall n p, nth_error parts n = Some p ->
     fold_right Z.add 0 (firstn n parts) + p <= ms * 1000000) ->
  sleep_ms ms parts = ms * 1000000.
Proof. exact sleep_ms_total. Qed.
Print Assumptions C43_interrupted_sleep.

(* non-vacuity *)
Definition late (n : nat) : bool := (4 <=? n)%nat.
Example wait_too_short : wait late true 10 550 =
  Some (false, [Check false; Sleep 100; Check false; Sleep 200; Check false; Sleep 250; Check false]).
Proof. vm_compute. reflexivity. Qed.
Example wait_enough : wait late true 10 (-1) =
  Some (true, [Check false; Sleep 100; Check false; Sleep 200; Check false; Sleep 300; Check false;
               Sleep 400; Check true]) /\ pauses 4 = 1000 /\ late 4 = true.
Proof. vm_compute. auto. Qed.
Example sleep_twice : sleep_ms 1500 [999999999; 1; 500000000] = 1500000000.
Proof. vm_compute. reflexivity. Qed.
