(* C23: the event flag of message queues *)
From Verif Require Import Base FlagModel FlagSpec FlagProofs.

(* ------------------------------------------------------------------ *)
(* C23. Every wait which succeeds returns a non-empty subset of its mask, and each bit has
   been passed to wake at least as many times as it has been returned (plus one more time
   if it's still set): whatever threads do and in whichever order. *)
Theorem C23_each_bit_consumed_once : forall calls schedule,
  (forall i c, In c (calls i) -> call_ok c) ->
  let y := erun schedule (estart calls) in
  Forall result_ok (returned y) /\
  forall b, 0 <= b -> count (gets b) (returned y) + Z.b2z (Z.testbit (word y) b) <= count (sets b) (begun y).
Proof.
  intros calls schedule Hc. destruct (flag_run calls Hc schedule) as (_ & H2 & H3 & _).
  split; [exact H3|exact H2].
Qed.
Print Assumptions C23_each_bit_consumed_once.

(* Calls which can't be right return an error at once, and take nothing from the flag: no place for
   the bits, no event flag, an empty mask. *)
Theorem C23_rejected : forall flag bit_mask has_state timeout_ms,
  (has_state = false -> wait_timeout flag bit_mask has_state timeout_ms = ERet (- EINVAL) None) /\
  (has_state = true -> flag = false -> wait_timeout flag bit_mask has_state timeout_ms = ERet (- ENOSYS) None) /\
  (has_state = true -> flag = true -> bit_mask = 0 -> wait_timeout flag bit_mask has_state timeout_ms = ERet (- EINVAL) None) /\
  (flag = false -> wake flag bit_mask = ERet (- ENOSYS) None) /\
  (flag = true -> bit_mask = 0 -> wake flag bit_mask = ERet 0 None).
Proof. intros flag m st t. repeat split; intros; subst; reflexivity. Qed.
Print Assumptions C23_rejected.

Definition flag_calls (l : list (list ecall)) (i : nat) : list ecall := nth i l [].

(* two waits and a wake which are interleaved: one gets the bits, the other one sleeps on *)
Example C23_two_waiters :
  let calls := flag_calls [[Wait 3 (-1)]; [Wait 2 100]; [Wake 6; Wake 1]] in
  let y := erun [Turn 0; Turn 0; Turn 1; Turn 2; Turn 1; Turn 2; Turn 0; Timeout 0; Timeout 1; Turn 2; Turn 2; Signal 0] (estart calls) in
  (forall i c, In c (calls i) -> call_ok c) /\
  returned y = [(1%nat, Wait 2 100, - EAGAIN, None); (2%nat, Wake 6, 1, None); (0%nat, Wait 3 (-1), 0, Some 2); (2%nat, Wake 1, 0, None)] /\
  word y = 5.
Proof.
  cbv zeta. split; [|split; vm_compute; reflexivity].
  intros i c H. destruct i as [|[|[|i]]]; cbn in H; repeat (destruct H as [<-|H]; [unfold call_ok; cbn; lia|]); try contradiction.
  destruct i; contradiction.
Qed.

(* ------------------------------------------------------------------ *)
(* C23, wakes are not lost: a thread never stays asleep with one of its bits set, unless
   somebody is just about to wake it up. This holds for a thread as long as wakes which
   overlap with its masks don't overlap with masks of other threads. *)
Theorem C23_wake_not_lost_partial : forall calls schedule w,
  (forall i c, In c (calls i) -> call_ok c) -> alone calls w ->
  let y := erun schedule (estart calls) in
  forall c m timed k, eth y w = Asleep c m timed k ->
  (forall b, ~ wake_pending y b) -> Z.land (word y) m = 0.
Proof. exact no_lost_wake. Qed.
Print Assumptions C23_wake_not_lost_partial.

(* the wake comes between the check and the sleep; then, while asleep *)
Example C23_wake_between_check_and_sleep :
  let calls := flag_calls [[Wait 1 (-1); Wait 1 (-1); Wait 1 (-1)]; [Wake 1; Wake 1]] in
  let y := erun [Turn 0; Turn 1; Turn 0; Turn 1; Turn 0; Turn 0; Turn 0; Turn 1] (estart calls) in
  let y' := erun [Turn 1; Turn 0; Timeout 0] y in
  (forall i c, In c (calls i) -> call_ok c) /\ alone calls 0 /\
  returned y = [(0%nat, Wait 1 (-1), - EAGAIN, None); (1%nat, Wake 1, 0, None); (0%nat, Wait 1 (-1), 0, Some 1)] /\
  (exists k, eth y 0%nat = Asleep (Wait 1 (-1)) 1 false k) /\ wake_pending y 0 /\ word y = 1 /\
  returned y' = returned y ++ [(1%nat, Wake 1, 1, None); (0%nat, Wait 1 (-1), 0, Some 1)].
Proof.
  cbv zeta. split.
  { intros i c H. destruct i as [|[|i]]; cbn in H; repeat (destruct H as [<-|H]; [unfold call_ok; cbn; lia|]); try contradiction.
    destruct i; contradiction. }
  split.
  { intros j m' i m t mw tw H1 H2 H3 H4 H5. destruct i as [|[|i]]; [reflexivity| |]; cbn in H4.
    - destruct H4 as [H4|[H4|[]]]; discriminate.
    - destruct i; contradiction. }
  split; [vm_compute; reflexivity|]. split; [vm_compute; eexists; reflexivity|].
  split; [exists 1%nat; vm_compute; repeat eexists|]. split; vm_compute; reflexivity.
Qed.

(* Not in general: the number of threads to wake up is G_MAXUINT32, which the kernel takes
   for -1 and wakes up one. Two threads wait for different bits, both are set at once, one
   thread isn't woken up and nobody is going to do that. *)
Theorem C23_wake_not_lost_refuted :
  exists calls schedule w c m timed k,
    (forall i c, In c (calls i) -> call_ok c) /\
    let y := erun schedule (estart calls) in
    eth y w = Asleep c m timed k /\ Z.land (word y) m = m /\ m <> 0 /\
    (forall i, i <> w -> eth y i = Idle /\ calls_of y i = []) /\ (forall b, ~ wake_pending y b) /\
    (* nobody else could ever take that bit *)
    (forall i m' t, i <> w -> In (Wait m' t) (calls i) -> Z.land m' m = 0).
Proof.
  exists (flag_calls [[Wait 1 (-1)]; [Wait 2 (-1)]; [Wake 3]]), [Turn 0; Turn 0; Turn 1; Turn 1; Turn 2; Turn 2; Turn 0],
    1%nat, (Wait 2 (-1)), 2, false, (after_sleep 2).
  split.
  { intros i c H. destruct i as [|[|[|i]]]; cbn in H; repeat (destruct H as [<-|H]; [unfold call_ok; cbn; lia|]); try contradiction.
    destruct i; contradiction. }
  cbv zeta. split; [vm_compute; reflexivity|]. split; [vm_compute; reflexivity|]. split; [discriminate|].
  split; [|split].
  - intros i Hi. destruct i as [|[|[|i]]]; [vm_compute; auto|congruence|vm_compute; auto|].
    split; [reflexivity|]. cbn. destruct i; reflexivity.
  - intros b (j & c & n & m & k & E & _). destruct j as [|[|[|j]]]; vm_compute in E; discriminate.
  - intros i m' t Hi H. destruct i as [|[|[|i]]]; cbn in H.
    + destruct H as [E|[]]. injection E as <- _. reflexivity.
    + congruence.
    + destruct H as [E|[]]. discriminate.
    + destruct i; contradiction.
Qed.
Print Assumptions C23_wake_not_lost_refuted.
