(* C56: services of managers which can't notify are found by polling, and reported *)
From Verif Require Import Base AwModel AwSpec PollProofs AwProofs AwHist.
From Verif Require PollProps.

Definition name_a : bytes := [97].
Definition name_b : bytes := [98].
Lemma names_differ : name_a <> name_b.
Proof. discriminate. Qed.
(* A history in which a service is reported, goes away, and is reported again: see AwHist *)
Definition story : list event :=
  [EvReport name_b; EvAnswer (Some [name_a; name_b]); EvRequest; EvAnswer (Some [name_a]); EvRequest;
   EvReport name_b; EvAnswer (Some [name_b]); EvRequest; EvStart; EvWatch name_b].
Lemma story_told : exists s, reach PollProps.sort_names orderly s /\ idle s /\ settled s /\ trace s = story.
Proof. exact (h_orderly PollProps.sort_names PollProps.sort_names_sorts name_a name_b eq_refl names_differ). Qed.
Lemma orderly_not_nested s m : orderly s m -> not_nested s m.
Proof. destruct m; cbn; tauto. Qed.
Lemma orderly_not_late s m : orderly s m -> no_late_watch s m.
Proof. destruct m; cbn; tauto. Qed.
Lemma orderly_anything s m : orderly s m -> anything s m.
Proof. intros _. exact I. Qed.

(* Nothing which is freed is used, if handlers don't run the main loop so that another answer comes
   while one is being processed *)
Theorem C56_no_crash_partial sort s m : reach sort not_nested s -> step sort s m <> Crash.
Proof. intros R. apply calm_no_crash. exact (reach_calm sort s R). Qed.
Print Assumptions C56_no_crash_partial.
Example C56_no_crash_case : exists s, reach PollProps.sort_names not_nested s /\ trace s = story.
Proof.
  destruct story_told as (s & R & _ & _ & T). exists s. split; [|exact T]. exact (reach_weaken _ _ _ _ orderly_not_nested R).
Qed.
(* ... if they do, the list which is being compared is freed by the nested answer *)
Theorem C56_nested_refuted sort a b : strv_sort_contract sort -> str_le a b = true -> a <> b ->
  exists s, reach sort anything s /\ step sort s MNext = Crash.
Proof. intros H L D. exact (h_nested sort H a b L D). Qed.
Print Assumptions C56_nested_refuted.
Example C56_nested_case : exists s, reach PollProps.sort_names anything s /\ step PollProps.sort_names s MNext = Crash.
Proof. exact (C56_nested_refuted PollProps.sort_names name_a name_b PollProps.sort_names_sorts eq_refl names_differ). Qed.

(* What is reported is being watched, and was listed while it was being watched or just before *)
Theorem C56_only_listed_partial sort s : strv_sort_contract sort -> reach sort no_late_watch s ->
  each (fun e before => forall n, e = EvReport n -> watched before n /\ seen before n) (trace s).
Proof. intros H R. exact (k_reports _ (reach_care sort H s R)). Qed.
Print Assumptions C56_only_listed_partial.
Example C56_only_listed_case : exists s, reach PollProps.sort_names no_late_watch s /\ trace s = story.
Proof.
  destruct story_told as (s & R & _ & _ & T). exists s. split; [|exact T]. exact (reach_weaken _ _ _ _ orderly_not_late R).
Qed.
(* A handler which starts to watch a service while the answer which doesn't list it any more is being
   processed is told that the service is there *)
Theorem C56_stale_refuted sort a b : strv_sort_contract sort -> a <> b ->
  exists s s1 i, reach sort not_nested s /\ step sort s (MNotify i) = Ok s1 /\
    trace s1 = EvReport b :: trace s /\ ~ listed (trace s) b /\ ~ seen (trace s) b.
Proof. intros H D. exact (h_stale sort H a b D). Qed.
Print Assumptions C56_stale_refuted.

(* What is being watched, and is in the last list, has been reported when everything is done *)
Theorem C56_not_missed_partial sort s n : strv_sort_contract sort -> reach sort no_late_watch s ->
  idle s -> settled s -> watched (trace s) n -> listed (trace s) n -> reported (trace s) n.
Proof.
  intros H R I Q W L. destruct (not_missed s n (reach_care sort H s R) I W L) as [X|(i & _ & X)]; [exact X|].
  rewrite Q in X. discriminate.
Qed.
Print Assumptions C56_not_missed_partial.
Example C56_not_missed_case : exists s, reach PollProps.sort_names no_late_watch s /\ idle s /\ settled s /\
  watched (trace s) name_b /\ listed (trace s) name_b.
Proof.
  destruct story_told as (s & R & I & Q & T). exists s. split; [exact (reach_weaken _ _ _ _ orderly_not_late R)|].
  split; [exact I|]. split; [exact Q|]. rewrite T. cbn. auto.
Qed.
(* ... and that comes: the callback of a watch, and everything that is to be done about an answer, can
   be executed until nothing is left *)
Theorem C56_comes sort s : reach sort not_nested s ->
  (forall i, w_notify (watches s i) = true ->
     exists s1, step sort s (MNotify i) = Ok s1 /\ trace s1 = EvReport (w_name (watches s i)) :: trace s /\
       w_notify (watches s1 i) = false) /\
  exists k s1, run sort s (repeat MNext k) = Ok s1 /\ idle s1.
Proof.
  intros R. pose proof (reach_calm sort s R) as C. split; [|exact (processed sort s C)].
  intros i W. destruct (notify_ok s i (c_base _ C) W) as [E _]. eexists. split; [exact E|]. split; [reflexivity|].
  cbn. rewrite upd_eq. reflexivity.
Qed.
Print Assumptions C56_comes.
(* A service which a handler starts to watch while another one is being reported, and which comes
   before that one in the same list, isn't reported - however many times it's listed later *)
Theorem C56_missed_refuted sort a b : strv_sort_contract sort -> str_le a b = true -> a <> b ->
  exists s, reach sort not_nested s /\ idle s /\ settled s /\ watched (trace s) a /\ listed (trace s) a /\
    forall s1, path sort (still_listed a) s s1 -> ~ reported (trace s1) a.
Proof. intros H L D. exact (h_missed sort H a b L D). Qed.
Print Assumptions C56_missed_refuted.

(* What has been reported is reported again only if it has been missing meanwhile *)
Theorem C56_once_partial sort s : strv_sort_contract sort -> reach sort orderly s ->
  each (fun e before => forall n, e = EvReport n -> reported before n -> absent_since before n) (trace s).
Proof. intros H R. exact (o_once _ (reach_order sort H s R)). Qed.
Print Assumptions C56_once_partial.
Example C56_once_case : exists s, reach PollProps.sort_names orderly s /\
  exists before, trace s = EvReport name_b :: before /\ reported before name_b.
Proof.
  destruct story_told as (s & R & I & Q & T). exists s. split; [exact R|]. rewrite T. eexists. split; [reflexivity|]. cbn. auto.
Qed.
(* If a callback is late, and is executed while a newer answer is being processed, the service is
   reported twice *)
Theorem C56_twice_refuted sort a b : strv_sort_contract sort -> str_le a b = true -> a <> b ->
  exists s s1, reach sort no_late_watch s /\ step sort s MNext = Ok s1 /\ trace s1 = EvReport b :: trace s /\
    reported (trace s) b /\ ~ absent_since (trace s) b.
Proof. intros H L D. exact (h_twice sort H a b L D). Qed.
Print Assumptions C56_twice_refuted.

(* The manager is polled as long as something is being watched, and not longer; there's one request
   at a time; and each time the timer fires, one is being made or waited for *)
Theorem C56_polling sort s : reach sort anything s ->
  (idle s -> (polling s <-> exists n, watched (trace s) n)) /\
  ((exists n, watched (trace s) n) -> polling s) /\
  each (fun e before => e = EvRequest -> ~ waiting before) (trace s) /\
  (polling s -> exists s1, step sort s MTimer = Ok s1 /\ waiting (trace s1)).
Proof. exact (polling_iff sort s). Qed.
Print Assumptions C56_polling.
Example C56_polling_case : exists s, reach PollProps.sort_names anything s /\ idle s /\ trace s = story.
Proof.
  destruct story_told as (s & R & I & Q & T). exists s. split; [|split; [exact I|exact T]]. exact (reach_weaken _ _ _ _ orderly_anything R).
Qed.
