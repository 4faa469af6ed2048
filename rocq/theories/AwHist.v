(* Histories of watches which depend on polling, for any two names *)
From Verif Require Import Base AwModel AwSpec PollProofs AwProofs.
From Coq Require Import Sorted.

Section Histories.
Variable sort : list bytes -> list bytes.
Hypothesis Hs : strv_sort_contract sort.
Variables a b : bytes.
Hypothesis L : str_le a b = true.
Hypothesis D : a <> b.
Let E1 := str_eqb_neq a b D.
Let E2 := str_eqb_neq b a (fun e => D (eq_sym e)).
Let E3 := str_eqb_refl a.
Let E4 := str_eqb_refl b.
Let S0 := sort_nil sort Hs.
Let S1 := sort_one sort a Hs.
Let S2 := sort_one sort b Hs.
Let S3 := sort_two sort a b Hs L.
Let LB : StronglySorted (fun x y => str_le x y = true) [a; b].
Proof. repeat constructor. exact L. Qed.

Ltac calc := cbv -[str_eqb bytes]; rewrite ?E1, ?E2, ?E3, ?E4, ?S0, ?S1, ?S2, ?S3; cbv -[str_eqb bytes]; rewrite ?E1, ?E2, ?E3, ?E4.
Ltac quietly := let i := fresh "i" in intros i; cbv; destruct i as [|[|[|i]]]; reflexivity.
Ltac allowed := lazymatch goal with
  | |- orderly _ (MAnswer _) => split; [reflexivity|split; [quietly|eexists; split; [reflexivity|]]]
  | _ => first [exact I|reflexivity]
  end.
Ltac hop mv := lazymatch goal with R : reach sort ?ok ?s |- _ =>
  let R1 := fresh "R" in
  eassert (R1 : reach sort ok _);
    [eapply reach_step with (m := mv); [exact R|allowed|calc; reflexivity]|]; clear R end.

Lemma h_missed : exists s, reach sort not_nested s /\ idle s /\ settled s /\ watched (trace s) a /\ listed (trace s) a /\
  forall s1, path sort (still_listed a) s s1 -> ~ reported (trace s1) a.
Proof.
  pose proof (reach_init sort not_nested) as R.
  hop (MWatch b). hop (MAnswer (Some [a; b])). do 5 hop MNext. hop (MWatch a). do 2 hop MNext.
  eexists. split; [eassumption|]. split; [reflexivity|]. split; [quietly|]. split; [cbn; auto|]. split; [cbn; auto|].
  intros s1. apply lost_forever; [exact Hs|]. split.
  - apply (reach_calm sort). eassumption.
  - cbn. intuition congruence.
  - right. split; [|split; [exact LB|split; [intros _; left; reflexivity|discriminate]]]. intros i. cbv -[str_eqb bytes]. rewrite E3. intros [= <-]. reflexivity.
Qed.

Lemma h_nested : exists s, reach sort anything s /\ step sort s MNext = Crash.
Proof.
  pose proof (reach_init sort anything) as R.
  hop (MWatch a). hop (MAnswer (Some [b])). do 4 hop MNext. hop MTimer. hop (MAnswer (Some [a; b])). do 2 hop MNext.
  hop MTimer. hop (MAnswer (Some [b])). do 2 hop MNext. hop MNext.
  eexists. split; [eassumption|]. calc. reflexivity.
Qed.

Lemma h_stale : exists s s1 i, reach sort not_nested s /\ step sort s (MNotify i) = Ok s1 /\ trace s1 = EvReport b :: trace s /\
  ~ listed (trace s) b /\ ~ seen (trace s) b.
Proof.
  pose proof (reach_init sort not_nested) as R.
  hop (MWatch a). hop (MAnswer (Some [b])). do 4 hop MNext. hop MTimer. hop (MAnswer (Some [a])). do 2 hop MNext.
  hop (MWatch b). do 2 hop MNext.
  do 2 eexists. exists 1%nat. split; [eassumption|]. split; [calc; reflexivity|]. split; [reflexivity|].
  split; cbv -[str_eqb bytes]; rewrite ?E1, ?E2, ?E3, ?E4; intuition congruence.
Qed.

Lemma h_twice : exists s s1, reach sort no_late_watch s /\ step sort s MNext = Ok s1 /\ trace s1 = EvReport b :: trace s /\
  reported (trace s) b /\ ~ absent_since (trace s) b.
Proof.
  pose proof (reach_init sort no_late_watch) as R.
  hop (MWatch a). hop (MAnswer (Some [b])). do 4 hop MNext. hop (MWatch b). hop MTimer. hop (MAnswer (Some [])). hop MNext.
  hop MTimer. hop (MAnswer (Some [a; b])). do 3 hop MNext. hop (MNotify 1). do 4 hop MNext.
  do 2 eexists. split; [eassumption|]. split; [calc; reflexivity|]. split; [reflexivity|].
  split; cbv -[str_eqb bytes]; intuition congruence.
Qed.

(* A history in which nothing goes wrong: a service is reported, goes away, and is reported again *)
Lemma h_orderly : exists s, reach sort orderly s /\ idle s /\ settled s /\
  trace s = [EvReport b; EvAnswer (Some [a; b]); EvRequest; EvAnswer (Some [a]); EvRequest; EvReport b; EvAnswer (Some [b]); EvRequest; EvStart; EvWatch b].
Proof.
  pose proof (reach_init sort orderly) as R.
  hop (MWatch b). hop (MAnswer (Some [b])). { repeat constructor. auto. }
  do 4 hop MNext. hop MTimer. hop (MAnswer (Some [a])). { repeat constructor. auto. }
  do 4 hop MNext. hop MTimer. hop (MAnswer (Some [a; b])). { repeat constructor; cbn; intuition congruence. }
  do 6 hop MNext.
  eexists. split; [eassumption|]. split; [reflexivity|]. split; [quietly|reflexivity].
Qed.
End Histories.
