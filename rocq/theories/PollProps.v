(* C40: names reported by polling the service manager *)
From Verif Require Import Base PollModel PollSpec PollProofs.
From Coq Require Import Sorted.
From Coq Require Permutation.

(* A sorting function, for the examples *)
Fixpoint insert_name (x : bytes) (l : list bytes) : list bytes :=
  match l with
  | [] => [x]
  | y :: r => if str_le x y then x :: l else y :: insert_name x r
  end.
Definition sort_names (l : list bytes) : list bytes := fold_right insert_name [] l.

Lemma insert_perm x l : Permutation.Permutation (x :: l) (insert_name x l).
Proof.
  induction l as [|y r IH]; cbn [insert_name]; [apply Permutation.Permutation_refl|].
  destruct (str_le x y); [apply Permutation.Permutation_refl|].
  eapply Permutation.perm_trans; [apply Permutation.perm_swap|]. apply Permutation.perm_skip. exact IH.
Qed.

Lemma insert_sorted x l :
  StronglySorted (fun a b => str_le a b = true) l ->
  StronglySorted (fun a b => str_le a b = true) (insert_name x l).
Proof.
  induction l as [|y r IH]; intros H; cbn [insert_name]; [constructor; constructor|].
  inversion H as [|? ? H1 H2]; subst. destruct (str_le x y) eqn:E.
  - constructor; [assumption|]. constructor; [assumption|].
    rewrite Forall_forall in *. intros z Hz. eapply str_le_trans; [exact E|apply H2; exact Hz].
  - constructor; [apply IH; assumption|]. rewrite Forall_forall in *. intros z Hz.
    apply (Permutation.Permutation_in _ (Permutation.Permutation_sym (insert_perm x r))) in Hz.
    destruct Hz as [<-|Hz]; [apply str_le_total; exact E|apply H2; exact Hz].
Qed.

Example sort_names_sorts : strv_sort_contract sort_names.
Proof.
  intros l. induction l as [|x l [H1 H2]]; cbn [sort_names fold_right].
  - split; constructor.
  - split; [|apply insert_sorted; exact H2].
    eapply Permutation.perm_trans; [apply Permutation.perm_skip; exact H1|apply insert_perm].
Qed.

(* Each answer reports exactly the names which weren't in the previous successful one,
   each of them once. What is missing: answers which list a name more than once, and
   failed polls in between: see below. *)
Theorem C40_reports_new_names_partial :
  forall sort before services after p outs,
  strv_sort_contract sort ->
  poll_run sort poll_create (before ++ PAnswer (Some services) :: after) = Some (p, outs) ->
  NoDup services -> no_failures before ->
  exists out, nth_error outs (length before) = Some out /\ NoDup out /\
    forall x, In x out <-> In x services /\ ~ In x (names_before_ok [] before).
Proof.
  intros sort before services after p outs Hsort E Hd Hf.
  destruct (poll_history sort Hsort _ _ _ _ _ E) as (out & H1 & H2 & H3).
  destruct (H3 Hd) as [H4 H5]. rewrite (before_same _ _ Hf) in *.
  exists out. split; [exact H1|]. split; [exact H4|]. intros x. split; [apply H5|].
  intros [H6 H7]. apply H2; assumption.
Qed.
Print Assumptions C40_reports_new_names_partial.

Definition n_a : bytes := [97]. Definition n_b : bytes := [98; 46; 99]. Definition n_c : bytes := [99].

Example C40_reports_ex :
  match poll_run sort_names poll_create
    [PAnswer (Some [n_c; n_a]); PTimer; PAnswer (Some [n_c; n_b]); PTimer; PAnswer (Some [n_a; n_b])] with
  | Some (_, outs) => outs = [[n_a; n_c]; []; [n_b]; []; [n_a]]
  | None => False
  end.
Proof. vm_compute. reflexivity. Qed.

(* No name is missed, no matter what the manager answers *)
Theorem C40_nothing_missed :
  forall sort before services after p outs,
  strv_sort_contract sort ->
  poll_run sort poll_create (before ++ PAnswer (Some services) :: after) = Some (p, outs) ->
  exists out, nth_error outs (length before) = Some out /\
    forall x, In x services -> ~ In x (names_before [] before) -> In x out.
Proof.
  intros sort before services after p outs Hsort E.
  destruct (poll_history sort Hsort _ _ _ _ _ E) as (out & H1 & H2 & _). exists out. auto.
Qed.
Print Assumptions C40_nothing_missed.

Example C40_nothing_missed_ex :
  match poll_run sort_names poll_create
    [PAnswer (Some [n_c; n_a; n_c]); PTimer; PAnswer (Some [n_b; n_b; n_c])] with
  | Some (_, outs) => nth_error outs 2 = Some [n_b; n_b]
  | None => False
  end.
Proof. vm_compute. reflexivity. Qed.

(* There's never more than one request for which no answer has come yet, and a timer makes a
   new one if there isn't any: polling goes on *)
Theorem C40_one_request_at_a_time :
  forall sort es p outs,
  poll_run sort poll_create es = Some (p, outs) ->
  0 <= 1 + requests sort poll_create es - answers es <= 1 /\
  (snd (poll_timer p) = true <-> 1 + requests sort poll_create es = answers es).
Proof.
  assert (H : forall sort es p0 p outs, poll_run sort p0 es = Some (p, outs) ->
    Z.b2z (po_busy p0) + requests sort p0 es - answers es = Z.b2z (po_busy p)).
  { intros sort es. induction es as [|e es IH]; intros p0 p outs E; cbn [poll_run requests answers] in *.
    - assert (p = p0) by congruence. subst p. lia.
    - destruct (poll_step sort p0 e) as [[p1 o]|] eqn:Es; [|discriminate].
      destruct (poll_run sort p1 es) as [[p2 os]|] eqn:Er; [|discriminate].
      assert (p = p2) by congruence. subst p2. specialize (IH _ _ _ Er). destruct e as [|services]; cbn [poll_step] in Es.
      + unfold poll_timer in *. destruct (po_busy p0) eqn:B; cbn [fst snd] in Es.
        * assert (Hp : p1 = p0) by congruence. subst p1. rewrite B in IH. cbn [Z.b2z snd] in *. lia.
        * assert (Hp : po_busy p1 = true) by (injection Es as <- _; reflexivity). rewrite Hp in IH. cbn [Z.b2z snd] in *. lia.
      + destruct (po_busy p0) eqn:B; [|discriminate].
        assert (Hb : po_busy p1 = false).
        { unfold poll_list in Es. destruct services; injection Es as <- _; reflexivity. }
        rewrite Hb in IH. cbn [Z.b2z] in *. lia. }
  intros sort es p outs E. specialize (H _ _ _ _ _ E). cbn [poll_create po_busy Z.b2z] in H.
  unfold poll_timer. destruct (po_busy p); cbn [Z.b2z snd] in *; (split; [lia|]); split; intros; lia || congruence.
Qed.
Print Assumptions C40_one_request_at_a_time.
Example C40_one_request_ex :
  let es := [PTimer; PAnswer (Some [n_a]); PTimer; PTimer; PAnswer None] in
  (exists p outs, poll_run sort_names poll_create es = Some (p, outs)) /\
  requests sort_names poll_create es = 1 /\ answers es = 2.
Proof. split; [|split; reflexivity]. eexists _, _. vm_compute. reflexivity. Qed.

(* The known names are those of the last answer *)
Theorem C40_known_names :
  forall sort es p outs, strv_sort_contract sort ->
  poll_run sort poll_create es = Some (p, outs) ->
  forall x, is_known_name p x = true <-> In x (names_before [] es).
Proof. intros sort es p outs Hsort E x. exact (poll_known sort Hsort es p outs x E). Qed.
Print Assumptions C40_known_names.

Example C40_known_names_ex :
  match poll_run sort_names poll_create
    [PAnswer (Some [n_c; n_a]); PTimer; PAnswer (Some [n_c; n_b]); PTimer; PTimer] with
  | Some (p, _) => is_known_name p n_b = true /\ is_known_name p n_a = false
  | None => False
  end.
Proof. vm_compute. split; reflexivity. Qed.

(* A name which was in the previous answer is reported again if the manager lists it
   twice *)
Theorem C40_repeated_name_refuted :
  forall sort x, strv_sort_contract sort ->
  exists p outs,
  poll_run sort poll_create [PAnswer (Some [x]); PTimer; PAnswer (Some [x; x])] = Some (p, outs) /\
  nth_error outs 2 = Some [x].
Proof.
  intros sort x Hsort.
  assert (E1 : sort [x] = [x]).
  { apply Permutation.Permutation_length_1_inv. exact (proj1 (Hsort [x])). }
  assert (E2 : sort [x; x] = [x; x]).
  { destruct (Permutation.Permutation_length_2_inv (proj1 (Hsort [x; x]))); assumption. }
  cbn [poll_run poll_step poll_create po_busy poll_list poll_timer fst po_list].
  rewrite E1, E2. cbn [new_names strv_find].
  destruct (str_eqbP x x) as [_|Hn]; [|congruence]. cbn [skipn]. eauto.
Qed.
Print Assumptions C40_repeated_name_refuted.

(* After a failed poll all names are reported again *)
Theorem C40_failed_poll_refuted :
  forall sort services, strv_sort_contract sort ->
  exists p out outs,
  poll_run sort poll_create
    [PAnswer (Some services); PTimer; PAnswer None; PTimer; PAnswer (Some services)] = Some (p, outs) /\
  nth_error outs 4 = Some out /\ Permutation.Permutation services out.
Proof.
  intros sort services Hsort.
  assert (Hn : forall l, new_names [] l = l).
  { induction l as [|y l IH]; cbn [new_names]; [reflexivity|]. rewrite IH. reflexivity. }
  cbn [poll_run poll_step poll_create po_busy poll_list poll_timer fst po_list].
  rewrite !Hn. exists {| po_list := Some (sort services); po_busy := false |}, (sort services).
  eexists. split; [reflexivity|]. split; [reflexivity|]. apply Hsort.
Qed.
Print Assumptions C40_failed_poll_refuted.
