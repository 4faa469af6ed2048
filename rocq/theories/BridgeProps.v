(* Bridges between two service managers: C49. *)
From Verif Require Import Base BridgeModel BridgeSpec BridgeProofs BridgeInv BridgeTrack BridgeMain.
Local Open Scope nat_scope.

(* The service "a/b"; what is found of it; everything can be watched *)
Definition iface_a : name := [97%Z].
Definition name_b : name := [98%Z].
Definition fq : name := [97%Z; 47%Z; 98%Z].
Definition finds (o : nat) : nat -> option nat := fun i => if Nat.eqb i 0 then Some o else None.
Definition finds_none : nat -> option nat := fun _ => None.
Definition yes : nat -> bool := fun _ => true.
Definition new_bridge (look : nat -> option nat) : move := MNew (Some name_b) None [iface_a] yes look.
Definition after (l : list move) : state := match run init l with Ok s => s | _ => init end.

(* The service is there when the bridge is created; it dies and is started again *)
Definition first_life : list move :=
  [MRegister fq 0 true; new_bridge (finds 0); MDeliver 0 (finds 0); MStart 0; MFinish 0].
Definition restart : list move :=
  [MDie 0 true; MRegister fq 1 true; MDeliver 0 (finds 1); MEmit; MDeliver 0 (finds 1); MStart 1; MFinish 1].
(* Steps which are made in order *)
Lemma runs_cons s m s' l s'' : step s m = Ok s' -> orderly s m -> runs s' l s'' -> runs s (m :: l) s''.
Proof. intros A B C. econstructor; eassumption. Qed.
Ltac truth := let i := fresh "i" in intro i; destruct i as [|[|i]]; lazy; reflexivity.
Ltac in_order :=
  match goal with
  | |- orderly _ (MRegister _ _ _) => split; lazy; reflexivity
  | |- orderly _ (MDeliver _ _) => split; [reflexivity|split; [lazy; reflexivity|truth]]
  | |- orderly _ (MNew _ _ _ _ _) =>
    split; [intro; reflexivity|]; let i := fresh "i" in let b := fresh "b" in let X := fresh "X" in
    intros i b [X|[_ X]]; [discriminate X|injection X as <-]; destruct i as [|[|i]]; lazy; reflexivity
  | |- orderly _ (MDie _ _) => reflexivity
  | |- _ => exact I
  end.
Ltac steps := repeat (eapply runs_cons; [lazy; reflexivity|in_order|]); apply runs_none.
Definition lives_on : state := after (first_life ++ restart).
Lemma first_life_runs : runs init first_life (after first_life).
Proof. let s := eval lazy in (after first_life) in change (after first_life) with s. unfold first_life, new_bridge. steps. Qed.
Lemma restart_runs : runs init (first_life ++ restart) lives_on.
Proof. let s := eval lazy in lives_on in change lives_on with s. unfold first_life, restart, new_bridge. cbn [app]. steps. Qed.
(* The service is being restarted: nothing has been handled yet *)
Definition restarting : state := after (first_life ++ [MDie 0 true; MRegister fq 1 true]).
Lemma restarting_runs : runs init (first_life ++ [MDie 0 true; MRegister fq 1 true]) restarting.
Proof. let s := eval lazy in restarting in change restarting with s. unfold first_life, new_bridge. cbn [app]. steps. Qed.

(* Whatever happens, and in whatever order: an interface has nothing published, or exactly one proxy
   and one registration, of that very proxy, under the name for the source *)
Theorem C49_one_at_a_time s i : reach s ->
  (proxies_of s i = [] /\ names_of s i = []) \/
  exists p k, proxies_of s i = [p] /\ names_of s i = [k] /\ pn_proxy (pnames s k) = p /\ pn_name (pnames s k) = src_name s.
Proof. exact (one_each s i). Qed.
Print Assumptions C49_one_at_a_time.
Example one_now : proxies_of lives_on 0 = [1] /\ names_of lives_on 0 = [1] /\ nproxies lives_on = 2 /\ npnames lives_on = 2.
Proof. lazy. auto. Qed.

(* One handler for each interface which is attached to an object, and as many references to the
   object as there are handlers *)
Theorem C49_references_balanced s i : reach s ->
  length (filter (fun h => Nat.eqb (h_if h) i) (handlers s)) <= 1 /\
  forall o, refs s o = Z.of_nat (length (filter (fun h => Nat.eqb (h_obj h) o) (handlers s))).
Proof. exact (one_handler_each s i). Qed.
Print Assumptions C49_references_balanced.
Example references_now : refs lives_on 0 = 0%Z /\ refs lives_on 1 = 1%Z /\ length (handlers lives_on) = 1.
Proof. lazy. auto. Qed.

(* Whatever happens, the bridge neither calls a handler of a freed interface, nor releases anything
   twice *)
Theorem C49_no_crash l : run init l <> Crash.
Proof. exact (never_crashes l). Qed.
Print Assumptions C49_no_crash.

(* After the bridge has been freed nothing of it is left *)
Theorem C49_nothing_left s : reach s -> life_ s = Freed ->
  handlers s = [] /\ (forall o, refs s o = 0%Z) /\ (forall i, bi_watch (ifs s i) = false) /\
  (forall p, p < nproxies s -> px_dropped (proxies s p) = true) /\
  (forall k, k < npnames s -> pn_released (pnames s k) = true).
Proof. exact (nothing_left s). Qed.
Print Assumptions C49_nothing_left.
Example freed_bridge : let s := after (first_life ++ restart ++ [MFree]) in
  run init (first_life ++ restart ++ [MFree]) = Ok s /\ life_ s = Freed /\ nproxies s = 2.
Proof. lazy. auto. Qed.

(* The names: one of them is enough, and at least one interface is required; a service is looked for
   as interface/name *)
Theorem C49_names s src dest l w f s' : reach s -> life_ s = Before -> step s (MNew src dest l w f) = Ok s' ->
  (life_ s' = Live <-> l <> [] /\ (src <> None \/ dest <> None)) /\
  (life_ s' = Live -> ifaces s' = l /\
     Some (src_name s') = (match src with None => dest | x => x end) /\
     Some (dest_name s') = (match dest with None => src | x => x end)).
Proof. exact (new_names s src dest l w f s'). Qed.
Print Assumptions C49_names.
Example names_now : fqname lives_on 0 = fq /\ src_name lives_on = name_b /\ life_ lives_on = Live.
Proof. lazy. auto. Qed.

(* When things happen in order: as soon as the main thread has nothing left to do, an interface is
   published exactly if the service is available, and it is that very object which is published.
   Missing: histories which aren't in order, for which this is false (see below), and what the
   source itself says (C49_still_listed_refuted). *)
Theorem C49_published_exactly_partial s l i : runs init l s -> bridged s i -> settled s ->
  forall o, offered s i o <-> available s i o.
Proof. exact (exactly s l i). Qed.
Print Assumptions C49_published_exactly_partial.
Example published_now : settled lives_on /\ bridged lives_on 0 /\ available lives_on 0 1 /\ gone lives_on 0 = true.
Proof. lazy. auto 10. Qed.

(* And it will get there: whatever has happened in order, the main thread only has to go on, after
   which what is available is published. In particular a service which has been restarted is
   published again. *)
Theorem C49_republished_partial l s i : runs init l s -> bridged s i ->
  exists l' s', runs s l' s' /\ Forall working l' /\ settled s' /\ forall o, offered s' i o <-> available s i o.
Proof. exact (follows l s i). Qed.
Print Assumptions C49_republished_partial.
Example being_restarted : bridged restarting 0 /\ available restarting 0 1 /\ proxies_of restarting 0 = [0] /\
  px_obj (proxies restarting 0) = 0 /\ queue restarting = [NDeath 0; NReg fq].
Proof. lazy. auto 10. Qed.

(* A service which isn't published when nothing is left to do stays so until something is registered
   with the destination again, available or not *)
Theorem C49_stays_withdrawn l s i s' : reach s -> life_ s <> Before -> queue s = [] -> proxies_of s i = [] ->
  Forall no_registration l -> run s l = Ok s' -> forall o, ~ offered s' i o.
Proof. exact (stays_withdrawn l s i s'). Qed.
Print Assumptions C49_stays_withdrawn.
(* A service which is available, nothing is left to do, and it is never going to be published *)
Definition lost (s : state) (i o : nat) : Prop :=
  settled s /\ bridged s i /\ available s i o /\
  forall l s', Forall no_registration l -> run s l = Ok s' -> forall x, ~ offered s' i x.
Lemma is_lost l i o : let s := after l in run init l = Ok s -> settled s -> bridged s i -> available s i o ->
  proxies_of s i = [] -> lost s i o.
Proof.
  intros s R [Q E] B A P. split; [split; assumption|]. split; [exact B|]. split; [exact A|].
  intros l' s' F R'. apply (stays_withdrawn l' s i s'); auto; [exists l; exact R|]. destruct B as [B _]. congruence.
Qed.
(* The notification about the new registration is handled before that about the death: they come
   through different loopers, and the first one is ignored *)
Definition overtaken : list move :=
  first_life ++ [MDie 0 true; MRegister fq 1 true; MDeliver 1 (finds 1); MDeliver 0 finds_none; MEmit].
Theorem C49_overtaken_refuted : exists s, reach s /\ lost s 0 1.
Proof.
  exists (after overtaken). split; [exists overtaken; lazy; reflexivity|].
  apply (is_lost overtaken); [lazy; reflexivity|lazy; auto|lazy; auto|lazy; reflexivity|lazy; reflexivity].
Qed.
Print Assumptions C49_overtaken_refuted.
(* Another object takes the name before the first one dies *)
Definition taken_over : list move :=
  first_life ++ [MRegister fq 1 true; MDeliver 0 (finds 1); MDie 0 true; MDeliver 0 finds_none; MEmit].
Theorem C49_taken_over_refuted : exists s, reach s /\ lost s 0 1.
Proof.
  exists (after taken_over). split; [exists taken_over; lazy; reflexivity|].
  apply (is_lost taken_over); [lazy; reflexivity|lazy; auto|lazy; auto|lazy; reflexivity|lazy; reflexivity].
Qed.
Print Assumptions C49_taken_over_refuted.
(* Registration isn't notified about: a service manager which is polled doesn't tell about a service
   which was away only between two polls (C40), and one whose name isn't accepted is never watched *)
Definition unnoticed : list move :=
  first_life ++ [MDie 0 true; MDeliver 0 finds_none; MEmit; MRegister fq 1 false].
Theorem C49_unnoticed_refuted : exists s, reach s /\ lost s 0 1.
Proof.
  exists (after unnoticed). split; [exists unnoticed; lazy; reflexivity|].
  apply (is_lost unnoticed); [lazy; reflexivity|lazy; auto|lazy; auto|lazy; reflexivity|lazy; reflexivity].
Qed.
Print Assumptions C49_unnoticed_refuted.

(* The registration is handled between the death and the handler of the bridge, by a handler of the
   application which runs the main loop: the new object is attached to but the proxy of the dead one
   stays published *)
Definition nested : list move :=
  first_life ++ [MDie 0 true; MRegister fq 1 true; MDeliver 0 (finds 1); MDeliver 0 (finds 1); MEmit].
Theorem C49_stale_proxy_refuted : exists s, reach s /\ settled s /\ bridged s 0 /\ available s 0 1 /\
  offered s 0 0 /\ gone s 0 = true /\ forall o, offered s 0 o -> o = 0.
Proof.
  exists (after nested). assert (R : reach (after nested)) by (exists nested; lazy; reflexivity).
  split; [exact R|]. split; [lazy; auto|]. split; [lazy; auto|]. split; [lazy; reflexivity|].
  assert (G : good (after nested)) by (apply reach_good, R). split; [|split; [lazy; reflexivity|]].
  - apply (offered_is _ _ _ G). exists 0. lazy. auto.
  - intros o H. apply (offered_is _ _ _ G) in H. destruct H as (p & A & <-). lazy in A. injection A as <-. lazy. reflexivity.
Qed.
Print Assumptions C49_stale_proxy_refuted.

(* What the source gets is what the bridge publishes at that time, provided that no name is released
   while it is being registered. Missing: the calls which are (C49_old_one_listed_refuted), and
   removal from the source (C49_still_listed_refuted). *)
Theorem C49_listed_partial s m s' i : reach s -> step s m = Ok s' -> entry s' i <> entry s i ->
  (forall k, In k (running s) -> k < npnames s /\ pn_released (pnames s k) = false) ->
  exists p, entry s' i = Some p /\ offered s' i (px_obj (proxies s' p)) /\ px_dropped (proxies s' p) = false.
Proof. exact (listed s m s' i). Qed.
Print Assumptions C49_listed_partial.
Example listed_now : entry (after first_life) 0 = Some 0 /\ entry lives_on 0 = Some 1.
Proof. lazy. auto. Qed.

(* What has been registered with the source stays there: the service dies, nothing is left to do, and
   the source still has the proxy, which refuses everything; nothing the bridge does later, even
   freeing it, takes the name away *)
Definition away : list move := first_life ++ [MDie 0 true; MDeliver 0 finds_none; MEmit].
Theorem C49_still_listed_refuted :
  (forall l s s' i, reach s -> entry s i <> None -> run s l = Ok s' -> entry s' i <> None) /\
  exists s p, reach s /\ settled s /\ bridged s 0 /\ (forall o, ~ available s 0 o) /\
    entry s 0 = Some p /\ px_dropped (proxies s p) = true.
Proof.
  split; [exact once_listed|]. exists (after away), 0. split; [exists away; lazy; reflexivity|].
  split; [lazy; auto|]. split; [lazy; auto|]. split; [intros o H; lazy in H; discriminate H|]. lazy. auto.
Qed.
Print Assumptions C49_still_listed_refuted.

(* A call which was being executed when its name was released may take effect after that of the new
   name: the service is available and published, but the source has the old proxy *)
Definition late_call : list move :=
  [MRegister fq 0 true; new_bridge (finds 0); MDeliver 0 (finds 0); MStart 0;
   MDie 0 true; MRegister fq 1 true; MDeliver 0 (finds 1); MEmit; MDeliver 0 (finds 1); MStart 1; MFinish 1; MFinish 0].
Theorem C49_old_one_listed_refuted : exists s p, reach s /\ settled s /\ running s = [] /\ available s 0 1 /\
  offered s 0 1 /\ entry s 0 = Some p /\ px_dropped (proxies s p) = true.
Proof.
  exists (after late_call), 0. assert (R : reach (after late_call)) by (exists late_call; lazy; reflexivity).
  split; [exact R|]. split; [lazy; auto|]. split; [lazy; reflexivity|]. split; [lazy; reflexivity|].
  split; [apply (offered_is _ _ _ (reach_good _ R)); exists 1; lazy; auto|]. lazy. auto.
Qed.
Print Assumptions C49_old_one_listed_refuted.
