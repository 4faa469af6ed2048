(* C58: one connection per device and protocol.
   The vocabulary (opens, closes, opened_for, releasing, calm) is in ConnSpec, owned is in ConnModel. *)
From Verif Require Import Base ConnModel ConnSpec ConnProofs.
Local Arguments Nat.ltb : simpl never.

(* Whatever threads do, in whatever order, a freed connection is never found, used or freed again *)
Theorem C58_no_crash : forall l, run init l <> Crash.
Proof. intros l. apply safe_run. exact inv_init. Qed.
Print Assumptions C58_no_crash.

(* Two threads, two devices, one of which is shared *)
Definition sharing : list move :=
  [MNew 1 7 true; MNew 2 7 true; MNew 2 8 true; MUnref 1 0; MRef 2 0; MUnref 1 1; MUnref 2 0; MGo 1; MGo 1].
Example C58_no_crash_case :
  match run init (sharing ++ [MGo 1; MUnref 2 0; MGo 2; MGo 2; MGo 2]) with
  | Ok s => trace s = [EvClose 0; EvUnref 0; EvClose 1; EvUnref 0; EvUnref 1; EvRef 0; EvUnref 0;
                       EvNew 2 8 (Some 1%nat); EvOpen 8 1; EvNew 2 7 (Some 0%nat); EvNew 1 7 (Some 0%nat); EvOpen 7 0]
  | _ => False
  end.
Proof. vm_compute. reflexivity. Qed.

(* The device stays open for as long as anybody holds the connection *)
Theorem C58_open_while_held : forall l s i, run init l = Ok s -> 0 < owned (trace s) i ->
  opens (trace s) i = 1%nat /\ closes (trace s) i = 0%nat.
Proof. intros l s i R P. destruct (owned_pos s i (reach l s R) P) as (_ & _ & _ & A & _ & B). auto. Qed.
Print Assumptions C58_open_while_held.
Example C58_open_while_held_case :
  exists s, run init sharing = Ok s /\ owned (trace s) 0 = 1 /\ threads s 1%nat = Dropping 1.
Proof. eexists. split; [vm_compute; reflexivity|]. split; vm_compute; reflexivity. Qed.

(* What is returned is a connection to that device, and it's open *)
Theorem C58_right_device : forall l s t k o s1 i tr, run init l = Ok s -> step s (MNew t k o) = Ok s1 ->
  trace s1 = EvNew t k (Some i) :: tr ->
  opened_for (trace s1) i = Some k /\ opens (trace s1) i = 1%nat /\ closes (trace s1) i = 0%nat /\ 0 < owned (trace s1) i.
Proof.
  intros l s t k o s1 i tr R U T. pose proof (reach l s R) as H. pose proof (inv_step s _ s1 H U) as H1.
  cbn in U. destruct (is_idle (threads s t)); [|discriminate]. unfold ipc_new in U.
  destruct (table s k) as [j|] eqn:E.
  - destruct (proj2 H k j E) as (L & K & F & W). rewrite F in U. injection U as <-. cbn in T. injection T as <- _.
    pose proof (proj1 H j) as G. unfold good in G. apply Nat.ltb_lt in L. rewrite L, F in G.
    destruct G as (G1 & G2 & G3 & G4). cbn. rewrite Nat.eqb_refl. repeat split; auto; [congruence|].
    destruct G4 as [(_ & _ & A)|(_ & _ & _ & _ & A)]; lia.
  - destruct o; injection U as <-; cbn in T; [|discriminate]. injection T as <- _. cbn. rewrite Nat.eqb_refl.
    pose proof (proj1 H (count s)) as G. unfold good in G. rewrite Nat.ltb_irrefl in G.
    destruct G as ([G1 G2] & G3 & G4 & G5). repeat split; [lia|lia|]. rewrite G2. lia.
Qed.
Print Assumptions C58_right_device.
(* ... and something is, if the device can be opened *)
Theorem C58_always_one : forall l s t k s1, run init l = Ok s -> step s (MNew t k true) = Ok s1 ->
  exists i tr, trace s1 = EvNew t k (Some i) :: tr.
Proof.
  intros l s t k s1 R U. cbn in U. destruct (is_idle (threads s t)); [|discriminate]. unfold ipc_new in U.
  destruct (table s k) as [j|] eqn:E.
  - destruct (c_freed (conns s j)); [discriminate|]. injection U as <-. cbn. eauto.
  - injection U as <-. cbn. eauto.
Qed.
Print Assumptions C58_always_one.
Example C58_right_device_case :
  exists s s1 tr, run init sharing = Ok s /\ step s (MNew 2 7 false) = Ok s1 /\
    trace s1 = EvNew 2 7 (Some 0%nat) :: tr /\ owned (trace s1) 0 = 2.
Proof.
  do 3 eexists. split; [vm_compute; reflexivity|]. split; [vm_compute; reflexivity|].
  split; [vm_compute; reflexivity|]. vm_compute. reflexivity.
Qed.

(* The device is opened at most once for each connection, and closed at most once, only after it was opened *)
Theorem C58_closed_once : forall l s i, run init l = Ok s ->
  (opens (trace s) i <= 1 /\ closes (trace s) i <= opens (trace s) i)%nat.
Proof.
  intros l s i R. pose proof (proj1 (reach l s R) i) as G. unfold good in G.
  destruct (i <? count s)%nat; [|lia]. destruct G as (G1 & G2 & G3 & G4). destruct (c_freed (conns s i)); lia.
Qed.
Print Assumptions C58_closed_once.
(* It's closed when all references are gone and calls which released them have returned *)
Theorem C58_all_closed : forall l s i, run init l = Ok s -> idle_all s -> owned (trace s) i = 0 ->
  closes (trace s) i = opens (trace s) i.
Proof.
  intros l s i R D O. pose proof (proj1 (reach l s R) i) as G. unfold good in G.
  destruct (i <? count s)%nat; [|lia]. destruct G as (G1 & G2 & G3 & G4). destruct (c_freed (conns s i)); [lia|].
  destruct G4 as [(_ & _ & A)|(t & A & _)]; [lia|]. rewrite D in A. discriminate.
Qed.
Print Assumptions C58_all_closed.
(* Releasing takes at most three steps, whatever the others do in between: every step of the thread is
   possible and takes it further *)
Definition left (p : pc) : nat := match p with Idle => 0 | Disposing _ => 3 | Stopping _ => 2 | Dropping _ => 1 end.
Theorem C58_release_ends : forall l s t, run init l = Ok s -> threads s t <> Idle ->
  exists s1, step s (MGo t) = Ok s1 /\ (S (left (threads s1 t)) = left (threads s t))%nat.
Proof.
  intros l s t R N. pose proof (reach l s R) as H. cbn.
  destruct (threads s t) as [|i|i|i] eqn:T; [congruence| | |];
    destruct (busy_live s t i H ltac:(now rewrite T)) as (_ & F & _);
    [unfold ipc_dispose|unfold ipc_stop|unfold ipc_drop]; cbv zeta; rewrite F; [| |destruct (1 <? c_refs (conns s i))];
    eexists; (split; [reflexivity|]); cbn -[upd]; now rewrite upd_same.
Qed.
Print Assumptions C58_release_ends.
(* Nobody holds anything: nothing is left in the table *)
Theorem C58_table_empty : forall l s, run init l = Ok s -> idle_all s -> (forall i, owned (trace s) i = 0) ->
  forall k, table s k = None.
Proof.
  intros l s R D O k. destruct (table s k) as [i|] eqn:E; auto.
  pose proof (reach l s R) as H. destruct (proj2 H k i E) as (L & _ & F & _).
  pose proof (proj1 H i) as G. unfold good in G. apply Nat.ltb_lt in L. rewrite L, F in G.
  destruct G as (_ & _ & _ & [(_ & _ & A)|(t & A & _)]); [rewrite O in A; lia|]. rewrite D in A. discriminate.
Qed.
Print Assumptions C58_table_empty.
Example C58_all_closed_case :
  exists s, run init (sharing ++ [MGo 1; MUnref 2 0; MGo 2; MGo 2; MGo 2]) = Ok s /\
    idle_all s /\ (forall i, owned (trace s) i = 0) /\ closes (trace s) 0 = 1%nat /\ closes (trace s) 1 = 1%nat.
Proof.
  eexists. split; [vm_compute; reflexivity|]. split.
  - intros [|[|[|t]]]; vm_compute; reflexivity.
  - split; [|split; vm_compute; reflexivity]. intros [|[|i]]; vm_compute; reflexivity.
Qed.

(* While a connection is held, a request for the same device returns it, whether or not the device could
   be opened again. Nobody may have asked for a connection in the short time between the release of the
   last reference and its removal from the table; the general statement is refuted below. *)
Theorem C58_shared_partial : forall l s i k t o s1, run init l = Ok s -> calm init l ->
  0 < owned (trace s) i -> opened_for (trace s) i = Some k -> step s (MNew t k o) = Ok s1 ->
  trace s1 = EvNew t k (Some i) :: trace s.
Proof.
  intros l s i k t o s1 R C P K U. pose proof (reach l s R) as H.
  destruct (calm_run l init s inv_init calm_init C R) as (C1 & _).
  destruct (owned_pos s i H P) as (_ & F & _ & _ & K1 & _). rewrite K in K1. injection K1 as K1.
  pose proof (C1 i P) as T. rewrite <- K1 in T. cbn in U. destruct (is_idle (threads s t)); [|discriminate].
  unfold ipc_new in U. rewrite T, F in U. now injection U as <-.
Qed.
Print Assumptions C58_shared_partial.
(* There's one, and threads which receive requests for its objects are running *)
Theorem C58_one_partial : forall l s i j k, run init l = Ok s -> calm init l ->
  0 < owned (trace s) i -> opened_for (trace s) i = Some k ->
  0 < owned (trace s) j -> opened_for (trace s) j = Some k -> i = j.
Proof.
  intros l s i j k R C PI KI PJ KJ. pose proof (reach l s R) as H.
  destruct (calm_run l init s inv_init calm_init C R) as (C1 & _).
  destruct (owned_pos s i H PI) as (_ & _ & _ & _ & K1 & _).
  destruct (owned_pos s j H PJ) as (_ & _ & _ & _ & K2 & _).
  pose proof (C1 i PI) as T1. pose proof (C1 j PJ) as T2. congruence.
Qed.
Print Assumptions C58_one_partial.
Theorem C58_served_partial : forall l s i, run init l = Ok s -> calm init l -> 0 < owned (trace s) i ->
  c_stopped (conns s i) = false.
Proof.
  intros l s i R C P. destruct (calm_run l init s inv_init calm_init C R) as (C1 & C2 & _).
  exact (C2 _ i (C1 i P)).
Qed.
Print Assumptions C58_served_partial.
Lemma not_releasing : forall s k, (forall t i, threads s t = Disposing i -> c_key (conns s i) <> k) -> ~ releasing s k.
Proof. intros s k A (t & i & T & K). exact (A t i T K). Qed.
Ltac quiet := split; [try exact I; try (apply not_releasing; intros [|[|[|t]]] i; vm_compute; congruence)|].
Example C58_shared_case :
  calm init (sharing ++ [MNew 3 8 true]) /\
  exists s, run init (sharing ++ [MNew 3 8 true]) = Ok s /\ owned (trace s) 0 = 1 /\ opened_for (trace s) 0 = Some 7%nat /\
    owned (trace s) 2 = 1 /\ opened_for (trace s) 2 = Some 8%nat /\ exists s1, step s (MNew 2 7 false) = Ok s1.
Proof.
  split.
  - unfold sharing. cbn [app calm].
    repeat (quiet; match goal with |- match step ?s ?m with _ => _ end => let x := eval vm_compute in (step s m) in
              change (step s m) with x; cbv iota beta end); exact I.
  - eexists. split; [vm_compute; reflexivity|]. do 4 (split; [vm_compute; reflexivity|]).
    eexists. vm_compute. reflexivity.
Qed.

(* The window: one thread releases the last reference, and before it gets to the mutex another one asks
   for the same device. It gets the connection which is about to be taken out of the table: its loopers
   are stopped although it's held, and the next request opens the device again. *)
Definition raced (t u i k : nat) : list move := [MUnref t i; MNew u k true; MGo t; MGo t; MGo t; MNew t k true].
Lemma step_cons : forall s m s1 l s2, step s m = Ok s1 -> run s1 l = Ok s2 -> run s (m :: l) = Ok s2.
Proof. intros. cbn. now rewrite H. Qed.
Theorem C58_shared_refuted : forall l s i k t u, run init l = Ok s -> calm init l ->
  owned (trace s) i = 1 -> opened_for (trace s) i = Some k ->
  threads s t = Idle -> threads s u = Idle -> t <> u ->
  exists s1 j, run s (raced t u i k) = Ok s1 /\ j <> i /\
    owned (trace s1) i = 1 /\ opened_for (trace s1) i = Some k /\ c_stopped (conns s1 i) = true /\
    owned (trace s1) j = 1 /\ opened_for (trace s1) j = Some k /\ threads s1 t = Idle /\ threads s1 u = Idle.
Proof.
  intros l s i k t u R C O K Tt Tu N. pose proof (reach l s R) as H.
  destruct (calm_run l init s inv_init calm_init C R) as (C1 & C2 & C3 & C4).
  assert (P : 0 < owned (trace s) i) by lia.
  destruct (owned_pos s i H P) as (L & F & A & O1 & K1 & O3). rewrite K in K1. injection K1 as K1.
  pose proof (C1 i P) as T. rewrite <- K1 in T.
  destruct A as [(A1 & A2 & A3)|(v & A1 & _)]; [|pose proof (C3 v i A1); lia].
  pose proof (proj1 H (count s)) as G. unfold good in G. rewrite Nat.ltb_irrefl in G.
  destruct G as ([G1 G2] & G3 & G4 & G5).
  assert (NU : u <> t) by congruence. assert (NI : i <> count s) by lia.
  unfold raced. eexists. exists (count s). split.
  { eapply step_cons.
    { cbn [step]. rewrite Tt, O. cbn [is_idle andb]. unfold ipc_unref. rewrite F, A2, O. reflexivity. }
    eapply step_cons.
    { cbn [step]. cbn -[upd]. rewrite upd_other, Tu by auto. cbn [is_idle]. unfold ipc_new. cbn -[upd]. rewrite T, F.
      reflexivity. }
    eapply step_cons.
    { cbn -[upd]. rewrite upd_same. unfold ipc_dispose. cbn -[upd]. rewrite upd_same. cbn -[upd]. rewrite F. reflexivity. }
    eapply step_cons.
    { cbn -[upd]. rewrite upd_same. unfold ipc_stop. cbn -[upd]. rewrite upd_same. cbn -[upd]. rewrite F. reflexivity. }
    eapply step_cons.
    { cbn -[upd]. rewrite upd_same. unfold ipc_drop. cbn -[upd]. rewrite upd_same. cbn -[upd]. rewrite A2, O. reflexivity. }
    eapply step_cons; [|reflexivity].
    cbn -[upd]. rewrite upd_same. cbn [is_idle]. unfold ipc_new. cbn -[upd]. rewrite upd_same. cbn -[upd].
    rewrite <- K1, upd_same. reflexivity. }
  split; [congruence|].
  cbn -[upd]. rewrite !Nat.eqb_refl, (eqb_other (count s) i NI), (eqb_other i (count s)) by auto.
  rewrite (upd_other _ _ (count s) i) by auto. rewrite upd_same. cbn -[upd]. rewrite O, G2, K.
  repeat split; try lia; [now rewrite upd_same|]. unfold upd. rewrite (eqb_other t u) by auto. exact Tu.
Qed.
Print Assumptions C58_shared_refuted.
(* ... and when the first one is released in the end, it's the second one which disappears from the
   table, so the third request opens the device for the third time although the second one is held *)
Definition evicted (t u i k : nat) : list move := raced t u i k ++ [MUnref u i; MGo u; MGo u; MGo u; MNew u k true].
Theorem C58_one_refuted : forall l s i k t u, run init l = Ok s -> calm init l ->
  owned (trace s) i = 1 -> opened_for (trace s) i = Some k ->
  threads s t = Idle -> threads s u = Idle -> t <> u ->
  exists s1 j m, run s (evicted t u i k) = Ok s1 /\ m <> j /\ closes (trace s1) i = 1%nat /\
    owned (trace s1) j = 1 /\ opened_for (trace s1) j = Some k /\ c_stopped (conns s1 j) = false /\
    owned (trace s1) m = 1 /\ opened_for (trace s1) m = Some k.
Proof.
  intros l s i k t u R C O K Tt Tu N. pose proof (reach l s R) as H.
  destruct (calm_run l init s inv_init calm_init C R) as (C1 & C2 & C3 & C4).
  assert (P : 0 < owned (trace s) i) by lia.
  destruct (owned_pos s i H P) as (L & F & A & O1 & K1 & O3). rewrite K in K1. injection K1 as K1.
  pose proof (C1 i P) as T. rewrite <- K1 in T.
  destruct A as [(A1 & A2 & A3)|(v & A1 & _)]; [|pose proof (C3 v i A1); lia].
  pose proof (proj1 H (count s)) as G. unfold good in G. rewrite Nat.ltb_irrefl in G.
  destruct G as ([G1 G2] & G3 & G4 & G5).
  pose proof (proj1 H (S (count s))) as G'. unfold good in G'.
  replace (S (count s) <? count s)%nat with false in G' by (symmetry; apply Nat.ltb_ge; lia).
  destruct G' as ([_ G2'] & _ & _ & _).
  assert (NU : u <> t) by congruence. assert (NI : i <> count s) by lia. assert (NI1 : i <> S (count s)) by lia.
  assert (NC : count s <> S (count s)) by lia.
  unfold evicted, raced. cbn [app]. eexists. exists (count s), (S (count s)). split.
  { eapply step_cons.
    { cbn [step]. rewrite Tt, O. cbn [is_idle andb]. unfold ipc_unref. rewrite F, A2, O. reflexivity. }
    eapply step_cons.
    { cbn [step]. cbn -[upd]. rewrite upd_other, Tu by auto. cbn [is_idle]. unfold ipc_new. cbn -[upd]. rewrite T, F.
      reflexivity. }
    eapply step_cons.
    { cbn -[upd]. rewrite upd_same. unfold ipc_dispose. cbn -[upd]. rewrite upd_same. cbn -[upd]. rewrite F. reflexivity. }
    eapply step_cons.
    { cbn -[upd]. rewrite upd_same. unfold ipc_stop. cbn -[upd]. rewrite upd_same. cbn -[upd]. rewrite F. reflexivity. }
    eapply step_cons.
    { cbn -[upd]. rewrite upd_same. unfold ipc_drop. cbn -[upd]. rewrite upd_same. cbn -[upd]. rewrite A2, O. reflexivity. }
    eapply step_cons.
    { cbn -[upd]. rewrite upd_same. cbn [is_idle]. unfold ipc_new. cbn -[upd]. rewrite upd_same. cbn -[upd].
      rewrite <- K1, upd_same. reflexivity. }
    eapply step_cons.
    { cbn -[upd owned]. unfold upd at 1 2 3 4. rewrite (eqb_other t u NU), Tu. cbn [is_idle andb].
      cbn [owned is_it]. rewrite Nat.eqb_refl, (eqb_other i (count s)) by auto. rewrite O. cbn -[upd].
      unfold ipc_unref. cbn -[upd]. rewrite (upd_other _ _ (count s) i) by auto. rewrite upd_same. cbn -[upd]. reflexivity. }
    eapply step_cons.
    { cbn -[upd]. rewrite upd_same. unfold ipc_dispose. cbn -[upd]. rewrite (upd_other _ _ (count s) i) by auto.
      rewrite upd_same. cbn -[upd]. reflexivity. }
    eapply step_cons.
    { cbn -[upd]. rewrite upd_same. unfold ipc_stop. cbn -[upd]. rewrite (upd_other _ _ (count s) i) by auto.
      rewrite upd_same. cbn -[upd]. reflexivity. }
    eapply step_cons.
    { cbn -[upd]. rewrite upd_same. unfold ipc_drop. cbn -[upd]. rewrite upd_same. cbn -[upd]. reflexivity. }
    eapply step_cons; [|reflexivity].
    cbn -[upd]. rewrite upd_same. cbn [is_idle]. unfold ipc_new. cbn -[upd].
    rewrite upd_same. reflexivity. }
  split; [congruence|].
  cbn -[upd Nat.eqb].
  repeat (rewrite Nat.eqb_refl || match goal with |- context [Nat.eqb ?a ?b] => rewrite (eqb_other b a) by lia end).
  rewrite (upd_other _ _ (S (count s)) (count s)) by auto. rewrite (upd_other _ _ i (count s)) by auto.
  rewrite (upd_other _ _ i (count s)) by auto. rewrite upd_same. cbn -[upd].
  rewrite O3, G2, G2'. repeat split; lia.
Qed.
Print Assumptions C58_one_refuted.
Example C58_one_refuted_case :
  exists s, run init [MNew 1 7 true] = Ok s /\ calm init [MNew 1 7 true] /\ owned (trace s) 0 = 1 /\
    opened_for (trace s) 0 = Some 7%nat /\ threads s 1%nat = Idle /\ threads s 2%nat = Idle /\
    match run s (evicted 1 2 0 7) with
    | Ok s1 => trace s1 = [EvNew 2 7 (Some 2%nat); EvOpen 7 2; EvClose 0; EvUnref 0; EvNew 1 7 (Some 1%nat); EvOpen 7 1;
                           EvNew 2 7 (Some 0%nat); EvUnref 0; EvNew 1 7 (Some 0%nat); EvOpen 7 0]
    | _ => False
    end.
Proof.
  eexists. split; [vm_compute; reflexivity|]. split.
  - split; [|exact I]. apply not_releasing. intros t i. vm_compute. congruence.
  - do 4 (split; [vm_compute; reflexivity|]). vm_compute. reflexivity.
Qed.
