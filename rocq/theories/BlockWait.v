(* Proofs about incoming transactions: the thread which is waiting *)
From Verif Require Import Base BlockModel BlockSpec BlockProofs.

(* The thread is waiting *)
Definition read_mode1 (n : option note) : mode :=
  match n with Some TX_BLOCKED => MWait2 | Some TX_DONE => MTake true | None => MTake false end.
Definition read_mode2 (n : option note) : mode :=
  MTake (match n with Some _ => true | None => false end).

Lemma wait_moved k m' stop v c n l :
  cell_ok m' stop v (c_tx c) (Some l) -> 0 < x_refs (c_tx c) ->
  moved k m' stop v {| c_tx := c_tx c; c_pipe := Some (n :: l); c_ev := c_ev c |}
    {| c_tx := c_tx c; c_pipe := Some l; c_ev := c_ev c |} [].
Proof.
  intros H R. split; cbn [c_tx c_pipe c_ev fold_left]; auto.
  - now rewrite app_nil_r.
  - unfold freed_ok, times. cbn. tests; repeat split; auto.
  - discriminate.
  - lia.
  - intros [].
  - now rewrite orb_false_r.
Qed.

Lemma still_moved k m' stop v c :
  cell_ok m' stop v (c_tx c) (c_pipe c) -> moved k m' stop v c c [].
Proof.
  intros H. split; cbn [fold_left]; auto.
  - now rewrite app_nil_r.
  - unfold freed_ok, times. cbn. tests; repeat split; auto.
  - destruct (c_pipe c); reflexivity.
  - intros [].
  - now rewrite orb_false_r.
Qed.

Lemma moved_wait1 k stop v c :
  cell_ok MWait1 stop v (c_tx c) (c_pipe c) ->
  (ipc_wait stop c = Disabled /\ stop = false /\ c_pipe c = Some []) \/
  exists c' n, ipc_wait stop c = Ok (c', n) /\ moved k (read_mode1 n) stop v c c' [].
Proof.
  intros H. destruct c as [t p ev]. cbn [c_tx c_pipe] in *.
  assert (R : 0 < x_refs t).
  { destruct H as [H1 _ _ _ _ _ _]. rewrite H1. unfold b2z. cbn [holds]. destruct (cb_alive (x_cb t)), (q_has_tx t); lia. }
  unfold ipc_wait. cbn [c_tx c_pipe c_ev]. destruct (Z.leb_spec (x_refs t) 0); [lia|].
  destruct p as [[|n l]|].
  - destruct stop; [|now left]. right. eexists _, _. split; [reflexivity|]. apply still_moved. cbn.
    destruct H as [H1 H2 H7 H3 H4 H5 H6]. split; auto; [|reflexivity].
    unfold state_ok in *. destruct (x_cb t), (x_state t); auto; intuition discriminate.
  - right. eexists _, _. split; [reflexivity|].
    refine (wait_moved k _ stop v {| c_tx := t; c_pipe := Some l; c_ev := ev |} n l _ R).
    destruct H as [H1 H2 H7 H3 H4 H5 H6]. cbn [c_tx]. unfold wait_ok in H6. cbn in H6.
    unfold state_ok in H3.
    destruct (x_state t) eqn:St; try discriminate.
    + injection H6 as -> ->. cbn [read_mode1]. split; auto; unfold state_ok, wait_ok; rewrite ?St; cbn; try discriminate; auto.
    + destruct (x_has_req t) eqn:Hr; injection H6 as -> ->; cbn [read_mode1];
        (split; [auto..|unfold state_ok; rewrite St; destruct (x_cb t); auto|auto|discriminate|unfold wait_ok; rewrite St; auto]).
      all: rewrite Hr; exact H2.
  - exfalso. destruct H as [_ _ _ _ _ H5 _]. now apply H5.
Qed.

Lemma moved_wait2 k stop v c :
  cell_ok MWait2 stop v (c_tx c) (c_pipe c) ->
  (ipc_wait stop c = Disabled /\ stop = false /\ c_pipe c = Some []) \/
  exists c' n, ipc_wait stop c = Ok (c', n) /\ moved k (read_mode2 n) stop v c c' [].
Proof.
  intros H. destruct c as [t p ev]. cbn [c_tx c_pipe] in *.
  assert (R : 0 < x_refs t).
  { destruct H as [H1 _ _ _ _ _ _]. rewrite H1. unfold b2z. cbn [holds]. destruct (cb_alive (x_cb t)), (q_has_tx t); lia. }
  unfold ipc_wait. cbn [c_tx c_pipe c_ev]. destruct (Z.leb_spec (x_refs t) 0); [lia|].
  destruct p as [[|n l]|].
  - destruct stop; [|now left]. right. eexists _, _. split; [reflexivity|]. apply still_moved. cbn.
    destruct H as [H1 H2 H7 H3 H4 H5 H6]. split; auto; [|reflexivity].
    unfold state_ok in *. destruct (x_cb t), (x_state t); auto; intuition discriminate.
  - right. eexists _, _. split; [reflexivity|].
    refine (wait_moved k _ stop v {| c_tx := t; c_pipe := Some l; c_ev := ev |} n l _ R).
    destruct H as [H1 H2 H7 H3 H4 H5 H6]. cbn [c_tx]. unfold wait_ok in H6. cbn in H6.
    unfold state_ok in H3.
    destruct (x_state t) eqn:St; try contradiction; try discriminate.
    destruct H6 as [H6 _]. injection H6 as -> ->. cbn [read_mode2].
    split; [auto..|unfold state_ok; rewrite St; destruct (x_cb t); auto|auto|discriminate|unfold wait_ok; rewrite St; auto].
    cbn. auto.
  - exfalso. destruct H as [_ _ _ _ _ H5 _]. now apply H5.
Qed.

Lemma take_ok d stop v t p :
  cell_ok (MTake d) stop v t p ->
  0 < x_refs t /\ cell_ok (MUnref (if d then x_answer t else (None, - EFAULT))) stop v t p.
Proof.
  intros [H1 H2 H7 H3 H4 H5 H6]. split.
  - rewrite H1. unfold b2z. cbn [holds]. destruct (cb_alive (x_cb t)), (q_has_tx t); lia.
  - split; auto.
    + unfold state_ok in *. destruct (x_cb t), (x_state t); auto; intuition discriminate.
    + unfold wait_ok in *. destruct d; [left|right]; intuition.
Qed.
