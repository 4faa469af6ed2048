(* Proofs about signals which interrupt waiting threads: nothing is used after it is freed.
   A thread which was interrupted isn't any different from one which was told to stop, as far
   as memory and descriptors are concerned, except that it goes on with the next transaction. *)
From Verif Require Import Base BlockModel BlockSpec BlockProofs BlockWait BlockRun BlockEnds SignalModel SignalProofs.

Definition failed : answer := (None, - EFAULT).
Definition plain (t : phase) : phase :=
  match t with
  | TIdle => TIdle
  | TWait1 k | TWait2 k | TTake k _ => TTake k false
  | TUnref k _ => TUnref k failed
  | TCancel k _ => TCancel k failed
  | TSent k => TSent k
  end.

(* What is in the pipes of a stopped thread doesn't matter *)
Lemma inv_change u u' w :
  inv u -> looper u' = looper u -> txs u' = txs u -> count u' = count u -> npipes u' = npipes u -> txfd u' = txfd u ->
  stopped u = true -> stopped u' = true -> th u = plain w -> th u' = plain w -> btrace u' = btrace u ->
  (forall p, pipes u' p = None <-> pipes u p = None) ->
  (idle_like (th u') u' -> forall p, txfd u' = Some p -> pipes u' p = Some []) -> inv u'.
Proof.
  destruct u' as [a0 a1 a2 a3 a4 a5 a6 a7 a8 a9]. cbn. intros I -> -> -> -> -> S0 -> T -> -> P Cl.
  rewrite <- T in *. destruct I as [J1 J2 J3 J4 J5 J6 J7 J8 J9 J10 J11 J12 J13 J14 J15 J16 J17 J18 J19]. rewrite S0 in *.
  split; cbn [looper txs count pipes npipes txfd stopped last th btrace]; auto.
  - intros k K. destruct (J1 k K) as [H1 H2 H7 H3 H4 H5 H6]. split; auto.
    + intros X Y. apply (H5 X). now apply P.
    + unfold wait_ok in *. rewrite T in *. destruct w; cbn in *; try (destruct (Nat.eqb _ _)); auto.
  - intros p F. destruct (J5 p F) as (A & B). split; auto. intros X. apply B. now apply P.
  - intros p N. destruct (J6 p N) as (A & B). split; auto. now apply P.
  - intros p N. rewrite (J19 p N). specialize (P p). destruct (pipes u p), (a3 p); auto;
      exfalso; destruct P as (P1 & P2); [specialize (P1 eq_refl)|specialize (P2 eq_refl)]; discriminate.
Qed.

(* A worker thread closes the pipe which is still its own *)
Lemma inv_close u k p :
  inv u -> looper u = true -> th u = TSent k -> txfd u = Some p ->
  inv {| looper := looper u; txs := txs u; count := count u; pipes := upd (pipes u) p None; npipes := npipes u; txfd := None;
         stopped := stopped u; last := last u; th := th u; btrace := btrace u ++ [PipeClosed p] |}.
Proof.
  intros I LP T F. destruct (i_txfd _ I p F) as (PB & PO).
  assert (OS : forall j, outcome j (btrace u ++ [PipeClosed p]) = outcome j (btrace u)) by (intros j; now rewrite outcome_app).
  assert (FX : forall f, f (PipeClosed p) = false -> times f (btrace u ++ [PipeClosed p]) = times f (btrace u)).
  { intros f E. rewrite times_app. unfold times at 2. cbn. rewrite E. cbn. lia. }
  assert (NH : forall j, holds (mode_of (th u) j) = false) by (intros j; rewrite T; cbn; now destruct (Nat.eqb k j)).
  split; cbn [looper txs count pipes npipes txfd stopped last th btrace].
  - intros j J. rewrite OS. destruct (i_cells _ I j J) as [H1 H2 H7 H3 H4 H5 H6]. split; auto.
    + intros R. unfold upd. destruct (Nat.eqb_spec (x_pipe (txs u j)) p) as [E|]; [|now apply H5].
      pose proof (i_own _ I j p J F R E) as X. rewrite NH in X. discriminate.
    + rewrite T. cbn. now destruct (Nat.eqb k j).
  - intros j e J He. apply in_app_or in He as [He|[<-|[]]]; [apply (i_new _ I); auto|reflexivity].
  - apply (i_th _ I).
  - apply (i_range _ I).
  - discriminate.
  - intros q Q. destruct (i_beyond _ I q Q) as [B1 B2]. rewrite upd_other by lia. split; auto.
    intros H. apply in_app_or in H as [H|[H|[]]]; [auto|]. injection H as ->. lia.
  - apply (i_apart _ I).
  - discriminate.
  - intros j X. rewrite NH in X. discriminate.
  - discriminate.
  - apply (i_last _ I).
  - rewrite (i_stop _ I). split; intros X; [apply in_or_app; now left|]. apply in_app_or in X as [X|[X|[]]]; [auto|discriminate].
  - rewrite LP. discriminate.
  - intros t1 j b t2 E. apply snoc_split in E as (t3 & E); [now apply (i_answers _ I) in E|].
    intros [X|[]]. discriminate.
  - intros j D. apply in_app_or in D as [D|[D|[]]]; [now apply (i_dropped _ I)|discriminate].
  - intros j J. rewrite existsb_app. cbn [existsb is_return]. rewrite orb_false_r. now apply (i_final _ I).
  - intros j J. rewrite FX by reflexivity. now apply (i_once _ I).
  - intros j J. rewrite !FX by reflexivity. now apply (i_freed _ I).
  - intros q Q. rewrite times_app, (i_closed _ I q Q). unfold times, upd. cbn [filter is_close].
    rewrite (Nat.eqb_sym q p). destruct (Nat.eqb_spec p q) as [->|]; cbn [length]; [|lia].
    destruct (pipes u q); [reflexivity|contradiction].
Qed.

(* What is freed and closed *)
Definition mem (e : bev) : bool := match e with TxFreed _ | ReqFreed _ | PipeClosed _ => true | _ => false end.

Record sim (s u : bstate) : Prop := {
  sm_inv : inv u;
  sm_loop_u : looper u = true;
  sm_txs : txs u = txs s;
  sm_count : count u = count s;
  sm_pipes : pipes u = pipes s;
  sm_np : npipes u = npipes s;
  sm_fd : txfd u = txfd s;
  sm_stop : stopped u = true;
  sm_last : last u = true;
  sm_th : th u = plain (th s);
  sm_mem : filter mem (btrace u) = filter mem (btrace s)
}.

Lemma sim_get s u k : sim s u -> get_cell u k = get_cell s k.
Proof. intros H. unfold get_cell. now rewrite (sm_txs _ _ H), (sm_pipes _ _ H). Qed.

Lemma sim_put s u k c : sim s u -> inv (put_cell u k c) -> sim (put_cell s k c) (put_cell u k c).
Proof.
  intros H I. destruct H. split; cbn; auto; try congruence. rewrite !filter_app. congruence.
Qed.

Lemma sim_go s u w fd : sim s u -> inv (go u (plain w) fd) -> sim (go s w fd) (go u (plain w) fd).
Proof. intros H I. destruct H. split; cbn; auto. Qed.

Lemma sim_cell s u k f :
  sim s u ->
  let g st := if Nat.ltb k (count st) then on_cell st k f else Disabled in
  (g u = Disabled \/ exists u', g u = Ok u' /\ inv u') ->
  g s = Disabled \/ exists s' u', g s = Ok s' /\ sim s' u'.
Proof.
  intros H g. unfold g. rewrite (sm_count _ _ H). destruct (Nat.ltb k (count s)); [|now left].
  unfold on_cell. rewrite (sim_get _ _ k H). destruct (f (get_cell s k)) as [| |c]; cbn; auto.
  - intros [X|(u' & X & _)]; discriminate.
  - intros [X|(u' & X & I)]; [discriminate|]. injection X as <-. right. exists (put_cell s k c), (put_cell u k c).
    split; [reflexivity|]. now apply sim_put.
Qed.

(* The transaction is there while the thread waits *)
Lemma sim_alive s u k : sim s u -> plain (th s) = TTake k false ->
  0 < x_refs (txs s k) /\ exists l, pipes s (x_pipe (txs s k)) = Some l.
Proof.
  intros H T. pose proof (sm_inv _ _ H) as I. pose proof (sm_th _ _ H) as T2. rewrite T in T2.
  assert (K : (k < count u)%nat) by (apply (i_th _ I); rewrite T2; cbn; rewrite Nat.eqb_refl; discriminate).
  pose proof (i_cells _ I k K) as C. rewrite T2 in C. cbn [mode_of] in C. rewrite Nat.eqb_refl in C.
  rewrite (sm_txs _ _ H), (sm_pipes _ _ H) in C.
  assert (R : 0 < x_refs (txs s k)).
  { rewrite (ok_refs _ _ _ _ _ C). unfold b2z. cbn [holds]. destruct (cb_alive _), (q_has_tx _); lia. }
  split; [exact R|]. pose proof (ok_pipe _ _ _ _ _ C R) as P. destruct (pipes s (x_pipe (txs s k))); [eauto|contradiction].
Qed.

(* It reads something *)
Lemma sim_read s u k l l' w fd :
  sim s u -> plain (th s) = TTake k false -> plain w = TTake k false -> fd = txfd s ->
  pipes s (x_pipe (txs s k)) = Some l ->
  exists u', sim (go (put_cell s k {| c_tx := txs s k; c_pipe := Some l'; c_ev := [] |}) w fd) u'.
Proof.
  intros H T W -> P.
  exists (go (put_cell u k {| c_tx := txs s k; c_pipe := Some l'; c_ev := [] |}) (plain w) (txfd s)).
  assert (EX : forall j, upd (txs u) k (txs s k) j = txs u j).
  { intros j. unfold upd. rewrite (sm_txs _ _ H). now destruct (Nat.eqb_spec j k) as [->|]. }
  assert (I : inv (go (put_cell u k {| c_tx := txs s k; c_pipe := Some l'; c_ev := [] |}) (plain w) (txfd s))).
  { set (v := {| looper := looper u; txs := txs u; count := count u;
                 pipes := upd (pipes u) (x_pipe (txs u k)) (Some l'); npipes := npipes u; txfd := txfd u;
                 stopped := true; last := last u; th := TTake k false; btrace := btrace u |}).
    assert (IV : inv v).
    { apply (inv_change u v (th s)); try reflexivity; try exact (sm_inv _ _ H); try exact (sm_stop _ _ H); try exact (sm_th _ _ H).
      - cbn. now rewrite T.
      - intros p. cbn. unfold upd. rewrite (sm_txs _ _ H), (sm_pipes _ _ H).
        destruct (Nat.eqb_spec p (x_pipe (txs s k))) as [->|]; [rewrite P; split; discriminate|tauto].
      - cbn. contradiction. }
    apply (inv_ext v); auto; cbn; rewrite ?W, ?app_nil_r; auto; [exact (eq_sym (sm_fd _ _ H))|exact (sm_stop _ _ H)]. }
  apply sim_go; [|exact I]. destruct H. split; cbn; auto; try congruence; try (now rewrite !app_nil_r).
  apply (inv_ext (go (put_cell u k {| c_tx := txs s k; c_pipe := Some l'; c_ev := [] |}) (plain w) (txfd s))); auto.
  cbn. congruence.
Qed.

(* The end *)
Lemma sim_end s u k a u' :
  looper u = true -> txs u = txs s -> count u = count s -> pipes u = pipes s -> npipes u = npipes s -> txfd u = txfd s ->
  stopped u = true -> filter mem (btrace u) = filter mem (btrace s) ->
  transact_end u k failed = Ok u' -> inv u' ->
  exists s' u2, transact_end s k a = Ok s' /\ sim s' u2.
Proof.
  intros LU Ex Ec Ep En Ef St Em E I. unfold transact_end in *. rewrite LU in E. injection E as <-.
  assert (D : forall s', looper s' = looper s -> txs s' = txs s -> count s' = count s -> pipes s' = pipes s -> npipes s' = npipes s ->
    txfd s' = txfd s -> th s' = TSent k -> filter mem (btrace s') = filter mem (btrace s) -> exists u2, sim s' u2).
  { intros s' X1 X2 X3 X4 X5 X6 X7 X8. eexists. split; [exact I|..]; cbn; rewrite ?LU; auto; try congruence.
    - now rewrite X7.
    - rewrite filter_app, app_nil_r. congruence. }
  destruct (looper s) eqn:LS; [|destruct (txfd s) as [p|] eqn:F].
  - eexists. edestruct D as (u2 & U); [..|exists u2; split; [reflexivity|exact U]]; cbn; auto. now rewrite filter_app, app_nil_r.
  - assert (PO : pipes s p <> None).
    { rewrite <- Ep. apply (i_txfd _ I p). cbn. now rewrite ?LU, Ef. }
    destruct (pipes s p) as [l|] eqn:P; [|contradiction].
    do 2 eexists. split; [reflexivity|]. split.
    1: { eapply (inv_close _ k p I); cbn; auto. }
    all: cbn; rewrite ?LS; auto; try congruence. rewrite !filter_app. cbn. rewrite Em. now rewrite !app_nil_r.
  - eexists. edestruct D as (u2 & U); [..|exists u2; split; [reflexivity|exact U]]; cbn; rewrite ?LS; auto. now rewrite filter_app, app_nil_r.
Qed.

Lemma sim_thread s u : sim s u -> thread_step s = Disabled \/ exists s' u', thread_step s = Ok s' /\ sim s' u'.
Proof.
  intros H. pose proof (sm_inv _ _ H) as I. pose proof (inv_thread_step u I) as N.
  pose proof (sm_th _ _ H) as TU. unfold thread_step in *. rewrite TU in N.
  destruct (th s) as [|k|k|k d|k a|k a|k] eqn:T; cbn [plain] in N, TU; [now left|..].
  - destruct (sim_alive s u k H ltac:(now rewrite T)) as (R & l & P).
    unfold ipc_wait, get_cell. cbn [c_tx c_pipe c_ev]. rewrite P. destruct (Z.leb_spec (x_refs (txs s k)) 0); [lia|].
    destruct l as [|n l]; [destruct (stopped s); [|now left]|]; right; cbn [bind].
    + destruct (sim_read s u k [] [] (TTake k false) (txfd s) H ltac:(now rewrite T) eq_refl eq_refl P) as (u' & U). eauto.
    + destruct (sim_read s u k (n :: l) l (match n with TX_BLOCKED => TWait2 k | TX_DONE => TTake k true end) (txfd s) H
                  ltac:(now rewrite T) ltac:(now destruct n) eq_refl P) as (u' & U). destruct n; eauto.
  - destruct (sim_alive s u k H ltac:(now rewrite T)) as (R & l & P).
    unfold ipc_wait, get_cell. cbn [c_tx c_pipe c_ev]. rewrite P. destruct (Z.leb_spec (x_refs (txs s k)) 0); [lia|].
    destruct l as [|n l]; [destruct (stopped s); [|now left]|]; right; cbn [bind].
    + destruct (sim_read s u k [] [] (TTake k false) (txfd s) H ltac:(now rewrite T) eq_refl eq_refl P) as (u' & U). eauto.
    + destruct (sim_read s u k (n :: l) l (TTake k true) (txfd s) H ltac:(now rewrite T) eq_refl eq_refl P) as (u' & U). eauto.
  - right. rewrite (sm_txs _ _ H) in N. destruct (x_refs (txs s k) <=? 0); [destruct N as [N|(? & N & _)]; discriminate|].
    destruct N as [N|(u' & N & IU)]; [discriminate|]. injection N as <-. do 2 eexists. split; [reflexivity|].
    rewrite (sm_fd _ _ H) in IU.
    exact (sim_go s u (TUnref k (if d then x_answer (txs s k) else (None, - EFAULT))) (txfd s) H IU).
  - rewrite (sim_get _ _ k H) in N.
    destruct (tx_unref k true (get_cell s k)) as [| |(c & b)] eqn:E; cbn [bind] in *;
      [now left|destruct N as [N|(u' & N & IU)]; discriminate|].
    right. destruct N as [N|(u' & N & IU)]; [discriminate|]. injection N as <-.
    rewrite (sm_fd _ _ H) in IU. do 2 eexists. split; [reflexivity|].
    pose proof (sm_fd _ _ H) as FD.
    assert (SP : sim (go (put_cell s k c) (TCancel k a) (if b then txfd s else None))
                     (go (put_cell u k c) (TCancel k failed) (if b then txfd s else None))).
    { destruct H. split; cbn; auto; try congruence. rewrite !filter_app. congruence. }
    exact SP.
  - rewrite (sm_txs _ _ H) in N.
    destruct (x_cb (txs s k)) eqn:CB; cbn [bind] in *.
    2-4: (right; destruct N as [N|(u' & N & IU)];
          [unfold transact_end in N; rewrite (sm_loop_u _ _ H) in N; discriminate|];
          destruct H; eapply sim_end; eauto).
    unfold on_cell in *. rewrite (sim_get _ _ k H) in N.
    destruct (callback_gone k (get_cell s k)) as [| |c]; cbn [bind] in *;
      [now left|destruct N as [N|(u' & N & IU)]; discriminate|].
    right. destruct N as [N|(u' & N & IU)].
    { unfold transact_end in N. replace (looper (put_cell u k c)) with (looper u) in N by reflexivity.
        rewrite (sm_loop_u _ _ H) in N. discriminate. }
    destruct H. eapply sim_end; [..|exact N|exact IU]; cbn; auto; try congruence. rewrite !filter_app. congruence.
  - unfold on_cell in *. rewrite (sim_get _ _ k H) in N.
    destruct (req_unref k (get_cell s k)) as [| |c]; cbn [bind] in *; [now left|destruct N as [N|(u' & N & IU)]; discriminate|].
    right. destruct N as [N|(u' & N & IU)]; [discriminate|]. injection N as <-. do 2 eexists. split; [reflexivity|].
    destruct H. split; try exact IU; cbn; auto; try congruence. rewrite !filter_app. congruence.
Qed.

(* The next transaction, whatever is in the pipe *)
Lemma sim_begin s u : sim s u -> th s = TIdle -> exists u', sim (transact_begin s) u'.
Proof.
  intros H T. pose proof (sm_inv _ _ H) as I. pose proof (sm_th _ _ H) as TU. rewrite T in TU. cbn in TU.
  set (ps := match txfd u with Some p => upd (pipes u) p (Some []) | None => pipes u end).
  set (u0 := {| looper := looper u; txs := txs u; count := count u; pipes := ps; npipes := npipes u; txfd := txfd u;
                stopped := true; last := false; th := TIdle; btrace := btrace u |}).
  assert (PN : forall p, ps p = None <-> pipes u p = None).
  { intros p. unfold ps. destruct (txfd u) as [q|] eqn:F; [|tauto]. unfold upd. destruct (Nat.eqb_spec p q) as [->|]; [|tauto].
    destruct (i_txfd _ I q F) as (_ & X). split; [discriminate|contradiction]. }
  assert (I0 : inv u0).
  { apply (inv_change u u0 TIdle); try reflexivity; auto; [exact (sm_stop _ _ H)|].
    cbn. intros _ p F. unfold ps. rewrite F. apply upd_same. }
  pose proof (inv_begin u0 I0 eq_refl eq_refl) as I1. set (u1 := transact_begin u0) in *.
  set (k := count u). set (p := match txfd u with Some p => p | None => npipes u end).
  assert (X1 : txs u1 k = fresh_tx p) by (unfold u1, u0, transact_begin; cbn; apply upd_same).
  assert (P1 : pipes u1 p = Some []).
  { unfold u1, u0, transact_begin, p, ps. cbn. destruct (txfd u) as [q|]; [|now rewrite upd_same]. now rewrite upd_same. }
  set (u2 := {| looper := looper u1; txs := txs u1; count := count u1; pipes := pipes u1; npipes := npipes u1; txfd := txfd u1;
                stopped := true; last := last u1; th := TTake k false; btrace := btrace u1 |}).
  assert (I2 : inv u2).
  { destruct (inv_thread_step u1 I1) as [N|(v & N & IV)];
      unfold thread_step in N; replace (th u1) with (TWait1 k) in N by reflexivity;
      replace (stopped u1) with true in N by reflexivity;
      unfold ipc_wait, get_cell in N; cbn [c_tx c_pipe c_ev] in N; rewrite X1 in N; cbn [fresh_tx x_refs x_pipe Z.leb Z.compare] in N;
      rewrite P1 in N; cbn [bind] in N; [discriminate|].
    injection N as <-. refine (inv_ext _ u2 _ _ _ _ _ _ _ _ _ _ IV); try reflexivity.
    - intros j. cbn [go put_cell txs c_tx u2]. unfold upd. destruct (Nat.eqb_spec j k) as [->|]; auto.
    - intros q. cbn [go put_cell pipes c_pipe u2]. rewrite X1. cbn [fresh_tx x_pipe]. unfold upd.
      destruct (Nat.eqb_spec q p) as [->|]; auto.
    - cbn [go put_cell btrace c_ev u2]. now rewrite app_nil_r. }
  exists {| looper := true; txs := txs (transact_begin s); count := S (count s); pipes := pipes (transact_begin s);
            npipes := npipes (transact_begin s); txfd := txfd (transact_begin s); stopped := true; last := true;
            th := TTake (count s) false; btrace := btrace u ++ [Arrived (count s)] |}.
  pose proof (sm_txs _ _ H) as Ex. pose proof (sm_count _ _ H) as Ec. pose proof (sm_pipes _ _ H) as Ep.
  pose proof (sm_np _ _ H) as En. pose proof (sm_fd _ _ H) as Ef. pose proof (sm_mem _ _ H) as Em.
  split; cbn [looper txs count pipes npipes txfd stopped last th btrace]; auto.
  - apply (inv_change u2 _ (TTake k false)); try reflexivity; auto; cbn [looper txs count pipes npipes txfd stopped last th btrace u2].
    + exact (eq_sym (sm_loop_u _ _ H)).
    + unfold u1, u0, transact_begin. cbn. now rewrite Ex, Ec, Ef, En.
    + unfold u1, u0, transact_begin. cbn. now rewrite Ec.
    + unfold u1, u0, transact_begin. cbn. now rewrite Ef, En.
    + unfold u1, u0, transact_begin. cbn. now rewrite Ef, En.
    + unfold k. cbn. now rewrite Ec.
    + unfold u1, u0, transact_begin. cbn. now rewrite Ec.
    + intros q. unfold u1, u0, transact_begin. cbn [pipes txfd npipes]. rewrite <- Ef, <- Ep, <- En.
      destruct (txfd u) as [r|] eqn:F.
      * symmetry. apply PN.
      * unfold upd. destruct (Nat.eqb q (npipes u)); [split; discriminate|]. symmetry. apply PN.
    + cbn. contradiction.
  - cbn [transact_begin btrace]. rewrite !filter_app. cbn. now rewrite Em.
Qed.

Lemma sim_step s u m : sim s u -> sstep s m = Disabled \/ exists s' u', sstep s m = Ok s' /\ sim s' u'.
Proof.
  intros H. pose proof (sm_inv _ _ H) as I. destruct m as [m|]; cbn [sstep].
  - pose proof (inv_step u m I) as N. destruct m as [| |j|j a|j|j|j|j|j a|]; cbn [step] in *.
    + destruct (th s) eqn:T; auto. destruct (last s); auto. right. destruct (sim_begin s u H T) as (u' & U). eauto.
    + apply (sim_thread s u H).
    + exact (sim_cell s u j _ H N).
    + exact (sim_cell s u j _ H N).
    + exact (sim_cell s u j _ H N).
    + exact (sim_cell s u j _ H N).
    + exact (sim_cell s u j _ H N).
    + exact (sim_cell s u j _ H N).
    + exact (sim_cell s u j _ H N).
    + destruct (looper s && negb (stopped s)); [|now left]. right. eexists. exists u. split; [reflexivity|].
      destruct H. split; cbn; auto. now rewrite filter_app, app_nil_r.
  - unfold wait_interrupted. destruct (th s) as [|k|k|k d|k a|k a|k] eqn:T; auto;
      destruct (sim_alive s u k H ltac:(now rewrite T)) as (R & l & P);
      unfold get_cell; cbn [c_tx c_pipe]; rewrite P; (destruct (Z.leb_spec (x_refs (txs s k)) 0); [lia|]);
      (destruct l; [|now left]); (destruct (stopped s); [now left|]); right; eexists; exists u; (split; [reflexivity|]);
      destruct H; split; cbn; auto; rewrite sm_th0, T; reflexivity.
Qed.

Lemma sim_run l : forall s u, sim s u -> srun s l = Disabled \/ exists s' u', srun s l = Ok s' /\ sim s' u'.
Proof.
  induction l as [|m l IH]; intros s u H; cbn [srun]; [right; eauto|].
  destruct (sim_step s u m H) as [->|(s1 & u1 & -> & H1)]; cbn [bind]; eauto.
Qed.

Lemma sim_initial b : exists u, sim (initial b) u.
Proof.
  pose proof (inv_stop (initial true) (inv_initial true) eq_refl) as I.
  exists {| looper := true; txs := fun _ => no_tx; count := 0; pipes := fun _ => None; npipes := 0;
            txfd := None; stopped := true; last := true; th := TIdle; btrace := [] ++ [StopCalled] |}.
  split; auto. eapply (inv_change _ _ TIdle I); try reflexivity. cbn. discriminate.
Qed.

(* What is freed, counted *)
Lemma mem_times f t t' : (forall e, f e = true -> mem e = true) -> filter mem t = filter mem t' -> times f t = times f t'.
Proof.
  intros H E.
  assert (G : forall l, filter f l = filter f (filter mem l)).
  { induction l as [|e l IH]; [reflexivity|]. cbn. destruct (mem e) eqn:M; cbn; [now rewrite IH|].
    destruct (f e) eqn:F; [apply H in F; congruence|exact IH]. }
  unfold times. now rewrite G, E, <- G.
Qed.
