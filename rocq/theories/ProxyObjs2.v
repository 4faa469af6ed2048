(* Proofs about the conversion of handles to proxies *)
From Verif Require Import Base ObjModel TxModel ProxyConv BlockModel BlockRun BlockEnds ProxyModel ProxyObjs.

Lemma ok_pair {A B} (x y : A) (u v : B) : Ok (x, u) = Ok (y, v) -> x = y /\ u = v.
Proof. now intros [= -> ->]. Qed.

(* find in a sequence of numbers *)
Lemma find_seq_some f n i : find f (seq 0 n) = Some i <-> ((i < n)%nat /\ f i = true /\ forall j, (j < i)%nat -> f j = false).
Proof.
  assert (G : forall n a, find f (seq a n) = Some i <-> ((a <= i < a + n)%nat /\ f i = true /\ forall j, (a <= j < i)%nat -> f j = false)).
  { clear n. induction n as [|n IH]; intros a; cbn [seq find].
    - split; [discriminate|lia].
    - destruct (f a) eqn:E.
      + split.
        * intros [= ->]. repeat split; auto; lia.
        * intros (H1 & H2 & H3). destruct (Nat.eq_dec a i) as [->|N]; auto. rewrite H3 in E; [discriminate|lia].
      + rewrite (IH (S a)). split; intros (H1 & H2 & H3); (split; [|split; auto]).
        * lia.
        * intros j J. destruct (Nat.eq_dec j a) as [->|N]; auto. apply H3. lia.
        * destruct (Nat.eq_dec a i) as [->|N]; [congruence|lia].
        * intros j J. apply H3. lia. }
  rewrite G. split; intros (H1 & H2 & H3); (split; [lia|split; auto]); intros j J; apply H3; lia.
Qed.
Lemma find_seq_none f n : find f (seq 0 n) = None <-> forall j, (j < n)%nat -> f j = false.
Proof.
  split.
  - intros H j J. apply (find_none _ _ H). apply in_seq. lia.
  - intros H. destruct (find f (seq 0 n)) as [i|] eqn:E; auto. apply find_seq_some in E as (E1 & E2 & _). rewrite H in E2; auto; discriminate.
Qed.

Definition is_remote (s : pstate) (ipc : nat) (h : Z) (r : nat) : Prop :=
  r_listed (rem s r) = true /\ r_ipc (rem s r) = ipc /\ r_handle (rem s r) = h.
Definition is_proxy (s : pstate) (ipc r p : nat) : Prop :=
  palive s p = true /\ p_ipc (prx s p) = ipc /\ p_remote (prx s p) = r.

Lemma remote_test s ipc h r :
  r_listed (rem s r) && Nat.eqb (r_ipc (rem s r)) ipc && (r_handle (rem s r) =? h) = true <-> is_remote s ipc h r.
Proof. unfold is_remote. rewrite !andb_true_iff, Nat.eqb_eq, Z.eqb_eq. tauto. Qed.
Lemma proxy_test s ipc r p :
  palive s p && Nat.eqb (p_ipc (prx s p)) ipc && Nat.eqb (p_remote (prx s p)) r = true <-> is_proxy s ipc r p.
Proof. unfold is_proxy. rewrite !andb_true_iff, !Nat.eqb_eq. tauto. Qed.

Lemma listed_range s r : objs s -> r_listed (rem s r) = true -> (r < nrem s)%nat.
Proof. intros O H. apply (o_listed _ O) in H. apply ralive_in in H as (o & H). exact (o_r _ O _ _ H). Qed.
Lemma alive_range s p : objs s -> palive s p = true -> (p < nprx s)%nat.
Proof. intros O H. apply palive_in in H as (o & H). exact (o_p _ O _ _ H). Qed.

Lemma find_remote_some s ipc h r : objs s -> (find_remote s ipc h = Some r <-> is_remote s ipc h r).
Proof.
  intros O. unfold find_remote. rewrite find_seq_some. split.
  - intros (_ & H & _). now apply remote_test.
  - intros H. split; [now apply (listed_range s r O), H|]. split; [now apply remote_test|].
    intros j J. match goal with |- ?x = false => destruct x eqn:E end; auto. apply remote_test in E.
    destruct E as (E1 & E2 & E3), H as (F1 & F2 & F3).
    assert (j = r) by (apply (o_unique _ O); congruence). lia.
Qed.
Lemma find_remote_none s ipc h : objs s -> (find_remote s ipc h = None <-> forall r, ~ is_remote s ipc h r).
Proof.
  intros O. split.
  - intros E r H. apply find_remote_some in H; auto. congruence.
  - intros H. destruct (find_remote s ipc h) as [r|] eqn:E; auto. apply find_remote_some in E; auto. now apply H in E.
Qed.
Lemma find_proxy_some s ipc r p : objs s ->
  (find_proxy s ipc r = Some p <-> (is_proxy s ipc r p /\ forall j, (j < p)%nat -> ~ is_proxy s ipc r j)).
Proof.
  intros O. unfold find_proxy. rewrite find_seq_some. split.
  - intros (_ & H & N). split; [now apply proxy_test|]. intros j J P. apply proxy_test in P. rewrite N in P; auto; discriminate.
  - intros (H & N). split; [now apply (alive_range s p O), H|]. split; [now apply proxy_test|].
    intros j J. match goal with |- ?x = false => destruct x eqn:E end; auto. apply proxy_test in E. now apply N in E.
Qed.
Lemma find_proxy_none s ipc r : objs s -> (find_proxy s ipc r = None <-> forall p, ~ is_proxy s ipc r p).
Proof.
  intros O. unfold find_proxy. rewrite find_seq_none. split.
  - intros H p P. pose proof P as (A & _). apply proxy_test in P. rewrite H in P; [discriminate|]. now apply alive_range.
  - intros H p _. match goal with |- ?x = false => destruct x eqn:E end; auto. apply proxy_test in E. now apply H in E.
Qed.

Lemma add_rem_objs s ipc h d : objs s -> (forall r, ~ is_remote s ipc h r) ->
  let s1 := rref (add_rem s {| r_ipc := ipc; r_handle := h; r_dead := d; r_listed := true |}) in
  forall o, (forall p, o <> RProxy p) -> objs (s1 o (nrem s)).
Proof.
  intros O NR s1 o N. pose proof O as [H1 H2 H3 H4 H5 H6 H7 H8 H9 H10 H11 H12 H13].
  set (v := {| r_ipc := ipc; r_handle := h; r_dead := d; r_listed := true |}) in *.
  assert (L : forall r, r_listed (rem s r) = true -> r <> nrem s).
  { intros r X ->. apply (listed_range s _ O) in X. lia. }
  split; unfold s1, palive, ralive, rcnt, is_remote in *; cbn [rref add_rem set_rrefs rem nrem prx nprx rrefs prefs ptrace]; auto.
  - intros o' r [[= <- <-]|X]; [lia|]. apply H2 in X. lia.
  - intros p X. right. auto.
  - intros p r [X|X]; [|auto]. injection X as -> _. now destruct (N p).
  - intros p r. cbn [count_occ]. destruct (rowner_dec (o, nrem s) (RProxy p, r)) as [X|]; [|auto].
    injection X as -> _. now destruct (N p).
  - intros r. cbn [existsb snd]. destruct (upd_case (rem s) (nrem s) v r) as [[-> ->]|[NE ->]].
    + rewrite Nat.eqb_refl. auto.
    + intros X. rewrite (H6 r X). apply orb_true_r.
  - intros r1 r2. destruct (upd_case (rem s) (nrem s) v r1) as [[-> ->]|[NE ->]], (upd_case (rem s) (nrem s) v r2) as [[-> ->]|[NE2 ->]]; auto; cbn.
    + intros _ X A B. destruct (NR r2). auto.
    + intros X _ A B. destruct (NR r1). auto.
  - intros ri h' li r p X. destruct (H8 _ _ _ _ _ X) as (X1 & X2 & X3 & X4 & X5 & X6).
    destruct (upd_case (rem s) (nrem s) v r) as [[-> ->]|[NE ->]]; [lia|]. auto 10.
Qed.

Lemma get_remote_objs s o ipc h d : objs s -> (forall p, o <> RProxy p) ->
  exists s1 r, get_remote s o ipc h d = (s1, r) /\ objs s1 /\ grows s s1 /\ prefs s1 = prefs s /\ ptrace s1 = ptrace s /\
    prx s1 = prx s /\ nprx s1 = nprx s /\ is_remote s1 ipc h r /\ In (o, r) (rrefs s1) /\
    (forall j, (j < nrem s)%nat -> rem s1 j = rem s j) /\
    (forall o' j, rcnt s1 o' j = (rcnt s o' j + if rowner_dec (o, r) (o', j) then 1 else 0)%nat) /\
    ((r < nrem s)%nat /\ is_remote s ipc h r \/
     r = nrem s /\ (forall j, ~ is_remote s ipc h j) /\ r_dead (rem s1 r) = d).
Proof.
  intros O N. unfold get_remote. destruct (find_remote s ipc h) as [r|] eqn:E.
  - apply find_remote_some in E; auto. pose proof (listed_range s r O (proj1 E)) as R.
    exists (rref s o r), r. split; [reflexivity|]. split; [now apply rref_objs|]. split; [apply rref_grows|].
    repeat (split; [solve [auto | now left]|]).
    split; [intros o' j; unfold rcnt; cbn; destruct (rowner_dec (o, r) (o', j)); lia|]. auto.
  - pose proof (proj1 (find_remote_none s ipc h O) E) as NR.
    eexists _, (nrem s). split; [reflexivity|]. split; [now apply add_rem_objs|]. split; [|repeat split].
    + split; cbn; auto.
      * intros r R. rewrite upd_other by lia. auto.
      * exists []. now rewrite app_nil_r.
    + cbn. now rewrite upd_same.
    + cbn. now rewrite upd_same.
    + cbn. now rewrite upd_same.
    + now left.
    + intros j J. cbn. apply upd_other. lia.
    + intros o' j; unfold rcnt; cbn; destruct (rowner_dec (o, nrem s) (o', j)); lia.
    + right. repeat split; auto. cbn. now rewrite upd_same.
Qed.

Lemma proxy_new_objs s o ipc r : objs s -> (r < nrem s)%nat ->
  let s1 := fst (proxy_new s o ipc r) in
  objs s1 /\ grows s s1 /\ rem s1 = rem s /\ nrem s1 = nrem s /\ nprx s1 = S (nprx s) /\ ptrace s1 = ptrace s ++ [ECreated (nprx s)] /\
  is_proxy s1 ipc r (nprx s) /\ (forall j, (j < nprx s)%nat -> prx s1 j = prx s j) /\
  (forall j, (j < nprx s)%nat -> palive s1 j = palive s j) /\
  (forall r', rcnt s1 RTemp r' = rcnt s RTemp r') /\ (forall r', rcnt s1 RApp r' = rcnt s RApp r') /\
  (forall x, In x (rrefs s) -> In x (rrefs s1)) /\
  (forall o' j, cnt s1 o' j = (cnt s o' j + if owner_dec (o, nprx s) (o', j) then 1 else 0)%nat).
Proof.
  intros O R s1. pose proof O as [H1 H2 H3 H4 H5 H6 H7 H8 H9 H10 H11 H12 H13].
  assert (D : palive s (nprx s) = false).
  { destruct (palive s (nprx s)) eqn:E; auto. apply (alive_range s _ O) in E. lia. }
  set (v := {| p_ipc := ipc; p_remote := r; p_dropped := false; p_acquired := false |}).
  assert (AL : forall j, palive s1 j = Nat.eqb (nprx s) j || palive s j) by reflexivity.
  assert (NB : forall r', ~ In (RProxy (nprx s), r') (rrefs s)).
  { intros r' X. apply H4 in X as [X _]. congruence. }
  assert (PX : forall j, j <> nprx s -> prx s1 j = prx s j) by (intros j J; cbn; now apply upd_other).
  assert (PN : prx s1 (nprx s) = v) by (cbn; now rewrite upd_same).
  assert (P1 : forall j, j <> nprx s -> palive s1 j = palive s j).
  { intros j J. rewrite AL. now rewrite (proj2 (Nat.eqb_neq _ _) (not_eq_sym J)). }
  assert (P2 : palive s1 (nprx s) = true) by (rewrite AL, Nat.eqb_refl; reflexivity).
  split; [|split; [|repeat split]].
  - split.
    + intros o' p [[= <- <-]|X]; cbn; [lia|]. apply H1 in X. lia.
    + intros o' r' [[= <- <-]|X]; cbn; [lia|]. apply H2 in X. lia.
    + intros p. destruct (Nat.eq_dec p (nprx s)) as [->|NE].
      * intros _. rewrite PN. now left.
      * rewrite P1, PX by auto. intros X. right. auto.
    + intros p r' X. destruct X as [X|X].
      * injection X as <- <-. rewrite PN. auto.
      * destruct (Nat.eq_dec p (nprx s)) as [->|NE]; [now apply NB in X|]. rewrite P1, PX by auto. auto.
    + intros p r'. unfold rcnt. cbn [s1 proxy_new fst emit rref set_rrefs set_prefs add_prx rrefs count_occ].
      destruct (rowner_dec (RProxy (nprx s), r) (RProxy p, r')) as [X|]; [|apply H5].
      injection X as <- <-. assert (Z : count_occ rowner_dec (rrefs s) (RProxy (nprx s), r) = 0%nat) by (apply count_occ_not_In, NB). lia.
    + intros r' X. change (ralive s1 r') with (Nat.eqb r r' || ralive s r'). rewrite (H6 r' X). apply orb_true_r.
    + exact H7.
    + intros ri h li r' p X. cbn [s1 proxy_new fst emit ptrace rref set_rrefs set_prefs add_prx] in X.
      apply in_app_or in X as [X|[X|[]]]; [|discriminate]. destruct (H8 _ _ _ _ _ X) as (X1 & X2 & X3 & X4 & X5 & X6).
      rewrite PX by lia. split; [cbn; lia|]. auto 10.
    + intros p. change (ptrace s1) with (ptrace s ++ [ECreated (nprx s)]). rewrite tally_app, H9.
      change (nprx s1) with (S (nprx s)). change (tally (is_gone p) [ECreated (nprx s)]) with 0%nat.
      destruct (Nat.eq_dec p (nprx s)) as [->|NE].
      * rewrite P2, D. rewrite Nat.ltb_irrefl. cbn [negb andb]. rewrite andb_false_r. reflexivity.
      * rewrite P1 by auto. destruct (Nat.ltb_spec p (nprx s)), (Nat.ltb_spec p (S (nprx s))); auto; lia.
    + intros p. change (ptrace s1) with (ptrace s ++ [ECreated (nprx s)]). rewrite tally_app, H10.
      change (nprx s1) with (S (nprx s)).
      replace (tally (is_created p) [ECreated (nprx s)]) with (if Nat.eqb (nprx s) p then 1%nat else 0%nat)
        by (unfold tally; cbn; now destruct (Nat.eqb (nprx s) p)).
      destruct (Nat.eqb_spec (nprx s) p) as [<-|NE].
      * rewrite Nat.ltb_irrefl. destruct (Nat.ltb_spec (nprx s) (S (nprx s))); lia.
      * destruct (Nat.ltb_spec p (nprx s)), (Nat.ltb_spec p (S (nprx s))); lia.
    + intros p. change (ptrace s1) with (ptrace s ++ [ECreated (nprx s)]). rewrite tally_app, H11.
      change (tally (is_acquire p) [ECreated (nprx s)]) with 0%nat. rewrite Nat.add_0_r.
      destruct (Nat.eq_dec p (nprx s)) as [->|NE]; [|now rewrite PX]. rewrite PN, H13 by lia. reflexivity.
    + intros p. change (ptrace s1) with (ptrace s ++ [ECreated (nprx s)]). rewrite tally_app, H12.
      change (tally (is_release p) [ECreated (nprx s)]) with 0%nat. rewrite Nat.add_0_r.
      destruct (Nat.eq_dec p (nprx s)) as [->|NE]; [|now rewrite PX, P1]. rewrite PN, H13 by lia. reflexivity.
    + intros p X. change (nprx s1) with (S (nprx s)) in X. rewrite PX by lia. apply H13. lia.
  - split; auto.
    + cbn. lia.
    + intros p X. rewrite PX by lia. auto.
    + exists [ECreated (nprx s)]. reflexivity.
  - exact P2.
  - rewrite PN. reflexivity.
  - rewrite PN. reflexivity.
  - intros j J. apply PX. lia.
  - intros j J. apply P1. lia.
  - intros x X. now right.
  - intros o' j. unfold cnt. cbn [s1 proxy_new fst emit rref set_rrefs set_prefs add_prx prefs count_occ].
    destruct (owner_dec (o, nprx s) (o', j)); lia.
Qed.

Lemma objs_convert s ri h li r p : objs s -> is_proxy s li r p -> (r < nrem s)%nat ->
  r_ipc (rem s r) = ri -> r_handle (rem s r) = h -> objs (emit s (EConvert ri h li r p)).
Proof.
  intros O (A & B & C) R D E. pose proof (alive_range s p O A) as P. pose proof O as [H1 H2 H3 H4 H5 H6 H7 H8 H9 H10 H11 H12 H13].
  split; unfold palive, ralive, rcnt in *; cbn [emit rem nrem prx nprx rrefs prefs ptrace]; auto;
    try (intros j; rewrite tally_app; (replace (tally _ [_]) with 0%nat by reflexivity); rewrite Nat.add_0_r; auto; fail).
  intros ri' h' li' r' p' X. apply in_app_or in X as [X|[X|[]]]; [now apply H8 in X|].
  injection X as <- <- <- <- <-. auto 10.
Qed.

(* What the conversion of a handle would return if it's done once more *)
Definition resolved (s : pstate) (ri li : nat) (h : Z) (p : option nat) : Prop :=
  exists r, is_remote s ri h r /\ find_proxy s li r = p /\ (p = None -> r_dead (rem s r) = true).

(* Each remote object has one proxy at most *)
Definition single (s : pstate) : Prop :=
  forall p1 p2, palive s p1 = true -> palive s p2 = true -> p_ipc (prx s p1) = p_ipc (prx s p2) ->
    p_remote (prx s p1) = p_remote (prx s p2) -> p1 = p2.

Record converted (s s' : pstate) (o : owner) : Prop := {
  v_objs : objs s';
  v_grows : grows s s';
  v_alive : forall j, palive s j = true -> palive s' j = true;
  v_prx : forall j, (j < nprx s)%nat -> prx s' j = prx s j;
  v_rem : forall j, (j < nrem s)%nat -> rem s' j = rem s j;
  v_temp : forall r, rcnt s' RTemp r = rcnt s RTemp r;
  v_rapp : forall r, rcnt s' RApp r = rcnt s RApp r;
  v_cnt : forall o' j, o' <> o -> cnt s' o' j = cnt s o' j;
  v_single : single s -> single s';
  v_resolved : forall ri li h p, resolved s ri li h p -> resolved s' ri li h p;
  v_quiet : exists l, ptrace s' = ptrace s ++ l /\ forall e, In e l -> (exists p, e = ECreated p) \/ (exists ri h li, e = EKept ri h li) \/ exists ri h li r p, e = EConvert ri h li r p
}.

Lemma converted_refl s o : objs s -> converted s s o.
Proof. intros O. split; auto using grows_refl. exists []. rewrite app_nil_r. split; auto. intros e []. Qed.
Lemma converted_trans a b c o : converted a b o -> converted b c o -> converted a c o.
Proof.
  intros [A1 A2 A3 A4 A5 A6 A7 A8 A9 A10 (l1 & A11 & A12)] [B1 B2 B3 B4 B5 B6 B7 B8 B9 B10 (l2 & B11 & B12)].
  pose proof (g_nprx _ _ A2). pose proof (g_nrem _ _ A2).
  split; auto.
  - eapply grows_trans; eauto.
  - intros j J. rewrite B4, A4; auto; lia.
  - intros j J. rewrite B5, A5; auto; lia.
  - intros r. now rewrite B6, A6.
  - intros r. now rewrite B7, A7.
  - intros o' j N. now rewrite B8, A8.
  - exists (l1 ++ l2). rewrite B11, A11, app_assoc. split; auto. intros e X. apply in_app_or in X as [X|X]; auto.
Qed.

Lemma handle_converted s o ri li h : objs s ->
  exists s' p, handle_to_local s o ri li h = Ok (s', p) /\ converted s s' o /\ resolved s' ri li h p /\
    (forall j, cnt s' o j = (cnt s o j + match p with Some i => if Nat.eqb i j then 1 else 0 | None => 0 end)%nat) /\
    match p with Some i => exists r, In (EConvert ri h li r i) (ptrace s') | None => In (EKept ri h li) (ptrace s') end /\
    (p = None -> exists r, is_remote s ri h r /\ r_dead (rem s r) = true).
Proof.
  intros O. unfold handle_to_local.
  destruct (get_remote_objs s RTemp ri h false O) as (s1 & r & E & O1 & G1 & A1 & A2 & A3 & A4 & A5 & A6 & A7 & A8 & A9); [discriminate|].
  rewrite E. clear E.
  assert (PAL : forall j, palive s1 j = palive s j) by (intros j; unfold palive; now rewrite A1).
  pose proof (listed_range s1 r O1 (proj1 A5)) as RN.
  (* the proxy *)
  assert (X : exists s2 p,
    match find_proxy s1 li r with
    | Some p => do s2 <- pref s1 o p; Ok (s2, Some p)
    | None => if r_dead (rem s1 r) then Ok (s1, None) else let (s2, p) := proxy_new s1 o li r in Ok (s2, Some p)
    end = Ok (s2, p) /\ objs s2 /\ grows s1 s2 /\ rem s2 = rem s1 /\ nrem s2 = nrem s1 /\
    (forall j, palive s1 j = true -> palive s2 j = true) /\
    (forall j, (j < nprx s1)%nat -> prx s2 j = prx s1 j /\ palive s2 j = palive s1 j) /\
    (forall x, In x (rrefs s1) -> In x (rrefs s2)) /\
    (forall r', rcnt s2 RTemp r' = rcnt s1 RTemp r' /\ rcnt s2 RApp r' = rcnt s1 RApp r') /\
    (forall o' j, cnt s2 o' j = (cnt s1 o' j + match p with Some i => if owner_dec (o, i) (o', j) then 1 else 0 | None => 0 end)%nat) /\
    (match p with
     | Some i => is_proxy s2 li r i /\ (forall j, (j < i)%nat -> ~ is_proxy s2 li r j)
     | None => (forall j, ~ is_proxy s2 li r j) /\ r_dead (rem s1 r) = true
     end) /\
    (nprx s2 = nprx s1 \/ nprx s2 = S (nprx s1) /\ is_proxy s2 li r (nprx s1) /\ r_dead (rem s1 r) = false /\ forall j, ~ is_proxy s1 li r j) /\
    (exists l, ptrace s2 = ptrace s1 ++ l /\ forall e, In e l -> exists p, e = ECreated p)).
  { destruct (find_proxy s1 li r) as [p|] eqn:F.
    - apply find_proxy_some in F as (F1 & F2); auto.
      destruct (pref_objs s1 o p O1 (proj1 F1)) as (s2 & E2 & O2 & G2 & B1 & B2 & B3 & B4 & B5 & B6 & B7 & B8).
      exists s2, (Some p). rewrite E2. split; [reflexivity|]. split; [exact O2|]. split; [exact G2|]. split; [exact B2|]. split; [exact B3|].
      split; [intros j J; now rewrite B7|]. split; [intros j J; now rewrite B5, B7|]. split; [now rewrite B1|].
      split; [intros r'; unfold rcnt; now rewrite B1|]. split; [exact B8|].
      split; [unfold is_proxy in *; rewrite B5; setoid_rewrite B7; auto|]. split; [auto|].
      exists []. rewrite B4, app_nil_r. split; auto. intros e [].
    - pose proof (proj1 (find_proxy_none s1 li r O1) F) as NF. destruct (r_dead (rem s1 r)) eqn:D.
      + exists s1, None. split; [reflexivity|]. split; [exact O1|]. split; [apply grows_refl|].
        split; [reflexivity|]. split; [reflexivity|]. split; [auto|]. split; [auto|]. split; [auto|]. split; [auto|].
        split; [intros; lia|]. split; [auto|]. split; [auto|]. exists []. rewrite app_nil_r. split; auto. intros e [].
      + destruct (proxy_new s1 o li r) as [s2 p] eqn:E2.
        pose proof (proxy_new_objs s1 o li r O1 RN) as X. rewrite E2 in X. cbn [fst] in X.
        destruct X as (O2 & G2 & B1 & B2 & B3 & B4 & B5 & B6 & B7 & B8 & B9 & B10 & B11).
        assert (p = nprx s1) by (unfold proxy_new in E2; now injection E2 as _ <-). subst p.
        exists s2, (Some (nprx s1)). split; [reflexivity|]. split; [exact O2|]. split; [exact G2|]. split; [exact B1|]. split; [exact B2|].
        split; [intros j J; rewrite B7; auto; now apply alive_range|]. split; [intros j J; split; [now apply B6|now apply B7]|]. split; [exact B10|].
        split; [auto|]. split; [exact B11|].
        split; [split; [exact B5|]|].
        { intros j J (J1 & J2 & J3). rewrite B7 in J1 by auto. rewrite B6 in J2, J3 by auto. apply (NF j). repeat split; auto. }
        split; [right; auto|]. exists [ECreated (nprx s1)]. split; [exact B4|]. intros e [<-|[]]. eauto. }
  destruct X as (s2 & p & -> & O2 & G2 & C1 & C2 & C3 & C4 & C5 & C6 & C7 & C8 & C9 & (l2 & C10 & C11)). cbn [bind].
  set (s3 := emit s2 (match p with Some p => EConvert ri h li r p | None => EKept ri h li end)).
  assert (O3 : objs s3 /\ rrefs s3 = rrefs s2 /\ prefs s3 = prefs s2 /\ rem s3 = rem s2 /\ nrem s3 = nrem s2 /\ prx s3 = prx s2 /\ nprx s3 = nprx s2 /\ grows s2 s3 /\
    exists l, ptrace s3 = ptrace s2 ++ l /\ forall e, In e l -> (exists ri h li, e = EKept ri h li) \/ exists ri h li r p, e = EConvert ri h li r p).
  { unfold s3. destruct p as [i|].
    - split; [|repeat split; auto; try (exists [EConvert ri h li r i]; reflexivity)].
      + apply objs_convert; auto; try (rewrite C1; apply A5); [apply C8|lia].
      + exists [EConvert ri h li r i]. split; [reflexivity|]. intros e [<-|[]]. eauto 10.
    - split; [now apply objs_quiet|]. repeat (split; [solve [auto | apply grows_emit]|]).
      exists [EKept ri h li]. split; [reflexivity|]. intros e [<-|[]]. eauto 10. }
  destruct O3 as (O3 & D1 & D2 & D3 & D4 & D5 & D6 & G3 & (l3 & D7 & D8)).
  destruct (runref_objs s3 RTemp r O3) as (s4 & E4 & O4 & G4 & F1 & F2 & F3 & F4 & F5 & F6 & F7); [rewrite D1; auto|discriminate|].
  rewrite E4. cbn [bind]. exists s4, p. split; [reflexivity|].
  assert (PAL4 : forall j, palive s4 j = palive s2 j) by (intros j; unfold palive; now rewrite F1, D2).
  assert (GR : grows s s4).
  { eapply grows_trans; [exact G1|]. eapply grows_trans; [exact G2|]. eapply grows_trans; [exact G3|exact G4]. }
  (* the remote object is still in the table *)
  assert (KEEP : ralive s4 r = true).
  { destruct p as [i|].
    - destruct C8 as ((P1 & P2 & P3) & _). apply ralive_in. exists (RProxy i).
      rewrite <- P3. replace (prx s2) with (prx s4) by congruence. apply (o_link _ O4). now rewrite PAL4.
    - destruct A9 as [(A9 & A10)|(A9 & A10 & A11)].
      + pose proof (o_listed _ O _ (proj1 A10)) as X. apply ralive_in in X as (o' & X). apply ralive_in. exists o'.
        apply rcnt_in in X. apply rcnt_in. pose proof (F7 o' r) as Y1. pose proof (A8 o' r) as Y2.
        assert (Y3 : rcnt s3 o' r = rcnt s1 o' r).
        { unfold rcnt. rewrite D1. destruct o' as [| |i]; [apply C6|apply C6|].
          clear - C8 C9 O1 O2 C1 C5 C4 X A8 Y2 A1 A3 A4 PAL O.
          apply rcnt_in in X. pose proof (o_back _ O _ _ X) as [Q1 Q2].
          assert (H1 : In (RProxy i, r) (rrefs s1)).
          { rewrite Q2. replace (prx s) with (prx s1) by auto. apply (o_link _ O1). now rewrite PAL. }
          assert (H2 : In (RProxy i, r) (rrefs s2)) by auto.
          apply (count_occ_In rowner_dec) in H1, H2. pose proof (o_one _ O1 i r). pose proof (o_one _ O2 i r). unfold rcnt in *. lia. }
        destruct (rowner_dec (RTemp, r) (o', r)); lia.
      + destruct C8 as [_ C8]. congruence. }
  assert (LIST : forall j, (j < nrem s1)%nat -> rem s4 j = rem s1 j).
  { intros j J. revert E4. unfold runref. destruct (take1 rowner_dec (RTemp, r) (rrefs s3)) as [l|]; [|discriminate].
    destruct (ralive (set_rrefs s3 l) r) eqn:Y; intros Z; apply ok_same in Z; subst s4.
    - change (rem s3 j = rem s1 j). now rewrite D3, C1.
    - exfalso. cbn in KEEP. unfold ralive in Y, KEEP. cbn in Y, KEEP. congruence. }
  assert (AL : forall j, palive s j = true -> palive s4 j = true).
  { intros j J. rewrite PAL4. apply C3. now rewrite PAL. }
  assert (PX : forall j, (j < nprx s)%nat -> prx s4 j = prx s j /\ palive s4 j = palive s j).
  { intros j J. rewrite PAL4, F3, D5, <- PAL, <- A3. apply C4. lia. }
  pose proof (g_nrem _ _ G1) as NR1.
  split; [|split; [|split]].
  - split; auto.
    + intros j J. now apply PX.
    + intros j J. rewrite LIST, A7; auto. lia.
    + intros r'. pose proof (F7 RTemp r') as Y1. pose proof (A8 RTemp r') as Y2. destruct (C6 r') as (Y3 & _).
      assert (rcnt s3 RTemp r' = rcnt s2 RTemp r') by (unfold rcnt; now rewrite D1). lia.
    + intros r'. pose proof (F7 RApp r') as Y1. pose proof (A8 RApp r') as Y2. destruct (C6 r') as (_ & Y3).
      assert (rcnt s3 RApp r' = rcnt s2 RApp r') by (unfold rcnt; now rewrite D1).
      destruct (rowner_dec (RTemp, r) (RApp, r')); [discriminate|]. lia.
    + intros o' j NE. assert (X : cnt s4 o' j = cnt s2 o' j) by (unfold cnt; now rewrite F1, D2). rewrite X, C7.
      assert (Y : cnt s1 o' j = cnt s o' j) by (unfold cnt; now rewrite A1). rewrite Y.
      destruct p as [i|]; [|lia]. destruct (owner_dec (o, i) (o', j)) as [Z|]; [injection Z; congruence|lia].
    + intros SG p1 p2 P1 P2 Q1 Q2.
      assert (NP : nprx s4 = nprx s2) by congruence.
      pose proof (alive_range _ _ O4 P1) as R1. pose proof (alive_range _ _ O4 P2) as R2. rewrite NP in R1, R2.
      destruct C9 as [C9|(C9 & C12 & C13 & C14)]; rewrite C9 in *.
      * destruct (PX p1 ltac:(lia)) as (Y1 & Y2), (PX p2 ltac:(lia)) as (Y3 & Y4). rewrite Y1, Y3 in *. apply SG; congruence.
      * assert (NEW : forall i, palive s4 i = true -> (i < nprx s1)%nat -> p_ipc (prx s4 i) = p_ipc (prx s4 (nprx s1)) ->
           p_remote (prx s4 i) = p_remote (prx s4 (nprx s1)) -> False).
        { intros i I1 I2 I3 I4. destruct (PX i ltac:(lia)) as (Y1 & Y2). apply (C14 i). destruct C12 as (Z1 & Z2 & Z3).
          replace (prx s4 (nprx s1)) with (prx s2 (nprx s1)) in * by congruence. split; [rewrite PAL; congruence|].
          rewrite A3, <- Y1. split; congruence. }
        destruct (Nat.eq_dec p1 (nprx s1)) as [->|N1], (Nat.eq_dec p2 (nprx s1)) as [->|N2]; auto.
        -- exfalso. apply (NEW p2); auto; lia.
        -- exfalso. apply (NEW p1); auto; lia.
        -- destruct (PX p1 ltac:(lia)) as (Y1 & Y2), (PX p2 ltac:(lia)) as (Y3 & Y4). rewrite Y1, Y3 in *. apply SG; congruence.
    + (* earlier conversions *)
      intros ri' li' h' p' (r' & Q1 & Q2 & Q3). pose proof (listed_range _ _ O (proj1 Q1)) as RN'.
      exists r'. assert (RE : rem s4 r' = rem s r') by (rewrite LIST, A7; auto; lia).
      split; [unfold is_remote; now rewrite RE|]. split; [|now rewrite RE].
      assert (OLD : forall j, (j < nprx s)%nat -> is_proxy s4 li' r' j <-> is_proxy s li' r' j).
      { intros j J. destruct (PX j J) as (Y1 & Y2). unfold is_proxy. now rewrite Y1, Y2. }
      destruct p' as [i|].
      * apply find_proxy_some in Q2 as (Q4 & Q5); auto. apply find_proxy_some; auto.
        pose proof (alive_range _ _ O (proj1 Q4)) as RI. split; [now apply OLD|].
        intros j J. rewrite OLD by lia. auto.
      * apply find_proxy_none; auto. pose proof (proj1 (find_proxy_none _ _ _ O) Q2) as Q6. intros j J.
        destruct (Nat.lt_ge_cases j (nprx s)) as [JL|JL]; [now apply OLD, Q6 in J|].
        pose proof (alive_range _ _ O4 (proj1 J)) as R1. rewrite F4, D6 in R1.
        destruct C9 as [C9|(C9 & C12 & C13 & C14)]; rewrite C9 in *; [lia|].
        assert (j = nprx s1) by lia. subst j. destruct C12 as (_ & _ & Z3), J as (_ & _ & J3).
        replace (prx s4) with (prx s2) in J3 by congruence. rewrite <- J3, Z3 in Q3. specialize (Q3 eq_refl).
        assert (rem s1 r = rem s r) by (apply A7; lia). congruence.
    + exists (l2 ++ l3). rewrite F2, D7, C10, A2, app_assoc. split; auto. intros e X. apply in_app_or in X as [X|X]; auto.
  - exists r. assert (RE : rem s4 r = rem s1 r) by (apply LIST; lia). split; [unfold is_remote; now rewrite RE|].
    assert (IP : forall j, is_proxy s4 li r j <-> is_proxy s2 li r j).
    { intros j. unfold is_proxy. rewrite PAL4, F3, D5. tauto. }
    destruct p as [i|].
    + split; [|discriminate]. apply find_proxy_some; auto. destruct C8 as (Z1 & Z2). split; [now apply IP|].
      intros j J. rewrite IP. auto.
    + destruct C8 as (Z1 & Z2). split; [|now rewrite RE]. apply find_proxy_none; auto. intros j. rewrite IP. auto.
  - intros j. assert (X : cnt s4 o j = cnt s2 o j) by (unfold cnt; now rewrite F1, D2). rewrite X, C7.
    assert (Y : cnt s1 o j = cnt s o j) by (unfold cnt; now rewrite A1). rewrite Y. destruct p as [i|]; auto.
    destruct (owner_dec (o, i) (o, j)) as [Z|Z], (Nat.eqb_spec i j); auto; exfalso; [injection Z; congruence|congruence].
  - split.
    + rewrite F2. unfold s3. destruct p as [i|]; [exists r|]; cbn; apply in_or_app; right; now left.
    + intros ->. exists r. destruct A9 as [(A9 & A10)|(A9 & A10 & A11)]; [|destruct C8; congruence].
      split; [exact A10|]. destruct C8 as (_ & C8). rewrite <- (A7 r A9). exact C8.
Qed.

(* New remote objects aren't dead *)
Lemma handle_new s o ri li h s' p : objs s -> handle_to_local s o ri li h = Ok (s', p) ->
  forall r, (nrem s <= r)%nat -> (r < nrem s')%nat -> r_dead (rem s' r) = false.
Proof.
  intros O. unfold handle_to_local.
  destruct (get_remote_objs s RTemp ri h false O) as (s1 & r & E & O1 & G1 & A1 & A2 & A3 & A4 & A5 & A6 & A7 & A8 & A9); [discriminate|].
  assert (N1 : nrem s1 = nrem s \/ nrem s1 = S (nrem s) /\ r_dead (rem s1 (nrem s)) = false).
  { unfold get_remote in E. destruct (find_remote s ri h); injection E as <- <-; [now left|right]. cbn. now rewrite upd_same. }
  rewrite E.
  destruct (match find_proxy s1 li r with
    | Some p => do s2 <- pref s1 o p; Ok (s2, Some p)
    | None => if r_dead (rem s1 r) then Ok (s1, None) else let (s2, p) := proxy_new s1 o li r in Ok (s2, Some p)
    end) as [| |[s2 p2]] eqn:X; try discriminate.
  assert (N2 : rem s2 = rem s1 /\ nrem s2 = nrem s1).
  { destruct (find_proxy s1 li r) as [i|].
    - unfold pref in X. destruct (palive s1 i); [|discriminate]. cbn [bind] in X. apply ok_pair in X as (<- & _). auto.
    - destruct (r_dead (rem s1 r)); [apply ok_pair in X as (<- & _); auto|].
      destruct (proxy_new s1 o li r) as [s3 i] eqn:Y. apply ok_pair in X as (<- & _). unfold proxy_new in Y. now injection Y as <- _. }
  cbn [bind]. set (s3 := emit s2 _). destruct (runref s3 RTemp r) as [| |s4] eqn:Y; try discriminate. cbn [bind].
  intros Z; apply ok_pair in Z as (<- & _).
  assert (N3 : nrem s4 = nrem s1 /\ forall j, r_dead (rem s4 j) = r_dead (rem s1 j)).
  { revert Y. unfold runref. destruct (take1 rowner_dec (RTemp, r) (rrefs s3)) as [l|]; [|discriminate].
    destruct N2 as (N2 & N3).
    destruct (ralive (set_rrefs s3 l) r); intros Y; apply ok_same in Y; subst s4; cbn; rewrite N2, N3; split; auto.
    intros j. destruct (upd_case (rem s1) r (r_set_listed (rem s1 r) false) j) as [[-> ->]|[NE ->]]; auto. }
  destruct N3 as (N3 & N4). intros j J1 J2. rewrite N4. rewrite N3 in J2. destruct N1 as [N1|(N1 & N5)]; [lia|].
  replace j with (nrem s) by lia. exact N5.
Qed.
