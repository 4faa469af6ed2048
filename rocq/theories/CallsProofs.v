(* Proofs for CallsModel *)
From Verif Require Import Base CallsModel CallsSpec.

Definition to_st (k : call) (s : state) : call := {| k_from := k_from k; k_sync := k_sync k; k_to := k_to k; k_st := s |}.

Lemma nth_same l c s k : nth_error l c = Some k -> nth_error (set_call l c s) c = Some (to_st k s).
Proof. revert c. induction l as [|x l IH]; intros [|c]; cbn; try discriminate; [intros [= ->]; reflexivity|apply IH]. Qed.

Lemma nth_other l c s i : i <> c -> nth_error (set_call l c s) i = nth_error l i.
Proof. revert c i. induction l as [|x l IH]; intros [|c] [|i] H; cbn; try reflexivity; try congruence. apply IH. congruence. Qed.

Lemma nth_set l c s i k k1 : nth_error l c = Some k -> nth_error (set_call l c s) i = Some k1 ->
  (i = c /\ k1 = to_st k s) \/ (i <> c /\ nth_error l i = Some k1).
Proof.
  intros H E. destruct (Nat.eq_dec i c) as [->|X]; [left|right; rewrite nth_other in E by exact X; auto].
  rewrite (nth_same _ _ _ _ H) in E. injection E as <-. auto.
Qed.

Lemma len_set l c s : length (set_call l c s) = length l.
Proof. revert c. induction l as [|x l IH]; intros [|c]; cbn; auto. Qed.

Lemma nth_new (l : list call) k i k1 : nth_error (l ++ [k]) i = Some k1 -> (i = length l /\ k1 = k) \/ (i <> length l /\ nth_error l i = Some k1).
Proof.
  intros H. destruct (Nat.lt_ge_cases i (length l)) as [X|X].
  - right. rewrite nth_error_app1 in H by exact X. split; [lia|exact H].
  - rewrite nth_error_app2 in H by exact X. destruct (i - length l)%nat eqn:E; cbn in H; [|destruct n; discriminate].
    left. injection H as <-. split; [lia|reflexivity].
Qed.

Lemma nth_old (l : list call) k i k1 : nth_error l i = Some k1 -> nth_error (l ++ [k]) i = Some k1 /\ i <> length l.
Proof. intros H. assert (X : (i < length l)%nat) by (apply nth_error_Some; congruence). rewrite nth_error_app1 by exact X. split; [exact H|lia]. Qed.

Lemma nth_end (l : list call) k : nth_error (l ++ [k]) (length l) = Some k.
Proof. rewrite nth_error_app2, Nat.sub_diag by lia. reflexivity. Qed.

Lemma proc_same f p x : set_proc f p x p = x.
Proof. unfold set_proc. rewrite Nat.eqb_refl. reflexivity. Qed.
Lemma proc_other f p x i : i <> p -> set_proc f p x i = f i.
Proof. unfold set_proc. intros H. apply Nat.eqb_neq in H. rewrite H. reflexivity. Qed.

Definition pending (s : state) : Prop := match s with Sent | Taken | Running | Blocked | Handled _ _ | Replied _ => True | _ => False end.

Record winv (w : world) : Prop := {
  a_frame : forall p c, p_frame (procs w p) = Some (FHandle c) -> exists k, nth_error (made w) c = Some k /\ k_to k = p /\ k_st k = Running;
  a_run : forall c k, nth_error (made w) c = Some k -> k_st k = Running -> p_frame (procs w (k_to k)) = Some (FHandle c);
  a_wait : forall p x, p_wait (procs w p) = Some x -> p_frame (procs w p) <> None /\
    exists k, nth_error (made w) x = Some k /\ k_from k = p /\ k_sync k = true /\ pending (k_st k);
  a_sync : forall c k, nth_error (made w) c = Some k -> k_sync k = true ->
    match k_st k with Over _ => True | Pool | Back _ => False | _ => p_wait (procs w (k_from k)) = Some c end;
  a_todo : forall p i v, In (i, v) (p_todo (procs w p)) -> exists k, nth_error (made w) i = Some k /\ k_st k = Replied v /\ k_from k = p /\ k_sync k = true;
  a_once : forall p, (length (p_todo (procs w p)) <= 1)%nat;
  a_reply : forall c k v, nth_error (made w) c = Some k -> k_sync k = true -> k_st k = Replied v -> In (c, v) (p_todo (procs w (k_from k)));
  a_prim : forall p, (1 <= p_prim (procs w p))%nat;
  a_dead : forall p, p_dead (procs w p) = true -> p_frame (procs w p) = Some FApp
}.

Lemma start_winv : winv start.
Proof.
  constructor; cbn; try discriminate; try contradiction; auto; try (intros [|c]; discriminate).
Qed.

(* The state of a call changes, and nothing else *)
Lemma silent w c k s : winv w -> nth_error (made w) c = Some k ->
  k_st k <> Running -> s <> Running -> (forall v, k_st k = Replied v -> k_sync k = false) -> (forall v, s <> Replied v) ->
  (k_sync k = true -> pending (k_st k) /\ pending s) ->
  winv {| made := set_call (made w) c s; procs := procs w |}.
Proof.
  intros [A B C D E F G P Q] Hk N1 N2 N3 N4 Hs. constructor; cbn [made procs]; auto.
  - intros p i Hi. destruct (A p i Hi) as (k1 & X1 & X2 & X3). exists k1. rewrite nth_other; auto. intros ->. congruence.
  - intros i k1 Hi Hr. destruct (nth_set _ _ _ _ _ _ Hk Hi) as [(-> & ->)|(X & Hi1)]; [cbn in Hr; congruence|auto].
  - intros p x Hx. destruct (C p x Hx) as (X & k1 & Y1 & Y2 & Y3 & Y4). split; [exact X|].
    destruct (Nat.eq_dec x c) as [->|Z]; [|exists k1; rewrite nth_other by exact Z; auto].
    exists (to_st k s). rewrite (nth_same _ _ _ _ Hk). rewrite Hk in Y1. injection Y1 as <-. cbn. repeat split; auto. apply Hs. exact Y3.
  - intros i k1 Hi Hy. destruct (nth_set _ _ _ _ _ _ Hk Hi) as [(-> & ->)|(X & Hi1)]; [|exact (D _ _ Hi1 Hy)].
    cbn in *. destruct (Hs Hy) as [H1 H2]. specialize (D c k Hk Hy). destruct (k_st k); cbn in *; try contradiction; destruct s; cbn in *; auto; contradiction.
  - intros p i v Hi. destruct (E p i v Hi) as (k1 & X1 & X2 & X3 & X4). exists k1. rewrite nth_other; auto. intros ->. rewrite Hk in X1. injection X1 as <-.
    rewrite (N3 v X2) in X4. discriminate.
  - intros i k1 v Hi Hy Hv. destruct (nth_set _ _ _ _ _ _ Hk Hi) as [(-> & ->)|(X & Hi1)]; [cbn in Hv; destruct (N4 v Hv)|]. eauto.
Qed.

Lemma frame_winv w p f : winv w -> p_dead (procs w p) = false -> p_wait (procs w p) = None -> (forall c, p_frame (procs w p) <> Some (FHandle c)) ->
  (forall c, f <> Some (FHandle c)) -> winv {| made := made w; procs := set_proc (procs w) p (with_frame (procs w p) f) |}.
Proof.
  intros [A B C D E F G P Q] Hd Hw Hf Hf1. constructor; cbn [made procs]; intros q; destruct (Nat.eq_dec q p) as [->|X];
    rewrite ?proc_same, ?(proc_other _ _ _ _ X); cbn [p_frame p_wait p_todo p_prim p_dead with_frame]; auto.
  - intros c H. destruct (Hf1 c H).
  - intros k Hk Hr. specialize (B _ _ Hk Hr). destruct (Nat.eq_dec (k_to k) p) as [Y|Y]; [rewrite Y in B; destruct (Hf _ B)|rewrite proc_other by exact Y; exact B].
  - intros k Hk Hr. specialize (B _ _ Hk Hr). destruct (Nat.eq_dec (k_to k) p) as [Y|Y]; [rewrite Y in B; destruct (Hf _ B)|rewrite proc_other by exact Y; exact B].
  - intros x Hx. congruence.
  - intros k Hk Hs. specialize (D _ _ Hk Hs). destruct (Nat.eq_dec (k_from k) p) as [Y|Y]; [rewrite Y in *; rewrite proc_same; exact D|rewrite proc_other by exact Y; exact D].
  - intros k Hk Hs. specialize (D _ _ Hk Hs). destruct (Nat.eq_dec (k_from k) p) as [Y|Y]; [rewrite Y in *; rewrite proc_same; exact D|rewrite proc_other by exact Y; exact D].
  - intros k v Hk Hs Hv. specialize (G _ _ _ Hk Hs Hv). destruct (Nat.eq_dec (k_from k) p) as [Y|Y]; [rewrite Y in *; rewrite proc_same; exact G|rewrite proc_other by exact Y; exact G].
  - intros k v Hk Hs Hv. specialize (G _ _ _ Hk Hs Hv). destruct (Nat.eq_dec (k_from k) p) as [Y|Y]; [rewrite Y in *; rewrite proc_same; exact G|rewrite proc_other by exact Y; exact G].
  - congruence.
Qed.

Lemma prim_winv w p n : winv w -> (1 <= n)%nat -> winv {| made := made w; procs := set_proc (procs w) p (with_prim (procs w p) n) |}.
Proof.
  intros [A B C D E F G P Q] Hn.
  assert (X : forall q, p_frame (set_proc (procs w) p (with_prim (procs w p) n) q) = p_frame (procs w q) /\
    p_wait (set_proc (procs w) p (with_prim (procs w p) n) q) = p_wait (procs w q) /\
    p_todo (set_proc (procs w) p (with_prim (procs w p) n) q) = p_todo (procs w q)).
  { intros q. destruct (Nat.eq_dec q p) as [->|Y]; rewrite ?proc_same, ?(proc_other _ _ _ _ Y); auto. }
  constructor; cbn [made procs].
  - intros q c. rewrite (proj1 (X q)). apply A.
  - intros c k. rewrite (proj1 (X _)). apply B.
  - intros q x. rewrite (proj1 (X q)), (proj1 (proj2 (X q))). apply C.
  - intros c k. rewrite (proj1 (proj2 (X _))). apply D.
  - intros q i v. rewrite (proj2 (proj2 (X q))). apply E.
  - intros q. rewrite (proj2 (proj2 (X q))). apply F.
  - intros c k v. rewrite (proj2 (proj2 (X _))). apply G.
  - intros q. destruct (Nat.eq_dec q p) as [->|Y]; rewrite ?proc_same, ?(proc_other _ _ _ _ Y); auto.
  - intros q. rewrite (proj1 (X q)). destruct (Nat.eq_dec q p) as [->|Y]; rewrite ?proc_same, ?(proc_other _ _ _ _ Y); apply Q.
Qed.

(* The handler returns, or the process dies *)
Lemma leave_winv w c k s y : winv w -> nth_error (made w) c = Some k -> p_frame (procs w (k_to k)) = Some (FHandle c) ->
  p_wait y = p_wait (procs w (k_to k)) -> p_todo y = p_todo (procs w (k_to k)) -> p_prim y = p_prim (procs w (k_to k)) ->
  (p_frame y = None /\ p_wait (procs w (k_to k)) = None /\ p_dead y = false) \/ p_frame y = Some FApp ->
  pending s -> s <> Running -> (forall v, s <> Replied v) ->
  winv {| made := set_call (made w) c s; procs := set_proc (procs w) (k_to k) y |}.
Proof.
  intros I Hk Hf U1 U2 U3 Hw Hs N2 N4. pose proof I as [A B C D E F G P Q].
  destruct (A _ _ Hf) as (k0 & X1 & X2 & X3). rewrite Hk in X1. injection X1 as <-. clear X2.
  set (t := k_to k) in *.
  assert (Y : forall q, p_wait (set_proc (procs w) t y q) = p_wait (procs w q) /\
    p_todo (set_proc (procs w) t y q) = p_todo (procs w q) /\
    p_prim (set_proc (procs w) t y q) = p_prim (procs w q)).
  { intros q. destruct (Nat.eq_dec q t) as [->|Y]; rewrite ?proc_same, ?(proc_other _ _ _ _ Y); auto. }
  constructor; cbn [made procs].
  - intros q i. destruct (Nat.eq_dec q t) as [->|Z]; rewrite ?proc_same, ?(proc_other _ _ _ _ Z); [destruct Hw as [(Hw & _)|Hw]; rewrite Hw; discriminate|].
    intros Hi. destruct (A q i Hi) as (k1 & Z1 & Z2 & Z3). exists k1. rewrite nth_other; auto. intros ->. rewrite Hk in Z1. injection Z1 as <-. unfold t in Z. congruence.
  - intros i k1 Hi Hr. destruct (nth_set _ _ _ _ _ _ Hk Hi) as [(-> & ->)|(Z & Hi1)]; [cbn in Hr; congruence|].
    pose proof (B _ _ Hi1 Hr) as R. destruct (Nat.eq_dec (k_to k1) t) as [V|V]; [rewrite V in R; congruence|rewrite proc_other by exact V; exact R].
  - intros q x. rewrite (proj1 (Y q)). intros Hx. destruct (C q x Hx) as (V & k1 & Y1 & Y2 & Y3 & Y4). split.
    + destruct (Nat.eq_dec q t) as [->|Z]; rewrite ?proc_same, ?(proc_other _ _ _ _ Z); [|exact V]. destruct Hw as [(_ & Hw & _)|Hw]; congruence.
    + destruct (Nat.eq_dec x c) as [->|Z]; [|exists k1; rewrite nth_other by exact Z; auto].
      exists (to_st k s). rewrite (nth_same _ _ _ _ Hk). rewrite Hk in Y1. injection Y1 as <-. cbn. auto.
  - intros i k1 Hi Hy. rewrite (proj1 (Y _)). destruct (nth_set _ _ _ _ _ _ Hk Hi) as [(-> & ->)|(Z & Hi1)]; [|exact (D _ _ Hi1 Hy)].
    cbn in *. specialize (D c k Hk Hy). rewrite X3 in D. destruct s; cbn in *; auto; contradiction.
  - intros q i v. rewrite (proj1 (proj2 (Y q))). intros Hi. destruct (E q i v Hi) as (k1 & Z1 & Z2 & Z3). exists k1. rewrite nth_other; auto. intros ->. congruence.
  - intros q. rewrite (proj1 (proj2 (Y q))). apply F.
  - intros i k1 v Hi Hy Hv. rewrite (proj1 (proj2 (Y _))). destruct (nth_set _ _ _ _ _ _ Hk Hi) as [(-> & ->)|(Z & Hi1)]; [cbn in Hv; destruct (N4 v Hv)|]. eauto.
  - intros q. rewrite (proj2 (proj2 (Y q))). apply P.
  - intros q. destruct (Nat.eq_dec q t) as [->|Z]; rewrite ?proc_same, ?(proc_other _ _ _ _ Z); [|apply Q]. destruct Hw as [(_ & _ & Hw)|Hw]; congruence.
Qed.

Lemma kill_winv w p : winv w -> (forall c, p_frame (procs w p) <> Some (FHandle c)) -> winv {| made := made w; procs := set_proc (procs w) p (kill (procs w p)) |}.
Proof.
  intros [A B C D E F G P Q] Hf. set (g := set_proc (procs w) p (kill (procs w p))).
  assert (Y : forall q, p_wait (g q) = p_wait (procs w q) /\ p_todo (g q) = p_todo (procs w q) /\ p_prim (g q) = p_prim (procs w q)).
  { intros q. unfold g. destruct (Nat.eq_dec q p) as [->|X]; rewrite ?proc_same, ?(proc_other _ _ _ _ X); auto. }
  assert (Z : forall q, (q = p /\ p_frame (g q) = Some FApp) \/ (q <> p /\ g q = procs w q)).
  { intros q. unfold g. destruct (Nat.eq_dec q p) as [->|X]; [left; rewrite proc_same|right; rewrite proc_other by exact X]; auto. }
  constructor; cbn [made procs].
  - intros q c H. destruct (Z q) as [(_ & X)|(_ & X)]; rewrite X in H; [discriminate|auto].
  - intros c k Hk Hr. pose proof (B c k Hk Hr) as R. destruct (Z (k_to k)) as [(X & _)|(_ & X)]; [rewrite X in R; destruct (Hf _ R)|rewrite X; exact R].
  - intros q x. rewrite (proj1 (Y q)). intros Hx. destruct (C q x Hx) as (V & V1). split; [|exact V1]. destruct (Z q) as [(_ & X)|(_ & X)]; rewrite X; [discriminate|exact V].
  - intros c k. rewrite (proj1 (Y _)). apply D.
  - intros q i v. rewrite (proj1 (proj2 (Y q))). apply E.
  - intros q. rewrite (proj1 (proj2 (Y q))). apply F.
  - intros c k v. rewrite (proj1 (proj2 (Y _))). apply G.
  - intros q. rewrite (proj2 (proj2 (Y q))). apply P.
  - intros q H. destruct (Z q) as [(_ & X)|(_ & X)]; [exact X|rewrite X in *; auto].
Qed.

Lemma call_winv w k : winv w -> p_frame (procs w (k_from k)) <> None -> p_wait (procs w (k_from k)) = None ->
  k_st k = (if k_sync k then Sent else Pool) ->
  winv {| made := made w ++ [k];
          procs := if k_sync k then set_proc (procs w) (k_from k) (with_wait (procs w (k_from k)) (Some (length (made w)))) else procs w |}.
Proof.
  intros [A B C D E F G P Q] Hf Hw Hs. set (p := k_from k) in *.
  set (g := if k_sync k then set_proc (procs w) p (with_wait (procs w p) (Some (length (made w)))) else procs w).
  assert (Y : forall q, p_frame (g q) = p_frame (procs w q) /\ p_todo (g q) = p_todo (procs w q) /\ p_prim (g q) = p_prim (procs w q)).
  { intros q. unfold g. destruct (k_sync k); auto. destruct (Nat.eq_dec q p) as [->|X]; rewrite ?proc_same, ?(proc_other _ _ _ _ X); auto. }
  assert (Dd : forall q, p_dead (g q) = p_dead (procs w q)).
  { intros q. unfold g. destruct (k_sync k); auto. destruct (Nat.eq_dec q p) as [->|X]; rewrite ?proc_same, ?(proc_other _ _ _ _ X); auto. }
  assert (W : forall q, p_wait (g q) = if k_sync k && Nat.eqb q p then Some (length (made w)) else p_wait (procs w q)).
  { intros q. unfold g, set_proc. destruct (k_sync k); cbn; auto. destruct (Nat.eqb q p); reflexivity. }
  constructor; cbn [made procs].
  - intros q c. rewrite (proj1 (Y q)). intros H. destruct (A q c H) as (k1 & X1 & X2). exists k1. split; [apply nth_old; exact X1|exact X2].
  - intros c k1 Hc Hr. rewrite (proj1 (Y _)). destruct (nth_new _ _ _ _ Hc) as [(-> & ->)|(X & Hc1)]; [destruct (k_sync k); congruence|auto].
  - intros q x. rewrite W, (proj1 (Y q)). destruct (k_sync k && Nat.eqb q p) eqn:Eb.
    + apply andb_true_iff in Eb. destruct Eb as [E1 E2]. apply Nat.eqb_eq in E2. subst q. intros [= <-]. split; [exact Hf|].
      exists k. split; [apply nth_end|]. rewrite Hs, E1. cbn. auto.
    + intros Hx. destruct (C q x Hx) as (X & k1 & Y1 & Y2). split; [exact X|]. exists k1. split; [apply nth_old; exact Y1|exact Y2].
  - intros c k1 Hc Hy. rewrite W. destruct (nth_new _ _ _ _ Hc) as [(-> & ->)|(X & Hc1)].
    + rewrite Hs, Hy. fold p. rewrite Nat.eqb_refl. reflexivity.
    + specialize (D _ _ Hc1 Hy). destruct (k_sync k && Nat.eqb (k_from k1) p) eqn:Eb; [|exact D].
      apply andb_true_iff in Eb. destruct Eb as [_ E2]. apply Nat.eqb_eq in E2. rewrite E2, Hw in D. destruct (k_st k1); auto; discriminate.
  - intros q i v. rewrite (proj1 (proj2 (Y q))). intros H. destruct (E q i v H) as (k1 & X1 & X2). exists k1. split; [apply nth_old; exact X1|exact X2].
  - intros q. rewrite (proj1 (proj2 (Y q))). apply F.
  - intros c k1 v Hc Hy Hv. rewrite (proj1 (proj2 (Y _))). destruct (nth_new _ _ _ _ Hc) as [(-> & ->)|(X & Hc1)]; [destruct (k_sync k); congruence|]. eauto.
  - intros q. rewrite (proj2 (proj2 (Y q))). apply P.
  - intros q. rewrite Dd, (proj1 (Y q)). apply Q.
Qed.

Lemma dispatch_winv w c k : winv w -> nth_error (made w) c = Some k -> k_st k = Taken -> p_frame (procs w (k_to k)) = None ->
  winv {| made := set_call (made w) c Running; procs := set_proc (procs w) (k_to k) (with_frame (procs w (k_to k)) (Some (FHandle c))) |}.
Proof.
  intros [A B C D E F G P Q] Hk Hst Hf. set (t := k_to k) in *. set (g := set_proc (procs w) t (with_frame (procs w t) (Some (FHandle c)))).
  assert (Y : forall q, p_wait (g q) = p_wait (procs w q) /\ p_todo (g q) = p_todo (procs w q) /\ p_prim (g q) = p_prim (procs w q)).
  { intros q. unfold g. destruct (Nat.eq_dec q t) as [->|X]; rewrite ?proc_same, ?(proc_other _ _ _ _ X); auto. }
  constructor; cbn [made procs].
  - intros q i. unfold g. destruct (Nat.eq_dec q t) as [->|Z]; rewrite ?proc_same, ?(proc_other _ _ _ _ Z).
    + cbn. intros [= <-]. exists (to_st k Running). rewrite (nth_same _ _ _ _ Hk). auto.
    + intros Hi. destruct (A q i Hi) as (k1 & Z1 & Z2 & Z3). exists k1. rewrite nth_other; auto. intros ->. congruence.
  - intros i k1 Hi Hr. destruct (nth_set _ _ _ _ _ _ Hk Hi) as [(-> & ->)|(Z & Hi1)]; [unfold g; cbn [to_st k_to]; fold t; rewrite proc_same; reflexivity|].
    pose proof (B _ _ Hi1 Hr) as R. unfold g. destruct (Nat.eq_dec (k_to k1) t) as [V|V]; [rewrite V in R; congruence|rewrite proc_other by exact V; exact R].
  - intros q x. rewrite (proj1 (Y q)). intros Hx. destruct (C q x Hx) as (V & k1 & Y1 & Y2 & Y3 & Y4).
    assert (Q0 : q <> t) by congruence. split; [unfold g; rewrite proc_other by exact Q0; exact V|].
    destruct (Nat.eq_dec x c) as [->|Z]; [|exists k1; rewrite nth_other by exact Z; auto].
    exists (to_st k Running). rewrite (nth_same _ _ _ _ Hk). rewrite Hk in Y1. injection Y1 as <-. cbn. auto.
  - intros i k1 Hi Hy. rewrite (proj1 (Y _)). destruct (nth_set _ _ _ _ _ _ Hk Hi) as [(-> & ->)|(Z & Hi1)]; [|exact (D _ _ Hi1 Hy)].
    cbn in *. specialize (D c k Hk Hy). rewrite Hst in D. exact D.
  - intros q i v. rewrite (proj1 (proj2 (Y q))). intros Hi. destruct (E q i v Hi) as (k1 & Z1 & Z2 & Z3). exists k1. rewrite nth_other; auto. intros ->. congruence.
  - intros q. rewrite (proj1 (proj2 (Y q))). apply F.
  - intros i k1 v Hi Hy Hv. rewrite (proj1 (proj2 (Y _))). destruct (nth_set _ _ _ _ _ _ Hk Hi) as [(-> & ->)|(Z & Hi1)]; [cbn in Hv; discriminate|]. eauto.
  - intros q. rewrite (proj2 (proj2 (Y q))). apply P.
  - intros q. unfold g. destruct (Nat.eq_dec q t) as [->|X]; rewrite ?proc_same, ?(proc_other _ _ _ _ X); [|apply Q]. cbn. intros H. specialize (Q _ H). congruence.
Qed.

Lemma reply_winv w c k v : winv w -> nth_error (made w) c = Some k -> match k_st k with Sent | Taken | Blocked | Handled _ _ => True | _ => False end ->
  winv {| made := set_call (made w) c (Replied v);
          procs := if k_sync k then set_proc (procs w) (k_from k) (with_todo (procs w (k_from k)) (p_todo (procs w (k_from k)) ++ [(c, v)])) else procs w |}.
Proof.
  intros [A B C D E F G P Q] Hk Hst. set (p := k_from k) in *.
  set (g := if k_sync k then set_proc (procs w) p (with_todo (procs w p) (p_todo (procs w p) ++ [(c, v)])) else procs w).
  assert (Y : forall q, p_frame (g q) = p_frame (procs w q) /\ p_wait (g q) = p_wait (procs w q) /\ p_prim (g q) = p_prim (procs w q)).
  { intros q. unfold g. destruct (k_sync k); auto. destruct (Nat.eq_dec q p) as [->|X]; rewrite ?proc_same, ?(proc_other _ _ _ _ X); auto. }
  assert (Dd : forall q, p_dead (g q) = p_dead (procs w q)).
  { intros q. unfold g. destruct (k_sync k); auto. destruct (Nat.eq_dec q p) as [->|X]; rewrite ?proc_same, ?(proc_other _ _ _ _ X); auto. }
  assert (N1 : k_st k <> Running) by (intros X; rewrite X in Hst; exact Hst).
  assert (N3 : forall u, k_st k <> Replied u) by (intros u X; rewrite X in Hst; exact Hst).
  assert (D0 : k_sync k = true -> p_wait (procs w p) = Some c) by (intros Hy; specialize (D c k Hk Hy); destruct (k_st k); auto; contradiction).
  assert (T : forall q, p_todo (g q) = if k_sync k && Nat.eqb q p then p_todo (procs w q) ++ [(c, v)] else p_todo (procs w q)).
  { intros q. unfold g, set_proc. destruct (k_sync k); cbn; auto. destruct (Nat.eqb q p) eqn:Eq; [apply Nat.eqb_eq in Eq; subst q|]; reflexivity. }
  assert (Z0 : k_sync k = true -> p_todo (procs w p) = []).
  { intros Hy. destruct (p_todo (procs w p)) as [|[i u] r] eqn:Et; [reflexivity|]. exfalso.
    destruct (E p i u) as (k1 & X1 & X2 & X3 & X4); [rewrite Et; left; reflexivity|].
    pose proof (D _ _ X1 X4) as D1. rewrite X2, X3 in D1. pose proof (D0 Hy) as D2. rewrite D1 in D2. injection D2 as ->. rewrite Hk in X1. injection X1 as <-. exact (N3 _ X2). }
  constructor; cbn [made procs].
  - intros q i. rewrite (proj1 (Y q)). intros Hi. destruct (A q i Hi) as (k1 & Z1 & Z2 & Z3). exists k1. rewrite nth_other; auto. intros ->. congruence.
  - intros i k1 Hi Hr. rewrite (proj1 (Y _)). destruct (nth_set _ _ _ _ _ _ Hk Hi) as [(-> & ->)|(Z & Hi1)]; [discriminate Hr|auto].
  - intros q x. rewrite (proj1 (Y q)), (proj1 (proj2 (Y q))). intros Hx. destruct (C q x Hx) as (V & k1 & Y1 & Y2 & Y3 & Y4). split; [exact V|].
    destruct (Nat.eq_dec x c) as [->|Z]; [|exists k1; rewrite nth_other by exact Z; auto].
    exists (to_st k (Replied v)). rewrite (nth_same _ _ _ _ Hk). rewrite Hk in Y1. injection Y1 as <-. cbn. auto.
  - intros i k1 Hi Hy. rewrite (proj1 (proj2 (Y _))). destruct (nth_set _ _ _ _ _ _ Hk Hi) as [(-> & ->)|(Z & Hi1)]; [|exact (D _ _ Hi1 Hy)].
    exact (D0 Hy).
  - intros q i u. rewrite T. destruct (k_sync k && Nat.eqb q p) eqn:Eb; intros Hi.
    + apply andb_true_iff in Eb. destruct Eb as [E1 E2]. apply Nat.eqb_eq in E2. subst q. rewrite (Z0 E1) in Hi. destruct Hi as [Hi|[]].
      injection Hi as <- <-. exists (to_st k (Replied v)). rewrite (nth_same _ _ _ _ Hk). auto.
    + destruct (E q i u Hi) as (k1 & Z1 & Z2 & Z3). exists k1. rewrite nth_other; auto. intros ->. rewrite Hk in Z1. injection Z1 as <-. destruct (N3 _ Z2).
  - intros q. rewrite T. destruct (k_sync k && Nat.eqb q p) eqn:Eb; [|apply F].
    apply andb_true_iff in Eb. destruct Eb as [E1 E2]. apply Nat.eqb_eq in E2. subst q. rewrite (Z0 E1). cbn. lia.
  - intros i k1 u Hi Hy Hv. rewrite T. destruct (nth_set _ _ _ _ _ _ Hk Hi) as [(-> & ->)|(Z & Hi1)].
    + cbn in *. rewrite Hy. fold p. rewrite Nat.eqb_refl. cbn. apply in_or_app. right. injection Hv as ->. left. reflexivity.
    + destruct (k_sync k && Nat.eqb (k_from k1) p); [apply in_or_app; left|]; eauto.
  - intros q. rewrite (proj2 (proj2 (Y q))). apply P.
  - intros q. rewrite Dd, (proj1 (Y q)). apply Q.
Qed.

Lemma waiting w p x : winv w -> p_wait (procs w p) = Some x -> forall i v r, p_todo (procs w p) = (i, v) :: r ->
  i = x /\ r = [] /\ exists k, nth_error (made w) x = Some k /\ k_st k = Replied v /\ k_from k = p /\ k_sync k = true.
Proof.
  intros [A B C D E F G P Q] Hx i v r Et. destruct (E p i v) as (k & X1 & X2 & X3 & X4); [rewrite Et; left; reflexivity|].
  pose proof (D _ _ X1 X4) as D1. rewrite X2, X3, Hx in D1. injection D1 as ->. split; [reflexivity|]. split; [|eauto].
  specialize (F p). rewrite Et in F. cbn in F. destruct r; [reflexivity|cbn in F; lia].
Qed.

Lemma receive_winv w p x i v r : winv w -> p_wait (procs w p) = Some x -> p_todo (procs w p) = (i, v) :: r ->
  winv {| made := set_call (made w) x (Over v); procs := set_proc (procs w) p (with_todo (with_wait (procs w p) None) r) |}.
Proof.
  intros I Hx Et. destruct (waiting w p x I Hx i v r Et) as (-> & -> & k & Hk & K1 & K2 & K3). pose proof I as [A B C D E F G P Q].
  set (g := set_proc (procs w) p (with_todo (with_wait (procs w p) None) [])).
  assert (Y : forall q, p_frame (g q) = p_frame (procs w q) /\ p_prim (g q) = p_prim (procs w q)).
  { intros q. unfold g. destruct (Nat.eq_dec q p) as [->|X]; rewrite ?proc_same, ?(proc_other _ _ _ _ X); auto. }
  constructor; cbn [made procs].
  - intros q c. rewrite (proj1 (Y q)). intros Hi. destruct (A q c Hi) as (k1 & Z1 & Z2 & Z3). exists k1. rewrite nth_other; auto. intros ->. congruence.
  - intros c k1 Hi Hr. rewrite (proj1 (Y _)). destruct (nth_set _ _ _ _ _ _ Hk Hi) as [(-> & ->)|(Z & Hi1)]; [discriminate Hr|auto].
  - intros q y. rewrite (proj1 (Y q)). unfold g. destruct (Nat.eq_dec q p) as [->|Z]; rewrite ?proc_same, ?(proc_other _ _ _ _ Z); [discriminate|].
    intros Hy. destruct (C q y Hy) as (V & k1 & Y1 & Y2 & Y3). split; [exact V|]. exists k1. rewrite nth_other; auto. intros ->. congruence.
  - intros c k1 Hi Hy. destruct (nth_set _ _ _ _ _ _ Hk Hi) as [(-> & ->)|(Z & Hi1)]; [exact Logic.I|].
    specialize (D _ _ Hi1 Hy). unfold g. destruct (Nat.eq_dec (k_from k1) p) as [V|V]; [|rewrite proc_other by exact V; exact D].
    rewrite V, Hx in D. destruct (k_st k1); auto; congruence.
  - intros q c u. unfold g. destruct (Nat.eq_dec q p) as [->|Z]; rewrite ?proc_same, ?(proc_other _ _ _ _ Z); [intros []|].
    intros Hi. destruct (E q c u Hi) as (k1 & Z1 & Z2 & Z3 & Z4). exists k1. rewrite nth_other; auto. intros ->. congruence.
  - intros q. unfold g. destruct (Nat.eq_dec q p) as [->|Z]; rewrite ?proc_same, ?(proc_other _ _ _ _ Z); [cbn; lia|apply F].
  - intros c k1 u Hi Hy Hv. destruct (nth_set _ _ _ _ _ _ Hk Hi) as [(-> & ->)|(Z & Hi1)]; [discriminate Hv|].
    pose proof (G _ _ _ Hi1 Hy Hv) as G1. unfold g. destruct (Nat.eq_dec (k_from k1) p) as [V|V]; [|rewrite proc_other by exact V; exact G1].
    rewrite V, Et in G1. destruct G1 as [G1|[]]. congruence.
  - intros q. rewrite (proj2 (Y q)). apply P.
  - intros q. rewrite (proj1 (Y q)). unfold g. destruct (Nat.eq_dec q p) as [->|X]; rewrite ?proc_same, ?(proc_other _ _ _ _ X); apply Q.
Qed.

Lemma idle_wait w p : winv w -> p_frame (procs w p) = None -> p_wait (procs w p) = None.
Proof. intros I H. destruct (p_wait (procs w p)) eqn:E; [|reflexivity]. destruct (a_wait _ I p n E) as [X _]. congruence. Qed.

Lemma winv_ext w w1 : made w1 = made w -> (forall q, procs w1 q = procs w q) -> winv w -> winv w1.
Proof. intros Hm Hp [A B C D E F G P Q]. constructor; rewrite ?Hm.
  - intros p c. rewrite Hp. apply A.
  - intros c k. rewrite Hp. apply B.
  - intros p x. rewrite !Hp. apply C.
  - intros c k. rewrite !Hp. apply D.
  - intros p i v. rewrite Hp. apply E.
  - intros p. rewrite Hp. apply F.
  - intros c k v. rewrite Hp. apply G.
  - intros p. rewrite Hp. apply P.
  - intros p. rewrite Hp. apply Q.
Qed.

Lemma alive w p : winv w -> p_frame (procs w p) <> Some FApp -> p_dead (procs w p) = false.
Proof. intros I H. destruct (p_dead (procs w p)) eqn:E; [|reflexivity]. destruct (H (a_dead _ I p E)). Qed.

Lemma step_winv w o w1 : winv w -> step w o = Some w1 -> winv w1.
Proof.
  intros I E. destruct o as [p|p|p q|p q|c v|c|c v|p|c|c|c|c|c|p|c|c]; cbn [step] in E.
  - destruct (p_frame (procs w p)) eqn:Ef; [discriminate|]. injection E as <-. apply frame_winv; auto; [apply alive; auto; congruence|apply idle_wait; auto|congruence|congruence].
  - destruct (p_frame (procs w p)) as [[|c]|] eqn:Ef; try discriminate. destruct (p_wait (procs w p)) eqn:Ew; [discriminate|]. destruct (p_dead (procs w p)) eqn:Ed; [discriminate|]. injection E as <-.
    apply frame_winv; auto; congruence.
  - destruct (p_frame (procs w p)) eqn:Ef; [|discriminate]. destruct (p_wait (procs w p)) eqn:Ew; [discriminate|]. destruct (p_dead (procs w p)) eqn:Ed; [discriminate|]. injection E as <-.
    exact (call_winv w {| k_from := p; k_sync := true; k_to := q; k_st := Sent |} I ltac:(cbn; congruence) Ew eq_refl).
  - destruct (p_frame (procs w p)) eqn:Ef; [|discriminate]. destruct (p_wait (procs w p)) eqn:Ew; [discriminate|]. destruct (p_dead (procs w p)) eqn:Ed; [discriminate|]. injection E as <-.
    exact (call_winv w {| k_from := p; k_sync := false; k_to := q; k_st := Pool |} I ltac:(cbn; congruence) Ew eq_refl).
  - destruct (nth_error (made w) c) as [k|] eqn:Ek; [|discriminate]. destruct (p_frame (procs w (k_to k))) as [[|i]|] eqn:Ef; try discriminate.
    destruct (p_wait (procs w (k_to k))) eqn:Ew; [discriminate|]. destruct (Nat.eqb i c) eqn:Ei; [|discriminate]. apply Nat.eqb_eq in Ei. subst i. injection E as <-.
    apply leave_winv; auto; cbn; auto; try discriminate. left. repeat split; auto. apply alive; auto; congruence.
  - destruct (nth_error (made w) c) as [k|] eqn:Ek; [|discriminate]. destruct (p_frame (procs w (k_to k))) as [[|i]|] eqn:Ef; try discriminate.
    destruct (p_wait (procs w (k_to k))) eqn:Ew; [discriminate|]. destruct (Nat.eqb i c) eqn:Ei; [|discriminate]. apply Nat.eqb_eq in Ei. subst i. injection E as <-.
    assert (X : winv {| made := set_call (made w) c Blocked; procs := set_proc (procs w) (k_to k) (with_frame (procs w (k_to k)) None) |}).
    { apply leave_winv; auto; cbn; auto; try discriminate. left. repeat split; auto. apply alive; auto; congruence. }
    apply (prim_winv _ (k_to k) (Nat.max 1 (p_prim (procs w (k_to k)) - 1))) in X; [|lia]. cbn [made procs] in X. rewrite proc_same in X.
    eapply winv_ext; [| |exact X]; [reflexivity|]. intros q. cbn [procs]. unfold set_proc. destruct (Nat.eqb q (k_to k)); reflexivity.
  - destruct (nth_error (made w) c) as [k|] eqn:Ek; [|discriminate]. destruct (k_st k) eqn:Es; try discriminate. destruct (p_dead _); [discriminate|]. injection E as <-.
    apply (silent w c k); auto; try congruence; rewrite ?Es; cbn; auto; discriminate.
  - destruct (p_dead (procs w p)) eqn:Ed; [discriminate|]. injection E as <-. destruct (p_frame (procs w p)) as [[|c]|] eqn:Ef; try (apply kill_winv; auto; congruence).
    destruct (a_frame _ I _ _ Ef) as (k & K1 & <- & K3). apply leave_winv; auto; cbn; auto; discriminate.
  - destruct (nth_error (made w) c) as [k|] eqn:Ek; [|discriminate]. destruct (k_st k) eqn:Es; try discriminate. destruct (p_dead _); [discriminate|]. destruct (Nat.ltb _ _); [|discriminate]. injection E as <-.
    apply (silent w c k); auto; try congruence. intros Hy. pose proof (a_sync _ I _ _ Ek Hy) as D. rewrite Es in D. contradiction.
  - destruct (nth_error (made w) c) as [k|] eqn:Ek; [|discriminate]. destruct (k_st k) eqn:Es; try discriminate. destruct (p_dead _); [discriminate|]. destruct (Nat.ltb _ _); [|discriminate]. injection E as <-.
    apply (silent w c k); auto; try congruence; rewrite ?Es; cbn; auto; discriminate.
  - destruct (nth_error (made w) c) as [k|] eqn:Ek; [|discriminate]. destruct (k_st k) eqn:Es; try discriminate. destruct (p_frame (procs w (k_to k))) eqn:Ef; [discriminate|].
    injection E as <-. apply dispatch_winv; auto.
  - destruct (nth_error (made w) c) as [k|] eqn:Ek; [|discriminate]. destruct (k_st k) eqn:Es; try discriminate. destruct (p_dead _); [discriminate|]. injection E as <-.
    set (f := if blocked && Nat.ltb (p_prim (procs w (k_to k))) GBINDER_IPC_MAX_PRIMARY_LOOPERS
        then set_proc (procs w) (k_to k) (with_prim (procs w (k_to k)) (S (p_prim (procs w (k_to k))))) else procs w).
    assert (X : winv {| made := made w; procs := f |}).
    { unfold f. destruct (blocked && _); [apply prim_winv; [exact I|lia]|]. destruct w. exact I. }
    refine (reply_winv {| made := made w; procs := f |} c k (Some v) X Ek _). rewrite Es. exact Logic.I.
  - destruct (nth_error (made w) c) as [k|] eqn:Ek; [|discriminate]. destruct (p_dead (procs w (k_to k))) eqn:Ed; [|destruct (k_st k); discriminate].
    assert (X : match k_st k with Sent | Taken | Blocked | Handled _ _ => True | _ => False end) by (destruct (k_st k); try discriminate E; exact Logic.I).
    destruct (k_st k) eqn:Es; try contradiction; injection E as <-; apply reply_winv; rewrite ?Es; auto.
  - destruct (p_wait (procs w p)) as [x|] eqn:Ew; [|discriminate]. destruct (p_todo (procs w p)) as [|[i v] r] eqn:Et; [discriminate|]. destruct (p_dead _); [discriminate|]. injection E as <-.
    exact (receive_winv w p x i v r I Ew Et).
  - destruct (nth_error (made w) c) as [k|] eqn:Ek; [|discriminate]. destruct (k_sync k) eqn:Ey; [discriminate|]. cbn [orb] in E. destruct (p_dead _); [discriminate|]. destruct (k_st k) eqn:Es; try discriminate. injection E as <-.
    apply (silent w c k); auto; congruence.
  - destruct (nth_error (made w) c) as [k|] eqn:Ek; [|discriminate]. destruct (k_st k) eqn:Es; try discriminate. destruct (p_frame (procs w (k_from k))) eqn:Ef; [discriminate|]. injection E as <-.
    assert (Hy : k_sync k = false).
    { destruct (k_sync k) eqn:Y; [|reflexivity]. pose proof (a_sync _ I _ _ Ek Y) as D. rewrite Es in D. contradiction. }
    assert (X : winv {| made := set_call (made w) c (Over v); procs := procs w |}) by (apply (silent w c k); auto; congruence).
    apply (frame_winv _ (k_from k) (Some FApp)) in X; cbn [made procs] in *; auto; [apply alive; auto; congruence|apply idle_wait; auto|congruence|congruence].
Qed.

Lemma happens_winv h : forall w w1, winv w -> happens w h = Some w1 -> winv w1.
Proof.
  induction h as [|o h IH]; intros w w1 I; cbn; [intros [= <-]; exact I|].
  destruct (step w o) as [w2|] eqn:E; [|discriminate]. apply IH. exact (step_winv _ _ _ I E).
Qed.

Lemma reachable h w : happens start h = Some w -> winv w.
Proof. exact (happens_winv h start w start_winv). Qed.

(* What happens to a call in a step *)
Lemma step_call w o w1 : step w o = Some w1 -> forall c k, nth_error (made w) c = Some k ->
  exists s, nth_error (made w1) c = Some (to_st k s) /\
    (s = k_st k \/
     (o = Return c match s with Handled v _ => v | _ => 0 end /\ exists v, s = Handled v false) \/
     (o = Block c /\ s = Blocked) \/
     (exists v, o = Complete c v /\ s = Handled v true /\ k_st k = Blocked) \/
     (o = Work c /\ k_st k = Pool /\ s = Sent) \/ (o = Take c /\ k_st k = Sent /\ s = Taken) \/ (o = Dispatch c /\ k_st k = Taken /\ s = Running) \/
     (exists v b, o = Reply c /\ k_st k = Handled v b /\ s = Replied (Some v)) \/
     (exists p i v r, o = Receive p /\ p_wait (procs w p) = Some c /\ p_todo (procs w p) = (i, v) :: r /\ s = Over v) \/
     (exists v, o = WorkerDone c /\ k_st k = Replied v /\ s = Back v) \/ (exists v, o = Callback c /\ k_st k = Back v /\ s = Over v) \/
     (exists p, o = Die p /\ p_frame (procs w p) = Some (FHandle c) /\ s = Blocked) \/
     (o = Dead c /\ p_dead (procs w (k_to k)) = true /\ match k_st k with Sent | Taken | Blocked | Handled _ _ => True | _ => False end /\ s = Replied None)).
Proof.
  intros E c k Hk. assert (Same : to_st k (k_st k) = k) by (destruct k; reflexivity).
  assert (U : forall j s, (j = c -> False) -> nth_error (set_call (made w) j s) c = Some (to_st k (k_st k))).
  { intros j s Hj. rewrite nth_other by auto. rewrite Same. exact Hk. }
  destruct o as [p|p|p q|p q|i v|i|i v|p|i|i|i|i|i|p|i|i]; cbn [step] in E.
  1-2: exists (k_st k); rewrite Same; split; [|auto];
    repeat match type of E with context [match ?x with _ => _ end] => destruct x; try discriminate E end; injection E as <-; exact Hk.
  1-2: exists (k_st k); rewrite Same; split; [|auto];
    repeat match type of E with context [match ?x with _ => _ end] => destruct x; try discriminate E end; injection E as <-; apply nth_old; exact Hk.
  all: try (destruct (Nat.eq_dec i c) as [->|Hi]; [rewrite Hk in E|
    exists (k_st k); split; [|auto];
    repeat match type of E with context [match ?x with _ => _ end] => destruct x; try discriminate E end; injection E as <-; apply U; congruence]).
  - destruct (p_frame (procs w (k_to k))) as [[|i]|]; try discriminate. destruct (p_wait (procs w (k_to k))); [discriminate|]. destruct (Nat.eqb i c); [|discriminate]. injection E as <-.
    exists (Handled v false). split; [apply nth_same; exact Hk|]. right. left. split; [reflexivity|eauto].
  - destruct (p_frame (procs w (k_to k))) as [[|i]|]; try discriminate. destruct (p_wait (procs w (k_to k))); [discriminate|]. destruct (Nat.eqb i c); [|discriminate]. injection E as <-.
    exists Blocked. split; [apply nth_same; exact Hk|]. auto 8.
  - destruct (k_st k) eqn:Es; try discriminate. destruct (p_dead _); [discriminate|]. injection E as <-. exists (Handled v true). split; [apply nth_same; exact Hk|]. do 3 right. left. eauto.
  - destruct (p_dead _); [discriminate|]. injection E as <-. cbn [made]. destruct (p_frame (procs w p)) as [[|i]|] eqn:Ef.
    + exists (k_st k). rewrite Same. auto.
    + destruct (Nat.eq_dec i c) as [->|Hi]; [exists Blocked; split; [apply nth_same; exact Hk|]; do 11 right; left; eauto|exists (k_st k); split; [apply U; exact Hi|auto]].
    + exists (k_st k). rewrite Same. auto.
  - destruct (k_st k) eqn:Es; try discriminate. destruct (p_dead _); [discriminate|]. destruct (Nat.ltb _ _); [|discriminate]. injection E as <-. exists Sent. split; [apply nth_same; exact Hk|]. auto 12.
  - destruct (k_st k) eqn:Es; try discriminate. destruct (p_dead _); [discriminate|]. destruct (Nat.ltb _ _); [|discriminate]. injection E as <-. exists Taken. split; [apply nth_same; exact Hk|]. auto 12.
  - destruct (k_st k) eqn:Es; try discriminate. destruct (p_frame (procs w (k_to k))); [discriminate|]. injection E as <-. exists Running. split; [apply nth_same; exact Hk|]. auto 12.
  - destruct (k_st k) as [| | | | |v b|v|v|v] eqn:Es; try discriminate. destruct (p_dead _); [discriminate|]. injection E as <-. exists (Replied (Some v)). split; [apply nth_same; exact Hk|]. do 7 right. left. eauto.
  - destruct (p_dead (procs w (k_to k))) eqn:Ed; [|destruct (k_st k); discriminate]. exists (Replied None).
    assert (X : match k_st k with Sent | Taken | Blocked | Handled _ _ => True | _ => False end) by (destruct (k_st k); try discriminate E; exact Logic.I).
    split; [|do 12 right; auto]. destruct (k_st k); try contradiction; injection E as <-; apply nth_same; exact Hk.
  - destruct (p_wait (procs w p)) as [x|] eqn:Ew; [|discriminate]. destruct (p_todo (procs w p)) as [|[i v] r] eqn:Et; [discriminate|]. destruct (p_dead _); [discriminate|]. injection E as <-.
    destruct (Nat.eq_dec x c) as [->|Hx].
    + exists (Over v). split; [apply nth_same; exact Hk|]. do 8 right. left. exists p, i, v, r. auto.
    + exists (k_st k). split; [apply U; exact Hx|auto].
  - destruct (k_sync k); [discriminate|]. cbn [orb] in E. destruct (p_dead _); [discriminate|]. destruct (k_st k) as [| | | | |v b|v|v|v] eqn:Es; try discriminate. injection E as <-. exists (Back v). split; [apply nth_same; exact Hk|]. do 9 right. left. eauto.
  - destruct (k_st k) as [| | | | |v b|v|v|v] eqn:Es; try discriminate. destruct (p_frame (procs w (k_from k))); [discriminate|]. injection E as <-. exists (Over v). split; [apply nth_same; exact Hk|]. do 10 right. left. eauto.
Qed.

Lemma set_some l j s c k : nth_error (set_call l j s) c = Some k -> nth_error l c = None -> False.
Proof.
  intros H N. apply nth_error_None in N. assert (X : nth_error (set_call l j s) c <> None) by congruence. apply nth_error_Some in X. rewrite len_set in X. lia.
Qed.

Lemma step_made w o w1 : step w o = Some w1 -> (length (made w) <= length (made w1))%nat /\
  (forall c k, nth_error (made w1) c = Some k -> nth_error (made w) c = None -> c = length (made w) /\ exists p q, (o = Sync p q /\ k = {| k_from := p; k_sync := true; k_to := q; k_st := Sent |}) \/ (o = Async p q /\ k = {| k_from := p; k_sync := false; k_to := q; k_st := Pool |})).
Proof.
  intros E. destruct o as [p|p|p q|p q|i v|i|i v|p|i|i|i|i|i|p|i|i]; cbn [step] in E;
    repeat match type of E with context [match ?x with _ => _ end] => destruct x; try discriminate E end; injection E as <-; cbn [made];
    rewrite ?len_set; try (split; [lia|]; intros ? ? Hc Hn; exfalso; first [exact (set_some _ _ _ _ _ Hc Hn)|congruence]).
  all: split; [rewrite app_length; lia|]; intros ? ? Hc Hn; destruct (nth_new _ _ _ _ Hc) as [(-> & ->)|(_ & X)]; [split; [reflexivity|exists p, q; auto]|congruence].
Qed.

(* Answers *)
Definition answered (h : list op) (c : nat) (k : call) : Prop :=
  match k_st k with
  | Handled v _ | Replied (Some v) | Back (Some v) | Over (Some v) => In (Return c v) h \/ In (Complete c v) h
  | Replied None | Back None | Over None => In (Die (k_to k)) h
  | _ => True
  end.

Lemma nth_none_lt {A} (l : list A) c : nth_error l c = None -> (length l <= c)%nat.
Proof. apply nth_error_None. Qed.

Lemma step_answered w o w1 h : winv w -> step w o = Some w1 -> (forall p, p_dead (procs w p) = true -> In (Die p) h) -> (forall c k, nth_error (made w) c = Some k -> answered h c k) ->
  forall c k, nth_error (made w1) c = Some k -> answered (h ++ [o]) c k.
Proof.
  intros I E Hd H c k1 Hc. destruct (nth_error (made w) c) as [k|] eqn:Ek.
  - specialize (H c k Ek). destruct (step_call _ _ _ E c k Ek) as (s & X & Hs). rewrite Hc in X. injection X as ->. unfold answered in *. cbn [to_st k_st k_to].
    assert (Keep : forall v, In (Return c v) h \/ In (Complete c v) h -> In (Return c v) (h ++ [o]) \/ In (Complete c v) (h ++ [o])) by (intros v [Z|Z]; [left|right]; apply in_or_app; auto).
    assert (Keep1 : forall x, In (Die x) h -> In (Die x) (h ++ [o])) by (intros x Z; apply in_or_app; auto).
    assert (Last : In o (h ++ [o])) by (apply in_or_app; right; left; reflexivity).
    destruct Hs as [->|[(Ho & v & ->)|[(_ & ->)|[(v & -> & -> & _)|[(_ & _ & ->)|[(_ & _ & ->)|[(_ & _ & ->)|[(v & b & _ & K & ->)|[(p & i & v & r & _ & Hx & Ht & ->)|[(v & _ & K & ->)|[(v & _ & K & ->)|[(p & _ & _ & ->)|(_ & K & _ & ->)]]]]]]]]]]]]; auto.
    + destruct (k_st k) as [| | | | |v b|[v|]|[v|]|[v|]]; auto.
    + left. rewrite <- Ho. exact Last.
    + rewrite K in H. auto.
    + destruct (waiting w p c I Hx i v r Ht) as (-> & -> & k0 & K0 & K1 & _). rewrite Ek in K0. injection K0 as <-. rewrite K1 in H. destruct v; auto.
    + rewrite K in H. destruct v; auto.
    + rewrite K in H. destruct v; auto.
  - destruct (proj2 (step_made _ _ _ E) c k1 Hc Ek) as (_ & p & q & [(-> & ->)|(-> & ->)]); exact Logic.I.
Qed.

Lemma happens_snoc h : forall w o, happens w (h ++ [o]) = match happens w h with Some w1 => step w1 o | None => None end.
Proof.
  induction h as [|x h IH]; intros w o; cbn; [destruct (step w o); reflexivity|]. destruct (step w x); [apply IH|reflexivity].
Qed.

(* Histories by their last step *)
Lemma happens_ind_r (P : list op -> world -> Prop) : P [] start ->
  (forall h w o w1, happens start h = Some w -> P h w -> step w o = Some w1 -> P (h ++ [o]) w1) ->
  forall h w, happens start h = Some w -> P h w.
Proof.
  intros H0 H1 h. induction h as [|o h IH] using rev_ind; intros w H; [injection H as <-; exact H0|].
  rewrite happens_snoc in H. destruct (happens start h) as [w0|] eqn:E; [|discriminate]. eapply H1; eauto.
Qed.

Lemma dead_same f p x q : p_dead x = p_dead (f p) -> p_dead (set_proc f p x q) = p_dead (f q).
Proof. intros H. destruct (Nat.eq_dec q p) as [->|X]; [rewrite proc_same; exact H|rewrite proc_other by exact X; reflexivity]. Qed.

Lemma step_dead w o w1 q : step w o = Some w1 -> p_dead (procs w1 q) = p_dead (procs w q) \/ o = Die q.
Proof.
  intros E. destruct o as [p|p|p r|p r|i v|i|i v|p|i|i|i|i|i|p|i|i]; cbn [step] in E.
  8: { destruct (p_dead (procs w p)) eqn:Ed; [discriminate|]. injection E as <-. cbn [procs]. destruct (Nat.eq_dec q p) as [->|X]; [auto|rewrite proc_other by exact X; auto]. }
  all: left; repeat match type of E with context [match ?x with _ => _ end] => destruct x; try discriminate E end; injection E as <-; cbn [procs]; auto;
    repeat (rewrite dead_same by reflexivity); reflexivity.
Qed.

Lemma dead_in h w : happens start h = Some w -> forall p, p_dead (procs w p) = true -> In (Die p) h.
Proof.
  revert h w. apply (happens_ind_r (fun h w => forall p, p_dead (procs w p) = true -> In (Die p) h)).
  - discriminate.
  - intros h w o w1 Hh H E p Hp. apply in_or_app. destruct (step_dead _ _ _ p E) as [X| ->]; [rewrite X in Hp; auto|right; left; reflexivity].
Qed.

Lemma all_answered h w : happens start h = Some w -> forall c k, nth_error (made w) c = Some k -> answered h c k.
Proof.
  revert h w. apply (happens_ind_r (fun h w => forall c k, nth_error (made w) c = Some k -> answered h c k)).
  - intros [|c] k; discriminate.
  - intros h w o w1 Hh H E. exact (step_answered _ _ _ _ (reachable _ _ Hh) E (dead_in _ _ Hh) H).
Qed.

(* Once *)
Definition disp (s : state) (n : nat) : Prop :=
  match s with Pool | Sent | Taken => n = 0%nat | Replied None | Back None | Over None => (n <= 1)%nat | _ => n = 1%nat end.

Lemma handled_snoc h o c : handled (h ++ [o]) c = (handled h c + match o with Dispatch i => if Nat.eqb i c then 1 else 0 | _ => 0 end)%nat.
Proof. unfold handled, count. rewrite filter_app, app_length. cbn. destruct o; auto. destruct (Nat.eqb c0 c); reflexivity. Qed.

Lemma once h w : happens start h = Some w ->
  (forall c k, nth_error (made w) c = Some k -> disp (k_st k) (handled h c)) /\ (forall c, nth_error (made w) c = None -> handled h c = 0%nat).
Proof.
  revert h w. apply (happens_ind_r (fun h w => (forall c k, nth_error (made w) c = Some k -> disp (k_st k) (handled h c)) /\ (forall c, nth_error (made w) c = None -> handled h c = 0%nat))).
  - split; [intros [|c] k; discriminate|reflexivity].
  - intros h w o w1 Hh [H0 H1] E. pose proof (reachable _ _ Hh) as I.
    assert (Fresh : forall c, nth_error (made w) c = None -> match o with Dispatch i => if Nat.eqb i c then 1 else 0 | _ => 0 end%nat = 0%nat).
    { intros c Hc. destruct o; auto. destruct (Nat.eqb c0 c) eqn:Ec; [|reflexivity]. apply Nat.eqb_eq in Ec. subst c0. cbn [step] in E. rewrite Hc in E. discriminate. }
    split; intros c.
    + intros k1 Hc. rewrite handled_snoc. destruct (nth_error (made w) c) as [k|] eqn:Ek.
      * specialize (H0 c k Ek). destruct (step_call _ _ _ E c k Ek) as (s & X & Hs). rewrite Hc in X. injection X as ->. cbn [to_st k_st]. clear H1 Fresh.
        assert (ND : forall i, o = Dispatch i -> i = c -> k_st k = Taken /\ s = Running).
        { intros i -> ->. cbn [step] in E. rewrite Ek in E. destruct (k_st k) eqn:Es; try discriminate. split; [reflexivity|].
          destruct (p_frame (procs w (k_to k))); [discriminate|]. injection E as <-. cbn [made] in Hc. rewrite (nth_same _ _ _ _ Ek) in Hc. injection Hc as Hc. auto. }
        assert (Run : forall q, p_frame (procs w q) = Some (FHandle c) -> k_st k = Running).
        { intros q Ef. destruct (a_frame _ I _ _ Ef) as (k0 & X1 & _ & X2). rewrite Ek in X1. injection X1 as <-. exact X2. }
        assert (Leave : o = Return c match s with Handled v _ => v | _ => 0%nat end \/ o = Block c -> k_st k = Running).
        { intros [-> | ->]; cbn [step] in E; rewrite Ek in E; destruct (p_frame (procs w (k_to k))) as [[|i]|] eqn:Ef; try discriminate; (destruct (p_wait _); [discriminate|]);
            (destruct (Nat.eqb i c) eqn:Ei; [|discriminate]); apply Nat.eqb_eq in Ei; subst i; eauto. }
        destruct Hs as [->|[(Ho & v & ->)|[(Ho & ->)|[(v & -> & -> & K)|[(-> & K & ->)|[(-> & K & ->)|[(-> & K & ->)|[(v & b & -> & K & ->)|[(p & i & v & r & -> & Hx & Ht & ->)|[(v & -> & K & ->)|[(v & -> & K & ->)|[(p & -> & K & ->)|(-> & _ & K & ->)]]]]]]]]]]]].
        -- assert (Z : match o with Dispatch i => if Nat.eqb i c then 1 else 0 | _ => 0 end%nat = 0%nat).
           { destruct o; try lia. destruct (Nat.eqb c0 c) eqn:Ec; [|lia]. apply Nat.eqb_eq in Ec. destruct (ND _ eq_refl Ec). congruence. }
           rewrite Z, Nat.add_0_r. exact H0.
        -- rewrite (Leave (or_introl Ho)) in H0. rewrite Ho. cbn in *. lia.
        -- rewrite (Leave (or_intror Ho)) in H0. rewrite Ho. cbn in *. lia.
        -- rewrite K in H0. cbn in *. lia.
        -- rewrite K in H0. cbn in *. lia.
        -- rewrite K in H0. cbn in *. lia.
        -- rewrite K in H0. cbn in *. rewrite Nat.eqb_refl. lia.
        -- rewrite K in H0. cbn in *. lia.
        -- destruct (waiting w p c I Hx i v r Ht) as (-> & -> & k0 & K0 & K1 & _). rewrite Ek in K0. injection K0 as <-. rewrite K1 in H0. destruct v; cbn in *; lia.
        -- rewrite K in H0. destruct v; cbn in *; lia.
        -- rewrite K in H0. destruct v; cbn in *; lia.
        -- rewrite (Run _ K) in H0. cbn in *. lia.
        -- destruct (k_st k); try contradiction; cbn in *; lia.
      * rewrite (H1 c Ek), (Fresh c Ek). destruct (proj2 (step_made _ _ _ E) c k1 Hc Ek) as (_ & p & q & [(-> & ->)|(-> & ->)]); reflexivity.
    + intros Hc. assert (Hn : nth_error (made w) c = None).
      { apply nth_error_None in Hc. apply nth_error_None. pose proof (proj1 (step_made _ _ _ E)). lia. }
      rewrite handled_snoc, (H1 c Hn), (Fresh c Hn). reflexivity.
Qed.

(* Progress *)
Definition ranked (rank : nat -> nat) (w : world) : Prop := forall c k, nth_error (made w) c = Some k -> k_sync k = true -> (rank (k_to k) < rank (k_from k))%nat.

Lemma all_ranked rank h w : (forall p q, In (Sync p q) h -> (rank q < rank p)%nat) -> happens start h = Some w -> ranked rank w.
Proof.
  intros Hr H. revert Hr. revert h w H. apply (happens_ind_r (fun h w => (forall p q, In (Sync p q) h -> (rank q < rank p)%nat) -> ranked rank w)).
  - intros _ [|c] k; discriminate.
  - intros h w o w1 Hh IH E Hr c k Hc Hy. destruct (nth_error (made w) c) as [k0|] eqn:Ek.
    + destruct (step_call _ _ _ E c k0 Ek) as (s & X & _). rewrite Hc in X. injection X as ->. cbn in *. refine (IH _ c k0 Ek Hy). intros p q Hp. apply Hr. apply in_or_app. auto.
    + destruct (proj2 (step_made _ _ _ E) c k Hc Ek) as (_ & p & q & [(-> & ->)|(-> & ->)]); [|discriminate Hy]. cbn. apply Hr. apply in_or_app. right. left. reflexivity.
Qed.

Lemma count_some {A} (f : A -> bool) (l : list A) : (1 <= count f l)%nat -> exists c k, nth_error l c = Some k /\ f k = true.
Proof.
  unfold count. destruct (filter f l) as [|k r] eqn:E; cbn; [lia|]. intros _.
  assert (H : In k (filter f l)) by (rewrite E; left; reflexivity). apply filter_In in H. destruct H as [H1 H2].
  apply In_nth_error in H1. destruct H1 as [c H1]. eauto.
Qed.

Definition stuck (w : world) : Prop := forall o, own o = true -> step w o = None.

Section Stuck.
  Variable w : world.
  Variable rank : nat -> nat.
  Hypothesis I : winv w.
  Hypothesis R : ranked rank w.
  Hypothesis St : stuck w.
  Hypothesis B : ~ busy w.

  Lemma no_dead c k : nth_error (made w) c = Some k -> p_dead (procs w (k_to k)) = true -> match k_st k with Sent | Taken | Running | Blocked | Handled _ _ => False | _ => True end.
  Proof.
    intros H D. pose proof (St (Dead c) eq_refl) as Q. cbn [step] in Q. rewrite H, D in Q. destruct (k_st k) eqn:E; auto; try discriminate Q.
    pose proof (a_run _ I _ _ H E) as F. rewrite (a_dead _ I _ D) in F. discriminate.
  Qed.

  Lemma no_blocked c k : nth_error (made w) c = Some k -> k_st k <> Blocked.
  Proof.
    intros H E. destruct (p_dead (procs w (k_to k))) eqn:D; [pose proof (no_dead c k H D) as N; rewrite E in N; exact N|].
    apply B. right. eauto.
  Qed.

  Lemma frame_waits p : p_dead (procs w p) = false -> p_frame (procs w p) <> None -> exists x, p_wait (procs w p) = Some x.
  Proof. intros D H. destruct (p_wait (procs w p)) eqn:E; [eauto|]. exfalso. apply B. left. eauto. Qed.

  Lemma no_handled c k v b : nth_error (made w) c = Some k -> k_st k <> Handled v b.
  Proof.
    intros H E. destruct (p_dead (procs w (k_to k))) eqn:D; [pose proof (no_dead c k H D) as N; rewrite E in N; exact N|].
    pose proof (St (Reply c) eq_refl) as Q. cbn [step] in Q. rewrite H, E, D in Q. discriminate.
  Qed.

  Lemma no_replied c k v : nth_error (made w) c = Some k -> p_dead (procs w (k_from k)) = false -> k_st k <> Replied v.
  Proof.
    intros H Dd E. destruct (k_sync k) eqn:Hy.
    - pose proof (a_sync _ I _ _ H Hy) as D. rewrite E in D. pose proof (a_reply _ I _ _ _ H Hy E) as G.
      pose proof (St (Receive (k_from k)) eq_refl) as Q. cbn [step] in Q. rewrite D, Dd in Q. destruct (p_todo (procs w (k_from k))) as [|[i u] r]; [exact G|discriminate].
    - pose proof (St (WorkerDone c) eq_refl) as Q. cbn [step] in Q. rewrite H, Hy, E, Dd in Q. discriminate.
  Qed.

  Lemma not_here c k : nth_error (made w) c = Some k -> p_frame (procs w (k_to k)) = None -> match k_st k with Taken | Running => False | _ => True end.
  Proof.
    intros H F. destruct (k_st k) eqn:E; auto.
    - pose proof (St (Dispatch c) eq_refl) as Q. cbn [step] in Q. rewrite H, E, F in Q. discriminate.
    - pose proof (a_run _ I _ _ H E). congruence.
  Qed.

  Lemma not_sent c k : nth_error (made w) c = Some k -> p_frame (procs w (k_to k)) = None -> k_st k <> Sent.
  Proof.
    intros H F E. assert (Dd : p_dead (procs w (k_to k)) = false) by (apply alive; [exact I|congruence]).
    pose proof (St (Take c) eq_refl) as Q. cbn [step] in Q. rewrite H, E, Dd in Q.
    destruct (Nat.ltb (count (in_use (k_to k)) (made w)) (p_prim (procs w (k_to k)))) eqn:El; [discriminate|]. apply Nat.ltb_ge in El.
    pose proof (a_prim _ I (k_to k)) as P. destruct (count_some (in_use (k_to k)) (made w)) as (d & k1 & D1 & D2); [lia|].
    unfold in_use in D2. apply andb_true_iff in D2. destruct D2 as [D2 D3]. apply Nat.eqb_eq in D2.
    assert (F1 : p_frame (procs w (k_to k1)) = None) by (rewrite D2; exact F). pose proof (not_here d k1 D1 F1) as N.
    destruct (k_st k1) eqn:E1; try discriminate D3; try contradiction. exact (no_handled _ _ _ _ D1 E1).
  Qed.

  (* Nothing has been made of the call by the other process *)
  Lemma not_there c k : nth_error (made w) c = Some k -> (p_dead (procs w (k_to k)) = false -> p_frame (procs w (k_to k)) = None) ->
    match k_st k with Sent | Taken | Running | Blocked | Handled _ _ => False | _ => True end.
  Proof.
    intros H F. destruct (p_dead (procs w (k_to k))) eqn:D; [exact (no_dead _ _ H D)|]. specialize (F eq_refl).
    pose proof (not_here _ _ H F) as N1. pose proof (not_sent _ _ H F) as N2. pose proof (no_blocked _ _ H) as N3. pose proof (fun v b => no_handled _ _ v b H) as N4.
    destruct (k_st k) eqn:E; auto; congruence.
  Qed.

  Lemma mains_idle : forall n p, (rank p <= n)%nat -> p_dead (procs w p) = false -> p_frame (procs w p) = None.
  Proof.
    induction n as [n IH] using (well_founded_induction lt_wf). intros p Hp Dp. destruct (p_frame (procs w p)) as [f|] eqn:Ef; [|reflexivity]. exfalso.
    destruct (frame_waits p Dp) as [x Hx]; [congruence|]. destruct (a_wait _ I p x Hx) as (_ & k & X1 & X2 & X3 & X4).
    pose proof (R _ _ X1 X3) as Hr. rewrite X2 in Hr.
    assert (F : p_dead (procs w (k_to k)) = false -> p_frame (procs w (k_to k)) = None) by (apply (IH (rank (k_to k))); lia).
    pose proof (not_there _ _ X1 F) as N. destruct (k_st k) eqn:E; cbn in X4; try contradiction. refine (no_replied _ _ _ X1 _ E). rewrite X2. exact Dp.
  Qed.

  Lemma stuck_over : all_over w.
  Proof.
    assert (F : forall p, p_dead (procs w p) = false -> p_frame (procs w p) = None) by (intros p; apply (mains_idle (rank p)); lia).
    assert (N : forall c k, nth_error (made w) c = Some k -> p_dead (procs w (k_from k)) = false -> match k_st k with Pool | Over _ => True | _ => False end).
    { intros c k H D. pose proof (not_there _ _ H (F _)) as N1. destruct (k_st k) eqn:E; auto; [exact (no_replied _ _ _ H D E)|].
      pose proof (St (Callback c) eq_refl) as Q. cbn [step] in Q. rewrite H, E, (F _ D) in Q. discriminate. }
    intros c k H D. pose proof (N c k H D) as Nc.
    destruct (k_st k) eqn:E; try contradiction; [exfalso|exists v, k; auto].
    pose proof (St (Work c) eq_refl) as Q. cbn [step] in Q. rewrite H, E, D in Q.
    destruct (Nat.ltb (count (in_work (k_from k)) (made w)) GBINDER_IPC_MAX_TX_THREADS) eqn:El; [discriminate|]. apply Nat.ltb_ge in El.
    unfold GBINDER_IPC_MAX_TX_THREADS in El. destruct (count_some (in_work (k_from k)) (made w)) as (d & k1 & D1 & D2); [lia|].
    unfold in_work in D2. apply andb_true_iff in D2. destruct D2 as [D2 D3]. apply andb_true_iff in D2. destruct D2 as [D2 _]. apply Nat.eqb_eq in D2.
    assert (D4 : p_dead (procs w (k_from k1)) = false) by (rewrite D2; exact D). pose proof (N d k1 D1 D4) as Nd. destruct (k_st k1); try contradiction; discriminate.
  Qed.
End Stuck.

(* It isn't endless *)
Definition wst (s : state) : nat :=
  match s with Pool => 8 | Sent => 7 | Taken => 6 | Running => 5 | Blocked => 5 | Handled _ _ => 4 | Replied _ => 3 | Back _ => 2 | Over _ => 0 end.
Definition weight (w : world) : nat := list_sum (map (fun k => wst (k_st k)) (made w)).

Lemma set_weight l c k s : nth_error l c = Some k -> (wst s < wst (k_st k))%nat ->
  (list_sum (map (fun k => wst (k_st k)) (set_call l c s)) < list_sum (map (fun k => wst (k_st k)) l))%nat.
Proof.
  unfold list_sum. revert c. induction l as [|x l IH]; intros [|c]; cbn; try discriminate; [intros [= ->]; lia|]. intros H1 H2. specialize (IH _ H1 H2). lia.
Qed.

Lemma own_weight w o w1 : winv w -> own o = true -> step w o = Some w1 -> (weight w1 < weight w)%nat.
Proof.
  intros I Ho E. unfold weight. destruct o as [p|p|p q|p q|i v|i|i v|p|i|i|i|i|i|p|i|i]; try discriminate Ho; cbn [step] in E.
  6: { destruct (p_wait (procs w p)) as [x|] eqn:Ew; [|discriminate]. destruct (p_todo (procs w p)) as [|[j v] r] eqn:Et; [discriminate|]. destruct (p_dead _); [discriminate|]. injection E as <-.
    destruct (waiting w p x I Ew j v r Et) as (-> & -> & k & K1 & K2 & _). apply (set_weight _ _ _ _ K1). rewrite K2. cbn. lia. }
  all: destruct (nth_error (made w) i) as [k|] eqn:Ek; [|discriminate]; destruct (k_st k) eqn:Es; try discriminate E;
    repeat match type of E with
      | (if ?x then _ else None) = _ => destruct x; [|discriminate E]
      | (if ?x then None else _) = _ => destruct x; [discriminate E|]
      | match ?x with Some _ => None | None => _ end = _ => destruct x; [discriminate E|]
      end; try discriminate E; injection E as <-; cbn [made]; apply (set_weight _ _ _ _ Ek); rewrite Es; cbn; lia.
Qed.

(* Two processes which wait for each other *)
Definition held (s : state) : Prop := match s with Sent | Taken | Running => True | _ => False end.

Definition locked (p q : nat) (w : world) : Prop :=
  (exists k0 k1, nth_error (made w) 0 = Some k0 /\ nth_error (made w) 1 = Some k1 /\ k_to k0 = q /\ k_to k1 = p /\ held (k_st k0) /\ held (k_st k1)) /\
  exists f g, p_frame (procs w p) = Some f /\ p_wait (procs w p) = Some 0%nat /\ p_frame (procs w q) = Some g /\ p_wait (procs w q) = Some 1%nat /\
    p_dead (procs w p) = false /\ p_dead (procs w q) = false.

Lemma set_good f y z x c fr : (y = x -> p_wait z = Some c /\ p_frame z = Some fr) -> p_wait (f x) = Some c /\ p_frame (f x) = Some fr ->
  p_wait (set_proc f y z x) = Some c /\ p_frame (set_proc f y z x) = Some fr.
Proof. intros A B. destruct (Nat.eq_dec x y) as [->|H]; [rewrite proc_same; auto|rewrite proc_other by exact H; exact B]. Qed.

Lemma step_waits w o w1 x c fr : step w o = Some w1 -> p_wait (procs w x) = Some c -> p_frame (procs w x) = Some fr -> o <> Receive x -> o <> Die x ->
  p_wait (procs w1 x) = Some c /\ p_frame (procs w1 x) = Some fr.
Proof.
  intros E Hw Hf Ho Ho1.
  destruct o as [p|p|p q|p q|i v|i|i v|p|i|i|i|i|i|p|i|i]; cbn [step] in E;
    repeat match type of E with context [match ?y with _ => _ end] => destruct y eqn:?; try discriminate E end; injection E as <-; cbn [procs]; auto.
  all: repeat (apply set_good; [intros <-; cbn; try congruence; auto|]); auto.
  apply set_good; [intros Hq; cbn; rewrite Hq; auto|auto].
Qed.

Lemma no_receive w p x k : winv w -> p_wait (procs w p) = Some x -> nth_error (made w) x = Some k -> held (k_st k) -> step w (Receive p) = None.
Proof.
  intros I Hx Hk Hs. cbn [step]. rewrite Hx. destruct (p_todo (procs w p)) as [|[i v] r] eqn:Et; [reflexivity|].
  destruct (waiting w p x I Hx i v r Et) as (_ & _ & k0 & K0 & K1 & _). rewrite Hk in K0. injection K0 as <-. rewrite K1 in Hs. destruct Hs.
Qed.

Lemma step_held w o w1 c k f : winv w -> step w o = Some w1 -> nth_error (made w) c = Some k -> held (k_st k) -> p_frame (procs w (k_to k)) = Some f ->
  p_wait (procs w (k_to k)) <> None -> p_dead (procs w (k_to k)) = false -> o <> Die (k_to k) -> exists s, nth_error (made w1) c = Some (to_st k s) /\ held s.
Proof.
  intros I E Hk Hs Hf Hw Hd Ho. destruct (step_call _ _ _ E c k Hk) as (s & X & Hc). exists s. split; [exact X|].
  destruct Hc as [->|[(-> & v & ->)|[(-> & ->)|[(v & -> & -> & K)|[(-> & K & ->)|[(-> & K & ->)|[(-> & K & ->)|[(v & b & -> & K & ->)|[(p & i & v & r & -> & Hx & Ht & ->)|[(v & -> & K & ->)|[(v & -> & K & ->)|[(p & -> & K & ->)|(-> & K & _)]]]]]]]]]]]]; try rewrite K in Hs; cbn in *; auto.
  - rewrite Hk, Hf in E. destruct f; [discriminate|]. destruct (p_wait (procs w (k_to k))); [discriminate|congruence].
  - rewrite Hk, Hf in E. destruct f; [discriminate|]. destruct (p_wait (procs w (k_to k))); [discriminate|congruence].
  - destruct (waiting w p c I Hx i v r Ht) as (_ & _ & k0 & K0 & K1 & _). rewrite Hk in K0. injection K0 as <-. rewrite K1 in Hs. exact Hs.
  - destruct (a_frame _ I _ _ K) as (k0 & X1 & X2 & _). rewrite Hk in X1. injection X1 as <-. congruence.
  - congruence.
Qed.

Lemma step_locked p q w o w1 : winv w -> locked p q w -> step w o = Some w1 -> o <> Die p -> o <> Die q -> locked p q w1.
Proof.
  intros I ((k0 & k1 & A0 & A1 & T0 & T1 & H0 & H1) & f & g & F1 & W1 & F2 & W2 & D1 & D2) E Np Nq.
  assert (Op : o <> Receive p) by (intros ->; rewrite (no_receive _ _ _ _ I W1 A0 H0) in E; discriminate).
  assert (Oq : o <> Receive q) by (intros ->; rewrite (no_receive _ _ _ _ I W2 A1 H1) in E; discriminate).
  destruct (step_waits _ _ _ _ _ _ E W1 F1 Op Np) as [W1' F1']. destruct (step_waits _ _ _ _ _ _ E W2 F2 Oq Nq) as [W2' F2'].
  assert (D1' : p_dead (procs w1 p) = false) by (destruct (step_dead _ _ _ p E); congruence).
  assert (D2' : p_dead (procs w1 q) = false) by (destruct (step_dead _ _ _ q E); congruence).
  split; [|exists f, g; auto 8].
  destruct (step_held w o w1 0 k0 g I E A0 H0) as (s0 & B0 & S0); rewrite ?T0; auto; [congruence|].
  destruct (step_held w o w1 1 k1 f I E A1 H1) as (s1 & B1 & S1); rewrite ?T1; auto; [congruence|].
  exists (to_st k0 s0), (to_st k1 s1). auto 8.
Qed.

Lemma happens_locked p q h : forall w w1, winv w -> locked p q w -> ~ In (Die p) h -> ~ In (Die q) h -> happens w h = Some w1 -> locked p q w1.
Proof.
  induction h as [|o h IH]; intros w w1 I L Np Nq; cbn; [intros [= <-]; exact L|]. destruct (step w o) as [w2|] eqn:E; [|discriminate].
  apply IH; [exact (step_winv _ _ _ I E)|refine (step_locked _ _ _ _ _ I L E _ _)| |]; intros X; solve [apply Np; cbn; auto|apply Nq; cbn; auto].
Qed.

Lemma happens_app a : forall w b, happens w (a ++ b) = match happens w a with Some w1 => happens w1 b | None => None end.
Proof. induction a as [|o a IH]; intros w b; cbn; [reflexivity|]. destruct (step w o); [apply IH|reflexivity]. Qed.

Lemma locked_never p q w : locked p q w -> forall c v, (c = 0 \/ c = 1)%nat -> ~ got w c v.
Proof.
  intros ((k0 & k1 & A0 & A1 & _ & _ & H0 & H1) & _) c v Hc (k & G1 & G2).
  destruct Hc as [-> | ->]; [rewrite A0 in G1|rewrite A1 in G1]; injection G1 as <-; [rewrite G2 in H0; exact H0|rewrite G2 in H1; exact H1].
Qed.

(* Whether the library can do something *)
Definition candidates (w : world) : list op :=
  flat_map (fun c => [Work c; Take c; Dispatch c; Reply c; Dead c; WorkerDone c; Callback c]) (seq 0 (length (made w))) ++
  map (fun k => Receive (k_from k)) (made w).

Definition idle (w : world) : bool := forallb (fun o => match step w o with None => true | Some _ => false end) (candidates w).

Lemma candidate w o w1 : winv w -> own o = true -> step w o = Some w1 -> In o (candidates w).
Proof.
  intros I Ho E. unfold candidates. apply in_or_app.
  destruct o as [p|p|p q|p q|i v|i|i v|p|i|i|i|i|i|p|i|i]; try discriminate Ho; cbn [step] in E;
    try (left; apply in_flat_map; exists i; split; [apply in_seq; split; [lia|]; cbn; apply nth_error_Some; destruct (nth_error (made w) i); [discriminate|discriminate E]|cbn; auto 8]).
  right. destruct (p_wait (procs w p)) as [x|] eqn:Ew; [|discriminate]. destruct (a_wait _ I p x Ew) as (_ & k & K1 & K2 & _). apply in_map_iff. exists k.
  split; [rewrite K2; reflexivity|eapply nth_error_In; eauto].
Qed.

Lemma own_candidate w o : In o (candidates w) -> own o = true.
Proof.
  unfold candidates. intros H. apply in_app_or in H. destruct H as [H|H].
  - apply in_flat_map in H. destruct H as (c & _ & H). cbn in H. repeat (destruct H as [<-|H]; [reflexivity|]). contradiction.
  - apply in_map_iff in H. destruct H as (k & <- & _). reflexivity.
Qed.

Lemma idle_stuck w : winv w -> idle w = true -> stuck w.
Proof.
  intros I H o Ho. destruct (step w o) as [w1|] eqn:E; [|reflexivity]. unfold idle in H. rewrite forallb_forall in H.
  specialize (H o (candidate _ _ _ I Ho E)). rewrite E in H. discriminate.
Qed.

Lemma not_idle w : idle w = false -> exists o w1, own o = true /\ step w o = Some w1.
Proof.
  intros H. unfold idle in H. assert (X : existsb (fun o => match step w o with None => false | Some _ => true end) (candidates w) = true).
  { revert H. generalize (candidates w). induction l as [|o l IH]; cbn; [discriminate|]. destruct (step w o); cbn; auto. }
  apply existsb_exists in X. destruct X as (o & X1 & X2). destruct (step w o) as [w1|] eqn:E; [|discriminate]. exists o, w1. split; [exact (own_candidate _ _ X1)|exact E].
Qed.

Lemma runs_end w : winv w -> forall h w1, Forall (fun o => own o = true) h -> happens w h = Some w1 -> (length h <= weight w)%nat.
Proof.
  intros I h. revert w I. induction h as [|o h IH]; intros w I w1 Ho; cbn; [lia|]. destruct (step w o) as [w2|] eqn:E; [|discriminate]. intros H.
  inversion Ho as [|? ? H1 H2]; subst. pose proof (own_weight _ _ _ I H1 E). specialize (IH w2 (step_winv _ _ _ I E) w1 H2 H). lia.
Qed.

Lemma receive_got w c k v : winv w -> nth_error (made w) c = Some k -> k_sync k = true -> k_st k = Replied v -> p_dead (procs w (k_from k)) = false ->
  exists u w1, got w1 c u /\ step w (Receive (k_from k)) = Some w1.
Proof.
  intros I H Hy E D. pose proof (a_sync _ I _ _ H Hy) as S1. rewrite E in S1. pose proof (a_reply _ I _ _ _ H Hy E) as G.
  cbn [step]. rewrite S1, D. destruct (p_todo (procs w (k_from k))) as [|[i u] r]; [destruct G|]. exists u. eexists. split; [|reflexivity].
  exists (to_st k (Over u)). cbn [made]. rewrite (nth_same _ _ _ _ H). auto.
Qed.

Lemma dead_returns w : winv w -> forall c k, nth_error (made w) c = Some k -> k_sync k = true ->
  p_dead (procs w (k_to k)) = true -> p_dead (procs w (k_from k)) = false ->
  exists v r w1, got w1 c v /\ happens w r = Some w1 /\ Forall (fun o => own o = true) r.
Proof.
  intros I c k H Hy D1 D2. destruct (k_st k) as [| | | | |v b|v|v|v] eqn:E.
  1, 8: exfalso; pose proof (a_sync _ I _ _ H Hy) as S1; rewrite E in S1; exact S1.
  3: exfalso; pose proof (a_run _ I _ _ H E) as F; rewrite (a_dead _ I _ D1) in F; discriminate.
  5: { destruct (receive_got w c k v I H Hy E D2) as (u & w1 & A & B). exists u, [Receive (k_from k)], w1. cbn [happens]. rewrite B. auto. }
  5: { exists v, [], w. split; [exists k; auto|]. auto. }
  all: assert (X : exists w2, step w (Dead c) = Some w2 /\ nth_error (made w2) c = Some (to_st k (Replied None)))
    by (cbn [step]; rewrite H, E, D1; eexists; split; [reflexivity|]; cbn [made]; exact (nth_same _ _ _ _ H));
    destruct X as (w2 & X1 & X2); pose proof (step_winv _ _ _ I X1) as I2;
    (assert (D3 : p_dead (procs w2 (k_from k)) = false) by (destruct (step_dead _ _ _ (k_from k) X1); congruence));
    destruct (receive_got w2 c _ None I2 X2 Hy eq_refl D3) as (u & w1 & A & B); exists u, [Dead c; Receive (k_from k)], w1; cbn [happens to_st k_from] in *; rewrite X1, B; auto.
Qed.
