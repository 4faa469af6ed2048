(* Proofs for PendProps.v *)
From Verif Require Import Base PendModel PendSpec.

Definition of (l : list (nat * nat)) (p : nat) : list nat := map fst (filter (fun x => Nat.eqb (snd x) p) l).
Definition cut (t : nat) (l : list nat) : list nat := filter (fun u => negb (Nat.eqb u t)) l.

Lemma cut_out t l : ~ In t l -> cut t l = l.
Proof.
  induction l as [|a l IH]; intros H; [reflexivity|]. cbn [cut filter]. destruct (Nat.eqb_spec a t) as [->|_].
  - exfalso. apply H. left. reflexivity.
  - cbn [negb]. f_equal. apply IH. intros K. apply H. right. exact K.
Qed.
Lemma cut_head t l : ~ In t l -> cut t (t :: l) = l.
Proof. intros H. cbn [cut filter]. rewrite Nat.eqb_refl. apply cut_out. exact H. Qed.
Lemma cut_length t l : NoDup l -> In t l -> length l = S (length (cut t l)).
Proof.
  induction l as [|a l IH]; intros Hn Hi; [destruct Hi|]. inversion Hn; subst. destruct (Nat.eq_dec a t) as [->|Hd].
  - rewrite cut_head by assumption. reflexivity.
  - cbn [cut filter]. destruct (Nat.eqb_spec a t); [congruence|]. cbn [negb length]. f_equal. apply IH; [assumption|].
    destruct Hi; [congruence|assumption].
Qed.
Lemma in_cut t l u : In u (cut t l) <-> In u l /\ u <> t.
Proof. unfold cut. rewrite filter_In. destruct (Nat.eqb_spec u t); cbn [negb]; intuition congruence. Qed.

Lemma in_of l p t : In t (of l p) <-> In (t, p) l.
Proof.
  unfold of. rewrite in_map_iff. split.
  - intros ([a b] & E & H). apply filter_In in H as [H K]. cbn in *. apply Nat.eqb_eq in K. subst. exact H.
  - intros H. exists (t, p). split; [reflexivity|]. apply filter_In. split; [exact H|]. cbn. apply Nat.eqb_refl.
Qed.
Lemma in_without t l u p : In (u, p) (without t l) <-> In (u, p) l /\ u <> t.
Proof. unfold without. rewrite filter_In. cbn [fst]. destruct (Nat.eqb_spec u t); cbn [negb]; intuition congruence. Qed.
Lemma of_without t l p : of (without t l) p = cut t (of l p).
Proof.
  unfold of, without, cut. induction l as [|[a b] l IH]; [reflexivity|]. cbn [filter fst snd].
  destruct (Nat.eqb a t) eqn:E, (Nat.eqb b p) eqn:F; cbn [negb filter fst snd map]; rewrite ?F; cbn [map filter fst]; rewrite ?E; cbn [negb]; rewrite IH; reflexivity.
Qed.
Lemma nodup_map_filter {A B} (f : A -> B) g l : NoDup (map f l) -> NoDup (map f (filter g l)).
Proof.
  induction l as [|a l IH]; intros H; [constructor|]. inversion H as [|? ? H1 H2]; subst. cbn [filter]. destruct (g a); [|auto].
  cbn [map]. constructor; [|auto]. intros K. apply H1. apply in_map_iff in K as (x & E & K). apply filter_In in K as [K _].
  rewrite <- E. apply in_map. exact K.
Qed.

Lemma put_same {A} (f : nat -> option A) k v : put f k v k = v.
Proof. unfold put. rewrite Nat.eqb_refl. reflexivity. Qed.
Lemma put_other {A} (f : nat -> option A) k v j : j <> k -> put f k v j = f j.
Proof. intros H. unfold put. destruct (Nat.eqb_spec j k); [contradiction|reflexivity]. Qed.

Lemma follows_ext s s' o l : (forall t, In t l -> nodes s' t = nodes s t) -> follows s o l -> follows s' o l.
Proof.
  intros H F. induction F as [|t v l Hv F IH]; [constructor|]. econstructor.
  - rewrite H by (left; reflexivity). exact Hv.
  - apply IH. intros u Hu. apply H. right. exact Hu.
Qed.
Lemma follows_cons s o n l : follows s o (n :: l) -> exists w, o = Some n /\ nodes s n = Some w /\ follows s (n_next w) l.
Proof. intros F. inversion F; subst. eauto. Qed.
(* only the other fields *)
Lemma follows_next s s' o l : (forall t v, In t l -> nodes s t = Some v -> exists w, nodes s' t = Some w /\ n_next w = n_next v) ->
  follows s o l -> follows s' o l.
Proof.
  intros H F. induction F as [|t v l Hv F IH]; [constructor|].
  destruct (H t v (or_introl eq_refl) Hv) as (w & Hw & E). econstructor; [exact Hw|]. rewrite E.
  apply IH. intros u x Hu. apply H. right. exact Hu.
Qed.

(* the same node but for its link *)
Definition relinked (s s' : state) (u : nat) : Prop :=
  match nodes s u, nodes s' u with
  | Some v, Some w => n_proxy w = n_proxy v /\ n_replied w = n_replied v
  | None, None => True
  | _, _ => False
  end.
Lemma relinked_same s s' u : nodes s' u = nodes s u -> relinked s s' u.
Proof. intros E. unfold relinked. rewrite E. destruct (nodes s u); auto. Qed.

Lemma unlink_ok t : forall rounds s prev l,
  follows s (Some prev) (prev :: l) -> NoDup (prev :: l) -> In t l -> (length l <= rounds)%nat ->
  exists s', unlink rounds s prev t = Done s' /\ follows s' (Some prev) (prev :: cut t l) /\
    (forall u, ~ In u (prev :: l) -> nodes s' u = nodes s u) /\ nodes s' t = nodes s t /\ (forall u, relinked s s' u) /\
    nnodes s' = nnodes s /\ proxies s' = proxies s /\ nproxies s' = nproxies s.
Proof.
  induction rounds as [|r IH]; intros s prev l F Hn Hi Hr.
  { destruct l; [destruct Hi|cbn in Hr; lia]. }
  apply follows_cons in F as (v & _ & Hv & F1). destruct l as [|n l]; [destruct Hi|].
  pose proof F1 as G. apply follows_cons in G as (w & En & Hw & F2). inversion Hn as [|? ? Hp Hn1]; subst. inversion Hn1 as [|? ? Hq Hn2]; subst.
  cbn [unlink]. rewrite Hv, En. destruct (Nat.eqb_spec n t) as [->|Hd].
  - rewrite Hw. eexists. split; [reflexivity|]. rewrite cut_head by assumption. cbn [set_node nodes nnodes proxies nproxies].
    assert (Hpt : t <> prev) by (intros ->; apply Hp; left; reflexivity).
    split; [|split; [|split; [|split; [|auto]]]].
    + econstructor; [cbn [set_node nodes]; apply put_same|]. cbn [n_next]. apply (follows_ext s); [|exact F2].
      intros u Hu. cbn [set_node nodes]. apply put_other. intros ->. apply Hp. right. exact Hu.
    + intros u Hu. apply put_other. intros ->. apply Hu. left. reflexivity.
    + rewrite put_other by exact Hpt. exact Hw.
    + intros u. destruct (Nat.eq_dec u prev) as [->|Hu].
      * unfold relinked. cbn [set_node nodes]. rewrite Hv, put_same. auto.
      * apply relinked_same. cbn [set_node nodes]. apply put_other. exact Hu.
  - assert (Ht : In t l) by (destruct Hi; [congruence|assumption]).
    destruct (IH s n l) as (s' & E & F' & K1 & K2 & K3 & K4); [rewrite En in F1; exact F1|exact Hn1|exact Ht|cbn in Hr; lia|].
    exists s'. split; [exact E|]. split; [|split; [|auto]].
    + cbn [cut filter]. destruct (Nat.eqb_spec n t); [congruence|]. cbn [negb].
      econstructor; [rewrite K1 by exact Hp; exact Hv|]. rewrite En. exact F'.
    + intros u Hu. apply K1. intros K. apply Hu. right. exact K.
Qed.

Record Inv (s : state) (h : seen) : Prop := {
  i_count : nnodes s = s_count h;
  i_made : nproxies s = s_made h;
  i_nodup : NoDup (map fst (s_list h));
  i_new : forall t, (nnodes s <= t)%nat -> nodes s t = None;
  i_pnew : forall p, (nproxies s <= p)%nat -> proxies s p = None;
  i_in : forall t v p, nodes s t = Some v -> n_proxy v = Some p -> In (t, p) (s_list h);
  i_node : forall t p, In (t, p) (s_list h) -> exists v, nodes s t = Some v /\ n_proxy v = Some p;
  i_proxy : forall p, match proxies s p with
    | Some x => follows s (x_tx x) (of (s_list h) p) /\ x_others x = s_others h p /\
        x_refs x = (x_others x + length (of (s_list h) p))%nat /\ (0 < x_refs x)%nat
    | None => of (s_list h) p = [] /\ s_others h p = 0%nat
    end
}.
Definition open (s : state) : Prop := forall t v, nodes s t = Some v -> n_replied v = false -> n_proxy v <> None.

Definition sees (h : seen) (t : nat) : seen :=
  {| s_count := s_count h; s_list := without t (s_list h); s_others := s_others h; s_made := s_made h |}.

Lemma of_nodup l p : NoDup (map fst l) -> NoDup (of l p).
Proof. apply nodup_map_filter. Qed.

Lemma pair_unique (l : list (nat * nat)) t p q : NoDup (map fst l) -> In (t, p) l -> In (t, q) l -> p = q.
Proof.
  induction l as [|[a b] l IH]; intros Hn H1 H2; [destruct H1|]. inversion Hn as [|? ? Ha Hn1]; subst. cbn [fst] in Ha.
  destruct H1 as [H1|H1], H2 as [H2|H2]; try congruence.
  - exfalso. apply Ha. replace a with t by congruence. apply (in_map fst l (t, q)). exact H2.
  - exfalso. apply Ha. replace a with t by congruence. apply (in_map fst l (t, p)). exact H1.
  - apply IH; assumption.
Qed.

Lemma without_out t l : (forall p, ~ In (t, p) l) -> without t l = l.
Proof.
  induction l as [|[a b] l IH]; intros H; [reflexivity|]. cbn [without filter fst]. destruct (Nat.eqb_spec a t) as [->|_].
  - exfalso. apply (H b). left. reflexivity.
  - cbn [negb]. f_equal. apply IH. intros p K. apply (H p). right. exact K.
Qed.

Lemma dequeue_ok s h t v : Inv s h -> nodes s t = Some v ->
  exists s' w, dequeue s t = Done s' /\ Inv s' (sees h t) /\ (forall u, u <> t -> relinked s s' u) /\
    nodes s' t = Some w /\ n_proxy w = None /\ n_replied w = n_replied v.
Proof.
  intros J Hv. unfold dequeue. rewrite Hv. destruct (n_proxy v) as [p|] eqn:Ep.
  2: { exists s, v. split; [reflexivity|]. split; [|split; [intros; apply relinked_same; reflexivity|auto]].
    replace (sees h t) with h; [exact J|]. unfold sees. rewrite without_out; [destruct h; reflexivity|].
    intros p Hp. destruct (i_node _ _ J _ _ Hp) as (w & Hw & K). congruence. }
  pose proof (i_in _ _ J _ _ _ Hv Ep) as Hin. pose proof (i_proxy _ _ J p) as Jp.
  assert (Hof : In t (of (s_list h) p)) by (apply in_of; exact Hin).
  destruct (proxies s p) as [x|] eqn:Ex; [|destruct Jp as [Jp _]; rewrite Jp in Hof; destruct Hof].
  destruct Jp as (F & Jo & Jr & Jpos). pose proof (of_nodup _ p (i_nodup _ _ J)) as Hnd.
  pose proof (cut_length t _ Hnd Hof) as Hlen.
  (* the list without the transaction *)
  assert (C : exists s1 hd,
    match x_tx x with
    | None => Done s
    | Some h0 => if Nat.eqb h0 t then Done (set_proxy s p (Some {| x_refs := x_refs x; x_others := x_others x; x_tx := n_next v |}))
                 else unlink (nnodes s) s h0 t
    end = Done s1 /\ follows s1 hd (cut t (of (s_list h) p)) /\ (forall u, ~ In u (of (s_list h) p) -> nodes s1 u = nodes s u) /\
    nodes s1 t = nodes s t /\ (forall u, relinked s s1 u) /\ nnodes s1 = nnodes s /\ nproxies s1 = nproxies s /\
    proxies s1 p = Some {| x_refs := x_refs x; x_others := x_others x; x_tx := hd |} /\ (forall q, q <> p -> proxies s1 q = proxies s q)).
  { remember (of (s_list h) p) as L. destruct L as [|t0 l]; [destruct Hof|].
    apply follows_cons in F as (v0 & Eh & Hv0 & F). rewrite Eh. destruct (Nat.eqb_spec t0 t) as [->|Hd].
    - assert (v0 = v) by congruence. subst v0. inversion Hnd; subst. rewrite cut_head by assumption.
      eexists _, _. split; [reflexivity|]. split; [apply (follows_ext s); [reflexivity|exact F]|]. cbn [set_proxy nodes nnodes nproxies proxies].
      split; [reflexivity|]. split; [reflexivity|]. split; [intros u; apply relinked_same; reflexivity|]. split; [reflexivity|]. split; [reflexivity|].
      split; [apply put_same|]. intros q Hq. apply put_other. exact Hq.
    - destruct (unlink_ok t (nnodes s) s t0 l) as (s1 & E & F1 & K1 & K2 & K3 & K4 & K5 & K6).
      + econstructor; eassumption.
      + exact Hnd.
      + destruct Hof; [congruence|assumption].
      + assert (length (t0 :: l) <= length (seq 0 (nnodes s)))%nat; [|rewrite seq_length in H; cbn in H; lia].
        apply NoDup_incl_length; [exact Hnd|]. intros u Hu. apply in_seq. split; [lia|]. cbn.
        rewrite HeqL in Hu. apply in_of in Hu. destruct (i_node _ _ J _ _ Hu) as (w & Hw & _).
        destruct (Nat.le_gt_cases (nnodes s) u) as [Hle|]; [|assumption]. rewrite (i_new _ _ J) in Hw by exact Hle. discriminate.
      + exists s1, (Some t0). split; [exact E|]. split.
        { cbn [cut filter]. destruct (Nat.eqb_spec t0 t); [congruence|]. exact F1. }
        split; [exact K1|]. split; [exact K2|]. split; [exact K3|]. split; [exact K4|]. split; [exact K6|].
        rewrite K5. rewrite Ex. split; [|auto]. destruct x; cbn in *; congruence. }
  destruct C as (s1 & hd & E & F1 & K1 & K2 & K3 & K4 & K5 & K6 & K7). rewrite E. cbn [obind]. unfold unref.
  cbn [set_node proxies]. rewrite K6. cbn [x_refs x_others x_tx]. eexists _, _. split; [reflexivity|].
  assert (Knode : forall u, u <> t -> nodes (set_node s1 t (Some {| n_next := None; n_proxy := None; n_replied := n_replied v |})) u = nodes s1 u).
  { intros u Hu. cbn [set_node nodes]. apply put_other. exact Hu. }
  split; [|split; [|split; [cbn [set_proxy set_node nodes]; apply put_same|auto]]].
  2: { intros u Hu. specialize (K3 u). unfold relinked in *. cbn [set_proxy set_node nodes]. rewrite put_other by exact Hu. exact K3. }
  constructor; cbn [set_proxy set_node nodes nnodes proxies nproxies sees s_count s_list s_others s_made].
  - rewrite K4. apply i_count. exact J.
  - rewrite K5. apply i_made. exact J.
  - apply nodup_map_filter. apply i_nodup with (1 := J).
  - intros u Hu. rewrite K4 in Hu. pose proof (i_new _ _ J u Hu) as Hnone.
    rewrite put_other by (intros ->; congruence). specialize (K3 u). unfold relinked in K3. rewrite Hnone in K3.
    destruct (nodes s1 u); [destruct K3|reflexivity].
  - intros q Hq. rewrite K5 in Hq. pose proof (i_pnew _ _ J q Hq) as Hnone.
    rewrite put_other by (intros ->; congruence). rewrite K7 by (intros ->; congruence). exact Hnone.
  - intros u w q Hu Hq. destruct (Nat.eq_dec u t) as [->|Hd].
    + rewrite put_same in Hu. injection Hu as <-. discriminate.
    + rewrite put_other in Hu by exact Hd. apply in_without. split; [|exact Hd]. specialize (K3 u). unfold relinked in K3. rewrite Hu in K3.
      destruct (nodes s u) as [w0|] eqn:Eu; [|destruct K3]. destruct K3 as [K3 _]. apply (i_in _ _ J u w0 q Eu). congruence.
  - intros u q Hu. apply in_without in Hu as [Hu Hd]. destruct (i_node _ _ J _ _ Hu) as (w0 & Ew & Eq).
    rewrite put_other by exact Hd. specialize (K3 u). unfold relinked in K3. rewrite Ew in K3.
    destruct (nodes s1 u) as [w1|]; [|destruct K3]. exists w1. split; [reflexivity|]. destruct K3; congruence.
  - intros q. rewrite of_without. destruct (Nat.eq_dec q p) as [->|Hd].
    + rewrite put_same. assert (Hr : x_refs x = S (x_others x + length (cut t (of (s_list h) p)))) by lia.
      destruct (x_refs x) as [|[|n]]; [discriminate| |].
      * split; [destruct (cut t (of (s_list h) p)); [reflexivity|cbn in Hr; lia]|lia].
      * cbn [x_tx x_others x_refs]. split; [|split; [exact Jo|split; lia]].
        apply (follows_ext s1); [|exact F1]. intros u Hu. cbn [set_proxy set_node nodes]. apply put_other. apply in_cut in Hu as [_ Hu]. exact Hu.
    + rewrite put_other by exact Hd. rewrite K7 by exact Hd. pose proof (i_proxy _ _ J q) as Jq.
      assert (Hnt : ~ In t (of (s_list h) q)).
      { intros K. apply in_of in K. apply Hd. exact (pair_unique _ _ _ _ (i_nodup _ _ J) K Hin). }
      rewrite cut_out by exact Hnt. destruct (proxies s q) as [y|]; [|exact Jq]. destruct Jq as (Fq & Jq). split; [|exact Jq].
      apply (follows_ext s); [|exact Fq]. intros u Hu. cbn [set_proxy set_node nodes]. rewrite put_other by (intros ->; contradiction).
      apply K1. intros K. apply in_of in K. apply in_of in Hu. apply Hd. exact (pair_unique _ _ _ _ (i_nodup _ _ J) Hu K).
Qed.

Lemma start_inv : Inv start nothing.
Proof.
  constructor; cbn [start nothing nnodes nproxies nodes proxies s_count s_made s_list s_others]; auto; try discriminate.
  - constructor.
  - intros t p [].
Qed.

Lemma step_inv s h e : Inv s h -> open s ->
  match step s e with Done s' => Inv s' (see h e) /\ open s' | Disabled => True | Crash => False | Stuck => False end.
Proof.
  intros J O. destruct e as [|p|p|p|t|t]; cbn [step see].
  - (* New *)
    split; [|exact O]. pose proof (i_pnew _ _ J (nproxies s) (le_n _)) as Hnone. pose proof (i_proxy _ _ J (nproxies s)) as J0. rewrite Hnone in J0.
    constructor; cbn [nodes nnodes proxies nproxies s_count s_list s_others s_made]; try (apply J).
    + f_equal. apply J.
    + intros q Hq. rewrite put_other by lia. apply J. lia.
    + intros q. rewrite <- (i_made _ _ J). destruct (Nat.eqb_spec q (nproxies s)) as [->|Hd].
      * rewrite put_same. cbn [x_tx x_others x_refs]. destruct J0 as [-> _]. split; [constructor|]. split; [reflexivity|]. split; [reflexivity|lia].
      * rewrite put_other by exact Hd. pose proof (i_proxy _ _ J q) as Jq. destruct (proxies s q); [|exact Jq].
        destruct Jq as [F Jq]. split; [apply (follows_ext s); [reflexivity|exact F]|exact Jq].
  - (* Ref *)
    destruct (proxies s p) as [x|] eqn:Ex; [|exact Logic.I]. destruct (Nat.eqb_spec (x_others x) 0); [exact Logic.I|].
    split; [|exact O]. pose proof (i_proxy _ _ J p) as J0. rewrite Ex in J0. destruct J0 as (F & J1 & J2 & J3).
    constructor; cbn [set_proxy nodes nnodes proxies nproxies s_count s_list s_others s_made]; try (apply J).
    + intros q Hq. rewrite put_other; [apply J; exact Hq|]. intros ->. rewrite (i_pnew _ _ J) in Ex by exact Hq. discriminate.
    + intros q. destruct (Nat.eqb_spec q p) as [->|Hd].
      * rewrite put_same. cbn [x_tx x_others x_refs]. split; [apply (follows_ext s); [reflexivity|exact F]|]. split; [congruence|]. split; lia.
      * rewrite put_other by exact Hd. pose proof (i_proxy _ _ J q) as Jq. destruct (proxies s q); [|exact Jq].
        destruct Jq as [Fq Jq]. split; [apply (follows_ext s); [reflexivity|exact Fq]|exact Jq].
  - (* Unref *)
    destruct (proxies s p) as [x|] eqn:Ex; [|exact Logic.I]. destruct (Nat.eqb_spec (x_others x) 0) as [|Ho]; [exact Logic.I|].
    unfold unref. rewrite Ex. split; [|exact O]. pose proof (i_proxy _ _ J p) as J0. rewrite Ex in J0. destruct J0 as (F & J1 & J2 & J3).
    constructor; cbn [set_proxy nodes nnodes proxies nproxies s_count s_list s_others s_made]; try (apply J).
    + intros q Hq. rewrite put_other; [apply J; exact Hq|]. intros ->. rewrite (i_pnew _ _ J) in Ex by exact Hq. discriminate.
    + intros q. destruct (Nat.eqb_spec q p) as [->|Hd].
      * rewrite put_same. destruct (x_refs x) as [|[|n]]; [lia| |].
        -- split; [destruct (of (s_list h) p); [reflexivity|cbn in J2; lia]|lia].
        -- cbn [x_tx x_others x_refs]. split; [apply (follows_ext s); [reflexivity|exact F]|]. split; [congruence|]. split; lia.
      * rewrite put_other by exact Hd. pose proof (i_proxy _ _ J q) as Jq. destruct (proxies s q); [|exact Jq].
        destruct Jq as [Fq Jq]. split; [apply (follows_ext s); [reflexivity|exact Fq]|exact Jq].
  - (* Handle *)
    destruct (proxies s p) as [x|] eqn:Ex; [|exact Logic.I]. destruct (Nat.eqb_spec (x_others x) 0) as [|Ho]; [exact Logic.I|].
    pose proof (i_proxy _ _ J p) as J0. rewrite Ex in J0. destruct J0 as (F & J1 & J2 & J3).
    pose proof (i_new _ _ J (nnodes s) (le_n _)) as Hnew.
    assert (Hlt : forall u q, In (u, q) (s_list h) -> u <> nnodes s).
    { intros u q Hu ->. destruct (i_node _ _ J _ _ Hu) as (w & Hw & _). congruence. }
    split.
    + constructor; cbn [nodes nnodes proxies nproxies s_count s_list s_others s_made]; try (apply J).
      * f_equal. apply J.
      * cbn [map fst]. constructor; [|apply J]. rewrite <- (i_count _ _ J). intros K. apply in_map_iff in K as ([u q] & E & K). cbn in E. subst u.
        exact (Hlt _ _ K eq_refl).
      * intros u Hu. rewrite put_other by lia. apply J. lia.
      * intros q Hq. rewrite put_other; [apply J; exact Hq|]. intros ->. rewrite (i_pnew _ _ J) in Ex by exact Hq. discriminate.
      * intros u v q Hu Hq. destruct (Nat.eq_dec u (nnodes s)) as [->|Hd].
        -- rewrite put_same in Hu. injection Hu as <-. cbn in Hq. injection Hq as <-. left. rewrite (i_count _ _ J). reflexivity.
        -- rewrite put_other in Hu by exact Hd. right. apply (i_in _ _ J u v q Hu Hq).
      * intros u q [K|K].
        -- rewrite <- (i_count _ _ J) in K. injection K as <- <-. rewrite put_same. eauto.
        -- rewrite put_other by (apply (Hlt _ _ K)). apply (i_node _ _ J _ _ K).
      * intros q. destruct (Nat.eq_dec q p) as [->|Hd].
        -- rewrite put_same. unfold of. cbn [filter snd]. rewrite Nat.eqb_refl. cbn [map fst]. fold (of (s_list h) p).
           cbn [x_tx x_others x_refs length]. rewrite <- (i_count _ _ J). split; [|split; [exact J1|split; lia]].
           econstructor; [cbn [nodes]; apply put_same|]. cbn [n_next]. apply (follows_ext s); [|exact F].
           intros u Hu. cbn [nodes]. apply put_other. apply in_of in Hu. exact (Hlt _ _ Hu).
        -- rewrite put_other by exact Hd. unfold of. cbn [filter snd]. destruct (Nat.eqb_spec p q); [congruence|]. fold (of (s_list h) q).
           pose proof (i_proxy _ _ J q) as Jq. destruct (proxies s q); [|exact Jq]. destruct Jq as [Fq Jq]. split; [|exact Jq].
           apply (follows_ext s); [|exact Fq]. intros u Hu. cbn [nodes]. apply put_other. apply in_of in Hu. exact (Hlt _ _ Hu).
    + intros u v Hu Hr. cbn [nodes] in Hu. destruct (Nat.eq_dec u (nnodes s)) as [->|Hd].
      * rewrite put_same in Hu. injection Hu as <-. discriminate.
      * rewrite put_other in Hu by exact Hd. exact (O u v Hu Hr).
  - (* Reply *)
    destruct (nodes s t) as [v|] eqn:Ev; [|exact Logic.I]. destruct (n_replied v) eqn:Er; [exact Logic.I|].
    pose proof (O t v Ev Er) as Hp. destruct (n_proxy v) as [p|] eqn:Ep; [|congruence].
    pose proof (i_in _ _ J _ _ _ Ev Ep) as Hin. pose proof (i_proxy _ _ J p) as J0.
    destruct (proxies s p) as [x|] eqn:Ex; [|destruct J0 as [J0 _]; apply in_of in Hin; rewrite J0 in Hin; destruct Hin].
    set (s0 := set_node s t (Some {| n_next := n_next v; n_proxy := Some p; n_replied := true |})).
    assert (J' : Inv s0 h).
    { constructor; subst s0; cbn [set_node nodes nnodes proxies nproxies]; try (apply J).
      - intros u Hu. rewrite put_other; [apply J; exact Hu|]. intros ->. rewrite (i_new _ _ J) in Ev by exact Hu. discriminate.
      - intros u w q Hu Hq. destruct (Nat.eq_dec u t) as [->|Hd].
        + rewrite put_same in Hu. injection Hu as <-. cbn in Hq. apply (i_in _ _ J t v q Ev). congruence.
        + rewrite put_other in Hu by exact Hd. exact (i_in _ _ J u w q Hu Hq).
      - intros u q Hu. destruct (i_node _ _ J _ _ Hu) as (w & Hw & Hq). destruct (Nat.eq_dec u t) as [->|Hd].
        + rewrite put_same. eexists. split; [reflexivity|]. cbn. congruence.
        + rewrite put_other by exact Hd. eauto.
      - intros q. pose proof (i_proxy _ _ J q) as Jq. destruct (proxies s q); [|exact Jq]. destruct Jq as [Fq Jq]. split; [|exact Jq].
        apply (follows_next s); [|exact Fq]. intros u w _ Hw. cbn [set_node nodes]. destruct (Nat.eq_dec u t) as [->|Hd].
        + rewrite put_same. eexists. split; [reflexivity|]. cbn. congruence.
        + rewrite put_other by exact Hd. eauto. }
    destruct (dequeue_ok s0 h t _ J' (put_same _ _ _)) as (s' & w & E & J1 & K & Hw & Hw1 & Hw2). rewrite E. split; [exact J1|].
    intros u y Hu Hr. destruct (Nat.eq_dec u t) as [->|Hd]; [rewrite Hw in Hu; injection Hu as <-; cbn in Hw2; congruence|].
    specialize (K u Hd). unfold relinked in K. subst s0. cbn [set_node nodes] in K. rewrite put_other in K by exact Hd. rewrite Hu in K.
    destruct (nodes s u) as [y0|] eqn:Ey; [|destruct K]. destruct K as [K1 K2]. rewrite K1. apply (O u y0 Ey). congruence.
  - (* Destroy *)
    destruct (nodes s t) as [v|] eqn:Ev; [|exact Logic.I].
    destruct (dequeue_ok s h t v J Ev) as (s' & w & E & J1 & K & Hw & Hw1 & Hw2). rewrite E. cbn [obind].
    fold (sees h t) in *. assert (Hout : forall u q, In (u, q) (without t (s_list h)) -> u <> t) by (intros u q Hu; apply in_without in Hu; tauto).
    split.
    + constructor; cbn [set_node nodes nnodes proxies nproxies]; try (apply J1).
      * intros u Hu. destruct (Nat.eq_dec u t) as [->|Hd]; [apply put_same|]. rewrite put_other by exact Hd. apply J1. exact Hu.
      * intros u y q Hu Hq. destruct (Nat.eq_dec u t) as [->|Hd]; [rewrite put_same in Hu; discriminate|]. rewrite put_other in Hu by exact Hd.
        exact (i_in _ _ J1 u y q Hu Hq).
      * intros u q Hu. rewrite put_other by (exact (Hout _ _ Hu)). exact (i_node _ _ J1 _ _ Hu).
      * intros q. pose proof (i_proxy _ _ J1 q) as Jq. destruct (proxies s' q); [|exact Jq]. destruct Jq as [Fq Jq]. split; [|exact Jq].
        apply (follows_ext s'); [|exact Fq]. intros u Hu. cbn [set_node nodes]. apply put_other. apply in_of in Hu. exact (Hout _ _ Hu).
    + intros u y Hu Hr. cbn [set_node nodes] in Hu. destruct (Nat.eq_dec u t) as [->|Hd]; [rewrite put_same in Hu; discriminate|].
      rewrite put_other in Hu by exact Hd. specialize (K u Hd). unfold relinked in K. rewrite Hu in K.
      destruct (nodes s u) as [y0|] eqn:Ey; [|destruct K]. destruct K as [K1 K2]. rewrite K1. apply (O u y0 Ey). congruence.
Qed.

Lemma run_inv l : forall s h, Inv s h -> open s ->
  match run s l with Done s' => Inv s' (fold_left see l h) /\ open s' | Disabled => True | Crash => False | Stuck => False end.
Proof.
  induction l as [|e l IH]; intros s h J O; cbn [run fold_left]; [auto|].
  pose proof (step_inv s h e J O) as K. destruct (step s e) as [s1| | |]; cbn [obind]; auto. destruct K as [K1 K2]. apply IH; assumption.
Qed.

Lemma history_inv l : match run start l with Done s' => Inv s' (history l) /\ open s' | Disabled => True | Crash => False | Stuck => False end.
Proof. apply run_inv; [apply start_inv|]. intros t v H. discriminate. Qed.

(* What isn't there doesn't appear *)
Lemma unlink_none t : forall rounds s prev u s' , nodes s t = None -> unlink rounds s prev u = Done s' -> nodes s' t = None.
Proof.
  induction rounds as [|r IH]; intros s prev u s' Ht E; cbn [unlink] in E;
    (destruct (nodes s prev) as [v|] eqn:Ev; [|discriminate]; destruct (n_next v) as [n|]; [|injection E as <-; exact Ht];
     destruct (Nat.eqb n u); [destruct (nodes s u); [|discriminate]; injection E as <-; cbn [set_node nodes]; rewrite put_other; [exact Ht|congruence]|]).
  - discriminate.
  - exact (IH _ _ _ _ Ht E).
Qed.
Lemma dequeue_none s t u s' : nodes s t = None -> t <> u -> dequeue s u = Done s' -> forall v, nodes s' t <> Some v.
Proof.
  intros Ht Hd E v. unfold dequeue in E. destruct (nodes s u) as [y|] eqn:Eu; [|discriminate].
  destruct (n_proxy y) as [p|]; [|injection E as <-; congruence]. destruct (proxies s p) as [x|] eqn:Ex; [|discriminate].
  destruct (match x_tx x with None => Done s | Some h => _ end) as [s1| | |] eqn:E1; cbn [obind] in E; try discriminate.
  assert (H1 : nodes s1 t = None).
  { destruct (x_tx x) as [h|]; [|injection E1 as <-; exact Ht]. destruct (Nat.eqb h u); [injection E1 as <-; exact Ht|].
    exact (unlink_none _ _ _ _ _ _ Ht E1). }
  unfold unref in E. cbn [set_node proxies] in E. destruct (proxies s1 p); [|discriminate]. injection E as <-. cbn [set_proxy set_node nodes]. rewrite put_other by exact Hd. congruence.
Qed.

Lemma unlink_nnodes : forall rounds s prev u s', unlink rounds s prev u = Done s' -> nnodes s' = nnodes s.
Proof.
  induction rounds as [|r IH]; intros s prev u s' E; cbn [unlink] in E;
    (destruct (nodes s prev) as [v|]; [|discriminate]; destruct (n_next v) as [n|]; [|injection E as <-; reflexivity];
     destruct (Nat.eqb n u); [destruct (nodes s u); [|discriminate]; injection E as <-; reflexivity|]).
  - discriminate.
  - exact (IH _ _ _ _ E).
Qed.
Lemma step_nnodes s e s' : step s e = Done s' -> (nnodes s <= nnodes s')%nat.
Proof.
  assert (D : forall s t s', dequeue s t = Done s' -> nnodes s' = nnodes s).
  { clear. intros s t s' E. unfold dequeue in E. destruct (nodes s t) as [y|]; [|discriminate]. destruct (n_proxy y) as [p|]; [|congruence].
    destruct (proxies s p) as [x|]; [|discriminate].
    destruct (match x_tx x with None => Done s | Some h => _ end) as [s1| | |] eqn:E1; cbn [obind] in E; try discriminate.
    unfold unref in E. cbn [set_node proxies] in E. destruct (proxies s1 p); [|discriminate]. injection E as <-. cbn [set_proxy set_node nnodes].
    destruct (x_tx x) as [h|]; [|congruence]. destruct (Nat.eqb h t); [injection E1 as <-; reflexivity|exact (unlink_nnodes _ _ _ _ _ E1)]. }
  destruct e as [|p|p|p|u|u]; cbn [step]; intros E.
  - injection E as <-. reflexivity.
  - destruct (proxies s p); [|discriminate]. destruct (Nat.eqb _ 0); [discriminate|]. injection E as <-. reflexivity.
  - destruct (proxies s p) eqn:Ex; [|discriminate]. destruct (Nat.eqb _ 0); [discriminate|]. unfold unref in E. rewrite Ex in E. injection E as <-. reflexivity.
  - destruct (proxies s p); [|discriminate]. destruct (Nat.eqb _ 0); [discriminate|]. injection E as <-. cbn. lia.
  - destruct (nodes s u); [|discriminate]. destruct (n_replied n); [discriminate|]. destruct (n_proxy n); [|discriminate]. destruct (proxies s n0); [|discriminate].
    apply D in E. rewrite E. reflexivity.
  - destruct (nodes s u); [|discriminate]. destruct (dequeue s u) eqn:E1; cbn [obind] in E; try discriminate. injection E as <-. apply D in E1. cbn. lia.
Qed.
Lemma run_app a : forall b s, run s (a ++ b) = obind (run s a) (fun s1 => run s1 b).
Proof. induction a as [|x a IHa]; intros b s0; cbn [app run obind]; [reflexivity|]. destruct (step s0 x); cbn [obind]; auto. Qed.
Lemma destroyed_old l : forall s t, run start l = Done s -> In (Destroy t) l -> (t < nnodes s)%nat.
Proof.
  induction l as [|e l IH] using rev_ind; intros s t E K; [destruct K|]. rewrite run_app in E. pose proof (history_inv l) as H.
  destruct (run start l) as [s1| | |] eqn:E1; cbn [obind run] in E; try discriminate. destruct H as [J _].
  destruct (step s1 e) as [s2| | |] eqn:E2; cbn [obind] in E; try discriminate. injection E as <-. pose proof (step_nnodes _ _ _ E2) as Hle.
  apply in_app_or in K as [K|[K|[]]]; [specialize (IH s1 t eq_refl K); lia|]. subst e. cbn [step] in E2.
  destruct (nodes s1 t) eqn:Et; [|discriminate]. destruct (Nat.le_gt_cases (nnodes s1) t) as [Hc|]; [|lia]. rewrite (i_new _ _ J) in Et by exact Hc. discriminate.
Qed.
