(* Proofs about the objects of a message, and about dropping references *)
From Verif Require Import Base ObjModel TxModel ProxyConv BlockModel BlockRun BlockEnds ProxyModel ProxyObjs ProxyObjs2.

Lemma resolved_fun s ri li h p1 p2 : objs s -> resolved s ri li h p1 -> resolved s ri li h p2 -> p1 = p2.
Proof.
  intros O (r1 & A1 & A2 & _) (r2 & B1 & B2 & _). assert (r1 = r2); [|congruence].
  destruct A1 as (A & B & C), B1 as (A' & B' & C'). apply (o_unique _ O); congruence.
Qed.

Lemma convert_ok : forall ob s o ri li data, objs s ->
  (convert_objects s o ri li data ob = Crash /\ exists x f, In x ob /\ decode_binder_handle data x = Base.Fault f) \/
  exists s' l, convert_objects s o ri li data ob = Ok (s', l) /\ converted s s' o /\
    (forall h p, In (h, p) l -> resolved s' ri li h p /\
       match p with Some i => exists r, In (EConvert ri h li r i) (ptrace s') | None => In (EKept ri h li) (ptrace s') end) /\
    (forall x, In x ob -> exists d, decode_binder_handle data x = Base.Ok d /\ forall h, d = Some h -> exists p, In (h, p) l) /\
    (forall i, (0 < cnt s' o i)%nat -> (0 < cnt s o i)%nat \/ exists h, In (h, Some i) l) /\
    (forall h, In (h, None) l -> exists r, r_listed (rem s r) = true /\ r_dead (rem s r) = true) /\
    (forall h i, In (h, Some i) l -> (0 < cnt s' o i)%nat).
Proof.
  induction ob as [|x ob IH]; intros s o ri li data O; cbn [convert_objects].
  - right. exists s, []. split; [reflexivity|]. split; [now apply converted_refl|]. repeat split; try (intros; contradiction); auto.
  - destruct (decode_binder_handle data x) as [[h|]|f] eqn:D.
    + destruct (handle_converted s o ri li h O) as (s1 & p & E & V & R & C & T & K). rewrite E. cbn [bind].
      destruct (IH s1 o ri li data (v_objs _ _ _ V)) as [(E2 & y & f & Y1 & Y2)|(s2 & l & E2 & V2 & A1 & A2 & A3 & A4 & A5)]; rewrite E2; cbn [bind].
      * left. split; [reflexivity|]. exists y, f. split; [now right|exact Y2].
      * right. exists s2, ((h, p) :: l). split; [reflexivity|]. split; [eapply converted_trans; eauto|].
        destruct (g_trace _ _ (v_grows _ _ _ V2)) as (tl & TL).
        assert (CM : forall j, (cnt s1 o j <= cnt s2 o j)%nat).
        { clear - E2 V. revert s1 s2 l E2 V. induction ob as [|y ob IH]; intros s1 s2 l; cbn [convert_objects].
          - intros X _ j. apply ok_pair in X as (<- & _). lia.
          - destruct (decode_binder_handle data y) as [[h'|]|f]; [|apply IH|discriminate].
            intros X V j. destruct (handle_converted s1 o ri li h' (v_objs _ _ _ V)) as (s1' & p' & E' & V' & _ & C' & _).
            rewrite E' in X. cbn [bind] in X. destruct (convert_objects s1' o ri li data ob) as [| |[s2' l']] eqn:Q; try discriminate.
            cbn [bind] in X. apply ok_pair in X as (<- & _). pose proof (IH _ _ _ Q (converted_trans _ _ _ _ V V') j) as Z.
            rewrite C' in Z. lia. }
        split; [|split; [|split; [|split]]].
        -- intros h' p' [X|X]; [|now apply A1]. injection X as <- <-. split; [now apply (v_resolved _ _ _ V2)|].
           rewrite TL. destruct p as [i|]; [destruct T as (r & T); exists r|]; apply in_or_app; auto.
        -- intros y [<-|Y].
           ++ exists (Some h). split; [exact D|]. intros h' [= <-]. exists p. now left.
           ++ destruct (A2 y Y) as (d & Y1 & Y2). exists d. split; auto. intros h' X. destruct (Y2 h' X) as (p' & Y3). exists p'. now right.
        -- intros i X. destruct (A3 i X) as [X1|(h' & X1)].
           ++ rewrite C in X1. destruct p as [j|]; [destruct (Nat.eqb_spec j i) as [->|]|].
              ** right. exists h. now left.
              ** left. lia.
              ** left. lia.
           ++ right. exists h'. now right.
        -- intros h' [X|X].
           ++ injection X as <- ->. destruct (K eq_refl) as (r & (K1 & _) & K2). eauto.
           ++ destruct (A4 h' X) as (r & X1 & X2). destruct (Nat.lt_ge_cases r (nrem s)) as [L|L].
              ** exists r. now rewrite (v_rem _ _ _ V r L) in X1, X2.
              ** pose proof (handle_new s o ri li h s1 p O E r L) as Z. rewrite Z in X2; [discriminate|].
                 exact (listed_range _ _ (v_objs _ _ _ V) X1).
        -- intros h' i [X|X]; [|eauto]. injection X as <- ->. specialize (CM i). rewrite C, Nat.eqb_refl in CM. lia.
    + destruct (IH s o ri li data O) as [(E2 & y & f & Y1 & Y2)|(s2 & l & E2 & V2 & A1 & A2 & A3 & A4)].
      * left. split; [exact E2|]. exists y, f. split; [now right|exact Y2].
      * right. exists s2, l. split; [exact E2|]. split; [exact V2|]. split; [exact A1|]. split; [|split; [exact A3|exact A4]].
        intros y [<-|Y]; [|now apply A2]. exists None. split; [exact D|discriminate].
    + left. split; [reflexivity|]. exists x, f. split; [now left|exact D].
Qed.

(* The converter gives what was found *)
Lemma converter_found s ri li l h p : objs s -> (forall h p, In (h, p) l -> resolved s ri li h p) -> In (h, p) l ->
  exists f, converter_of l = Some f /\ f h = match p with Some i => Some (as_local i) | None => None end.
Proof.
  intros O A H. eexists. split; [reflexivity|]. cbn beta. destruct (find (fun x => fst x =? h) l) as [[h' p']|] eqn:F.
  - apply find_some in F as (F1 & F2). cbn in F2. apply Z.eqb_eq in F2. subst h'.
    rewrite (resolved_fun s ri li h p p' O (A _ _ H) (A _ _ F1)). now destruct p'.
  - apply (find_none _ _ F) in H. cbn in H. now rewrite Z.eqb_refl in H.
Qed.

(* References are dropped, and possibly objects are gone *)
Record shrinks (s s' : pstate) (o : owner) : Prop := {
  k_objs : objs s';
  k_grows : grows s s';
  k_nrem : nrem s' = nrem s;
  k_prx : prx s' = prx s;
  k_nprx : nprx s' = nprx s;
  k_dead : forall j, r_dead (rem s' j) = r_dead (rem s j);
  k_listed : forall j, r_listed (rem s' j) = true -> r_listed (rem s j) = true;
  k_rapp : forall r, rcnt s' RApp r = rcnt s RApp r;
  k_cnt : forall o' j, o' <> o -> cnt s' o' j = cnt s o' j;
  k_le : forall o' j, (cnt s' o' j <= cnt s o' j)%nat;
  k_quiet : exists l, ptrace s' = ptrace s ++ l /\ forall e, In e l -> (exists p, e = EGone p) \/ (exists p, e = ERelease p)
}.
Lemma shrinks_refl s o : objs s -> shrinks s s o.
Proof. intros O. split; auto using grows_refl. exists []. rewrite app_nil_r. split; auto. intros e []. Qed.
Lemma shrinks_trans a b c o : shrinks a b o -> shrinks b c o -> shrinks a c o.
Proof.
  intros [A1 A2 A3 A4 A5 A6 A7 A8 A9 A10 (l1 & A11 & A12)] [B1 B2 B3 B4 B5 B6 B7 B8 B9 B10 (l2 & B11 & B12)].
  split; auto.
  - eapply grows_trans; eauto.
  - congruence.
  - congruence.
  - congruence.
  - intros j. now rewrite B6, A6.
  - intros j. now rewrite B8, A8.
  - intros o' j N. now rewrite B9, A9.
  - intros o' j. specialize (A10 o' j). specialize (B10 o' j). lia.
  - exists (l1 ++ l2). rewrite B11, A11, app_assoc. split; auto. intros e X. apply in_app_or in X as [X|X]; auto.
Qed.

Lemma runref_listed s o r s' : runref s o r = Ok s' -> ptrace s' = ptrace s /\ forall j, r_listed (rem s' j) = true -> r_listed (rem s j) = true.
Proof.
  unfold runref. destruct (take1 rowner_dec (o, r) (rrefs s)) as [l|]; [|discriminate].
  destruct (ralive (set_rrefs s l) r); intros X; apply ok_same in X; subst s'; cbn; split; auto.
  intros j. destruct (upd_case (rem s) r (r_set_listed (rem s r) false) j) as [[-> ->]|[N ->]]; auto. discriminate.
Qed.

Lemma punref_shrinks s o p : objs s -> In (o, p) (prefs s) ->
  exists s', punref s o p = Ok s' /\ shrinks s s' o /\
    (forall j, cnt s o j = (cnt s' o j + if Nat.eqb p j then 1 else 0)%nat).
Proof.
  intros O H. destruct (punref_objs s o p O H) as (s' & E & O' & G & A1 & A2 & A3 & A4 & A5 & A6 & A7 & A8 & A9 & A10).
  exists s'. split; [exact E|]. split.
  - split; auto.
    + revert E. unfold punref. destruct (take1 owner_dec (o, p) (prefs s)) as [l|]; [|discriminate].
      destruct (palive (set_prefs s l) p); [intros X; apply ok_same in X; now subst s'|].
      intros X. apply runref_listed in X as (_ & X). intros j J. apply X in J. now destruct (p_acquired (prx s p)).
    + intros o' j N. rewrite (A10 o' j). destruct (owner_dec (o, p) (o', j)) as [X|]; [injection X; congruence|lia].
    + intros o' j. rewrite (A10 o' j). lia.
    + revert E. unfold punref. destruct (take1 owner_dec (o, p) (prefs s)) as [l|]; [|discriminate].
      destruct (palive (set_prefs s l) p).
      * intros X; apply ok_same in X; subst s'. exists []. rewrite app_nil_r. split; auto. intros e [].
      * intros X. apply runref_listed in X as (X & _). rewrite X. destruct (p_acquired (prx s p)); cbn [emit ptrace set_prefs].
        -- exists [ERelease p; EGone p]. rewrite <- app_assoc. split; auto. intros e [<-|[<-|[]]]; eauto.
        -- exists [EGone p]. split; auto. intros e [<-|[]]; eauto.
  - intros j. rewrite (A10 o j). destruct (owner_dec (o, p) (o, j)) as [X|X], (Nat.eqb_spec p j); auto; [injection X; congruence|congruence].
Qed.

Lemma release_ok l : forall s o, objs s -> (forall j, (count_occ Nat.eq_dec l j <= cnt s o j)%nat) ->
  exists s', release s o l = Ok s' /\ shrinks s s' o /\ forall j, cnt s o j = (cnt s' o j + count_occ Nat.eq_dec l j)%nat.
Proof.
  induction l as [|p l IH]; intros s o O C; cbn [release].
  - exists s. split; [reflexivity|]. split; [now apply shrinks_refl|]. intros j. cbn. lia.
  - assert (H : In (o, p) (prefs s)).
    { apply cnt_in. specialize (C p). cbn in C. destruct (Nat.eq_dec p p); [lia|contradiction]. }
    destruct (punref_shrinks s o p O H) as (s1 & E & K & D). rewrite E. cbn [bind].
    destruct (IH s1 o (k_objs _ _ _ K)) as (s2 & E2 & K2 & D2).
    + intros j. specialize (C j). specialize (D j). cbn in C.
      destruct (Nat.eq_dec p j), (Nat.eqb_spec p j); try contradiction; lia.
    + exists s2. split; [exact E2|]. split; [eapply shrinks_trans; eauto|]. intros j. rewrite D, D2. cbn.
      destruct (Nat.eq_dec p j), (Nat.eqb_spec p j); try contradiction; lia.
Qed.

Lemma refs_of_count s o j : count_occ Nat.eq_dec (refs_of s o) j = cnt s o j.
Proof.
  unfold refs_of, cnt. induction (prefs s) as [|[o' p] l IH]; [reflexivity|]. cbn [filter].
  change (snd (o', p)) with p. destruct (owner_dec (o', p) (o, p)) as [X|X].
  - injection X as ->. cbn [map snd count_occ]. rewrite IH.
    destruct (Nat.eq_dec p j) as [E|N], (owner_dec (o, p) (o, j)) as [Y|Y]; auto; exfalso; [subst; congruence|injection Y; congruence].
  - cbn [count_occ]. rewrite IH. destruct (owner_dec (o', p) (o, j)) as [Y|Y]; auto. exfalso. injection Y as -> ->. congruence.
Qed.

Lemma release_all s o : objs s ->
  exists s', release s o (refs_of s o) = Ok s' /\ shrinks s s' o /\ forall j, cnt s' o j = 0%nat.
Proof.
  intros O. destruct (release_ok (refs_of s o) s o O) as (s' & E & K & D).
  - intros j. rewrite refs_of_count. lia.
  - exists s'. split; [exact E|]. split; [exact K|]. intros j. specialize (D j). rewrite refs_of_count in D. lia.
Qed.

(* What the proxies stand for doesn't change *)
Lemma set_prx_objs s p v : objs s -> p_ipc v = p_ipc (prx s p) -> p_remote v = p_remote (prx s p) ->
  p_acquired v = p_acquired (prx s p) -> objs (set_prx s p v).
Proof.
  intros [H1 H2 H3 H4 H5 H6 H7 H8 H9 H10 H11 H12 H13] E1 E2 E3.
  assert (F : forall j, p_ipc (upd (prx s) p v j) = p_ipc (prx s j) /\ p_remote (upd (prx s) p v j) = p_remote (prx s j) /\
     p_acquired (upd (prx s) p v j) = p_acquired (prx s j)).
  { intros j. destruct (upd_case (prx s) p v j) as [[-> ->]|[N ->]]; auto. }
  split; unfold palive, ralive, rcnt in *; cbn [set_prx rem nrem prx nprx rrefs prefs ptrace]; auto; intros j; destruct (F j) as (F1 & F2 & F3);
    rewrite ?F2, ?F3; auto.
  - intros h li r p' X. destruct (H8 _ _ _ _ _ X) as (X1 & X2 & X3). destruct (F p') as (Y1 & Y2 & _). rewrite Y1, Y2. auto.
Qed.
Lemma set_prx_grows s p v : p_ipc v = p_ipc (prx s p) -> p_remote v = p_remote (prx s p) -> grows s (set_prx s p v).
Proof.
  intros E1 E2. split; cbn; auto; [|exists []; now rewrite app_nil_r].
  intros j _. destruct (upd_case (prx s) p v j) as [[-> ->]|[N ->]]; auto.
Qed.

Lemma acquire_objs s p : objs s -> palive s p = true ->
  exists s', proxy_acquire s p = Ok s' /\ objs s' /\ grows s s' /\ rem s' = rem s /\ nrem s' = nrem s /\ nprx s' = nprx s /\
    (forall j, palive s' j = palive s j) /\
    (forall o' j, cnt s' o' j = (cnt s o' j + if owner_dec (OKernel, p) (o', j) then 1 else 0)%nat) /\
    (exists l, ptrace s' = ptrace s ++ l /\ forall e, In e l -> e = EAcquire p).
Proof.
  intros O A. destruct (pref_objs s OKernel p O A) as (s1 & E & O1 & G & A1 & A2 & A3 & A4 & A5 & A6 & A7 & A8).
  unfold proxy_acquire. rewrite E. cbn [bind].
  destruct (negb (r_dead (rem s (p_remote (prx s p)))) && negb (p_dropped (prx s p)) && negb (p_acquired (prx s p))) eqn:B.
  - eexists. split; [reflexivity|]. apply andb_true_iff in B as (_ & B). apply negb_true_iff in B. rewrite <- A5 in B.
    replace (prx s p) with (prx s1 p) in * by congruence.
    destruct O1 as [H1 H2 H3 H4 H5 H6 H7 H8 H9 H10 H11 H12 H13].
    assert (F : forall j, p_ipc (upd (prx s1) p (p_set_acquired (prx s1 p)) j) = p_ipc (prx s1 j) /\
       p_remote (upd (prx s1) p (p_set_acquired (prx s1 p)) j) = p_remote (prx s1 j)).
    { intros j. destruct (upd_case (prx s1) p (p_set_acquired (prx s1 p)) j) as [[-> ->]|[N ->]]; auto. }
    assert (AL : palive s1 p = true) by now rewrite A7.
    split; [|split; [|repeat split; auto]].
    + split; unfold palive, ralive, rcnt in *; cbn [set_prx emit rem nrem prx nprx rrefs prefs ptrace]; auto; intros j;
        rewrite ?tally_app; try (destruct (F j) as (F1 & F2); rewrite ?F2; auto).
      * intros h li r p' X. apply in_app_or in X as [X|[X|[]]]; [|discriminate].
        destruct (H8 _ _ _ _ _ X) as (X1 & X2 & X3). destruct (F p') as (Y1 & Y2). rewrite Y1, Y2. auto.
      * rewrite H9. cbn [is_gone tally filter length]. unfold tally. cbn. lia.
      * rewrite H10. unfold tally. cbn. lia.
      * rewrite H11. replace (tally (is_acquire j) [EAcquire p]) with (if Nat.eqb p j then 1%nat else 0%nat)
          by (unfold tally; cbn; now destruct (Nat.eqb p j)).
        destruct (upd_case (prx s1) p (p_set_acquired (prx s1 p)) j) as [[-> ->]|[N ->]].
        -- rewrite Nat.eqb_refl, B. reflexivity.
        -- rewrite (proj2 (Nat.eqb_neq p j)) by congruence. lia.
      * rewrite H12. replace (tally (is_release j) [EAcquire p]) with 0%nat by reflexivity. rewrite Nat.add_0_r.
        destruct (upd_case (prx s1) p (p_set_acquired (prx s1 p)) j) as [[-> ->]|[N ->]]; auto.
        rewrite AL. cbn. now rewrite andb_false_r.
      * intros X. destruct (upd_case (prx s1) p (p_set_acquired (prx s1 p)) j) as [[-> ->]|[N ->]]; auto.
        apply palive_in in AL as (o' & AL). apply H1 in AL. lia.
    + eapply grows_trans; [exact G|]. split; cbn; auto. exists [EAcquire p]; reflexivity.
    + exists [EAcquire p]. cbn. rewrite A4. split; auto. intros e [<-|[]]; auto.
  - exists s1. split; [reflexivity|]. split; [exact O1|]. split; [exact G|]. repeat (split; [solve [auto]|]).
    exists []. rewrite app_nil_r. split; auto. intros e [].
Qed.

(* Remote objects keep their handles, and are not put back into the table *)
Lemma set_rem_objs s r v : objs s -> r_ipc v = r_ipc (rem s r) -> r_handle v = r_handle (rem s r) ->
  (r_listed v = true -> r_listed (rem s r) = true) -> objs (set_rem s r v).
Proof.
  intros [H1 H2 H3 H4 H5 H6 H7 H8 H9 H10 H11 H12 H13] E1 E2 E3.
  assert (F : forall j, r_ipc (upd (rem s) r v j) = r_ipc (rem s j) /\ r_handle (upd (rem s) r v j) = r_handle (rem s j) /\
     (r_listed (upd (rem s) r v j) = true -> r_listed (rem s j) = true)).
  { intros j. destruct (upd_case (rem s) r v j) as [[-> ->]|[N ->]]; auto. }
  split; unfold palive, ralive, rcnt in *; cbn [set_rem rem nrem prx nprx rrefs prefs ptrace]; auto.
  - intros j X. now apply F, H6 in X.
  - intros j1 j2 X1 X2. destruct (F j1) as (F1 & F2 & F3), (F j2) as (F4 & F5 & F6). rewrite F1, F2, F4, F5. auto.
  - intros ri h li j p X. destruct (H8 _ _ _ _ _ X) as (X1 & X2 & X3 & X4 & X5 & X6). destruct (F j) as (F1 & F2 & F3).
    rewrite F1, F2. auto 10.
Qed.
Lemma set_rem_grows s r v : r_ipc v = r_ipc (rem s r) -> r_handle v = r_handle (rem s r) -> grows s (set_rem s r v).
Proof.
  intros E1 E2. split; cbn; auto; [|exists []; now rewrite app_nil_r].
  intros j _. destruct (upd_case (rem s) r v j) as [[-> ->]|[N ->]]; auto.
Qed.
