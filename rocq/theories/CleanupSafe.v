(* Received data and duplicated descriptors: who holds them, and until when *)
From Verif Require Import Base CleanupModel CleanupSpec CleanupProofs.

Definition ncount (c : nat) (l : list nat) : Z := Z.of_nat (count_occ Nat.eq_dec l c).
Definition dcount (fd : Z) (l : list Z) : Z := Z.of_nat (count_occ Z.eq_dec l fd).
Definition is_some_nat (c : nat) (o : option nat) : Z :=
  match o with Some k => if Nat.eqb k c then 1 else 0 | None => 0 end.

Definition msg_holds (c : nat) (x : msg) : Z :=
  zcount (ItContents c) (cleanup_free (m_cleanup x)) + is_some_nat c (m_contents x).
Definition mown (c : nat) (_ : nat) (x : option msg) : Z :=
  match x with Some m => msg_holds c m | None => 0 end.
Definition bown (c : nat) (_ : nat) (x : option nat) : Z := is_some_nat c x.
Definition lown (c : nat) (_ : nat) (x : option (list nat)) : Z :=
  match x with Some l => ncount c l | None => 0 end.

(* The number of holders of the received data *)
Definition own (c : nat) (s : state) : Z :=
  isum (mown c) 0 (msgs s) + isum (bown c) 0 (bufs s) + isum (lown c) 0 (lists s).

Lemma mown_nonneg c k x : 0 <= mown c k x.
Proof.
  unfold mown, msg_holds, is_some_nat. destruct x as [x|]; [|lia]. pose proof (zcount_nonneg (ItContents c) (cleanup_free (m_cleanup x))).
  destruct (m_contents x) as [n|]; [destruct (Nat.eqb n c)|]; lia.
Qed.
Lemma bown_nonneg c k x : 0 <= bown c k x.
Proof. unfold bown, is_some_nat. destruct x as [n|]; [destruct (Nat.eqb n c)|]; lia. Qed.
Lemma lown_nonneg c k x : 0 <= lown c k x.
Proof. unfold lown, ncount. destruct x; lia. Qed.
Lemma bown_some c k n : bown c k (Some n) = if Nat.eqb n c then 1 else 0. Proof. reflexivity. Qed.
Lemma bown_none c k : bown c k None = 0. Proof. reflexivity. Qed.
Lemma lown_some c k l : lown c k (Some l) = ncount c l. Proof. reflexivity. Qed.
Lemma lown_none c k : lown c k None = 0. Proof. reflexivity. Qed.

Lemma own_nonneg c s : 0 <= own c s.
Proof.
  unfold own. pose proof (isum_nonneg (mown c) (msgs s) 0 (mown_nonneg c)).
  pose proof (isum_nonneg (bown c) (bufs s) 0 (bown_nonneg c)).
  pose proof (isum_nonneg (lown c) (lists s) 0 (lown_nonneg c)). lia.
Qed.

Lemma own_same c s s1 : same_but_conts s s1 -> own c s1 = own c s.
Proof. intros (H1 & H2 & H3). unfold own. rewrite H1, H2, H3. reflexivity. Qed.

(* Reference counts are the numbers of holders, plus those references (of E) which are
   being moved *)
Definition counted (E : nat -> Z) (s : state) : Prop :=
  forall c, match at_ (conts s) c with
            | Some k => c_refs k = own c s + E c /\ 1 <= c_refs k
            | None => own c s + E c = 0
            end.

Definition mclaims (m : nat) (fd : Z) (s : state) : Z :=
  match at_ (msgs s) m with Some x => zcount (ItClose fd) (cleanup_free (m_cleanup x)) | None => 0 end.
Definition cclaims (c : nat) (fd : Z) (s : state) : Z :=
  match at_ (conts s) c with Some k => dcount fd (c_fds k) | None => 0 end.
Definition opened_by (s : state) (fd : Z) (o : owner) : Z :=
  match fdt s fd, o with
  | Some (OwMsg a), OwMsg b => if Nat.eqb a b then 1 else 0
  | Some (OwCont a), OwCont b => if Nat.eqb a b then 1 else 0
  | _, _ => 0
  end.

(* Each descriptor of the library is to be closed by the one who opened it *)
Definition claimed (X : nat -> Z -> Z) (s : state) : Prop :=
  (forall m fd, mclaims m fd s + X m fd = opened_by s fd (OwMsg m)) /\
  (forall c fd, cclaims c fd s = opened_by s fd (OwCont c)).

Definition live (c : nat) (s : state) : Z := match at_ (conts s) c with Some _ => 1 | None => 0 end.

Definition bump (E : nat -> Z) (c : nat) (d : Z) : nat -> Z := fun x => E x + (if Nat.eqb x c then d else 0).

Lemma counted_ext E1 E2 s : (forall c, E1 c = E2 c) -> counted E1 s -> counted E2 s.
Proof. intros H C c. specialize (C c). rewrite (H c) in C. exact C. Qed.

Lemma claimed_ext X1 X2 s : (forall m fd, X1 m fd = X2 m fd) -> claimed X1 s -> claimed X2 s.
Proof. intros H [C1 C2]. split; [|exact C2]. intros m fd. rewrite <- H. apply C1. Qed.

Lemma ref_ok E X s c :
  counted E s -> claimed X s -> 1 <= own c s + E c ->
  exists s1, contents_ref s c = Some s1 /\ counted (bump E c 1) s1 /\ claimed X s1 /\
    same_but_conts s s1 /\ (forall k, live k s1 = live k s) /\ length (conts s1) = length (conts s) /\ fdt s1 = fdt s.
Proof.
  intros C [D1 D2] H. pose proof (C c) as Cc. unfold contents_ref.
  destruct (at_ (conts s) c) as [k|] eqn:Ek; [|lia]. eexists. split; [reflexivity|].
  pose proof (at_lt _ _ _ Ek) as Hlt.
  set (s1 := set_conts s _).
  assert (Hat : forall n, at_ (conts s1) n = if Nat.eqb n c then Some {| c_refs := c_refs k + 1; c_fds := c_fds k |} else at_ (conts s) n)
    by (intros n; apply at_set_at; exact Hlt).
  assert (Hs : same_but_conts s s1) by (repeat split). split; [|split; [|split; [exact Hs|split; [|split; [apply length_set_at|reflexivity]]]]].
  - intros n. rewrite Hat, (own_same n _ _ Hs). unfold bump. specialize (C n). destruct (Nat.eqb_spec n c) as [->|Hne].
    + rewrite Ek in C. cbn [c_refs]. lia.
    + rewrite Z.add_0_r. exact C.
  - split; [intros m fd; exact (D1 m fd)|]. intros n fd. specialize (D2 n fd). unfold cclaims in *. rewrite Hat.
    destruct (Nat.eqb_spec n c) as [->|Hne]; [rewrite Ek in D2|]; exact D2.
  - intros n. unfold live. rewrite Hat. destruct (Nat.eqb_spec n c) as [->|Hne]; [rewrite Ek|]; reflexivity.
Qed.

Lemma close_all_owned o fds : forall s s1 t,
  NoDup fds -> (forall fd, In fd fds -> fdt s fd = Some o) -> close_all s fds = (s1, t) ->
  (forall fd, fdt s1 fd = if in_dec Z.eq_dec fd fds then None else fdt s fd) /\
  (forall fd ow, In (fd, ow) (closed t) -> ow = Some o) /\ map fst (closed t) = fds.
Proof.
  induction fds as [|fd r IH]; intros s s1 t Hd Ho; cbn [close_all do_close].
  - intros E. injection E as <- <-. split; [reflexivity|]. split; [intros ? ? []|reflexivity].
  - inversion Hd as [|? ? Hn Hd1]; subst.
    destruct (close_all _ r) as [s2 t2] eqn:E2. intros E. injection E as <- <-.
    assert (Ho1 : forall fd1, In fd1 r -> fdt (set_fdt s (fd_set (fdt s) fd None)) fd1 = Some o).
    { intros fd1 Hin. cbn [set_fdt fdt]. unfold fd_set. destruct (Z.eqb_spec fd1 fd) as [->|Hne]; [contradiction|].
      apply Ho. right. exact Hin. }
    destruct (IH _ _ _ Hd1 Ho1 E2) as (H1 & H2 & H3).
    split; [|split].
    + intros x. rewrite H1. cbn [set_fdt fdt]. unfold fd_set.
      destruct (in_dec Z.eq_dec x r) as [Hi|Hi], (in_dec Z.eq_dec x (fd :: r)) as [Hj|Hj].
      * reflexivity.
      * exfalso. apply Hj. right. exact Hi.
      * destruct Hj as [->|Hj]; [|contradiction]. rewrite Z.eqb_refl. reflexivity.
      * destruct (Z.eqb_spec x fd) as [->|]; [exfalso; apply Hj; left; reflexivity|reflexivity].
    + intros x ow. change (In (x, ow) ((fd, fdt s fd) :: closed t2) -> ow = Some o).
      intros [Hx|Hx]; [|exact (H2 _ _ Hx)]. assert (ow = fdt s fd) by congruence. subst ow. apply Ho. left. reflexivity.
    + change (fd :: map fst (closed t2) = fd :: r). rewrite H3. reflexivity.
Qed.

Lemma dcount_bound_nodup l : (forall fd, dcount fd l <= 1) -> NoDup l.
Proof. intros H. apply (NoDup_count_occ Z.eq_dec). intros x. specialize (H x). unfold dcount in H. lia. Qed.

Lemma dcount_in fd l : In fd l <-> 1 <= dcount fd l.
Proof. unfold dcount. rewrite (count_occ_In Z.eq_dec). lia. Qed.

Lemma opened_by_le s fd o : 0 <= opened_by s fd o <= 1.
Proof.
  unfold opened_by. destruct (fdt s fd) as [[]|]; destruct o; try lia;
    match goal with |- context[Nat.eqb ?a ?b] => destruct (Nat.eqb a b); lia end.
Qed.

Lemma opened_by_cont s fd c : opened_by s fd (OwCont c) = 1 <-> fdt s fd = Some (OwCont c).
Proof.
  unfold opened_by. destruct (fdt s fd) as [[|m|n]|]; try (split; [lia|congruence]).
  destruct (Nat.eqb_spec n c) as [->|]; split; try lia; congruence.
Qed.

Lemma opened_by_msg s fd m : opened_by s fd (OwMsg m) = 1 <-> fdt s fd = Some (OwMsg m).
Proof.
  unfold opened_by. destruct (fdt s fd) as [[|n|n]|]; try (split; [lia|congruence]).
  destruct (Nat.eqb_spec n m) as [->|]; split; try lia; congruence.
Qed.

Definition closes_own (allowed : nat -> Prop) (t : list event) : Prop :=
  forall fd ow, In (fd, ow) (closed t) ->
  (exists m, ow = Some (OwMsg m) /\ allowed m) \/ (exists c, ow = Some (OwCont c) /\ In c (freed t)).

Lemma closes_own_app P t1 t2 : closes_own P t1 -> closes_own P t2 -> closes_own P (t1 ++ t2).
Proof.
  intros H1 H2 fd ow. rewrite closed_app, freed_app, in_app_iff. intros [H|H].
  - destruct (H1 _ _ H) as [Hm|(c & -> & Hc)]; [left; exact Hm|right; exists c; split; [reflexivity|apply in_app_iff; auto]].
  - destruct (H2 _ _ H) as [Hm|(c & -> & Hc)]; [left; exact Hm|right; exists c; split; [reflexivity|apply in_app_iff; auto]].
Qed.

Lemma closes_own_nil P : closes_own P []. Proof. intros fd ow []. Qed.

Definition freed_once (s s1 : state) (t : list event) : Prop :=
  (forall c, ncount c (freed t) + live c s1 = live c s) /\ length (conts s1) = length (conts s).

Lemma freed_once_refl s : freed_once s s []. Proof. split; reflexivity. Qed.

Lemma ncount_app c a b : ncount c (a ++ b) = ncount c a + ncount c b.
Proof. unfold ncount. rewrite count_occ_app. lia. Qed.

Lemma freed_once_trans a b c t1 t2 : freed_once a b t1 -> freed_once b c t2 -> freed_once a c (t1 ++ t2).
Proof.
  intros [H1 H2] [H3 H4]. split; [|congruence]. intros k. rewrite freed_app, ncount_app.
  specialize (H1 k). specialize (H3 k). lia.
Qed.

Lemma unref_ok E X s c P :
  counted E s -> claimed X s -> 1 <= own c s + E c ->
  exists s1 t, contents_unref s c = Some (s1, t) /\ counted (bump E c (-1)) s1 /\ claimed X s1 /\
    same_but_conts s s1 /\ closes_own P t /\ freed_once s s1 t.
Proof.
  intros C [D1 D2] H. pose proof (C c) as Cc. unfold contents_unref.
  destruct (at_ (conts s) c) as [k|] eqn:Ek; [|lia]. pose proof (at_lt _ _ _ Ek) as Hlt.
  destruct (Z.eqb_spec (c_refs k - 1) 0) as [Hz|Hz].
  - destruct (close_all s (c_fds k)) as [s2 t2] eqn:E2.
    destruct (close_all_same _ _ _ _ E2) as (Hs & Hc & _ & Hf).
    assert (Hk : forall fd, dcount fd (c_fds k) = opened_by s fd (OwCont c)).
    { intros fd. specialize (D2 c fd). unfold cclaims in D2. rewrite Ek in D2. exact D2. }
    assert (Hnd : NoDup (c_fds k)).
    { apply dcount_bound_nodup. intros fd. rewrite Hk. pose proof (opened_by_le s fd (OwCont c)). lia. }
    assert (Ho : forall fd, In fd (c_fds k) -> fdt s fd = Some (OwCont c)).
    { intros fd Hin. apply dcount_in in Hin. rewrite Hk in Hin. apply opened_by_cont.
      pose proof (opened_by_le s fd (OwCont c)). lia. }
    destruct (close_all_owned _ _ _ _ _ Hnd Ho E2) as (Hfd & Hcl & _).
    eexists _, _. split; [reflexivity|]. rewrite Hc. set (s1 := set_conts s2 _).
    assert (Hat : forall n, at_ (conts s1) n = if Nat.eqb n c then None else at_ (conts s) n)
      by (intros n; apply at_set_at; exact Hlt).
    assert (Hs1 : same_but_conts s s1) by exact Hs.
    split; [|split; [|split; [exact Hs1|split]]].
    + intros n. rewrite Hat, (own_same n _ _ Hs1). unfold bump. specialize (C n). destruct (Nat.eqb_spec n c) as [->|Hne].
      * rewrite Ek in C. lia.
      * rewrite Z.add_0_r. exact C.
    + assert (Hop : forall fd o, opened_by s1 fd o = if in_dec Z.eq_dec fd (c_fds k) then 0 else opened_by s fd o).
      { intros fd o. unfold opened_by. change (fdt s1 fd) with (fdt s2 fd). rewrite Hfd.
        destruct (in_dec Z.eq_dec fd (c_fds k)); reflexivity. }
      split.
      * intros m fd. rewrite Hop. replace (mclaims m fd s1) with (mclaims m fd s)
          by (unfold mclaims; rewrite (proj1 Hs1); reflexivity).
        rewrite D1. destruct (in_dec Z.eq_dec fd (c_fds k)) as [Hin|]; [|reflexivity].
        unfold opened_by. rewrite (Ho fd Hin). reflexivity.
      * intros n fd. rewrite Hop. unfold cclaims. rewrite Hat.
        destruct (Nat.eqb_spec n c) as [->|Hne].
        -- destruct (in_dec Z.eq_dec fd (c_fds k)) as [Hin|Hin]; [reflexivity|].
           rewrite <- Hk. assert (Hx : ~ 1 <= dcount fd (c_fds k)) by (intros Hx; apply Hin, dcount_in; exact Hx).
           unfold dcount in *. lia.
        -- specialize (D2 n fd). unfold cclaims in D2. rewrite D2.
           destruct (in_dec Z.eq_dec fd (c_fds k)) as [Hin|]; [|reflexivity].
           unfold opened_by. rewrite (Ho fd Hin). destruct (Nat.eqb_spec c n); [congruence|reflexivity].
    + intros fd ow. rewrite closed_app, freed_app. cbn [closed flat_map app]. rewrite app_nil_r. intros Hin.
      right. exists c. split; [exact (Hcl _ _ Hin)|]. apply in_app_iff. right. left. reflexivity.
    + split; [|unfold s1; cbn [set_conts conts]; apply length_set_at].
      intros n. rewrite freed_app, Hf. cbn [freed flat_map app]. unfold live. rewrite Hat.
      unfold ncount. cbn [count_occ]. destruct (Nat.eq_dec c n) as [->|Hne].
      * rewrite Nat.eqb_refl, Ek. reflexivity.
      * destruct (Nat.eqb_spec n c); [congruence|]. reflexivity.
  - eexists _, _. split; [reflexivity|]. set (s1 := set_conts s _).
    assert (Hat : forall n, at_ (conts s1) n = if Nat.eqb n c then Some {| c_refs := c_refs k - 1; c_fds := c_fds k |} else at_ (conts s) n)
      by (intros n; apply at_set_at; exact Hlt).
    assert (Hs : same_but_conts s s1) by (repeat split).
    split; [|split; [|split; [exact Hs|split; [apply closes_own_nil|]]]].
    + intros n. rewrite Hat, (own_same n _ _ Hs). unfold bump. specialize (C n). destruct (Nat.eqb_spec n c) as [->|Hne].
      * rewrite Ek in C. cbn [c_refs]. lia.
      * rewrite Z.add_0_r. exact C.
    + split; [intros m fd; exact (D1 m fd)|]. intros n fd. specialize (D2 n fd). unfold cclaims in *. rewrite Hat.
      destruct (Nat.eqb_spec n c) as [->|Hne]; [rewrite Ek in D2|]; exact D2.
    + split; [|apply length_set_at]. intros n. unfold live. rewrite Hat.
      destruct (Nat.eqb_spec n c) as [->|Hne]; [rewrite Ek|]; reflexivity.
Qed.

Lemma own_at_least E c s : 0 <= E c -> 1 <= E c \/ 1 <= own c s -> 1 <= own c s + E c.
Proof. pose proof (own_nonneg c s). lia. Qed.

(* Items of the message m, which aren't registered any more *)
Lemma run_items_ok m l : forall E X s,
  counted E s -> claimed X s ->
  (forall c, zcount (ItContents c) l <= E c) ->
  (forall fd, zcount (ItClose fd) l <= X m fd) ->
  exists s1 t, run_items s l = Some (s1, t) /\
    counted (fun c => E c - zcount (ItContents c) l) s1 /\
    claimed (fun n fd => X n fd - if Nat.eqb n m then zcount (ItClose fd) l else 0) s1 /\
    same_but_conts s s1 /\ closes_own (eq m) t /\ freed_once s s1 t.
Proof.
  induction l as [|i l IH]; intros E X s C D HE HX; cbn [run_items].
  - exists s, []. split; [reflexivity|]. split; [eapply counted_ext; [|exact C]; intros; rewrite zcount_nil; lia|].
    split; [eapply claimed_ext; [|exact D]; intros n fd; rewrite zcount_nil; destruct (Nat.eqb n m); lia|].
    split; [apply sbc_refl|]. split; [apply closes_own_nil|apply freed_once_refl].
  - assert (Hi : exists s1 t1, run_item s i = Some (s1, t1) /\
        counted (fun c => E c - (if item_dec i (ItContents c) then 1 else 0)) s1 /\
        claimed (fun n fd => X n fd - if Nat.eqb n m then (if item_dec i (ItClose fd) then 1 else 0) else 0) s1 /\
        same_but_conts s s1 /\ closes_own (eq m) t1 /\ freed_once s s1 t1).
    { destruct i as [d p|fd|c|ob|p]; cbn [run_item].
      1,4,5: eexists s, _; (split; [reflexivity|]);
        (split; [eapply counted_ext; [|exact C]; intros c0; destruct (item_dec _ _); [discriminate|lia]|]);
        (split; [eapply claimed_ext; [|exact D]; intros n fd0; destruct (item_dec _ _); [discriminate|destruct (Nat.eqb n m); lia]|]);
        (split; [apply sbc_refl|]); (split; [intros ? ? []|split; reflexivity]).
      - specialize (HX fd). rewrite zcount_cons in HX. destruct (item_dec (ItClose fd) (ItClose fd)) as [_|]; [|congruence].
        pose proof (zcount_nonneg (ItClose fd) l) as Hnn.
        destruct D as [D1 D2]. pose proof (D1 m fd) as Dm.
        assert (Hmc : 0 <= mclaims m fd s) by (unfold mclaims; destruct (at_ (msgs s) m); [apply zcount_nonneg|lia]).
        pose proof (opened_by_le s fd (OwMsg m)) as Hle.
        assert (Ho : fdt s fd = Some (OwMsg m)) by (apply opened_by_msg; lia).
        eexists _, _. split; [reflexivity|].
        split; [intros c0; pose proof (C c0) as Cc; cbn [do_close fst set_fdt conts];
                destruct (item_dec _ _); [discriminate|]; rewrite Z.sub_0_r; exact Cc|].
        assert (Hop : forall fd1 o, opened_by (set_fdt s (fd_set (fdt s) fd None)) fd1 o =
                  if fd1 =? fd then 0 else opened_by s fd1 o).
        { intros fd1 o. unfold opened_by. cbn [set_fdt fdt]. unfold fd_set. destruct (fd1 =? fd); reflexivity. }
        split; [split|].
        + intros n fd1. rewrite Hop. change (mclaims n fd1 (set_fdt s (fd_set (fdt s) fd None))) with (mclaims n fd1 s).
          specialize (D1 n fd1). destruct (Z.eqb_spec fd1 fd) as [->|Hne].
          * destruct (item_dec (ItClose fd) (ItClose fd)) as [_|]; [|congruence].
            unfold opened_by in D1. rewrite Ho in D1. rewrite (Nat.eqb_sym m n) in D1. destruct (Nat.eqb n m); lia.
          * destruct (item_dec (ItClose fd) (ItClose fd1)) as [He|_]; [congruence|]. destruct (Nat.eqb n m); lia.
        + intros n fd1. rewrite Hop. change (cclaims n fd1 (set_fdt s (fd_set (fdt s) fd None))) with (cclaims n fd1 s).
          rewrite D2. destruct (Z.eqb_spec fd1 fd) as [->|Hne]; [|reflexivity]. unfold opened_by. rewrite Ho. reflexivity.
        + split; [repeat split|]. split; [|split; reflexivity].
          intros fd1 ow. change (In (fd1, ow) [(fd, fdt s fd)] -> (exists m0, ow = Some (OwMsg m0) /\ m = m0) \/
            (exists c, ow = Some (OwCont c) /\ In c [])). intros [Hx|[]].
          left. exists m. split; [congruence|reflexivity].
      - specialize (HE c). rewrite zcount_cons in HE. destruct (item_dec (ItContents c) (ItContents c)) as [_|]; [|congruence].
        pose proof (zcount_nonneg (ItContents c) l) as Hnn.
        destruct (unref_ok E X s c (eq m) C D) as (s1 & t1 & E1 & C1 & D1 & S1 & K1 & F1).
        { pose proof (own_nonneg c s). lia. }
        rewrite E1. eexists s1, _. split; [reflexivity|].
        split; [eapply counted_ext; [|exact C1]; intros c0; unfold bump; destruct (Nat.eqb_spec c0 c) as [->|Hne];
                destruct (item_dec _ _) as [He|He]; try congruence; lia|].
        split; [eapply claimed_ext; [|exact D1]; intros n fd0; destruct (item_dec _ _); [discriminate|destruct (Nat.eqb n m); lia]|].
        split; [exact S1|]. split; [exact K1|exact F1]. }
    destruct Hi as (s1 & t1 & E1 & C1 & D1 & S1 & K1 & F1). rewrite E1.
    destruct (IH _ _ _ C1 D1) as (s2 & t2 & E2 & C2 & D2 & S2 & K2 & F2).
    { intros c. specialize (HE c). rewrite zcount_cons in HE. lia. }
    { intros fd. specialize (HX fd). rewrite zcount_cons in HX. rewrite Nat.eqb_refl. lia. }
    rewrite E2. exists s2, (t1 ++ t2). split; [reflexivity|].
    split; [eapply counted_ext; [|exact C2]; intros c; cbn beta; rewrite zcount_cons; lia|].
    split; [eapply claimed_ext; [|exact D2]; intros n fd; cbn beta; rewrite zcount_cons; destruct (Nat.eqb n m); lia|].
    split; [eapply sbc_trans; eassumption|]. split; [apply closes_own_app; assumption|eapply freed_once_trans; eassumption].
Qed.

Definition mcl (fd : Z) (x : option msg) : Z :=
  match x with Some m => zcount (ItClose fd) (cleanup_free (m_cleanup m)) | None => 0 end.

Lemma own_put c s m x y : at_ (msgs s) m = Some x ->
  own c (put_msg s m y) = own c s - msg_holds c x + mown c m y.
Proof.
  intros H. unfold own, put_msg. cbn [set_msgs msgs bufs lists].
  rewrite (isum_change (mown c) (mown c) (msgs s) 0 m (Some x) y (at_nth _ _ _ H)) by reflexivity.
  change (0 + m)%nat with m. change (mown c m (Some x)) with (msg_holds c x). lia.
Qed.

Lemma put_ok E X s m x y : at_ (msgs s) m = Some x -> counted E s -> claimed X s ->
  counted (fun c => E c + msg_holds c x - mown c m y) (put_msg s m y) /\
  claimed (fun n fd => X n fd + if Nat.eqb n m then mcl fd (Some x) - mcl fd y else 0) (put_msg s m y).
Proof.
  intros H C [D1 D2]. split.
  - intros c. rewrite (own_put c s m x y H). specialize (C c). cbn [put_msg set_msgs conts].
    destruct (at_ (conts s) c); lia.
  - split; [|exact D2]. intros n fd. specialize (D1 n fd).
    change (opened_by (put_msg s m y) fd (OwMsg n)) with (opened_by s fd (OwMsg n)). rewrite <- D1.
    unfold mclaims, put_msg. cbn [set_msgs msgs]. rewrite at_set_at by (eapply at_lt; exact H).
    destruct (Nat.eqb_spec n m) as [->|Hne]; [|lia]. rewrite H. cbn [mcl]. unfold mcl. destruct y; lia.
Qed.

Definition safe (s : state) : Prop := counted (fun _ => 0) s /\ claimed (fun _ _ => 0) s.

Definition below (c : nat) (s : state) : Z := if Nat.ltb c (length (conts s)) then 1 else 0.

Definition tally (s s1 : state) (t : list event) : Prop :=
  forall c, ncount c (freed t) + live c s1 - live c s = below c s1 - below c s.

Lemma tally_freed s s1 t : freed_once s s1 t -> tally s s1 t.
Proof. intros [H1 H2] c. specialize (H1 c). unfold below. rewrite H2. lia. Qed.

Lemma tally_same s s1 : conts s1 = conts s -> tally s s1 [].
Proof. intros H c. unfold below, live. rewrite H. cbn. lia. Qed.

Definition closes_well (o : op) (t : list event) : Prop :=
  forall fd ow, In (fd, ow) (closed t) ->
  (ow = Some OwApp /\ o = OAppClose fd) \/
  (exists m, ow = Some (OwMsg m) /\ (o = OUnref m \/ exists b l, o = OSetContents m b l)) \/
  (exists c, ow = Some (OwCont c) /\ In c (freed t)).

Lemma closes_well_own o (P : nat -> Prop) t :
  (forall m, P m -> o = OUnref m \/ exists b l, o = OSetContents m b l) -> closes_own P t -> closes_well o t.
Proof.
  intros HP H fd ow Hin. right. destruct (H _ _ Hin) as [(m & -> & Hm)|Hc]; [left|right; exact Hc].
  exists m. auto.
Qed.

Lemma closes_well_nil o : closes_well o []. Proof. intros fd ow []. Qed.

Lemma closes_own_none P t : closes_own (fun _ => False) t -> closes_own P t.
Proof. intros H fd ow Hin. destruct (H _ _ Hin) as [(m & _ & [])|Hc]. right. exact Hc. Qed.

Lemma ref_all_ok l : forall E X s, counted E s -> claimed X s ->
  (forall c, 0 <= E c) -> (forall c, In c l -> 1 <= own c s) ->
  exists s1, ref_all s l = Some s1 /\ counted (fun c => E c + ncount c l) s1 /\ claimed X s1 /\
    same_but_conts s s1 /\ (forall k, live k s1 = live k s) /\ length (conts s1) = length (conts s).
Proof.
  induction l as [|c l IH]; intros E X s C D HE Hl; cbn [ref_all].
  - exists s. split; [reflexivity|]. split; [eapply counted_ext; [|exact C]; intros; unfold ncount; cbn; lia|].
    split; [exact D|]. split; [apply sbc_refl|]. auto.
  - destruct (ref_ok E X s c C D) as (s1 & E1 & C1 & D1 & S1 & L1 & N1 & _).
    { specialize (Hl c (or_introl eq_refl)). specialize (HE c). lia. }
    rewrite E1. destruct (IH _ _ _ C1 D1) as (s2 & E2 & C2 & D2 & S2 & L2 & N2).
    { intros k. unfold bump. specialize (HE k). destruct (Nat.eqb k c); lia. }
    { intros k Hk. rewrite (own_same k _ _ S1). apply Hl. right. exact Hk. }
    exists s2. split; [exact E2|]. split.
    + eapply counted_ext; [|exact C2]. intros k. cbn beta. unfold bump, ncount. cbn [count_occ].
      destruct (Nat.eqb_spec k c) as [->|Hne]; destruct (Nat.eq_dec _ _); try congruence; lia.
    + split; [exact D2|]. split; [eapply sbc_trans; eassumption|]. split; [|congruence].
      intros k. rewrite L2. apply L1.
Qed.

Lemma unref_all_ok l : forall E X s, counted E s -> claimed X s ->
  (forall c, ncount c l <= E c) ->
  exists s1 t, unref_all s l = Some (s1, t) /\ counted (fun c => E c - ncount c l) s1 /\ claimed X s1 /\
    same_but_conts s s1 /\ closes_own (fun _ => False) t /\ freed_once s s1 t.
Proof.
  induction l as [|c l IH]; intros E X s C D HE; cbn [unref_all].
  - exists s, []. split; [reflexivity|]. split; [eapply counted_ext; [|exact C]; intros; unfold ncount; cbn; lia|].
    split; [exact D|]. split; [apply sbc_refl|]. split; [apply closes_own_nil|apply freed_once_refl].
  - assert (Hn : forall k, ncount k (c :: l) = (if Nat.eqb k c then 1 else 0) + ncount k l).
    { intros k. unfold ncount. cbn [count_occ]. destruct (Nat.eq_dec c k) as [->|Hne].
      - rewrite Nat.eqb_refl. lia.
      - destruct (Nat.eqb_spec k c); [congruence|lia]. }
    assert (Hnn : forall k, 0 <= ncount k l) by (intros; unfold ncount; lia).
    destruct (unref_ok E X s c (fun _ => False) C D) as (s1 & t1 & E1 & C1 & D1 & S1 & K1 & F1).
    { specialize (HE c). rewrite Hn, Nat.eqb_refl in HE. specialize (Hnn c). pose proof (own_nonneg c s). lia. }
    rewrite E1. destruct (IH _ _ _ C1 D1) as (s2 & t2 & E2 & C2 & D2 & S2 & K2 & F2).
    { intros k. specialize (HE k). rewrite Hn in HE. unfold bump. destruct (Nat.eqb k c); lia. }
    rewrite E2. exists s2, (t1 ++ t2). split; [reflexivity|]. split.
    + eapply counted_ext; [|exact C2]. intros k. cbn beta. unfold bump. rewrite Hn. destruct (Nat.eqb k c); lia.
    + split; [exact D2|]. split; [eapply sbc_trans; eassumption|].
      split; [apply closes_own_app; assumption|eapply freed_once_trans; eassumption].
Qed.

Lemma holds_of_buf s b c : at_ (bufs s) b = Some c -> 1 <= own c s.
Proof.
  intros H. pose proof (isum_ge (bown c) (bufs s) 0 b (Some c) (bown_nonneg c) (at_nth _ _ _ H)) as H1.
  unfold bown at 1 in H1. cbn [is_some_nat] in H1. rewrite Nat.eqb_refl in H1. unfold own.
  pose proof (isum_nonneg (mown c) (msgs s) 0 (mown_nonneg c)).
  pose proof (isum_nonneg (lown c) (lists s) 0 (lown_nonneg c)). lia.
Qed.

Lemma holds_of_list s l cs c : at_ (lists s) l = Some cs -> In c cs -> 1 <= own c s.
Proof.
  intros H Hin. pose proof (isum_ge (lown c) (lists s) 0 l (Some cs) (lown_nonneg c) (at_nth _ _ _ H)) as H1.
  cbn [lown] in H1. apply (count_occ_In Nat.eq_dec) in Hin. unfold ncount in H1. unfold own.
  pose proof (isum_nonneg (mown c) (msgs s) 0 (mown_nonneg c)).
  pose proof (isum_nonneg (bown c) (bufs s) 0 (bown_nonneg c)). lia.
Qed.

Lemma holds_of_msg s m x c : at_ (msgs s) m = Some x -> msg_holds c x <= own c s.
Proof.
  intros H. pose proof (isum_ge (mown c) (msgs s) 0 m (Some x) (mown_nonneg c) (at_nth _ _ _ H)) as H1.
  cbn [mown] in H1. unfold own.
  pose proof (isum_nonneg (bown c) (bufs s) 0 (bown_nonneg c)).
  pose proof (isum_nonneg (lown c) (lists s) 0 (lown_nonneg c)). lia.
Qed.

Lemma zcount_locals_cl fd locals : forall cl,
  zcount (ItClose fd) (cleanup_free (fold_left (fun cl o => cleanup_add cl (Some (ItLocal o))) locals cl)) =
  zcount (ItClose fd) (cleanup_free cl).
Proof.
  induction locals as [|o r IH]; intros cl; cbn [fold_left]; [reflexivity|]. rewrite IH.
  destruct cl as [l|]; cbn [cleanup_add cleanup_free]; rewrite ?zcount_app, zcount_cons, zcount_nil;
    (destruct (item_dec _ _); [discriminate|]); rewrite ?zcount_nil; lia.
Qed.

Lemma zcount_locals_ct c locals : forall cl,
  zcount (ItContents c) (cleanup_free (fold_left (fun cl o => cleanup_add cl (Some (ItLocal o))) locals cl)) =
  zcount (ItContents c) (cleanup_free cl).
Proof.
  induction locals as [|o r IH]; intros cl; cbn [fold_left]; [reflexivity|]. rewrite IH.
  destruct cl as [l|]; cbn [cleanup_add cleanup_free]; rewrite ?zcount_app, zcount_cons, zcount_nil;
    (destruct (item_dec _ _); [discriminate|]); rewrite ?zcount_nil; lia.
Qed.

Lemma zcount_add i cl x : zcount i (cleanup_free (cleanup_add cl (Some x))) =
  zcount i (cleanup_free cl) + if item_dec x i then 1 else 0.
Proof.
  destruct cl as [l|]; cbn [cleanup_add cleanup_free]; rewrite ?zcount_app, zcount_cons, zcount_nil; rewrite ?zcount_nil; lia.
Qed.

Lemma append_ok E X s x b locals :
  counted E s -> claimed X s -> (forall c, b = Some c -> 1 <= own c s + E c) ->
  exists s1 x1, append_contents s x b locals = Some (s1, x1) /\
    counted (fun c => E c + is_some_nat c b) s1 /\ claimed X s1 /\ same_but_conts s s1 /\
    (forall c, zcount (ItContents c) (cleanup_free (m_cleanup x1)) =
               zcount (ItContents c) (cleanup_free (m_cleanup x)) + is_some_nat c b) /\
    (forall fd, zcount (ItClose fd) (cleanup_free (m_cleanup x1)) = zcount (ItClose fd) (cleanup_free (m_cleanup x))) /\
    m_contents x1 = m_contents x /\
    (forall k, live k s1 = live k s) /\ length (conts s1) = length (conts s).
Proof.
  intros C D Hb. unfold append_contents. destruct b as [c|].
  - destruct (ref_ok E X s c C D (Hb c eq_refl)) as (s1 & E1 & C1 & D1 & S1 & L1 & N1 & _). rewrite E1.
    eexists s1, _. split; [reflexivity|]. split.
    { eapply counted_ext; [|exact C1]. intros k. unfold bump. cbn [is_some_nat]. rewrite Nat.eqb_sym. reflexivity. }
    split; [exact D1|]. split; [exact S1|]. cbn [with_cleanup m_cleanup m_contents]. split.
    { intros k. rewrite zcount_locals_ct, zcount_add. cbn [is_some_nat]. destruct (item_dec _ _) as [He|He];
        destruct (Nat.eqb_spec c k); try congruence; lia. }
    split.
    { intros fd. rewrite zcount_locals_cl, zcount_add. destruct (item_dec _ _); [discriminate|lia]. }
    auto.
  - exists s, x. split; [reflexivity|]. split; [eapply counted_ext; [|exact C]; intros; cbn; lia|].
    split; [exact D|]. split; [apply sbc_refl|]. split; [intros; cbn; lia|]. auto.
Qed.

Lemma add_item_safe s m it : counted (fun _ => 0) s ->
  claimed (fun n fd => if Nat.eqb n m then (match it with Some y => if item_dec y (ItClose fd) then 1 else 0 | None => 0 end) else 0) s ->
  (forall c, it <> Some (ItContents c)) ->
  match add_item s m it with
  | Done s1 t => safe s1 /\ t = [] /\ conts s1 = conts s
  | Misuse => True
  | Crash => False
  end.
Proof.
  intros C D Hn. unfold add_item. destruct (at_ (msgs s) m) as [x|] eqn:Ex; [|exact I].
  destruct (put_ok _ _ _ _ _ (Some (with_cleanup x (cleanup_add (m_cleanup x) it))) Ex C D) as [C1 D1].
  split; [|auto]. split.
  - eapply counted_ext; [|exact C1]. intros c. cbn beta. cbn [mown]. unfold msg_holds. cbn [with_cleanup m_cleanup m_contents].
    destruct it as [y|]; [|cbn [cleanup_add]; lia]. rewrite zcount_add.
    destruct (item_dec y (ItContents c)) as [->|]; [destruct (Hn c); reflexivity|]. lia.
  - eapply claimed_ext; [|exact D1]. intros n fd. cbn beta. unfold mcl. cbn [with_cleanup m_cleanup].
    destruct it as [y|]; [rewrite zcount_add|cbn [cleanup_add]]; destruct (Nat.eqb n m); lia.
Qed.

Lemma set_at_twice {A} (l : list A) : forall n x y, set_at (set_at l n x) n y = set_at l n y.
Proof. induction l as [|z l IH]; intros [|n] x y; cbn [set_at]; try reflexivity. rewrite IH. reflexivity. Qed.

Lemma fold_fds n fds : forall t fd,
  fold_left (fun t fd => fd_set t fd (Some (OwCont n))) fds t fd =
  if in_dec Z.eq_dec fd fds then Some (OwCont n) else t fd.
Proof.
  induction fds as [|x r IH]; intros t fd; cbn [fold_left]; [reflexivity|]. rewrite IH. unfold fd_set.
  destruct (in_dec Z.eq_dec fd r) as [Hi|Hi], (in_dec Z.eq_dec fd (x :: r)) as [Hj|Hj].
  - reflexivity.
  - exfalso. apply Hj. right. exact Hi.
  - destruct Hj as [->|Hj]; [|contradiction]. rewrite Z.eqb_refl. reflexivity.
  - destruct (Z.eqb_spec fd x) as [->|]; [exfalso; apply Hj; left; reflexivity|reflexivity].
Qed.

Lemma all_different_nodup l : all_different l = true -> NoDup l.
Proof.
  induction l as [|x l IH]; cbn [all_different]; intros H; [constructor|].
  apply andb_true_iff in H. destruct H as [H1 H2]. constructor; [|apply IH; exact H2].
  intros Hin. apply negb_true_iff in H1. assert (existsb (Z.eqb x) l = true); [|congruence].
  apply existsb_exists. exists x. split; [exact Hin|apply Z.eqb_refl].
Qed.

Lemma step_safe s o : safe s ->
  match step s o with
  | Done s1 t => safe s1 /\ closes_well o t /\ tally s s1 t
  | Misuse => True
  | Crash => False
  end.
Proof.
  intros [C D]. destruct o as [|m|m|m d p|m d p|m p|m fd dup|m b locals|m b locals|fds|b|b|l b|l|l|fd|fd]; cbn [step].
  - (* ONew *)
    split; [|split; [apply closes_well_nil|apply tally_same; reflexivity]]. split.
    + intros c. specialize (C c). unfold own in *. cbn [set_msgs msgs bufs lists conts]. rewrite isum_app.
      cbn [isum mown]. unfold msg_holds. cbn [m_cleanup m_contents cleanup_free is_some_nat]. rewrite zcount_nil.
      destruct (at_ (conts s) c); lia.
    + destruct D as [D1 D2]. split; [|exact D2]. intros m fd. specialize (D1 m fd).
      change (opened_by (set_msgs s (msgs s ++ [Some {| m_refs := 1; m_cleanup := None; m_contents := None |}])) fd (OwMsg m))
        with (opened_by s fd (OwMsg m)). rewrite <- D1. unfold mclaims. cbn [set_msgs msgs]. rewrite at_app.
      destruct (Nat.eqb_spec m (length (msgs s))) as [->|]; [|reflexivity].
      unfold at_. rewrite (proj2 (nth_error_None (msgs s) (length (msgs s)))) by lia. reflexivity.
  - (* ORef *) destruct (at_ (msgs s) m) as [x|] eqn:Ex; [|exact I].
    destruct (put_ok _ _ _ _ _ (Some {| m_refs := m_refs x + 1; m_cleanup := m_cleanup x; m_contents := m_contents x |}) Ex C D) as [C1 D1].
    split; [|split; [apply closes_well_nil|apply tally_same; reflexivity]]. split.
    + eapply counted_ext; [|exact C1]. intros c. cbn [mown]. unfold msg_holds. cbn [m_cleanup m_contents]. lia.
    + eapply claimed_ext; [|exact D1]. intros n fd. cbn [mcl m_cleanup]. destruct (Nat.eqb n m); lia.
  - (* OUnref *) destruct (at_ (msgs s) m) as [x|] eqn:Ex; [|exact I].
    destruct (m_refs x - 1 =? 0).
    + destruct (put_ok _ _ _ _ _ None Ex C D) as [C1 D1].
      destruct (run_items_ok m (cleanup_free (m_cleanup x)) _ _ _ C1 D1) as (s2 & t2 & E2 & C2 & D2 & S2 & K2 & F2).
      { intros c. cbn [mown]. unfold msg_holds, is_some_nat. destruct (m_contents x) as [k|]; [destruct (Nat.eqb k c)|]; lia. }
      { intros fd. rewrite Nat.eqb_refl. cbn [mcl]. lia. }
      rewrite E2.
      assert (HD : claimed (fun _ _ => 0) s2).
      { eapply claimed_ext; [|exact D2]. intros n fd. cbn beta. cbn [mcl]. destruct (Nat.eqb n m); lia. }
      assert (HP : forall m0, m = m0 -> OUnref m = OUnref m0 \/ exists b l, OUnref m = OSetContents m0 b l)
        by (intros m0 <-; left; reflexivity).
      destruct (m_contents x) as [c|] eqn:Ec.
      * destruct (unref_ok _ _ _ c (eq m) C2 HD) as (s3 & t3 & E3 & C3 & D3 & S3 & K3 & F3).
        { cbn beta. cbn [mown]. unfold msg_holds. rewrite Ec. cbn [is_some_nat]. rewrite Nat.eqb_refl.
          pose proof (own_nonneg c s2). lia. }
        rewrite E3. split; [split; [|exact D3]|split].
        -- eapply counted_ext; [|exact C3]. intros k. unfold bump. cbn [mown]. unfold msg_holds. rewrite Ec.
           cbn [is_some_nat]. rewrite (Nat.eqb_sym c k). destruct (Nat.eqb k c); lia.
        -- apply (closes_well_own _ (eq m)); [exact HP|]. apply closes_own_app; assumption.
        -- apply tally_freed. eapply freed_once_trans; eassumption.
      * split; [split; [|exact HD]|split].
        -- eapply counted_ext; [|exact C2]. intros k. cbn beta. cbn [mown]. unfold msg_holds. rewrite Ec. cbn [is_some_nat]. lia.
        -- apply (closes_well_own _ (eq m)); [exact HP|exact K2].
        -- apply tally_freed. exact F2.
    + destruct (put_ok _ _ _ _ _ (Some {| m_refs := m_refs x - 1; m_cleanup := m_cleanup x; m_contents := m_contents x |}) Ex C D) as [C1 D1].
      split; [|split; [apply closes_well_nil|apply tally_same; reflexivity]]. split.
      * eapply counted_ext; [|exact C1]. intros c. cbn [mown]. unfold msg_holds. cbn [m_cleanup m_contents]. lia.
      * eapply claimed_ext; [|exact D1]. intros n fd. cbn [mcl m_cleanup]. destruct (Nat.eqb n m); lia.
  - (* OCleanup *) destruct m as [m|].
    + pose proof (add_item_safe s m (match d with Some f => Some (ItRun f p) | None => None end) C) as H.
      destruct (add_item s m _) as [s1 t| |].
      * destruct H as (H1 & -> & H3); [|intros c; destruct d; discriminate|].
        { eapply claimed_ext; [|exact D]. intros n fd. destruct d; [destruct (item_dec _ _); [discriminate|]|]; destruct (Nat.eqb n m); reflexivity. }
        split; [exact H1|]. split; [apply closes_well_nil|apply tally_same; exact H3].
      * exact I.
      * apply H; [|intros c; destruct d; discriminate].
        eapply claimed_ext; [|exact D]. intros n fd. destruct d; [destruct (item_dec _ _); [discriminate|]|]; destruct (Nat.eqb n m); reflexivity.
    + split; [split; assumption|]. split; [destruct d; intros fd ow []|]. intros c. destruct d; cbn; lia.
  - (* OWriterCleanup *) destruct m as [m|].
    + pose proof (add_item_safe s m (match d with Some f => Some (ItRun f p) | None => None end) C) as H.
      destruct (add_item s m _) as [s1 t| |].
      * destruct H as (H1 & -> & H3); [|intros c; destruct d; discriminate|].
        { eapply claimed_ext; [|exact D]. intros n fd. destruct d; [destruct (item_dec _ _); [discriminate|]|]; destruct (Nat.eqb n m); reflexivity. }
        split; [exact H1|]. split; [apply closes_well_nil|apply tally_same; exact H3].
      * exact I.
      * apply H; [|intros c; destruct d; discriminate].
        eapply claimed_ext; [|exact D]. intros n fd. destruct d; [destruct (item_dec _ _); [discriminate|]|]; destruct (Nat.eqb n m); reflexivity.
    + split; [split; assumption|]. split; [apply closes_well_nil|apply tally_same; reflexivity].
  - (* OAlloc *)
    pose proof (add_item_safe s m (Some (ItFree p)) C) as H.
    assert (HD : claimed (fun n fd => if Nat.eqb n m then (if item_dec (ItFree p) (ItClose fd) then 1 else 0) else 0) s).
    { eapply claimed_ext; [|exact D]. intros n fd. destruct (item_dec _ _); [discriminate|]. destruct (Nat.eqb n m); reflexivity. }
    destruct (add_item s m _) as [s1 t| |].
    + destruct H as (H1 & -> & H3); [exact HD|discriminate|].
      split; [exact H1|]. split; [apply closes_well_nil|apply tally_same; exact H3].
    + exact I.
    + apply H; [exact HD|discriminate].
  - (* OAppendFd *) destruct dup as [d|].
    + destruct (fdt s d) eqn:Ed; [exact I|].
      set (s0 := set_fdt s (fd_set (fdt s) d (Some (OwMsg m)))).
      assert (Hop : forall fd1 o, opened_by s0 fd1 o = opened_by s fd1 o +
                if fd1 =? d then (match o with OwMsg n => if Nat.eqb n m then 1 else 0 | _ => 0 end) else 0).
      { intros fd1 o. unfold opened_by, s0. cbn [set_fdt fdt]. unfold fd_set.
        destruct (Z.eqb_spec fd1 d) as [->|]; [|lia]. rewrite Ed. destruct o as [|n|n]; try lia.
        rewrite (Nat.eqb_sym m n). destruct (Nat.eqb n m); lia. }
      pose proof (add_item_safe s0 m (Some (ItClose d)) C) as H.
      assert (HD : claimed (fun n fd0 => if Nat.eqb n m then (if item_dec (ItClose d) (ItClose fd0) then 1 else 0) else 0) s0).
      { destruct D as [D1 D2]. split.
        - intros n fd0. rewrite Hop. change (mclaims n fd0 s0) with (mclaims n fd0 s). specialize (D1 n fd0).
          destruct (item_dec (ItClose d) (ItClose fd0)) as [He|He]; destruct (Z.eqb_spec fd0 d); try congruence;
            destruct (Nat.eqb n m); lia.
        - intros n fd0. rewrite Hop. change (cclaims n fd0 s0) with (cclaims n fd0 s). specialize (D2 n fd0).
          destruct (fd0 =? d); lia. }
      destruct (add_item s0 m _) as [s1 t| |].
      * destruct H as (H1 & -> & H3); [exact HD|discriminate|].
        split; [exact H1|]. split; [apply closes_well_nil|apply tally_same; exact H3].
      * exact I.
      * apply H; [exact HD|discriminate].
    + pose proof (add_item_safe s m None C) as H.
      assert (HD : claimed (fun n fd0 => if Nat.eqb n m then 0 else 0) s).
      { eapply claimed_ext; [|exact D]. intros n fd0. destruct (Nat.eqb n m); reflexivity. }
      destruct (add_item s m _) as [s1 t| |].
      * destruct H as (H1 & -> & H3); [exact HD|discriminate|].
        split; [exact H1|]. split; [apply closes_well_nil|apply tally_same; exact H3].
      * exact I.
      * apply H; [exact HD|discriminate].
  - (* OAppendContents *) destruct (at_ (msgs s) m) as [x|] eqn:Ex; [|exact I].
    destruct (buf_arg s b) as [c|] eqn:Eb; [|exact I].
    destruct (append_ok _ _ _ x c locals C D) as (s2 & x2 & E2 & C2 & D2 & S2 & Z2 & Y2 & M2 & L2 & N2).
    { intros k ->. destruct b as [n|]; cbn [buf_arg] in Eb; [|discriminate]. destruct (at_ (bufs s) n) as [q|] eqn:Eq; [|discriminate].
      injection Eb as ->. pose proof (holds_of_buf _ _ _ Eq). lia. }
    rewrite E2. assert (Ex2 : at_ (msgs s2) m = Some x) by (rewrite (proj1 S2); exact Ex).
    destruct (put_ok _ _ _ _ _ (Some x2) Ex2 C2 D2) as [C3 D3].
    split; [split|split; [apply closes_well_nil|]].
    + eapply counted_ext; [|exact C3]. intros k. cbn beta. cbn [mown]. unfold msg_holds. rewrite Z2, M2. lia.
    + eapply claimed_ext; [|exact D3]. intros n fd. cbn [mcl]. rewrite Y2. destruct (Nat.eqb n m); lia.
    + intros k. unfold below. cbn [put_msg set_msgs conts]. rewrite N2.
      change (live k (put_msg s2 m (Some x2))) with (live k s2). rewrite L2. cbn. lia.
  - (* OSetContents *) destruct (at_ (msgs s) m) as [x|] eqn:Ex; [|exact I].
    destruct (buf_arg s b) as [c|] eqn:Eb; [|exact I].
    destruct (cleanup_reset (m_cleanup x)) as [cl todo] eqn:Ecl.
    assert (Hcl : cleanup_free cl = [] /\ todo = cleanup_free (m_cleanup x)).
    { unfold cleanup_reset in Ecl. destruct (m_cleanup x); injection Ecl as <- <-; auto. }
    destruct Hcl as [Hcl ->].
    destruct (put_ok _ _ _ _ _ (Some (with_cleanup x cl)) Ex C D) as [C1 D1].
    destruct (run_items_ok m (cleanup_free (m_cleanup x)) _ _ _ C1 D1) as (s2 & t2 & E2 & C2 & D2 & S2 & K2 & F2).
    { intros k. cbn [mown]. unfold msg_holds. cbn [with_cleanup m_cleanup m_contents]. rewrite Hcl, zcount_nil. lia. }
    { intros fd. rewrite Nat.eqb_refl. cbn [mcl with_cleanup m_cleanup]. rewrite Hcl, zcount_nil. lia. }
    rewrite E2.
    assert (C2' : counted (fun _ => 0) s2).
    { eapply counted_ext; [|exact C2]. intros k. cbn beta. cbn [mown]. unfold msg_holds.
      cbn [with_cleanup m_cleanup m_contents]. rewrite Hcl, zcount_nil. lia. }
    assert (D2' : claimed (fun _ _ => 0) s2).
    { eapply claimed_ext; [|exact D2]. intros n fd. cbn beta. cbn [mcl with_cleanup m_cleanup]. rewrite Hcl, zcount_nil.
      destruct (Nat.eqb n m); lia. }
    clear C2 D2 C1 D1.
    assert (Ex2 : at_ (msgs s2) m = Some (with_cleanup x cl)).
    { rewrite (proj1 S2). unfold put_msg. cbn [set_msgs msgs]. rewrite at_set_at by (eapply at_lt; exact Ex).
      rewrite Nat.eqb_refl. reflexivity. }
    assert (Hbo : forall k, c = Some k -> exists n, at_ (bufs s2) n = Some k).
    { intros k ->. destruct b as [n|]; cbn [buf_arg] in Eb; [|discriminate]. destruct (at_ (bufs s) n) as [q|] eqn:Eq; [|discriminate].
      injection Eb as ->. exists n. rewrite (proj1 (proj2 S2)). exact Eq. }
    destruct (append_ok _ _ _ (with_cleanup x cl) c locals C2' D2') as (s3 & x3 & E3 & C3 & D3 & S3 & Z3 & Y3 & M3 & L3 & N3).
    { intros k Hk. destruct (Hbo k Hk) as (n & Hn). pose proof (holds_of_buf _ _ _ Hn). lia. }
    rewrite E3.
    assert (H4 : exists s4 t4,
        match m_contents x with Some old => contents_unref s3 old | None => Some (s3, []) end = Some (s4, t4) /\
        counted (fun k => is_some_nat k c - is_some_nat k (m_contents x)) s4 /\ claimed (fun _ _ => 0) s4 /\
        same_but_conts s3 s4 /\ closes_own (eq m) t4 /\ freed_once s3 s4 t4).
    { destruct (m_contents x) as [old|] eqn:Eo.
      - destruct (unref_ok _ _ _ old (eq m) C3 D3) as (s4 & t4 & E4 & C4 & D4 & S4 & K4 & F4).
        { rewrite (own_same old _ _ S3). pose proof (holds_of_msg s2 m _ old Ex2) as Hh. unfold msg_holds in Hh.
          cbn [with_cleanup m_cleanup m_contents] in Hh. rewrite Eo, Hcl, zcount_nil in Hh. cbn [is_some_nat] in Hh.
          rewrite Nat.eqb_refl in Hh. unfold is_some_nat. destruct c as [k|]; [destruct (Nat.eqb k old)|]; lia. }
        exists s4, t4. split; [exact E4|]. split; [|auto].
        eapply counted_ext; [|exact C4]. intros k. unfold bump. cbn [is_some_nat]. rewrite (Nat.eqb_sym old k).
        destruct (Nat.eqb k old); lia.
      - exists s3, []. split; [reflexivity|]. split; [eapply counted_ext; [|exact C3]; intros; cbn; lia|].
        split; [exact D3|]. split; [apply sbc_refl|]. split; [apply closes_own_nil|apply freed_once_refl]. }
    destruct H4 as (s4 & t4 & E4 & C4 & D4 & S4 & K4 & F4). rewrite E4.
    assert (S24 : same_but_conts s2 s4) by (eapply sbc_trans; eassumption).
    assert (H5 : exists s5, match c with Some k => contents_ref s4 k | None => Some s4 end = Some s5 /\
        counted (fun k => 2 * is_some_nat k c - is_some_nat k (m_contents x)) s5 /\ claimed (fun _ _ => 0) s5 /\
        same_but_conts s4 s5 /\ (forall k, live k s5 = live k s4) /\ length (conts s5) = length (conts s4)).
    { destruct c as [k|].
      - destruct (ref_ok _ _ _ k C4 D4) as (s5 & E5 & C5 & D5 & S5 & L5 & N5 & _).
        { destruct (Hbo k eq_refl) as (n & Hn). rewrite (own_same k _ _ S24).
          pose proof (holds_of_msg s2 m _ k Ex2) as Hh. unfold msg_holds in Hh.
          cbn [with_cleanup m_cleanup m_contents] in Hh. rewrite Hcl, zcount_nil in Hh.
          pose proof (holds_of_buf _ _ _ Hn). cbn [is_some_nat]. rewrite Nat.eqb_refl. unfold is_some_nat in *.
          destruct (m_contents x) as [q|]; [destruct (Nat.eqb q k)|]; lia. }
        exists s5. split; [exact E5|]. split; [|auto].
        eapply counted_ext; [|exact C5]. intros j. unfold bump. cbn [is_some_nat]. rewrite (Nat.eqb_sym k j).
        destruct (Nat.eqb j k); lia.
      - exists s4. split; [reflexivity|]. split; [eapply counted_ext; [|exact C4]; intros; cbn [is_some_nat]; lia|].
        split; [exact D4|]. split; [apply sbc_refl|]. auto. }
    destruct H5 as (s5 & E5 & C5 & D5 & S5 & L5 & N5). rewrite E5.
    assert (Ex5 : at_ (msgs s5) m = Some (with_cleanup x cl))
      by (rewrite (proj1 S5), (proj1 S24); exact Ex2).
    destruct (put_ok _ _ _ _ _ (Some {| m_refs := m_refs x3; m_cleanup := m_cleanup x3; m_contents := c |}) Ex5 C5 D5) as [C6 D6].
    split; [split|split].
    + eapply counted_ext; [|exact C6]. intros k. cbn beta. cbn [mown]. unfold msg_holds.
      cbn [with_cleanup m_cleanup m_contents]. rewrite Z3. cbn [with_cleanup m_cleanup]. rewrite Hcl, zcount_nil. lia.
    + eapply claimed_ext; [|exact D6]. intros n fd. cbn beta. cbn [mcl m_cleanup with_cleanup]. rewrite Y3.
      cbn [with_cleanup m_cleanup]. destruct (Nat.eqb n m); lia.
    + apply (closes_well_own _ (eq m)); [intros m0 <-; right; eauto|]. apply closes_own_app; assumption.
    + intros k. destruct F2 as [F2 G2]. destruct F4 as [F4 G4]. specialize (F2 k). specialize (F4 k).
      change (live k (put_msg s5 m (Some {| m_refs := m_refs x3; m_cleanup := m_cleanup x3; m_contents := c |})))
        with (live k s5). change (live k (put_msg s m (Some (with_cleanup x cl)))) with (live k s) in F2.
      unfold below. cbn [put_msg set_msgs conts] in *. rewrite N5, G4, N3, G2, L5, freed_app, ncount_app.
      rewrite L3 in F4. lia.
  - (* OBufNew *)
    destruct (forallb _ fds && _) eqn:Ef; [|exact I]. apply andb_true_iff in Ef. destruct Ef as [Ef Ed].
    pose proof (all_different_nodup fds Ed) as Hnd.
    rewrite forallb_forall in Ef.
    assert (Hfree : forall fd, In fd fds -> fdt s fd = None).
    { intros fd Hin. specialize (Ef fd Hin). destruct (fdt s fd); [discriminate|reflexivity]. }
    set (n := length (conts s)). set (s1 := {| msgs := _; conts := _; bufs := _; lists := _; fdt := _ |}).
    assert (Hnew : at_ (conts s) n = None).
    { unfold at_, n. rewrite (proj2 (nth_error_None (conts s) (length (conts s)))) by lia. reflexivity. }
    assert (Hat : forall k, at_ (conts s1) k = if Nat.eqb k n then Some {| c_refs := 1; c_fds := fds |} else at_ (conts s) k)
      by (intros k; apply at_app).
    assert (Hown : forall k, own k s1 = own k s + if Nat.eqb k n then 1 else 0).
    { intros k. unfold own, s1. cbn [msgs bufs lists]. rewrite isum_app. cbn [isum]. rewrite bown_some.
      rewrite (Nat.eqb_sym n k). destruct (Nat.eqb k n); lia. }
    assert (Hop : forall fd o, opened_by s1 fd o = opened_by s fd o +
                if in_dec Z.eq_dec fd fds then (match o with OwCont k => if Nat.eqb k n then 1 else 0 | _ => 0 end) else 0).
    { intros fd o. unfold opened_by, s1. cbn [fdt]. rewrite fold_fds.
      destruct (in_dec Z.eq_dec fd fds) as [Hin|]; [|lia]. rewrite (Hfree fd Hin). destruct o as [|k|k]; try lia.
      rewrite (Nat.eqb_sym n k). fold n. destruct (Nat.eqb k n); lia. }
    split; [split|split; [apply closes_well_nil|]].
    + intros k. rewrite Hat, Hown. specialize (C k). destruct (Nat.eqb_spec k n) as [->|Hne].
      * rewrite Hnew in C. cbn [c_refs]. lia.
      * rewrite Z.add_0_r. exact C.
    + destruct D as [D1 D2]. split.
      * intros k fd. rewrite Hop. change (mclaims k fd s1) with (mclaims k fd s). rewrite (D1 k fd).
        destruct (in_dec Z.eq_dec fd fds); lia.
      * intros k fd. rewrite Hop. unfold cclaims. rewrite Hat. specialize (D2 k fd). unfold cclaims in D2.
        destruct (Nat.eqb_spec k n) as [->|Hne].
        -- rewrite Hnew in D2. rewrite <- D2. cbn [c_fds]. destruct (in_dec Z.eq_dec fd fds) as [Hin|Hin].
           ++ unfold dcount. rewrite (NoDup_count_occ' Z.eq_dec) in Hnd. rewrite (Hnd fd Hin). reflexivity.
           ++ unfold dcount. rewrite (proj1 (count_occ_not_In Z.eq_dec fds fd) Hin). reflexivity.
        -- destruct (in_dec Z.eq_dec fd fds); lia.
    + intros k. unfold live. rewrite Hat. unfold below, s1. cbn [conts]. rewrite app_length. cbn [length].
      fold n. destruct (Nat.eqb_spec k n) as [->|Hne].
      * rewrite Hnew. destruct (Nat.ltb_spec n (n + 1)), (Nat.ltb_spec n n); try lia. reflexivity.
      * destruct (Nat.ltb_spec k (n + 1)), (Nat.ltb_spec k n); try lia; cbn; lia.
  - (* OBufChild *) destruct (at_ (bufs s) b) as [c|] eqn:Eb; [|exact I].
    destruct (ref_ok _ _ _ c C D) as (s1 & E1 & C1 & D1 & S1 & L1 & N1 & _).
    { pose proof (holds_of_buf _ _ _ Eb). lia. }
    rewrite E1. split; [split; [|exact D1]|split; [apply closes_well_nil|]].
    + intros k. specialize (C1 k). unfold own in *. cbn [set_bufs msgs bufs lists conts]. rewrite isum_app.
      cbn [isum]. rewrite bown_some. unfold bump in C1. rewrite (Nat.eqb_sym c k).
      destruct (at_ (conts s1) k); destruct (Nat.eqb k c); lia.
    + intros k. change (live k (set_bufs s1 (bufs s1 ++ [Some c]))) with (live k s1). rewrite L1.
      unfold below. cbn [set_bufs conts]. rewrite N1. cbn. lia.
  - (* OBufFree *) destruct (at_ (bufs s) b) as [c|] eqn:Eb; [|exact I].
    set (s0 := set_bufs s (set_at (bufs s) b None)).
    assert (C0 : counted (fun k => if Nat.eqb k c then 1 else 0) s0).
    { intros k. specialize (C k). unfold own in *. cbn [s0 set_bufs msgs bufs lists conts].
      rewrite (isum_change (bown k) (bown k) (bufs s) 0 b (Some c) None (at_nth _ _ _ Eb)) by reflexivity.
      rewrite bown_some, bown_none. rewrite (Nat.eqb_sym c k).
      destruct (at_ (conts s) k); destruct (Nat.eqb k c); lia. }
    destruct (unref_ok _ _ s0 c (fun _ => False) C0 D) as (s1 & t & E1 & C1 & D1 & S1 & K1 & F1).
    { rewrite Nat.eqb_refl. pose proof (own_nonneg c s0). lia. }
    rewrite E1. split; [split; [|exact D1]|split].
    + eapply counted_ext; [|exact C1]. intros k. unfold bump. destruct (Nat.eqb k c); lia.
    + eapply closes_well_own; [|exact K1]. intros ? [].
    + apply (tally_freed s0). exact F1.
  - (* OListAdd *) destruct (at_ (bufs s) b) as [c|] eqn:Eb; [|exact I].
    destruct (ref_ok _ _ _ c C D) as (s1 & E1 & C1 & D1 & S1 & L1 & N1 & _).
    { pose proof (holds_of_buf _ _ _ Eb). lia. }
    rewrite E1. destruct l as [n|].
    + destruct (at_ (lists s1) n) as [cs|] eqn:En; [|exact I].
      split; [split; [|exact D1]|split; [apply closes_well_nil|]].
      * intros k. specialize (C1 k). unfold own in *. cbn [set_lists msgs bufs lists conts].
        rewrite (isum_change (lown k) (lown k) (lists s1) 0 n (Some cs) (Some (c :: cs)) (at_nth _ _ _ En)) by reflexivity.
        rewrite !lown_some. unfold bump in C1.
        assert (Hn : ncount k (c :: cs) = ncount k cs + if Nat.eqb k c then 1 else 0).
        { unfold ncount. cbn [count_occ]. destruct (Nat.eq_dec c k) as [->|Hne]; [rewrite Nat.eqb_refl; lia|].
          destruct (Nat.eqb_spec k c); [congruence|lia]. }
        rewrite Hn. destruct (at_ (conts s1) k); destruct (Nat.eqb k c); lia.
      * intros k. change (live k (set_lists s1 (set_at (lists s1) n (Some (c :: cs))))) with (live k s1). rewrite L1.
        unfold below. cbn [set_lists conts]. rewrite N1. cbn. lia.
    + split; [split; [|exact D1]|split; [apply closes_well_nil|]].
      * intros k. specialize (C1 k). unfold own in *. cbn [set_lists msgs bufs lists conts]. rewrite isum_app.
        cbn [isum]. rewrite lown_some. unfold bump in C1.
        assert (Hn : ncount k [c] = if Nat.eqb k c then 1 else 0).
        { unfold ncount. cbn [count_occ]. destruct (Nat.eq_dec c k) as [->|Hne]; [rewrite Nat.eqb_refl; reflexivity|].
          destruct (Nat.eqb_spec k c); [congruence|reflexivity]. }
        rewrite Hn. destruct (at_ (conts s1) k); destruct (Nat.eqb k c); lia.
      * intros k. change (live k (set_lists s1 (lists s1 ++ [Some [c]]))) with (live k s1). rewrite L1.
        unfold below. cbn [set_lists conts]. rewrite N1. cbn. lia.
  - (* OListDup *) destruct (at_ (lists s) l) as [cs|] eqn:El; [|exact I].
    destruct (ref_all_ok cs _ _ _ C D) as (s1 & E1 & C1 & D1 & S1 & L1 & N1).
    { intros; lia. } { intros c Hc. eapply holds_of_list; eassumption. }
    rewrite E1. split; [split; [|exact D1]|split; [apply closes_well_nil|]].
    + intros k. specialize (C1 k). unfold own in *. cbn [set_lists msgs bufs lists conts]. rewrite isum_app.
      cbn [isum]. rewrite lown_some.
      assert (Hn : ncount k (rev cs) = ncount k cs) by (unfold ncount; rewrite count_occ_rev; reflexivity).
      rewrite Hn. destruct (at_ (conts s1) k); lia.
    + intros k. change (live k (set_lists s1 (lists s1 ++ [Some (rev cs)]))) with (live k s1). rewrite L1.
      unfold below. cbn [set_lists conts]. rewrite N1. cbn. lia.
  - (* OListFree *) destruct (at_ (lists s) l) as [cs|] eqn:El; [|exact I].
    set (s0 := set_lists s (set_at (lists s) l None)).
    assert (C0 : counted (fun k => ncount k cs) s0).
    { intros k. specialize (C k). unfold own in *. cbn [s0 set_lists msgs bufs lists conts].
      rewrite (isum_change (lown k) (lown k) (lists s) 0 l (Some cs) None (at_nth _ _ _ El)) by reflexivity.
      rewrite lown_some, lown_none. destruct (at_ (conts s) k); lia. }
    destruct (unref_all_ok cs _ _ s0 C0 D) as (s1 & t & E1 & C1 & D1 & S1 & K1 & F1).
    { intros; lia. }
    rewrite E1. split; [split; [|exact D1]|split].
    + eapply counted_ext; [|exact C1]. intros k. cbn beta. lia.
    + eapply closes_well_own; [|exact K1]. intros ? [].
    + apply (tally_freed s0). exact F1.
  - (* OAppOpen *) destruct (fdt s fd) eqn:Ef; [exact I|].
    split; [split; [exact C|]|split; [apply closes_well_nil|apply tally_same; reflexivity]].
    destruct D as [D1 D2].
    assert (Hop : forall fd1 o, (forall n, o = OwMsg n \/ o = OwCont n \/ o = OwApp -> True) ->
       opened_by (set_fdt s (fd_set (fdt s) fd (Some OwApp))) fd1 o = opened_by s fd1 o).
    { intros fd1 o _. unfold opened_by. cbn [set_fdt fdt]. unfold fd_set. destruct (Z.eqb_spec fd1 fd) as [->|]; [|reflexivity].
      rewrite Ef. reflexivity. }
    split; intros n fd1; rewrite Hop by auto; [apply D1|apply D2].
  - (* OAppClose *) destruct (fdt s fd) as [[| |]|] eqn:Ef; try exact I.
    cbn [do_close fst snd]. destruct D as [D1 D2].
    assert (Hop : forall fd1 o, o <> OwApp ->
       opened_by (set_fdt s (fd_set (fdt s) fd None)) fd1 o = opened_by s fd1 o).
    { intros fd1 o Ho. unfold opened_by. cbn [set_fdt fdt]. unfold fd_set. destruct (Z.eqb_spec fd1 fd) as [->|]; [|reflexivity].
      rewrite Ef. destruct o; reflexivity. }
    split; [split; [exact C|]|split].
    + split; intros n fd1; rewrite Hop by discriminate; [apply D1|apply D2].
    + intros fd1 ow. cbn [closed flat_map app]. rewrite Ef. intros [Hx|[]]. injection Hx as <- <-. left. auto.
    + intros k. unfold live, below. cbn. lia.
Qed.

Lemma safe_init : safe init_state.
Proof.
  split.
  - intros c. unfold at_. cbn [init_state conts]. destruct c; reflexivity.
  - split; intros n fd; unfold mclaims, cclaims, at_; cbn [init_state msgs conts]; destruct n; reflexivity.
Qed.

Lemma run_app s os1 os2 :
  run s (os1 ++ os2) =
  match run s os1 with
  | Done s1 t1 => match run s1 os2 with Done s2 t2 => Done s2 (t1 ++ t2) | x => x end
  | x => x
  end.
Proof.
  revert s. induction os1 as [|o r IH]; intros s; cbn [app run].
  - destruct (run s os2); reflexivity.
  - destruct (step s o) as [s1 t1| |]; try reflexivity. rewrite IH.
    destruct (run s1 r) as [s2 t2| |]; try reflexivity.
    destruct (run s2 os2) as [s3 t3| |]; try reflexivity. rewrite app_assoc. reflexivity.
Qed.

Lemma run_safe os : forall h s, safe s -> refs_ok h s ->
  match run s os with
  | Done s1 t => safe s1 /\ refs_ok (h ++ os) s1 /\ tally s s1 t
  | Misuse => True
  | Crash => False
  end.
Proof.
  induction os as [|o r IH]; intros h s Hs R; cbn [run].
  - rewrite app_nil_r. split; [exact Hs|]. split; [exact R|apply tally_same; reflexivity].
  - pose proof (step_safe s o Hs) as H. destruct (step s o) as [s1 t1| |] eqn:E; try exact H.
    destruct H as (H1 & _ & H3).
    pose proof (proj1 (step_count (ItFree 0) h o [] s s1 t1 ltac:(discriminate) R E)) as R1.
    specialize (IH (h ++ [o]) s1 H1 R1). destruct (run s1 r) as [s2 t2| |]; try exact IH.
    destruct IH as (I1 & I2 & I3). split; [exact I1|]. split.
    + rewrite <- app_assoc in I2. exact I2.
    + intros c. rewrite freed_app, ncount_app. specialize (H3 c). specialize (I3 c). lia.
Qed.

Lemma run_init os s t : run init_state os = Done s t ->
  safe s /\ refs_ok os s /\ forall c, ncount c (freed t) + live c s = below c s.
Proof.
  intros E. pose proof (run_safe os [] init_state safe_init refs_init) as H. rewrite E in H.
  destruct H as (H1 & H2 & H3). split; [exact H1|]. split; [exact H2|]. intros c. specialize (H3 c).
  unfold live, below, at_ in *. cbn [init_state conts] in H3.
  replace (nth_error (@nil (option cont)) c) with (@None (option cont)) in H3 by (destruct c; reflexivity).
  cbn [length] in H3. destruct (Nat.ltb_spec c 0); lia.
Qed.

(* What is registered stays registered until the end *)
Lemma kept_step h s o s1 t m x i : refs_ok h s -> step s o = Done s1 t ->
  at_ (msgs s) m = Some x -> In i (cleanup_free (m_cleanup x)) -> ends h o m = false ->
  exists x1, at_ (msgs s1) m = Some x1 /\ In i (cleanup_free (m_cleanup x1)).
Proof.
  intros R E Hx Hi He. pose proof (at_lt _ _ _ Hx) as Hlt.
  assert (Hsame : msgs s1 = msgs s -> exists x1, at_ (msgs s1) m = Some x1 /\ In i (cleanup_free (m_cleanup x1))).
  { intros ->. eauto. }
  assert (Hput : forall n y z, at_ (msgs s) n = Some y -> msgs s1 = set_at (msgs s) n (Some z) ->
     (forall j, In j (cleanup_free (m_cleanup y)) -> In j (cleanup_free (m_cleanup z))) ->
     exists x1, at_ (msgs s1) m = Some x1 /\ In i (cleanup_free (m_cleanup x1))).
  { intros n y z Hy Hm Hj. rewrite Hm, at_set_at by (eapply at_lt; exact Hy).
    destruct (Nat.eqb_spec m n) as [->|Hne]; [|eauto]. exists z. split; [reflexivity|]. apply Hj.
    assert (x = y) by congruence. subst. exact Hi. }
  assert (Hput2 : forall n (z : option msg), n <> m -> (n < length (msgs s))%nat -> msgs s1 = set_at (msgs s) n z ->
     exists x1, at_ (msgs s1) m = Some x1 /\ In i (cleanup_free (m_cleanup x1))).
  { intros n z Hne Hn Hm. rewrite Hm, at_set_at by exact Hn. destruct (Nat.eqb_spec m n); [congruence|eauto]. }
  assert (Hadd : forall s0 n it, msgs s0 = msgs s -> add_item s0 n it = Done s1 t ->
     exists x1, at_ (msgs s1) m = Some x1 /\ In i (cleanup_free (m_cleanup x1))).
  { intros s0 n it Hs0 Ea. destruct (add_item_count _ _ _ _ _ Ea) as (_ & y & Hy & Hm & _). rewrite Hs0 in Hy, Hm.
    apply (Hput n y _ Hy Hm). intros j Hj. cbn [with_cleanup m_cleanup]. destruct it as [q|]; [|exact Hj].
    destruct (m_cleanup y) as [l|]; cbn [cleanup_add cleanup_free] in *; [apply in_app_iff; auto|contradiction]. }
  assert (Hcadd : forall cl q j, In j (cleanup_free cl) -> In j (cleanup_free (cleanup_add cl (Some q)))).
  { intros cl q j Hj. destruct cl as [l|]; cbn [cleanup_add cleanup_free] in *; [apply in_app_iff; auto|contradiction]. }
  assert (Hfold : forall locals cl j, In j (cleanup_free cl) ->
     In j (cleanup_free (fold_left (fun cl o => cleanup_add cl (Some (ItLocal o))) locals cl))).
  { induction locals as [|q r IH]; intros cl j Hj; cbn [fold_left]; [exact Hj|]. apply IH, Hcadd, Hj. }
  destruct o as [|n|n|n d p|n d p|n p|n fd dup|n b locals|n b locals|fds|b|b|l b|l|l|fd|fd]; cbn [step] in E.
  - injection E as <- <-. cbn [set_msgs msgs]. rewrite at_app. destruct (Nat.eqb_spec m (length (msgs s))); [lia|eauto].
  - destruct (at_ (msgs s) n) as [y|] eqn:Ey; [|discriminate]. injection E as <- <-.
    eapply Hput; [exact Ey|reflexivity|]. intros j Hj. exact Hj.
  - destruct (at_ (msgs s) n) as [y|] eqn:Ey; [|discriminate].
    destruct (Z.eqb_spec (m_refs y - 1) 0) as [Hz|Hz].
    + destruct (run_items _ _) as [[s2 t2]|] eqn:E2; [|discriminate].
      pose proof (proj1 (proj1 (run_items_same _ _ _ _ E2))) as M2.
      assert (Hne : n <> m).
      { intros ->. cbn [ends] in He. rewrite Nat.eqb_refl in He. pose proof (proj1 R _ _ Ey) as Hr.
        cbn [andb] in He. apply Z.eqb_neq in He. lia. }
      apply (Hput2 n None Hne (at_lt _ _ _ Ey)).
      destruct (m_contents y) as [c|].
      * destruct (contents_unref s2 c) as [[s3 t3]|] eqn:E3; [|discriminate]. injection E as <- <-.
        rewrite (proj1 (proj1 (contents_unref_same _ _ _ _ E3))), M2. reflexivity.
      * injection E as <- <-. rewrite M2. reflexivity.
    + injection E as <- <-. eapply Hput; [exact Ey|reflexivity|]. intros j Hj. exact Hj.
  - destruct n as [n|]; [eapply Hadd; [reflexivity|exact E]|]. injection E as <- <-. apply Hsame. reflexivity.
  - destruct n as [n|]; [eapply Hadd; [reflexivity|exact E]|]. injection E as <- <-. apply Hsame. reflexivity.
  - eapply Hadd; [reflexivity|exact E].
  - destruct dup as [d|].
    + destruct (fdt s d); [discriminate|]. refine (Hadd _ _ _ _ E). reflexivity.
    + eapply Hadd; [reflexivity|exact E].
  - destruct (at_ (msgs s) n) as [y|] eqn:Ey; [|discriminate]. destruct (buf_arg s b) as [c|]; [|discriminate].
    destruct (append_contents s y c locals) as [[s2 y2]|] eqn:E2; [|discriminate]. injection E as <- <-.
    pose proof (proj1 (append_contents_msg _ _ _ _ _ _ E2)) as (M2 & _).
    apply (Hput n y y2 Ey); [unfold put_msg; cbn [set_msgs msgs]; rewrite M2; reflexivity|].
    intros j Hj. unfold append_contents in E2. destruct c as [c|].
    + destruct (contents_ref s c); [|discriminate]. injection E2 as <- <-. cbn [with_cleanup m_cleanup].
      apply Hfold, Hcadd, Hj.
    + injection E2 as <- <-. exact Hj.
  - destruct (at_ (msgs s) n) as [y|] eqn:Ey; [|discriminate]. destruct (buf_arg s b) as [c|]; [|discriminate].
    assert (Hne : n <> m).
    { intros ->. cbn [ends] in He. rewrite Nat.eqb_refl in He. discriminate. }
    destruct (cleanup_reset (m_cleanup y)) as [cl todo].
    destruct (run_items _ _) as [[s2 t2]|] eqn:E2; [|discriminate].
    destruct (append_contents s2 (with_cleanup y cl) c locals) as [[s3 x3]|] eqn:E3; [|discriminate].
    destruct (match m_contents y with Some old => contents_unref s3 old | None => Some (s3, []) end) as [[s4 t4]|] eqn:E4; [|discriminate].
    destruct (match c with Some k => contents_ref s4 k | None => Some s4 end) as [s5|] eqn:E5; [|discriminate].
    injection E as <- <-.
    pose proof (proj1 (proj1 (run_items_same _ _ _ _ E2))) as M2.
    pose proof (proj1 (proj1 (append_contents_msg _ _ _ _ _ _ E3))) as M3.
    assert (M4 : msgs s4 = msgs s3).
    { destruct (m_contents y) as [old|]; [exact (proj1 (proj1 (contents_unref_same _ _ _ _ E4)))|congruence]. }
    assert (M5 : msgs s5 = msgs s4).
    { destruct c as [k|]; [|congruence]. exact (proj1 (contents_ref_same _ _ _ E5)). }
    eapply (Hput2 n _ Hne (at_lt _ _ _ Ey)).
    unfold put_msg. cbn [set_msgs msgs]. rewrite M5, M4, M3, M2. unfold put_msg. cbn [set_msgs msgs].
    apply set_at_twice.
  - destruct (_ && _); [|discriminate]. injection E as <- <-. apply Hsame. reflexivity.
  - destruct (at_ (bufs s) b) as [c|]; [|discriminate]. destruct (contents_ref s c) as [s2|] eqn:E2; [|discriminate].
    injection E as <- <-. apply Hsame. exact (proj1 (contents_ref_same _ _ _ E2)).
  - destruct (at_ (bufs s) b) as [c|]; [|discriminate].
    destruct (contents_unref _ c) as [[s2 t2]|] eqn:E2; [|discriminate]. injection E as <- <-.
    apply Hsame. exact (proj1 (proj1 (contents_unref_same _ _ _ _ E2))).
  - destruct (at_ (bufs s) b) as [c|]; [|discriminate]. destruct (contents_ref s c) as [s2|] eqn:E2; [|discriminate].
    pose proof (proj1 (contents_ref_same _ _ _ E2)) as M. apply Hsame.
    destruct l as [n|]; [destruct (at_ (lists s2) n); [|discriminate]|]; injection E as <- <-; exact M.
  - destruct (at_ (lists s) l) as [cs|]; [|discriminate]. destruct (ref_all s cs) as [s2|] eqn:E2; [|discriminate].
    injection E as <- <-. apply Hsame. exact (proj1 (ref_all_same _ _ _ E2)).
  - destruct (at_ (lists s) l) as [cs|]; [|discriminate].
    destruct (unref_all _ cs) as [[s2 t2]|] eqn:E2; [|discriminate]. injection E as <- <-.
    apply Hsame. exact (proj1 (proj1 (unref_all_same _ _ _ _ E2))).
  - destruct (fdt s fd); [discriminate|]. injection E as <- <-. apply Hsame. reflexivity.
  - destruct (fdt s fd) as [[]|]; try discriminate. injection E as <- <-. apply Hsame. reflexivity.
Qed.

Lemma kept_run later : forall h s s1 t m x i, safe s -> refs_ok h s -> run s later = Done s1 t ->
  at_ (msgs s) m = Some x -> In i (cleanup_free (m_cleanup x)) -> ended h later m = false ->
  exists x1, at_ (msgs s1) m = Some x1 /\ In i (cleanup_free (m_cleanup x1)).
Proof.
  induction later as [|o r IH]; intros h s s1 t m x i Hs R; cbn [run ended].
  - intros E Hx Hi _. injection E as <- <-. eauto.
  - pose proof (step_safe s o Hs) as Ho. destruct (step s o) as [s2 t2| |] eqn:E2; try discriminate.
    destruct (run s2 r) as [s3 t3| |] eqn:E3; try discriminate. intros E Hx Hi He. injection E as <- <-.
    apply orb_false_iff in He. destruct He as [He1 He2].
    destruct (kept_step h s o s2 t2 m x i R E2 Hx Hi He1) as (x2 & Hx2 & Hi2).
    pose proof (proj1 (step_count (ItFree 0) h o [] s s2 t2 ltac:(discriminate) R E2)) as R2.
    exact (IH _ _ _ _ _ _ _ (proj1 Ho) R2 E3 Hx2 Hi2 He2).
Qed.

(* Who holds received data *)
Lemma held_live s c : safe s -> 1 <= own c s -> exists k, at_ (conts s) c = Some k /\
  forall fd, In fd (c_fds k) -> fdt s fd = Some (OwCont c).
Proof.
  intros [C [_ D2]] H. specialize (C c). destruct (at_ (conts s) c) as [k|] eqn:Ek; [|lia].
  exists k. split; [reflexivity|]. intros fd Hin. apply dcount_in in Hin.
  specialize (D2 c fd). unfold cclaims in D2. rewrite Ek in D2. apply opened_by_cont.
  pose proof (opened_by_le s fd (OwCont c)). lia.
Qed.

Lemma registered_open s m x fd : safe s -> at_ (msgs s) m = Some x ->
  In (ItClose fd) (cleanup_free (m_cleanup x)) -> fdt s fd = Some (OwMsg m).
Proof.
  intros [_ [D1 _]] Hx Hi. specialize (D1 m fd). unfold mclaims in D1. rewrite Hx in D1.
  apply zcount_in in Hi. apply opened_by_msg. pose proof (opened_by_le s fd (OwMsg m)). lia.
Qed.

Lemma msg_item_own s m x c : at_ (msgs s) m = Some x -> In (ItContents c) (cleanup_free (m_cleanup x)) -> 1 <= own c s.
Proof.
  intros Hx Hi. pose proof (holds_of_msg s m x c Hx) as H. unfold msg_holds in H. apply zcount_in in Hi.
  unfold is_some_nat in H. destruct (m_contents x) as [k|]; [destruct (Nat.eqb k c)|]; lia.
Qed.

Definition is_buf_new (o : op) : bool := match o with OBufNew _ => true | _ => false end.

Lemma step_conts s o s1 t : safe s -> step s o = Done s1 t ->
  length (conts s1) = (length (conts s) + if is_buf_new o then 1 else 0)%nat.
Proof.
  intros Hs E. pose proof (step_safe s o Hs) as H. rewrite E in H. destruct H as (_ & _ & Ht).
  assert (Hb : is_buf_new o = true -> length (conts s1) = (length (conts s) + 1)%nat).
  { destruct o; try discriminate. intros _. cbn [step] in E. destruct (_ && _); [|discriminate].
    injection E as <- <-. cbn [conts]. rewrite app_length. reflexivity. }
  destruct (is_buf_new o) eqn:Eb; [apply Hb; reflexivity|]. clear Hb.
  assert (Hsame : forall a b, length (conts a) = length (conts b) -> True) by auto. clear Hsame.
  assert (HR : forall a c b, contents_ref a c = Some b -> length (conts b) = length (conts a)).
  { intros a c b. unfold contents_ref. destruct (at_ (conts a) c); [|discriminate]. intros X. injection X as <-. apply length_set_at. }
  assert (HU : forall a c b u, contents_unref a c = Some (b, u) -> length (conts b) = length (conts a)).
  { intros a c b u. unfold contents_unref. destruct (at_ (conts a) c); [|discriminate]. destruct (_ =? 0).
    - destruct (close_all a (c_fds c0)) as [a2 u2] eqn:Ea. intros X. injection X as <- <-. cbn [set_conts conts].
      rewrite length_set_at. rewrite (proj1 (proj2 (close_all_same _ _ _ _ Ea))). reflexivity.
    - intros X. injection X as <- <-. apply length_set_at. }
  assert (HI : forall l a b u, run_items a l = Some (b, u) -> length (conts b) = length (conts a)).
  { induction l as [|i l IH]; intros a b u; cbn [run_items]; [intros X; injection X as <- <-; reflexivity|].
    destruct (run_item a i) as [[a2 u2]|] eqn:Ei; [|discriminate]. destruct (run_items a2 l) as [[a3 u3]|] eqn:Er; [|discriminate].
    intros X. injection X as <- <-. rewrite (IH _ _ _ Er). destruct i; cbn [run_item do_close] in Ei; try (injection Ei as <- <-; reflexivity).
    destruct (contents_unref a c) as [[a4 u4]|] eqn:Ec; [|discriminate]. injection Ei as <- <-. exact (HU _ _ _ _ Ec). }
  assert (HA : forall l a b u, unref_all a l = Some (b, u) -> length (conts b) = length (conts a)).
  { induction l as [|i l IH]; intros a b u; cbn [unref_all]; [intros X; injection X as <- <-; reflexivity|].
    destruct (contents_unref a i) as [[a2 u2]|] eqn:Ei; [|discriminate]. destruct (unref_all a2 l) as [[a3 u3]|] eqn:Er; [|discriminate].
    intros X. injection X as <- <-. rewrite (IH _ _ _ Er). exact (HU _ _ _ _ Ei). }
  assert (HF : forall l a b, ref_all a l = Some b -> length (conts b) = length (conts a)).
  { induction l as [|i l IH]; intros a b; cbn [ref_all]; [intros X; injection X as <-; reflexivity|].
    destruct (contents_ref a i) as [a2|] eqn:Ei; [|discriminate]. intros X. rewrite (IH _ _ X). exact (HR _ _ _ Ei). }
  assert (HP : forall a x b l a2 x2, append_contents a x b l = Some (a2, x2) -> length (conts a2) = length (conts a)).
  { intros a x b l a2 x2. unfold append_contents. destruct b as [c|].
    - destruct (contents_ref a c) as [a3|] eqn:Er; [|discriminate]. intros X. injection X as <- <-. exact (HR _ _ _ Er).
    - intros X. injection X as <- <-. reflexivity. }
  assert (HD : forall a n it, add_item a n it = Done s1 t -> length (conts s1) = length (conts a)).
  { intros a n it. unfold add_item. destruct (at_ (msgs a) n); [|discriminate]. intros X. injection X as <- <-. reflexivity. }
  rewrite Nat.add_0_r.
  destruct o as [|n|n|n d p|n d p|n p|n fd dup|n b locals|n b locals|fds|b|b|l b|l|l|fd|fd]; cbn [step] in E; try discriminate.
  - injection E as <- <-. reflexivity.
  - destruct (at_ (msgs s) n); [|discriminate]. injection E as <- <-. reflexivity.
  - destruct (at_ (msgs s) n) as [y|]; [|discriminate]. destruct (_ =? 0); [|injection E as <- <-; reflexivity].
    destruct (run_items _ _) as [[s2 t2]|] eqn:E2; [|discriminate]. pose proof (HI _ _ _ _ E2) as H2.
    destruct (m_contents y) as [c|]; [|injection E as <- <-; exact H2].
    destruct (contents_unref s2 c) as [[s3 t3]|] eqn:E3; [|discriminate]. injection E as <- <-. rewrite (HU _ _ _ _ E3). exact H2.
  - destruct n as [n|]; [exact (HD _ _ _ E)|]. injection E as <- <-. reflexivity.
  - destruct n as [n|]; [exact (HD _ _ _ E)|]. injection E as <- <-. reflexivity.
  - exact (HD _ _ _ E).
  - destruct dup as [d|]; [|exact (HD _ _ _ E)]. destruct (fdt s d); [discriminate|]. exact (HD _ _ _ E).
  - destruct (at_ (msgs s) n) as [y|]; [|discriminate]. destruct (buf_arg s b) as [c|]; [|discriminate].
    destruct (append_contents s y c locals) as [[s2 y2]|] eqn:E2; [|discriminate]. injection E as <- <-. exact (HP _ _ _ _ _ _ E2).
  - destruct (at_ (msgs s) n) as [y|]; [|discriminate]. destruct (buf_arg s b) as [c|]; [|discriminate].
    destruct (cleanup_reset (m_cleanup y)) as [cl todo].
    destruct (run_items _ _) as [[s2 t2]|] eqn:E2; [|discriminate].
    destruct (append_contents s2 (with_cleanup y cl) c locals) as [[s3 x3]|] eqn:E3; [|discriminate].
    destruct (match m_contents y with Some old => contents_unref s3 old | None => Some (s3, []) end) as [[s4 t4]|] eqn:E4; [|discriminate].
    destruct (match c with Some k => contents_ref s4 k | None => Some s4 end) as [s5|] eqn:E5; [|discriminate].
    injection E as <- <-. cbn [put_msg set_msgs conts].
    assert (H5 : length (conts s5) = length (conts s4)) by (destruct c; [exact (HR _ _ _ E5)|congruence]).
    assert (H4 : length (conts s4) = length (conts s3)) by (destruct (m_contents y); [exact (HU _ _ _ _ E4)|congruence]).
    rewrite H5, H4, (HP _ _ _ _ _ _ E3), (HI _ _ _ _ E2). reflexivity.
  - destruct (at_ (bufs s) b) as [c|]; [|discriminate]. destruct (contents_ref s c) as [s2|] eqn:E2; [|discriminate].
    injection E as <- <-. exact (HR _ _ _ E2).
  - destruct (at_ (bufs s) b) as [c|]; [|discriminate].
    destruct (contents_unref _ c) as [[s2 t2]|] eqn:E2; [|discriminate]. injection E as <- <-. exact (HU _ _ _ _ E2).
  - destruct (at_ (bufs s) b) as [c|]; [|discriminate]. destruct (contents_ref s c) as [s2|] eqn:E2; [|discriminate].
    pose proof (HR _ _ _ E2) as H2. destruct l as [n|]; [destruct (at_ (lists s2) n); [|discriminate]|]; injection E as <- <-; exact H2.
  - destruct (at_ (lists s) l) as [cs|]; [|discriminate]. destruct (ref_all s cs) as [s2|] eqn:E2; [|discriminate].
    injection E as <- <-. exact (HF _ _ _ E2).
  - destruct (at_ (lists s) l) as [cs|]; [|discriminate].
    destruct (unref_all _ cs) as [[s2 t2]|] eqn:E2; [|discriminate]. injection E as <- <-. exact (HA _ _ _ _ E2).
  - destruct (fdt s fd); [discriminate|]. injection E as <- <-. reflexivity.
  - destruct (fdt s fd) as [[]|]; try discriminate. injection E as <- <-. reflexivity.
Qed.

Lemma run_conts os : forall h s s1 t, safe s -> refs_ok h s -> run s os = Done s1 t ->
  length (conts s1) = (length (conts s) + length (filter is_buf_new os))%nat.
Proof.
  induction os as [|o r IH]; intros h s s1 t Hs R; cbn [run filter length].
  - intros E. injection E as <- <-. lia.
  - pose proof (step_safe s o Hs) as Ho. destruct (step s o) as [s2 t2| |] eqn:E2; try discriminate.
    destruct (run s2 r) as [s3 t3| |] eqn:E3; try discriminate. intros E. injection E as <- <-.
    pose proof (proj1 (step_count (ItFree 0) h o [] s s2 t2 ltac:(discriminate) R E2)) as R2.
    rewrite (IH _ _ _ _ (proj1 Ho) R2 E3), (step_conts _ _ _ _ Hs E2).
    destruct (is_buf_new o); cbn [length]; lia.
Qed.
