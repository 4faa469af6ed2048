(* C45: cleanups run exactly once; C55: received data lives until its last user *)
From Verif Require Import Base CleanupModel CleanupSpec CleanupProofs CleanupSafe.

(* In every history of calls, every callback registered with a request or reply has run
   exactly once if the request or reply was reset or released after that, and not at
   all if it wasn't: the number of calls of the function i with its argument is the
   number of such registrations. It holds for beginnings of histories too, so that
   callbacks don't run earlier or later than that. *)
Theorem C45_cleanups_run_once :
  forall h s tr i, run init_state h = Done s tr -> (forall c, i <> ItContents c) ->
  zcount i (ran tr) = expected_runs i [] h.
Proof.
  intros h s tr i E Hi. rewrite (run_count i Hi h [] init_state s tr refs_init E), to_run_init. lia.
Qed.
Print Assumptions C45_cleanups_run_once.

(* Two registrations of the same callback with a reply which is then reset, another one
   with a request which is referenced twice and released once *)
Definition ex_history : list op :=
  [ONew; ONew; OCleanup (Some 0%nat) (Some 7) 1; OCleanup (Some 0%nat) (Some 7) 1; ORef 1; OWriterCleanup (Some 1%nat) (Some 7) 1;
   OAppendFd 1 3 (Some 5); OBufNew [6]; OSetContents 0 (Some 0%nat) [99]; OUnref 1; OBufFree 0].

Example C45_cleanups_ex :
  expected_runs (ItRun 7 1) [] ex_history = 2 /\
  expected_runs (ItRun 7 1) [] (ex_history ++ [OUnref 1]) = 3 /\
  expected_runs (ItClose 5) [] ex_history = 0 /\
  expected_runs (ItLocal 99) [] (ex_history ++ [OUnref 0]) = 1 /\
  match run init_state (ex_history ++ [OUnref 1; OUnref 0]) with
  | Done _ tr => tr = [EvRan (ItRun 7 1); EvRan (ItRun 7 1); EvRan (ItRun 7 1); EvRan (ItClose 5); EvClosed 5 (Some (OwMsg 1));
                       EvRan (ItContents 0); EvRan (ItLocal 99); EvClosed 6 (Some (OwCont 0)); EvFreed 0]
  | _ => False
  end.
Proof. vm_compute. repeat split. Qed.

(* Whatever callers do with what they own, the library doesn't use what it has freed *)
Theorem C45_no_use_after_free : forall h, run init_state h <> Crash.
Proof.
  intros h E. pose proof (run_safe h [] init_state safe_init refs_init) as H. rewrite E in H. exact H.
Qed.
Print Assumptions C45_no_use_after_free.

(* A duplicated descriptor stays open until the message is reset or released *)
Theorem C45_descriptor_stays_open :
  forall h m fd d later s tr,
  run init_state (h ++ OAppendFd m fd (Some d) :: later) = Done s tr ->
  ended (h ++ [OAppendFd m fd (Some d)]) later m = false ->
  fdt s d = Some (OwMsg m).
Proof.
  intros h m fd d later s tr E He.
  change (h ++ OAppendFd m fd (Some d) :: later) with (h ++ [OAppendFd m fd (Some d)] ++ later) in E.
  rewrite app_assoc, run_app in E.
  destruct (run init_state (h ++ [OAppendFd m fd (Some d)])) as [s1 t1| |] eqn:E1; try discriminate.
  destruct (run s1 later) as [s2 t2| |] eqn:E2; try discriminate. injection E as <- <-.
  destruct (run_init _ _ _ E1) as (S1 & R1 & _).
  rewrite run_app in E1. destruct (run init_state h) as [s0 t0| |] eqn:E0; try discriminate.
  cbn [run step] in E1. destruct (fdt s0 d); [discriminate|].
  destruct (add_item _ m (Some (ItClose d))) as [sa ta| |] eqn:Ea; try discriminate. injection E1 as <- <-.
  destruct (add_item_count _ _ _ _ _ Ea) as (_ & x & Hx & Hm & Hc).
  assert (Hat : at_ (msgs sa) m = Some (with_cleanup x (cleanup_add (m_cleanup x) (Some (ItClose d))))).
  { rewrite Hm, at_set_at by (eapply at_lt; exact Hx). rewrite Nat.eqb_refl. reflexivity. }
  assert (Hin : In (ItClose d) (cleanup_free (m_cleanup (with_cleanup x (cleanup_add (m_cleanup x) (Some (ItClose d))))))).
  { cbn [with_cleanup m_cleanup]. apply zcount_pos. rewrite Hc. destruct (item_dec (ItClose d) (ItClose d)); [|congruence].
    pose proof (zcount_nonneg (ItClose d) (cleanup_free (m_cleanup x))). lia. }
  destruct (kept_run later _ _ _ _ m _ _ S1 R1 E2 Hat Hin He) as (x1 & Hx1 & Hi1).
  pose proof (run_safe later _ _ S1 R1) as H2. rewrite E2 in H2.
  exact (registered_open _ _ _ _ (proj1 H2) Hx1 Hi1).
Qed.
Print Assumptions C45_descriptor_stays_open.

(* No descriptor is closed by someone who didn't open it: neither one of the application
   nor one which has been closed already *)
Theorem C45_closes_its_own :
  forall h s t0 o s1 t fd who,
  run init_state h = Done s t0 -> step s o = Done s1 t -> In (EvClosed fd who) t ->
  (who = Some OwApp /\ o = OAppClose fd) \/
  (exists m, who = Some (OwMsg m) /\ (o = OUnref m \/ exists b l, o = OSetContents m b l)) \/
  (exists c, who = Some (OwCont c) /\ In (EvFreed c) t).
Proof.
  intros h s t0 o s1 t fd who E E1 Hin. destruct (run_init _ _ _ E) as (S & _ & _).
  pose proof (step_safe s o S) as H. rewrite E1 in H. destruct H as (_ & H & _).
  assert (Hc : In (fd, who) (closed t)).
  { unfold closed. apply in_flat_map. exists (EvClosed fd who). split; [exact Hin|left; reflexivity]. }
  destruct (H fd who Hc) as [H1|[H1|(c & -> & Hf)]]; [left; exact H1|right; left; exact H1|right; right].
  exists c. split; [reflexivity|]. unfold freed in Hf. apply in_flat_map in Hf. destruct Hf as (e & He & Hf).
  destruct e; try contradiction. destruct Hf as [<-|[]]. exact He.
Qed.
Print Assumptions C45_closes_its_own.

Example C45_descriptors_ex :
  match run init_state ex_history with
  | Done s _ => fdt s 5 = Some (OwMsg 1) /\ fdt s 6 = Some (OwCont 0) /\
                ended (firstn 7 ex_history) (skipn 7 ex_history) 1 = false
  | _ => False
  end.
Proof. vm_compute. repeat split. Qed.

(* Received data isn't given back to the driver, and descriptors in it aren't closed, as
   long as there is a request or reply with something copied from it *)
Theorem C55_kept_while_copied :
  forall h m b locals later s0 t0 c s tr o,
  o = OAppendContents m (Some b) locals \/ o = OSetContents m (Some b) locals ->
  run init_state h = Done s0 t0 -> at_ (bufs s0) b = Some c ->
  run init_state (h ++ o :: later) = Done s tr ->
  ended (h ++ [o]) later m = false ->
  exists k, at_ (conts s) c = Some k /\ ~ In (EvFreed c) tr /\
    forall fd, In fd (c_fds k) -> fdt s fd = Some (OwCont c).
Proof.
  intros h m b locals later s0 t0 c s tr o Ho E0 Hb E He.
  destruct (run_init _ _ _ E) as (S & _ & T).
  change (h ++ o :: later) with (h ++ [o] ++ later) in E. rewrite app_assoc, run_app in E.
  destruct (run init_state (h ++ [o])) as [s1 t1| |] eqn:E1; try discriminate.
  destruct (run s1 later) as [s2 t2| |] eqn:E2; try discriminate. injection E as <- <-.
  destruct (run_init _ _ _ E1) as (S1 & R1 & _).
  rewrite run_app, E0 in E1. cbn [run] in E1. destruct (step s0 o) as [s1' t1'| |] eqn:Es; try discriminate.
  injection E1 as -> _.
  assert (Hin : exists x, at_ (msgs s1) m = Some x /\ In (ItContents c) (cleanup_free (m_cleanup x))).
  { assert (Hf : forall locals cl j, In j (cleanup_free cl) ->
      In j (cleanup_free (fold_left (fun cl o => cleanup_add cl (Some (ItLocal o))) locals cl))).
    { induction locals0 as [|q r IH]; intros cl j Hj; cbn [fold_left]; [exact Hj|]. apply IH.
      destruct cl as [l|]; cbn [cleanup_add cleanup_free] in *; [apply in_app_iff; auto|contradiction]. }
    assert (Ha : forall a x a2 x2, append_contents a x (Some c) locals = Some (a2, x2) ->
      In (ItContents c) (cleanup_free (m_cleanup x2))).
    { intros a x a2 x2. unfold append_contents. destruct (contents_ref a c); [|discriminate]. intros X. injection X as <- <-.
      cbn [with_cleanup m_cleanup]. apply Hf. destruct (m_cleanup x) as [l|]; cbn [cleanup_add cleanup_free].
      - apply in_app_iff. right. left. reflexivity.
      - left. reflexivity. }
    destruct Ho as [-> | ->]; cbn [step buf_arg] in Es; rewrite Hb in Es;
      (destruct (at_ (msgs s0) m) as [x|] eqn:Ex; [|discriminate]).
    - destruct (append_contents s0 x (Some c) locals) as [[a2 x2]|] eqn:Ea; [|discriminate]. injection Es as <- <-.
      exists x2. split; [|exact (Ha _ _ _ _ Ea)]. unfold put_msg. cbn [set_msgs msgs].
      rewrite at_set_at; [rewrite Nat.eqb_refl; reflexivity|].
      rewrite (proj1 (proj1 (append_contents_msg _ _ _ _ _ _ Ea))). exact (at_lt _ _ _ Ex).
    - destruct (cleanup_reset (m_cleanup x)) as [cl todo].
      destruct (run_items _ _) as [[a2 u2]|] eqn:E3; [|discriminate].
      destruct (append_contents a2 (with_cleanup x cl) (Some c) locals) as [[a3 x3]|] eqn:Ea; [|discriminate].
      destruct (match m_contents x with Some old => contents_unref a3 old | None => Some (a3, []) end) as [[a4 u4]|] eqn:E4; [|discriminate].
      destruct (contents_ref a4 c) as [a5|] eqn:E5; [|discriminate]. injection Es as <- <-.
      exists {| m_refs := m_refs x3; m_cleanup := m_cleanup x3; m_contents := Some c |}.
      split; [|cbn [m_cleanup]; exact (Ha _ _ _ _ Ea)]. unfold put_msg. cbn [set_msgs msgs].
      rewrite at_set_at; [rewrite Nat.eqb_refl; cbn [m_cleanup]; reflexivity|].
      assert (M4 : msgs a4 = msgs a3).
      { destruct (m_contents x) as [old|]; [exact (proj1 (proj1 (contents_unref_same _ _ _ _ E4)))|congruence]. }
      rewrite (proj1 (contents_ref_same _ _ _ E5)), M4, (proj1 (proj1 (append_contents_msg _ _ _ _ _ _ Ea))),
        (proj1 (proj1 (run_items_same _ _ _ _ E3))). unfold put_msg. cbn [set_msgs msgs]. rewrite length_set_at.
      exact (at_lt _ _ _ Ex). }
  destruct Hin as (x & Hx & Hi).
  destruct (kept_run later _ _ _ _ m _ _ S1 R1 E2 Hx Hi He) as (x1 & Hx1 & Hi1).
  destruct (held_live s2 c S (msg_item_own _ _ _ _ Hx1 Hi1)) as (k & Hk & Hfd).
  exists k. split; [exact Hk|]. split; [|exact Hfd]. intros Hin.
  assert (Hc : In c (freed (t1 ++ t2))).
  { unfold freed. apply in_flat_map. exists (EvFreed c). split; [exact Hin|left; reflexivity]. }
  specialize (T c). unfold live in T. rewrite Hk in T. apply (count_occ_In Nat.eq_dec) in Hc. unfold ncount in T.
  unfold below in T. destruct (Nat.ltb c (length (conts s2))); lia.
Qed.
Print Assumptions C55_kept_while_copied.

Example C55_kept_ex :
  match run init_state (firstn 8 ex_history) with
  | Done s0 _ =>
    at_ (bufs s0) 0 = Some 0%nat /\
    match run init_state ex_history with
    | Done s _ => ended (firstn 9 ex_history) (skipn 9 ex_history) 0 = false /\ at_ (bufs s) 0 = None /\
        at_ (conts s) 0 = Some {| c_refs := 2; c_fds := [6] |}
    | _ => False
    end
  | _ => False
  end.
Proof. vm_compute. repeat split. Qed.

(* Received data is given back exactly once, as soon as nobody refers to it *)
Theorem C55_given_back_once :
  forall h s tr c, run init_state h = Done s tr -> (c < received h)%nat ->
  (held c s -> times_freed c tr = 0%nat) /\ (~ held c s -> times_freed c tr = 1%nat).
Proof.
  intros h s tr c E Hc. destruct (run_init _ _ _ E) as (S & _ & T). specialize (T c).
  pose proof (run_conts h [] init_state s tr safe_init refs_init E) as Hl.
  cbn [init_state conts length plus] in Hl. unfold below in T.
  change (length (filter is_buf_new h)) with (received h) in Hl. rewrite Hl in T.
  destruct (Nat.ltb_spec c (received h)); [|lia]. unfold ncount in T. change (count_occ Nat.eq_dec (freed tr) c) with (times_freed c tr) in T.
  assert (Hh : held c s <-> 1 <= own c s).
  { split.
    - intros [(b & Hb)|[(l & cs & Hl1 & Hi)|(m & x & Hx & Hi)]].
      + exact (holds_of_buf _ _ _ Hb).
      + exact (holds_of_list _ _ _ _ Hl1 Hi).
      + destruct Hi as [Hi|Hi]; [exact (msg_item_own _ _ _ _ Hx Hi)|].
        pose proof (holds_of_msg s m x c Hx) as H1. unfold msg_holds in H1. rewrite Hi in H1. cbn [is_some_nat] in H1.
        rewrite Nat.eqb_refl in H1. pose proof (zcount_nonneg (ItContents c) (cleanup_free (m_cleanup x))). lia.
    - intros H1. unfold own in H1.
      assert (Hpos : forall (A : Type) (f : nat -> A -> Z) l i, 1 <= isum f i l -> exists k x, nth_error l k = Some x /\ 1 <= f (i + k)%nat x).
      { induction l as [|y l IH]; intros i Hs; cbn [isum] in Hs; [lia|].
        destruct (Z.leb_spec 1 (f i y)); [exists 0%nat, y; rewrite Nat.add_0_r; auto|].
        destruct (IH (Datatypes.S i)) as (k & x & Hk & Hx); [lia|]. exists (Datatypes.S k), x. split; [exact Hk|].
        replace (i + Datatypes.S k)%nat with (Datatypes.S i + k)%nat by lia. exact Hx. }
      destruct (Z.leb_spec 1 (isum (mown c) 0 (msgs s))) as [H2|H2].
      { destruct (Hpos _ _ _ _ H2) as (m & x & Hm & Hx). unfold mown in Hx. destruct x as [x|]; [|lia].
        right; right. exists m, x. split; [apply nth_at; exact Hm|]. unfold msg_holds in Hx.
        destruct (Z.leb_spec 1 (zcount (ItContents c) (cleanup_free (m_cleanup x)))) as [H3|H3]; [left; apply zcount_pos; exact H3|].
        right. unfold is_some_nat in Hx. destruct (m_contents x) as [k|]; [|lia].
        destruct (Nat.eqb_spec k c); [congruence|lia]. }
      destruct (Z.leb_spec 1 (isum (bown c) 0 (bufs s))) as [H3|H3].
      { destruct (Hpos _ _ _ _ H3) as (m & x & Hm & Hx). left. exists m. unfold bown, is_some_nat in Hx.
        destruct x as [k|]; [|lia]. destruct (Nat.eqb_spec k c) as [->|]; [|lia]. apply nth_at. exact Hm. }
      destruct (Hpos _ (lown c) (lists s) 0%nat) as (m & x & Hm & Hx); [lia|].
      right; left. unfold lown in Hx. destruct x as [cs|]; [|lia]. exists m, cs. split; [apply nth_at; exact Hm|].
      apply (count_occ_In Nat.eq_dec). unfold ncount in Hx. lia. }
  destruct S as [C _]. specialize (C c). unfold live in T. destruct (at_ (conts s) c) as [k|].
  - split; [lia|]. intros Hn. exfalso. apply Hn, Hh. lia.
  - split; [|lia]. intros Hx. apply Hh in Hx. lia.
Qed.
Print Assumptions C55_given_back_once.

Example C55_given_back_ex :
  match run init_state (ex_history ++ [OUnref 0]) with
  | Done s tr => times_freed 0 tr = 1%nat /\ received (ex_history ++ [OUnref 0]) = 1%nat
  | _ => False
  end.
Proof. vm_compute. repeat split. Qed.
