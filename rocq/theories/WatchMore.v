(* More proofs about service managers: names, services which aren't watched without handlers,
   delivery of notifications *)
From Coq Require Import ZArith List Lia Bool.
From Verif Require Import Base WaitModel WatchModel WatchSpec WatchProofs.
Import ListNotations.

(* ------------------------------------------------------------------ *)
(* Names *)

Lemma normalize_plain n : plain (normalize_name n).
Proof.
  unfold plain. change slash with SLASH. induction n as [|c n IH]; cbn [normalize_name]; [auto|].
  destruct (Z.eqb_spec c SLASH); cbn [In]; [auto|]. intros [|]; auto.
Qed.
Lemma normalize_split n : In SLASH n -> exists inst, n = normalize_name n ++ SLASH :: inst.
Proof.
  induction n as [|c n IH]; cbn [In normalize_name]; [tauto|]. intros H.
  destruct (Z.eqb_spec c SLASH) as [->|N]; [exists n; reflexivity|].
  destruct H as [->|H]; [congruence|]. destruct (IH H) as [inst E]. exists inst. cbn [app]. congruence.
Qed.
Lemma normalize_app n inst : plain n -> normalize_name (n ++ SLASH :: inst) = n.
Proof.
  unfold plain. change slash with SLASH. induction n as [|c n IH]; cbn [app normalize_name In]; intros H.
  - rewrite Z.eqb_refl. reflexivity.
  - destruct (Z.eqb_spec c SLASH) as [->|N]; [tauto|]. f_equal. apply IH. tauto.
Qed.

Lemma allowed_chars c : allowed c = true <-> In c hidl_chars.
Proof.
  unfold allowed. split.
  - intros H. assert (K : 46 <= c <= 122) by lia.
    assert (L : forall k, (k < 77)%nat -> let c := 46 + Z.of_nat k in
      ((46 <=? c) && (c <=? 58)) || ((64 <=? c) && (c <=? 90)) || ((97 <=? c) && (c <=? 122)) = true -> In c hidl_chars).
    { intros k Hk. do 77 (destruct k as [|k]; [vm_compute; intuition congruence|]). lia. }
    specialize (L (Z.to_nat (c - 46))). cbv zeta in L. replace (46 + Z.of_nat (Z.to_nat (c - 46))) with c in L by lia.
    apply L; [lia|exact H].
  - intros H. unfold hidl_chars in H. cbn [In] in H. repeat (destruct H as [<-|H]; [reflexivity|]). destruct H.
Qed.
Lemma hidl_name_spec n : (0 <? blen n) && forallb allowed n = true <-> hidl_name n.
Proof.
  unfold hidl_name. rewrite andb_true_iff, forallb_forall, Z.ltb_lt. unfold blen. split.
  - intros [H1 H2]. split; [intros ->; cbn in H1; lia|]. intros c Hc. apply allowed_chars. auto.
  - intros [H1 H2]. split; [destruct n; [congruence|]; cbn [length]; lia|]. intros c Hc. apply allowed_chars. auto.
Qed.
Lemma slash_spec n : existsb (Z.eqb SLASH) n = true <-> In SLASH n.
Proof.
  rewrite existsb_exists. split.
  - intros (x & Hx & E). apply Z.eqb_eq in E. congruence.
  - intros H. exists SLASH. split; [auto|apply Z.eqb_refl].
Qed.

Lemma watch_name_service k n d : watch_name k n = Some d <-> service k n d.
Proof.
  assert (Es : slash = SLASH) by reflexivity. unfold watch_name, check_name. destruct k.
  - split; [intros [= ->]; constructor|intros H; inversion H; reflexivity].
  - destruct ((0 <? blen n) && forallb allowed n) eqn:E.
    + apply hidl_name_spec in E. destruct (existsb (Z.eqb SLASH) n) eqn:S.
      * apply slash_spec in S. destruct (normalize_split n S) as [inst En].
        pose proof (normalize_plain n) as P. split.
        -- intros [= <-]. rewrite En at 1. constructor; auto. change slash with SLASH; rewrite <- En; auto.
        -- intros H. inversion H; subst; [contradiction|]. f_equal. apply normalize_app. auto.
      * assert (P : plain n) by (intros H; apply slash_spec in H; congruence). split.
        -- intros [= <-]. constructor; auto.
        -- intros H. inversion H; subst; auto. destruct P. apply in_app_iff. right. left. auto.
    + split; [discriminate|]. intros H. exfalso.
      assert (hidl_name n) as K by (inversion H; auto). apply hidl_name_spec in K. congruence.
Qed.

Lemma service_unique k n d e : service k n d -> service k n e -> d = e.
Proof. rewrite <- !watch_name_service. congruence. Qed.

(* ------------------------------------------------------------------ *)
(* Watched services have handlers *)

Definition tidy (m : man) : Prop :=
  forall w, In w (m_table m) -> w_on w = true -> has_handler (m_handlers m) (w_name w) = true.

Lemma covered_tidy s m : inv s m -> covered s = true ->
  forall w, In w (m_table m) -> has_handler (m_handlers m) (w_name w) = true.
Proof.
  intros I C w Hw. unfold covered in C. rewrite forallb_forall in C.
  destruct (proj1 (i_added _ _ I (w_name w)) (in_map w_name _ _ Hw)) as [id H].
  specialize (C _ H). cbv beta iota in C. rewrite (i_man _ _ I) in C. exact C.
Qed.

Lemma only s m m2 : mans s = [m] -> inv s m2 -> m2 = m.
Proof. intros E I. rewrite (i_man _ _ I) in E. congruence. Qed.

Lemma tidy_step s m mv s2 m2 : inv s m -> tidy m -> is_new mv = false ->
  negb (appears s mv) || covered s = true -> step s mv = Ok s2 -> inv s2 m2 -> tidy m2.
Proof.
  intros I T N C E I2.
  assert (O : forall i f, with_man s i f = Ok s2 -> i = 0%nat).
  { intros i f H. destruct (Nat.eq_dec i 0); auto. rewrite (other_man s i m (i_man _ _ I) n) in H. discriminate. }
  assert (W : forall f, with_man s 0 f = f m).
  { intros f. unfold with_man. rewrite (i_man _ _ I). cbn [nth_error]. rewrite (i_live _ _ I). reflexivity. }
  assert (Rea : forall s1 c d res, mans s1 = [with_check m c d] -> reanimated s1 0 res = Ok s2 \/
      (exists s3 l, reanimated s1 0 res = Ok s3 /\ s2 = set_timers s3 l) ->
      (forall w, In w (m_table m) -> has_handler (m_handlers m) (w_name w) = true) -> tidy m2).
  { intros s1 c d res Em Hr Hc.
    assert (Er : exists s3, reanimated s1 0 res = Ok s3 /\ mans s3 = mans s2).
    { destruct Hr as [Hr|(s3 & l & Hr & ->)]; eauto. }
    destruct Er as (s3 & Er & M). unfold reanimated in Er. rewrite Em in Er. cbn [nth_error] in Er.
    cbn [with_check m_check m_kind m_live m_table m_handlers m_delay] in Er.
    destruct (remove_timer s1 c) as [| |s4] eqn:Er4; try discriminate.
    assert (M4 : mans s4 = [with_check m c d]).
    { unfold remove_timer in Er4. destruct c; [|congruence].
      destruct (existsb _ _); [|discriminate]. injection Er4 as <-. cbn. auto. }
    injection Er as Er. rewrite <- Er in M. cbn [say set_man mans] in M. rewrite M4 in M. cbn [replace_nth] in M.
    rewrite (i_man _ _ I2) in M. injection M as M. subst m2.
    intros w Hw _. cbn [with_table with_check m_table m_handlers] in *.
    apply in_map_iff in Hw. destruct Hw as (w0 & <- & Hw0). cbn [rearm w_name]. auto. }
  destruct mv; try discriminate; cbn [step] in E.
  - unfold finalize in E. rewrite (O _ _ E), W in E.
    destruct (existsb _ _); [discriminate|]. destruct (remove_timer s (m_check m)); try discriminate.
    injection E as <-. pose proof (i_man _ _ I2) as M. cbn [set_man mans] in M.
    pose proof (i_live _ _ I2) as L. destruct (mans s0); cbn [replace_nth] in M; [discriminate|].
    injection M as M _. rewrite <- M in L. discriminate.
  - unfold death in E. destruct (dead s) eqn:D.
    + injection E as <-. rewrite (only s m m2 (i_man _ _ I) I2). auto.
    + (* nothing is watched when it's dead *)
      assert (D2 : dead s2 = true).
      { destruct (inv_death s m I) as (s3 & m3 & E3 & I3). unfold death in E3. rewrite D in E3.
        rewrite E in E3. injection E3 as <-. rewrite (i_man _ _ I) in E.
        cbn [length seq all_died set_dead mans] in E. rewrite (i_man _ _ I) in E. cbn [nth_error] in E.
        rewrite (i_live _ _ I) in E. unfold died, check_start in E. cbn [set_dead mans] in E.
        rewrite (i_man _ _ I) in E. cbn [nth_error] in E.
        cbn [add_timer fresh set_timers set_man mans next dead timers emits trace set_dead] in E.
        rewrite (i_man _ _ I) in E. cbn [replace_nth nth_error bind] in E.
        injection E as <-. reflexivity. }
      intros w Hw O1. rewrite (i_dead _ _ I2 D2 w Hw) in O1. discriminate.
  - pose proof E as E0. unfold check_timer in E. pose proof (i_timer _ _ I) as T0.
    destruct (find (timer_is id) (timers s)) as [t|] eqn:F; [|discriminate]. cbv zeta in E.
    destruct (dead s) eqn:D.
    2:{ destruct T0 as [_ Ht]. rewrite Ht in F. discriminate. }
    destruct T0 as (id0 & Hc & Ht & _). rewrite Ht in F. cbn [find] in F.
    destruct (timer_is id _); [|discriminate]. injection F as <-. cbn [t_man] in E.
    rewrite (i_man _ _ I) in E. cbn [nth_error] in E. rewrite (i_live _ _ I) in E. cbn [negb] in E.
    unfold reanimate in E. rewrite D in E. destruct ping; cbn [negb] in E.
    + match type of E with match reanimated ?s1 0 res with _ => _ end = _ =>
        destruct (reanimated s1 0 res) as [| |s3] eqn:Er; try discriminate;
        apply (Rea s1 None (m_delay m) res) end.
      * cbn [set_man say set_dead mans]. rewrite (i_man _ _ I). reflexivity.
      * right. exists s3. eexists. split; [exact Er|]. injection E as <-. reflexivity.
      * apply (covered_tidy s m I). unfold appears in C. rewrite D in C. exact C.
    + destruct (m_delay m <? PRESENSE_WAIT_MS_MAX).
      * injection E as <-. pose proof (i_man _ _ I2) as M.
        cbn [add_timer fresh set_timers set_man say set_dead mans] in M. rewrite (i_man _ _ I) in M.
        cbn [replace_nth] in M. injection M as <-. exact T.
      * injection E as <-. pose proof (i_man _ _ I2) as M.
        cbn [say set_dead mans] in M. rewrite (i_man _ _ I) in M. injection M as <-. exact T.
  - unfold wait_move in E. rewrite (O _ _ E), W in E. destruct (dead s) eqn:D; cbn [negb] in E.
    2:{ injection E as <-. rewrite (only s m m2 (i_man _ _ I) I2). auto. }
    destruct found.
    + rewrite (i_dead _ _ I D) in T || idtac.
      apply (Rea (set_dead s false) (m_check m) (m_delay m) res).
      * cbn [set_dead mans]. rewrite (i_man _ _ I). destruct m; reflexivity.
      * left. exact E.
      * apply (covered_tidy s m I). unfold appears in C. rewrite D in C. exact C.
    + injection E as <-. rewrite (only s m m2 (i_man _ _ I) I2). auto.
  - unfold add_presence_handler in E. rewrite (O _ _ E), W in E. injection E as <-.
    pose proof (i_man _ _ I2) as M. cbn [fresh set_man mans] in M. rewrite (i_man _ _ I) in M.
    cbn [replace_nth] in M. injection M as <-. intros w Hw Ow.
    cbn [with_handlers m_table m_handlers] in *. unfold has_handler. rewrite existsb_app.
    fold (has_handler (m_handlers m) (w_name w)). rewrite (T w Hw Ow). reflexivity.
  - unfold add_handler in E. rewrite (O _ _ E), W in E.
    destruct (watch_name (m_kind m) n) as [d|].
    2:{ injection E as <-. rewrite (only s m m2 (i_man _ _ I) I2). auto. }
    cbv zeta in E. injection E as <-.
    pose proof (i_man _ _ I2) as M. cbn [fresh say set_man mans] in M. rewrite (i_man _ _ I) in M.
    cbn [replace_nth] in M. injection M as <-.
    fold (add_table (m_table m) d) in *. intros w Hw Ow. cbn [with_handlers with_table m_table m_handlers] in *.
    unfold has_handler. rewrite existsb_app. apply orb_true_iff.
    change (existsb (detail_is (w_name w)) [Handler (next s) (Some d)]) with (name_eqb (w_name w) d || false).
    destruct (name_eqb_spec (w_name w) d) as [->|Nd]; auto. left.
    assert (In w (m_table m)); [|apply T; auto].
    destruct (_ && _) in Hw.
    + apply in_map_iff in Hw. destruct Hw as (u & Eu & Hu). unfold set_on, watch_is in Eu.
      destruct (name_eqb_spec d (w_name u)) as [Ed|Ed]; [subst w; cbn [w_name] in Nd; congruence|subst u].
      apply add_table_in in Hu. destruct Hu as [Hu|[-> _]]; auto. cbn [w_name] in Nd. congruence.
    + apply add_table_in in Hw. destruct Hw as [Hu|[-> _]]; auto. cbn [w_name] in Nd. congruence.
  - assert (i = 0%nat) by (unfold remove_handlers in E; apply (O _ _ E)). subst i.
    destruct (inv_remove s m ids I) as [H|(s3 & m3 & H & I3 & _ & G)]; [congruence|].
    rewrite E in H. injection H as <-.
    rewrite (only s2 m3 m2 (i_man _ _ I3) I2). exact (G T).
  - unfold service_registered in E. rewrite (O _ _ E), W in E. injection E as <-.
    pose proof (i_man _ _ I2) as M. cbn [fresh set_emits mans] in M. rewrite (i_man _ _ I) in M.
    injection M as <-. auto.
  - unfold deliver in E. destruct (emits s) as [|e r]; [discriminate|].
    assert (M : mans s2 = mans s).
    { destruct (e_left e); [injection E as <-; reflexivity|].
      destruct (nth_error (mans s) (e_man e)); [|discriminate].
      destruct (existsb _ _); injection E as <-; reflexivity. }
    rewrite (i_man _ _ I2), (i_man _ _ I) in M. injection M as ->. auto.
  - rewrite (O _ _ E), W in E. injection E as <-.
    pose proof (i_man _ _ I2) as M. cbn [set_man mans] in M. rewrite (i_man _ _ I) in M.
    cbn [replace_nth] in M. injection M as <-. intros w Hw Ow. cbn [with_table m_table m_handlers] in *.
    apply swap_at_in in Hw. auto.
Qed.

Lemma tidy_run : forall l s m, inv s m -> tidy m -> forallb (fun mv => negb (is_new mv)) l = true ->
  kept s l = true -> forall s2 m2, run s l = Ok s2 -> inv s2 m2 -> tidy m2.
Proof.
  induction l as [|mv l IH]; intros s m I T N K s2 m2 E I2; cbn [run] in E.
  - injection E as <-. rewrite (only s m m2 (i_man _ _ I) I2). auto.
  - cbn [forallb] in N. apply andb_true_iff in N. destruct N as [N1 N2]. apply negb_true_iff in N1.
    cbn [kept] in K. apply andb_true_iff in K. destruct K as [K1 K2].
    destruct (inv_step s m mv I N1) as [H|(s1 & m1 & H & [I1|G1])]; rewrite H in E; cbn [bind] in E;
      try discriminate; rewrite H in K2.
    + apply (IH s1 m1) with (s2 := s2); auto. exact (tidy_step s m mv s1 m1 I T N1 K1 H I1).
    + exfalso. assert (G : forall l s, gone s m1 -> forallb (fun mv => negb (is_new mv)) l = true ->
        forall s2, run s l = Ok s2 -> gone s2 m1).
      { clear. induction l as [|mv l IH]; intros s G N s2; cbn [run]; [intros [= <-]; auto|].
        cbn [forallb] in N. apply andb_true_iff in N. destruct N as [N1 N2]. apply negb_true_iff in N1.
        destruct (gone_step s m1 mv G N1) as [->|(s1 & -> & G1)]; cbn [bind]; [discriminate|]. eauto. }
      pose proof (G l s1 G1 N2 s2 E) as G2. pose proof (i_live _ _ I2) as L.
      pose proof (i_man _ _ I2) as M. rewrite (g_man _ _ G2) in M. injection M as <-.
      rewrite (g_live _ _ G2) in L. discriminate.
Qed.

(* ------------------------------------------------------------------ *)
(* Delivery *)

Definition all_handlers (s : state) : list handler := flat_map m_handlers (mans s).

Lemma replace_nth_in {A} : forall (l : list A) i x y, In y (replace_nth l i x) -> y = x \/ In y l.
Proof.
  induction l as [|a l IH]; intros [|i] x y; cbn [replace_nth In]; try tauto.
  - intros [->|H]; auto.
  - intros [->|H]; auto. apply IH in H. tauto.
Qed.

Definition no_call (e : event) : bool := match e with EvCall _ _ _ => false | _ => true end.

(* Nothing which matters for deliveries changes, except that handlers may disappear and new
   ones may be connected *)
Record tame (s s2 : state) : Prop := {
  ta_emits : emits s2 = emits s;
  ta_next : next s <= next s2;
  ta_len : length (mans s2) = length (mans s);
  ta_handlers : forall h, In h (all_handlers s2) -> In h (all_handlers s) \/ next s <= h_id h;
  ta_trace : exists l, trace s2 = l ++ trace s /\ forallb no_call l = true
}.
Lemma ta_calls s s2 : tame s s2 -> forall em id, calls (trace s2) em id = calls (trace s) em id.
Proof.
  intros T em id. destruct (ta_trace _ _ T) as (l & -> & H). unfold calls. rewrite filter_app, app_length.
  replace (length (filter _ l)) with 0%nat; auto.
  induction l as [|e l IH]; cbn [filter]; auto. cbn [forallb] in H. apply andb_true_iff in H. destruct H as [H1 H2].
  destruct e; try discriminate; apply IH; auto.
Qed.
Lemma ta_named s s2 : tame s s2 -> forall em id x, In (EvCall em id x) (trace s2) -> In (EvCall em id x) (trace s).
Proof.
  intros T em id x. destruct (ta_trace _ _ T) as (l & -> & H). rewrite in_app_iff. intros [K|K]; auto.
  rewrite forallb_forall in H. apply H in K. discriminate.
Qed.
Lemma tame_refl s : tame s s.
Proof. split; auto; [lia|exists []; auto]. Qed.
Lemma tame_trans a b c : tame a b -> tame b c -> tame a c.
Proof.
  intros [A1 A2 A3 A4 A5] [B1 B2 B3 B4 B5]. split; try congruence; try lia.
  - intros h H. apply B4 in H. destruct H as [H|H]; [apply A4 in H; auto|right; lia].
  - destruct A5 as (l1 & E1 & F1), B5 as (l2 & E2 & F2). exists (l2 ++ l1). rewrite E2, E1, app_assoc.
    split; auto. rewrite forallb_app, F1, F2. reflexivity.
Qed.

Lemma replace_nth_length {A} : forall (l : list A) i x, length (replace_nth l i x) = length l.
Proof. induction l as [|a l IH]; intros [|i] x; cbn; auto. Qed.

Lemma tame_man s i m x : nth_error (mans s) i = Some m ->
  (forall h, In h (m_handlers x) -> In h (m_handlers m) \/ next s <= h_id h) -> tame s (set_man s i x).
Proof.
  intros E H. split; cbn [set_man emits next mans trace]; auto; try lia.
  - apply replace_nth_length.
  - intros h Hh. unfold all_handlers in *. cbn [set_man mans] in Hh. apply in_flat_map in Hh.
    destruct Hh as (y & Hy & Hh). apply replace_nth_in in Hy. destruct Hy as [->|Hy].
    + apply H in Hh. destruct Hh as [Hh|Hh]; auto. left. apply in_flat_map. exists m. split; auto.
      eapply nth_error_In; eauto.
    + left. apply in_flat_map. eauto.
  - exists []. auto.
Qed.
Lemma tame_say s l : forallb no_call l = true ->
  tame s (say s l).
Proof.
  intros H. split; cbn [say emits next mans trace]; auto; try lia.
  exists l. auto.
Qed.
Lemma tame_timers s l : tame s (set_timers s l).
Proof. split; cbn; auto; try lia. exists []. auto. Qed.
Lemma tame_fresh s : tame s (fresh s).
Proof. split; cbn; auto; try lia. exists []. auto. Qed.
Lemma tame_dead s d : tame s (set_dead s d).
Proof. split; cbn; auto; try lia. exists []. auto. Qed.

Lemma tame_remove_timer s c s2 : remove_timer s c = Ok s2 -> tame s s2.
Proof.
  unfold remove_timer. destruct c; [|intros [= <-]; apply tame_refl].
  destruct (existsb _ _); [|discriminate]. intros [= <-]. apply tame_timers.
Qed.
Lemma remove_timer_mans s c s2 : remove_timer s c = Ok s2 -> mans s2 = mans s.
Proof.
  unfold remove_timer. destruct c; [|intros [= <-]; reflexivity].
  destruct (existsb _ _); [|discriminate]. intros [= <-]. reflexivity.
Qed.

Lemma no_calls_rearm i res t :
  forallb no_call (rearm_events i res t) = true.
Proof.
  rewrite forallb_forall. unfold rearm_events. intros e H. rewrite <- in_rev in H.
  apply in_map_iff in H. destruct H as (w & <- & _). reflexivity.
Qed.
Lemma no_calls_unwatch i l :
  forallb no_call (rev (map (EvUnwatch i) l)) = true.
Proof.
  rewrite forallb_forall. intros e H. rewrite <- in_rev in H.
  apply in_map_iff in H. destruct H as (w & <- & _). reflexivity.
Qed.

Lemma tame_reanimated s i res s2 : reanimated s i res = Ok s2 -> tame s s2.
Proof.
  unfold reanimated. destruct (nth_error (mans s) i) as [m|] eqn:E; [|discriminate].
  destruct (remove_timer s (m_check m)) as [| |s1] eqn:R; try discriminate. intros [= <-].
  eapply tame_trans; [apply (tame_remove_timer _ _ _ R)|].
  eapply tame_trans; [|apply tame_say]; [eapply tame_man|].
  - rewrite (remove_timer_mans _ _ _ R). exact E.
  - auto.
  - cbn [forallb]. apply no_calls_rearm.
Qed.
Lemma tame_add_timer s i d : tame s (add_timer s i d).
Proof. split; cbn; auto; try lia. exists []. auto. Qed.
Lemma tame_check_start s i s2 : check_start s i = Ok s2 -> tame s s2.
Proof.
  unfold check_start. destruct (nth_error (mans s) i) as [m|] eqn:E; [|discriminate]. intros [= <-].
  eapply tame_trans; [|apply tame_add_timer]. eapply tame_man; eauto.
Qed.
Lemma tame_died s i s2 : died s i = Ok s2 -> tame s s2.
Proof.
  unfold died. destruct (check_start s i) as [| |s1] eqn:E; try discriminate.
  destruct (nth_error (mans s1) i) as [m|] eqn:Em; [|discriminate]. intros [= <-].
  eapply tame_trans; [apply (tame_check_start _ _ _ E)|].
  eapply tame_trans; [|apply tame_say]; [eapply tame_man; eauto|].
  cbn [forallb]. rewrite unwatch_events_names. apply no_calls_unwatch.
Qed.
Lemma tame_all_died : forall l s s2, all_died s l = Ok s2 -> tame s s2.
Proof.
  induction l as [|i l IH]; intros s s2; cbn [all_died]; [intros [= <-]; apply tame_refl|].
  destruct (nth_error (mans s) i) as [m|]; auto. destruct (m_live m); auto.
  destruct (died s i) as [| |s1] eqn:E; cbn [bind]; try discriminate. intros H.
  eapply tame_trans; [apply (tame_died _ _ _ E)|auto].
Qed.

Lemma with_man_ok s i f s2 : with_man s i f = Ok s2 ->
  exists m, nth_error (mans s) i = Some m /\ m_live m = true /\ f m = Ok s2.
Proof.
  unfold with_man. destruct (nth_error (mans s) i) as [m|]; [|discriminate].
  destruct (m_live m) eqn:L; [|discriminate]. eauto.
Qed.

Definition emitting (mv : move) : bool := match mv with MRegistered _ _ | MDeliver => true | _ => false end.

Lemma tame_step s mv s2 : is_new mv = false -> emitting mv = false -> step s mv = Ok s2 -> tame s s2.
Proof.
  destruct mv; try discriminate; intros _ _; cbn [step].
  - unfold finalize. intros H. apply with_man_ok in H. destruct H as (m & E & L & H).
    destruct (existsb _ _); [discriminate|].
    destruct (remove_timer s (m_check m)) as [| |s1] eqn:R; try discriminate. injection H as <-.
    eapply tame_trans; [apply (tame_remove_timer _ _ _ R)|].
    eapply tame_man; [rewrite (remove_timer_mans _ _ _ R); eauto|cbn; tauto].
  - unfold death. destruct (dead s); [intros [= <-]; apply tame_refl|]. intros H.
    eapply tame_trans; [apply tame_dead|]. eapply tame_all_died; eauto.
  - unfold check_timer. destruct (find _ _) as [t|]; [|discriminate]. cbv zeta.
    destruct (nth_error (mans s) (t_man t)) as [m|] eqn:E; [|discriminate].
    destruct (negb (m_live m)); [discriminate|].
    assert (R : exists s1 ok, reanimate s ping = (s1, ok) /\ tame s s1 /\ mans s1 = mans s).
    { unfold reanimate. destruct (dead s); eexists; eexists; (split; [reflexivity|]); split; auto using tame_dead, tame_refl. }
    destruct R as (s1 & ok & -> & T1 & M1). destruct ok.
    + destruct (reanimated _ _ _) as [| |s3] eqn:Er; try discriminate. intros [= <-].
      eapply tame_trans; [exact T1|]. eapply tame_trans; [apply (tame_say s1 [EvCheck (t_man t) true]); reflexivity|].
      eapply tame_trans; [eapply (tame_man _ (t_man t) m)|].
      3:{ eapply tame_trans; [apply (tame_reanimated _ _ _ _ Er)|apply tame_timers]. }
      * cbn [say mans]. rewrite M1. exact E.
      * auto.
    + destruct (_ <? _); intros [= <-].
      * eapply tame_trans; [exact T1|]. eapply tame_trans; [apply (tame_say s1 [EvCheck (t_man t) false]); reflexivity|].
        eapply tame_trans; [eapply (tame_man _ (t_man t) m)|].
        3:{ eapply tame_trans; [apply tame_add_timer|apply tame_timers]. }
        -- cbn [say mans]. rewrite M1. exact E.
        -- auto.
      * eapply tame_trans; [exact T1|]. apply tame_say. reflexivity.
  - unfold wait_move. intros H. apply with_man_ok in H. destruct H as (m & E & L & H).
    destruct (dead s); cbn [negb] in H; [|injection H as <-; apply tame_refl].
    destruct found; [|injection H as <-; apply tame_refl].
    eapply tame_trans; [apply tame_dead|]. eapply tame_reanimated; eauto.
  - unfold add_presence_handler. intros H. apply with_man_ok in H. destruct H as (m & E & L & H).
    injection H as <-. eapply tame_trans; [|apply tame_fresh]. eapply tame_man; [eauto|].
    intros h Hh. cbn [with_handlers m_handlers] in Hh. apply in_app_iff in Hh.
    destruct Hh as [Hh|[<-|[]]]; auto. right. cbn. lia.
  - unfold add_handler. intros H. apply with_man_ok in H. destruct H as (m & E & L & H).
    destruct (watch_name (m_kind m) n) as [d|]; [|injection H as <-; apply tame_refl].
    cbv zeta in H. injection H as <-.
    eapply tame_trans; [|apply tame_fresh]. eapply tame_trans; [|apply tame_say]; [eapply tame_man; [eauto|]|].
    + intros h Hh. cbn [with_handlers m_handlers] in Hh. apply in_app_iff in Hh.
      destruct Hh as [Hh|[<-|[]]]; auto. right. cbn. lia.
    + destruct (_ && _); reflexivity.
  - unfold remove_handlers. intros H. apply with_man_ok in H. destruct H as (m & E & L & H).
    destruct (disconnect (m_handlers m) ids 0) as [[hs c]|] eqn:Ed; [|discriminate].
    destruct (unwatch_loop hs (m_table m) c) as [t l]. injection H as <-.
    eapply tame_trans; [|apply tame_say]; [eapply tame_man; [eauto|]|].
    + cbn [with_handlers m_handlers]. intros h Hh. left. apply (disconnect_in _ _ _ _ _ Ed). auto.
    + apply no_calls_unwatch.
  - intros H. apply with_man_ok in H. destruct H as (m & E & L & H). injection H as <-.
    eapply tame_man; eauto.
Qed.

(* The calls of an emission: those made, and those still to be made *)
Fixpoint todo (l : list emission) (em id : Z) : nat :=
  match l with
  | [] => 0
  | e :: r => (if e_id e =? em then count_occ Z.eq_dec (e_left e) id else 0) + todo r em id
  end.

Section Emission.
Variable em : Z.
Variable ids : list Z.
Variable nm : name.
Definition connected (s : state) (id : Z) : Prop := exists h, In h (all_handlers s) /\ h_id h = id.

Record due (s : state) : Prop := {
  d_one : exists m, mans s = [m];
  d_mans : Forall (fun e => e_man e = 0%nat) (emits s);
  d_em : em < next s;
  d_ids : forall id, In id ids -> id < next s;
  d_out : forall id, ~ In id ids -> (calls (trace s) em id + todo (emits s) em id = 0)%nat;
  d_max : forall id, (calls (trace s) em id + todo (emits s) em id <= 1)%nat;
  d_in : forall id, In id ids -> connected s id -> (calls (trace s) em id + todo (emits s) em id = 1)%nat;
  d_ename : forall e, In e (emits s) -> e_id e = em -> e_name e = nm;
  d_named : forall id x, In (EvCall em id x) (trace s) -> x = nm
}.

Lemma due_tame s s2 : due s -> tame s s2 -> due s2.
Proof.
  intros [A B C D E F G P Q] T. pose proof (ta_calls _ _ T) as T5. pose proof (ta_named _ _ T) as T6.
  destruct T as [T1 T2 T3 T4 _]. split.
  - destruct A as [m A]. rewrite A in T3. destruct (mans s2) as [|m2 [|m3 l]]; try discriminate. eauto.
  - rewrite T1. auto.
  - lia.
  - intros id H. apply D in H. lia.
  - intros id H. rewrite T5, T1. auto.
  - intros id. rewrite T5, T1. auto.
  - intros id H (h & Hh & <-). rewrite T5, T1. apply G; auto.
    apply T4 in Hh. destruct Hh as [Hh|Hh]; [exists h; auto|]. apply D in H. lia.
  - rewrite T1. auto.
  - intros id x H. apply T6 in H. eauto.
Qed.

Lemma due_registered s i n s2 : due s -> service_registered s i n = Ok s2 -> due s2.
Proof.
  intros [A B C D E F G P Q] H. unfold service_registered in H. apply with_man_ok in H.
  destruct H as (m & Em & L & H). injection H as <-.
  assert (K : forall l id, todo (Emission (next s) i n l :: emits s) em id = todo (emits s) em id).
  { intros l id. cbn [todo e_id]. destruct (Z.eqb_spec (next s) em); [lia|reflexivity]. }
  destruct A as [m0 A]. split; cbn [fresh set_emits emits next mans trace]; eauto; try lia.
  - constructor; auto. cbn. rewrite A in Em. destruct i as [|[|i]]; auto; discriminate.
  - intros id H. rewrite K. auto.
  - intros id. rewrite K. auto.
  - intros id H Hc. rewrite K. auto.
  - intros e [<-|H]; auto. cbn. lia.
Qed.

Lemma due_deliver s s2 : due s -> deliver s = Ok s2 -> due s2.
Proof.
  intros [A B C D E F G P Q] H. unfold deliver in H. destruct (emits s) as [|e r] eqn:Ee; [discriminate|].
  destruct A as [m A]. inversion B as [|x l Be Br]; subst.
  destruct (e_left e) as [|i l] eqn:El.
  - injection H as <-.
    assert (K : forall id, todo (e :: r) em id = todo r em id).
    { intros id. cbn [todo]. rewrite El. destruct (_ =? _); reflexivity. }
    split; cbn [set_emits emits next mans trace]; eauto.
    + intros id H. rewrite <- K. auto.
    + intros id. rewrite <- K. auto.
    + intros id H Hc. rewrite <- K. auto.
    + intros x H. apply P. right. auto.
  - rewrite Be, A in H. cbn [nth_error] in H.
    assert (K : forall id, todo (e :: r) em id =
       ((if ((e_id e =? em) && (i =? id))%Z then 1 else 0) + todo (Emission (e_id e) 0 (e_name e) l :: r) em id)%nat).
    { intros id. cbn [todo e_id e_left]. rewrite El. destruct (e_id e =? em); cbn [andb]; auto.
      cbn [count_occ]. destruct (Z.eq_dec i id), (Z.eqb_spec i id); try contradiction; lia. }
    destruct (existsb (handler_is i) (m_handlers m)) eqn:X; injection H as <-.
    + assert (J : forall id, (calls (EvCall (e_id e) i (e_name e) :: trace s) em id +
         todo (Emission (e_id e) 0 (e_name e) l :: r) em id =
         calls (trace s) em id + todo (e :: r) em id)%nat).
      { intros id. rewrite (K id). unfold calls. cbn [filter]. destruct ((e_id e =? em) && (i =? id)); cbn [length]; lia. }
      split; cbn [say set_emits emits next mans trace app]; eauto.
      * intros id H. rewrite J. auto.
      * intros id. rewrite J. auto.
      * intros id H Hc. rewrite J. auto.
      * intros x [<-|H]; cbn [e_id e_name]; [apply P; left; auto|apply P; right; auto].
      * intros id x [H|H]; [|eauto]. injection H as Hem _ <-. apply P; auto. left. auto.
    + assert (J : forall id, (todo (Emission (e_id e) 0 (e_name e) l :: r) em id <= todo (e :: r) em id)%nat)
        by (intros id; rewrite (K id); lia).
      split; cbn [say set_emits emits next mans trace app]; eauto.
      * intros id H. specialize (E id H). specialize (J id). lia.
      * intros id. specialize (F id). specialize (J id). lia.
      * intros id H Hc. rewrite <- (G id H Hc), (K id).
        destruct ((e_id e =? em) && (i =? id)) eqn:Qe; auto. exfalso.
        apply andb_true_iff in Qe. destruct Qe as [_ Qe]. apply Z.eqb_eq in Qe. subst id.
        destruct Hc as (h & Hh & Hi). unfold all_handlers in Hh. cbn [set_emits mans] in Hh. rewrite A in Hh.
        cbn [flat_map] in Hh. rewrite app_nil_r in Hh.
        assert (existsb (handler_is i) (m_handlers m) = true); [|congruence].
        apply existsb_exists. exists h. split; auto. unfold handler_is. apply Z.eqb_eq. auto.
      * intros x [<-|H]; cbn [e_id e_name]; [apply P; left; auto|apply P; right; auto].
Qed.

Lemma due_run : forall l s s2, due s -> forallb (fun mv => negb (is_new mv)) l = true ->
  run s l = Ok s2 -> due s2.
Proof.
  induction l as [|mv l IH]; intros s s2 H N; cbn [run]; [intros [= <-]; auto|].
  cbn [forallb] in N. apply andb_true_iff in N. destruct N as [N1 N2]. apply negb_true_iff in N1.
  destruct (step s mv) as [| |s1] eqn:E; cbn [bind]; try discriminate. intros R.
  apply (IH s1); auto. destruct (emitting mv) eqn:Em.
  - destruct mv; try discriminate; cbn [step] in E; eauto using due_registered, due_deliver.
  - eapply due_tame; eauto. eapply tame_step; eauto.
Qed.
End Emission.

(* The ids of emissions are new ones *)
Definition older (s : state) : Prop :=
  (forall e, In e (emits s) -> e_id e < next s) /\
  (forall em id x, In (EvCall em id x) (trace s) -> em < next s).

Lemma older_tame s s2 : older s -> tame s s2 -> older s2.
Proof.
  intros [A B] T. pose proof (ta_next _ _ T). split.
  - rewrite (ta_emits _ _ T). intros e H1. apply A in H1. lia.
  - intros em id x H1. apply (ta_named _ _ T) in H1. apply B in H1. lia.
Qed.
Lemma older_step s mv s2 : older s -> is_new mv = false -> step s mv = Ok s2 -> older s2.
Proof.
  intros O N E. destruct (emitting mv) eqn:Em; [|eapply older_tame; eauto using tame_step].
  destruct O as [A B]. destruct mv; try discriminate; cbn [step] in E.
  - unfold service_registered in E. apply with_man_ok in E. destruct E as (m & _ & _ & E). injection E as <-.
    split; cbn [fresh set_emits emits next trace].
    + intros e [<-|H]; cbn; [lia|]. apply A in H. lia.
    + intros em id x H. apply B in H. lia.
  - unfold deliver in E. destruct (emits s) as [|e r] eqn:Ee; [discriminate|].
    assert (He : e_id e < next s) by (apply A; left; auto).
    destruct (e_left e) as [|i l].
    + injection E as <-. split; cbn [set_emits emits next trace]; auto. intros x H. apply A. right. auto.
    + destruct (nth_error (mans s) (e_man e)) as [m|]; [|discriminate].
      destruct (existsb _ _); injection E as <-; (split; cbn [say set_emits emits next trace app]).
      * intros x [<-|H]; cbn [e_id]; auto. apply A. right. auto.
      * intros em id x [H|H]; eauto. injection H as <- _ _. auto.
      * intros x [<-|H]; cbn [e_id]; auto. apply A. right. auto.
      * eauto.
Qed.
Lemma older_run : forall l s s2, older s -> forallb (fun mv => negb (is_new mv)) l = true ->
  run s l = Ok s2 -> older s2.
Proof.
  induction l as [|mv l IH]; intros s s2 O N; cbn [run]; [intros [= <-]; auto|].
  cbn [forallb] in N. apply andb_true_iff in N. destruct N as [N1 N2]. apply negb_true_iff in N1.
  destruct (step s mv) as [| |s1] eqn:E; cbn [bind]; try discriminate. intros R.
  apply (IH s1); auto. eapply older_step; eauto.
Qed.
Lemma older_new k ping s : step init (MNew k ping) = Ok s -> older s.
Proof.
  cbn [step]. unfold new_manager. cbn. destruct ping; cbn; intros [= <-]; (split; cbn; [tauto|]).
  - intros em id x [H|[]]. discriminate.
  - intros em id x [H|[]]. discriminate.
Qed.
Lemma single_older l s : single l -> run init l = Ok s -> older s.
Proof.
  intros (k & ping & r & -> & N). cbn [run]. destruct (inv_new k ping) as (s1 & m & E & _).
  pose proof (older_new k ping s1 E). rewrite E. cbn [bind]. intros R. eapply older_run; eauto.
Qed.

Lemma count_nodup (l : list Z) x : NoDup l -> count_occ Z.eq_dec l x = if in_dec Z.eq_dec x l then 1%nat else 0%nat.
Proof.
  intros N. destruct (in_dec Z.eq_dec x l) as [H|H].
  - apply NoDup_count_occ'; auto.
  - apply count_occ_not_In. auto.
Qed.
Lemma todo_other l em id : (forall e, In e l -> e_id e <> em) -> todo l em id = 0%nat.
Proof.
  induction l as [|e l IH]; cbn [todo]; auto. intros H. destruct (Z.eqb_spec (e_id e) em) as [E|E].
  - exfalso. apply (H e); auto. left. auto.
  - rewrite IH; auto. intros x Hx. apply H. right. auto.
Qed.
Lemma calls_none tr em id : (forall i x, ~ In (EvCall em i x) tr) -> calls tr em id = 0%nat.
Proof.
  intros H. unfold calls. induction tr as [|e tr IH]; auto. cbn [filter].
  assert (IH' : forall i x, ~ In (EvCall em i x) tr) by (intros i x K; apply (H i x); right; auto).
  specialize (IH IH'). destruct e; auto. destruct (Z.eqb_spec em0 em) as [->|N]; cbn [andb]; auto.
  exfalso. apply (H id0 n). left. auto.
Qed.

Lemma nodup_filter_map (l : list handler) f : NoDup (map h_id l) -> NoDup (map h_id (filter f l)).
Proof.
  induction l as [|h l IH]; cbn [map filter]; auto. intros N. inversion N; subst.
  destruct (f h); auto. cbn [map]. constructor; auto. intros H. apply in_map_iff in H.
  destruct H as (x & Ex & Hx). apply filter_In in Hx. destruct Hx as [Hx _]. apply H1. rewrite <- Ex.
  apply in_map. auto.
Qed.

(* What the emission is for *)
Lemma registered_ids s m n s1 : inv s m -> older s -> service_registered s 0 n = Ok s1 ->
  exists ids, due (next s) ids n s1 /\
    (forall id, In id ids <-> exists h d, In h (m_handlers m) /\ h_id h = id /\ h_detail h = Some d /\ service (m_kind m) n d).
Proof.
  intros I [O1 O2] E. unfold service_registered, with_man in E. rewrite (i_man _ _ I) in E. cbn [nth_error] in E.
  rewrite (i_live _ _ I) in E.
  assert (Q : exists ids, Ok (fresh (set_emits s (Emission (next s) 0 n ids :: emits s))) = Ok s1 /\ NoDup ids /\
    (forall id, In id ids <-> exists h d, In h (m_handlers m) /\ h_id h = id /\ h_detail h = Some d /\ service (m_kind m) n d)).
  { eexists. split; [exact E|]. clear E. destruct (watch_name (m_kind m) n) as [d|] eqn:W.
    - apply watch_name_service in W. destruct (find (watch_is d) (m_table m)) as [w|] eqn:F.
      + apply find_some in F. destruct F as [_ F]. unfold watch_is in F. destruct (name_eqb_spec d (w_name w)) as [Ed|]; [|discriminate].
        rewrite <- Ed. split; [apply nodup_filter_map, (i_ids _ _ I)|]. intros id. rewrite in_map_iff. split.
        * intros (h & Eh & Hh). apply filter_In in Hh. destruct Hh as [Hh Hd]. unfold detail_is in Hd.
          destruct (h_detail h) as [x|] eqn:Ex; [|discriminate]. destruct (name_eqb_spec d x) as [<-|]; [|discriminate].
          exists h, d. auto.
        * intros (h & x & Hh & Eh & Ex & Hs). exists h. split; auto. apply filter_In. split; auto.
          unfold detail_is. rewrite Ex. rewrite (service_unique _ _ _ _ Hs W). apply name_eqb_refl.
      + split; [constructor|]. intros id. split; [intros []|]. intros (h & x & Hh & Eh & Ex & Hs). exfalso.
        rewrite (service_unique _ _ _ _ Hs W) in Ex.
        assert (K : In d (map w_name (m_table m))) by (apply (i_known _ _ I), has_handler_spec; eauto).
        apply in_map_iff in K. destruct K as (w & Ew & Hw). pose proof (find_none _ _ F w Hw) as X.
        unfold watch_is in X. rewrite Ew, name_eqb_refl in X. discriminate.
    - split; [constructor|]. intros id. split; [intros []|]. intros (h & x & Hh & Eh & Ex & Hs).
      apply watch_name_service in Hs. congruence. }
  destruct Q as (ids & Es & ND & Hids). injection Es as <-. exists ids. split; auto.
  assert (Z0 : forall id, calls (trace s) (next s) id = 0%nat).
  { intros id. apply calls_none. intros i x K. apply O2 in K. lia. }
  assert (Z1 : forall id, todo (Emission (next s) 0 n ids :: emits s) (next s) id = count_occ Z.eq_dec ids id).
  { intros id. cbn [todo e_id e_left]. rewrite Z.eqb_refl. rewrite (todo_other (emits s)); [lia|].
    intros e K. apply O1 in K. lia. }
  split; cbn [fresh set_emits emits next mans trace].
  - exists m. apply (i_man _ _ I).
  - constructor; [reflexivity|apply (i_emits _ _ I)].
  - lia.
  - intros id K. apply Hids in K. destruct K as (h & d & Hh & <- & _). pose proof (proj2 (i_next _ _ I) h Hh). lia.
  - intros id K. rewrite Z0, Z1, count_nodup; auto. destruct (in_dec _ _ _); [contradiction|auto].
  - intros id. rewrite Z0, Z1, count_nodup; auto. destruct (in_dec _ _ _); lia.
  - intros id K _. rewrite Z0, Z1, count_nodup; auto. destruct (in_dec _ _ _); [auto|contradiction].
  - intros e [<-|K] Ke; [reflexivity|]. apply O1 in K. lia.
  - intros id x K. apply O2 in K. lia.
Qed.
