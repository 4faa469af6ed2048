(* Proofs about presence and watches of a single service manager *)
From Coq Require Import ZArith List Lia Bool.
From Verif Require Import Base WaitModel WatchModel WatchSpec.
Import ListNotations.

Lemma name_eqb_spec : forall a b, reflect (a = b) (name_eqb a b).
Proof.
  induction a as [|x a IH]; destruct b as [|y b]; cbn [name_eqb]; try (constructor; congruence).
  destruct (Z.eqb_spec x y) as [->|N]; cbn [andb]; [|constructor; congruence].
  destruct (IH b) as [->|M]; constructor; congruence.
Qed.
Lemma name_eqb_refl a : name_eqb a a = true.
Proof. destruct (name_eqb_spec a a); congruence. Qed.

Lemma has_handler_spec hs n :
  has_handler hs n = true <-> exists h, In h hs /\ h_detail h = Some n.
Proof.
  unfold has_handler. rewrite existsb_exists. unfold detail_is. split.
  - intros (h & Hh & E). exists h. split; auto. destruct (h_detail h); [|discriminate].
    destruct (name_eqb_spec n n0); congruence.
  - intros (h & Hh & E). exists h. split; auto. rewrite E. apply name_eqb_refl.
Qed.

Lemma handled_spec s m n : mans s = [m] -> handled s 0 n <-> has_handler (m_handlers m) n = true.
Proof.
  intros E. rewrite has_handler_spec. unfold handled. rewrite E. cbn [nth_error]. split.
  - intros (m1 & h & [= <-] & H1 & H2). eauto.
  - intros (h & H1 & H2). eauto 6.
Qed.

(* ------------------------------------------------------------------ *)
(* Events *)

Definition quiet (e : event) : bool :=
  match e with EvWatch _ _ _ | EvUnwatch _ _ | EvAdd _ _ _ | EvCall _ _ _ => true | _ => false end.
Lemma reports_quiet l tr i : forallb quiet l = true -> reports (l ++ tr) i = reports tr i.
Proof.
  induction l as [|e l IH]; cbn [forallb]; auto. intros H. apply andb_true_iff in H. destruct H as [H1 H2].
  destruct e; try discriminate; cbn [app reports]; auto.
Qed.
Lemma failed_quiet l tr i : forallb quiet l = true -> failed_checks (l ++ tr) i = failed_checks tr i.
Proof.
  induction l as [|e l IH]; cbn [forallb]; auto. intros H. apply andb_true_iff in H. destruct H as [H1 H2].
  destruct e; try discriminate; cbn [app failed_checks]; auto.
Qed.
Lemma failed_nonneg tr i : 0 <= failed_checks tr i.
Proof.
  induction tr as [|e tr IH]; cbn [failed_checks]; try lia.
  destruct e as [j b|j n b|j n|j id n|j b|j b|em id n]; auto; try (destruct (Nat.eqb j i); lia).
  destruct b; auto. destruct (Nat.eqb j i); lia.
Qed.

Definition about (e : event) : bool :=
  match e with EvWatch _ _ _ | EvUnwatch _ _ => true | _ => false end.
Lemma last_done_other l tr i n : forallb (fun e => negb (about e)) l = true ->
  last_done (l ++ tr) i n = last_done tr i n.
Proof.
  induction l as [|e l IH]; cbn [forallb]; auto. intros H. apply andb_true_iff in H. destruct H as [H1 H2].
  destruct e; try discriminate; cbn [app last_done]; auto.
Qed.

Lemma last_done_app l tr i n :
  last_done (l ++ tr) i n = match last_done l i n with Nothing => last_done tr i n | d => d end.
Proof.
  induction l as [|e l IH]; cbn [app last_done]; auto.
  destruct e as [j b|j m b|j m|j id m|j b|j b|em id m]; auto;
  destruct (Nat.eqb j i && name_eqb n m); auto.
Qed.

Lemma last_done_rearm i res t n : NoDup (map w_name t) ->
  last_done (rearm_events i res t) i n =
  if existsb (watch_is n) t then Tried (res n) else Nothing.
Proof.
  unfold rearm_events. induction t as [|w t IH]; cbn [map rev existsb]; auto.
  intros H. inversion H as [|x l Hw Hl]; subst. rewrite last_done_app, IH by auto.
  unfold watch_is at 2. cbn [last_done]. rewrite Nat.eqb_refl. cbn [andb].
  destruct (existsb (watch_is n) t) eqn:E; [rewrite orb_true_r; auto|].
  rewrite orb_false_r. destruct (name_eqb_spec n (w_name w)) as [->|N]; auto.
Qed.

Lemma last_done_unwatch i (l : list name) n :
  last_done (rev (map (EvUnwatch i) l)) i n = if existsb (name_eqb n) l then GivenUp else Nothing.
Proof.
  induction l as [|x l IH]; cbn [map rev existsb]; auto.
  rewrite last_done_app, IH. cbn [last_done]. rewrite Nat.eqb_refl. cbn [andb].
  destruct (name_eqb n x); cbn [orb]; destruct (existsb (name_eqb n) l); auto.
Qed.

Lemma quiet_rearm i res t : forallb quiet (rearm_events i res t) = true.
Proof.
  unfold rearm_events. rewrite forallb_forall. intros e H. rewrite <- in_rev in H.
  apply in_map_iff in H. destruct H as (w & <- & _). reflexivity.
Qed.
Lemma unwatch_events_names i t : unwatch_events i t = rev (map (EvUnwatch i) (map w_name (filter w_on t))).
Proof. unfold unwatch_events. rewrite map_map. reflexivity. Qed.
Lemma quiet_unwatch i l : forallb quiet (rev (map (EvUnwatch i) l)) = true.
Proof.
  rewrite forallb_forall. intros e H. rewrite <- in_rev in H.
  apply in_map_iff in H. destruct H as (w & <- & _). reflexivity.
Qed.
Lemma added_rearm i res t j id n : ~ In (EvAdd j id n) (rearm_events i res t).
Proof.
  unfold rearm_events. rewrite <- in_rev, in_map_iff. intros (w & E & _). discriminate.
Qed.
Lemma added_unwatch i l j id n : ~ In (EvAdd j id n) (rev (map (EvUnwatch i) l)).
Proof. rewrite <- in_rev, in_map_iff. intros (w & E & _). discriminate. Qed.

Lemma existsb_name n l : existsb (name_eqb n) l = true <-> In n l.
Proof.
  rewrite existsb_exists. split.
  - intros (x & Hx & E). destruct (name_eqb_spec n x); [subst; auto|discriminate].
  - intros H. exists n. split; auto. apply name_eqb_refl.
Qed.
Lemma existsb_watch n t : existsb (watch_is n) t = true <-> In n (map w_name t).
Proof.
  rewrite existsb_exists, in_map_iff. unfold watch_is. split.
  - intros (x & Hx & E). destruct (name_eqb_spec n (w_name x)); [eauto|discriminate].
  - intros (x & <- & Hx). exists x. split; auto. apply name_eqb_refl.
Qed.

Lemma unique_watch t w1 w2 : NoDup (map w_name t) -> In w1 t -> In w2 t -> w_name w1 = w_name w2 -> w1 = w2.
Proof.
  induction t as [|w t IH]; cbn [map In]; try tauto. intros H H1 H2 E.
  inversion H as [|x l Hw Hl]; subst.
  destruct H1 as [->|H1], H2 as [->|H2]; auto.
  - exfalso. apply Hw. rewrite E. apply in_map. auto.
  - exfalso. apply Hw. rewrite <- E. apply in_map. auto.
Qed.

Lemma NoDup_app_snoc {A} (l : list A) x : NoDup l -> ~ In x l -> NoDup (l ++ [x]).
Proof.
  induction l as [|y l IH]; cbn [app]; intros H N.
  - constructor; [auto|constructor].
  - inversion H; subst. constructor.
    + rewrite in_app_iff. cbn in *. intros [?|[->|[]]]; auto.
    + apply IH; auto. cbn in N. tauto.
Qed.

(* ------------------------------------------------------------------ *)
(* The invariant *)

Definition sees (tr : list event) (n : name) : bool :=
  match last_done tr 0 n with Tried true => true | _ => false end.

Record inv (s : state) (m : man) : Prop := {
  i_man : mans s = [m];
  i_live : m_live m = true;
  i_timer : if dead s then exists id, m_check m = Some id /\ timers s = [Timer id 0 (m_delay m)] /\ id < next s
            else m_check m = None /\ timers s = [];
  i_delay : dead s = true -> m_delay m = Z.min 1000 (100 * (failed_checks (trace s) 0 + 1));
  i_names : NoDup (map w_name (m_table m));
  i_ids : NoDup (map h_id (m_handlers m));
  i_next : 0 < next s /\ forall h, In h (m_handlers m) -> 0 < h_id h < next s;
  i_known : forall n, has_handler (m_handlers m) n = true -> In n (map w_name (m_table m));
  i_added : forall n, In n (map w_name (m_table m)) <-> exists id, In (EvAdd 0 id n) (trace s);
  i_mans : forall i id n, In (EvAdd i id n) (trace s) -> i = 0%nat;
  i_on : forall w, In w (m_table m) -> w_on w = sees (trace s) (w_name w);
  i_off : forall n, ~ In n (map w_name (m_table m)) -> last_done (trace s) 0 n = Nothing;
  i_dead : dead s = true -> forall w, In w (m_table m) -> w_on w = false;
  i_tried : dead s = false -> forall n, has_handler (m_handlers m) n = true ->
            exists b, last_done (trace s) 0 n = Tried b;
  i_reports : exists l, reports (trace s) 0 = l ++ [negb (dead s)] /\ alternates (l ++ [negb (dead s)]);
  i_emits : Forall (fun e => e_man e = 0%nat) (emits s)
}.

Lemma alternates_snoc l a b : alternates (l ++ [a]) -> b = negb a -> alternates ((l ++ [a]) ++ [b]).
Proof.
  intros H ->. induction l as [|x l IH].
  - cbn. auto.
  - destruct l as [|y l].
    + cbn in *. destruct H. auto.
    + cbn [app alternates] in *. destruct H. split; auto. apply IH; auto.
Qed.

(* gbinder_servicemanager_reanimated, when the object isn't dead anymore *)
Lemma inv_reanimated s m res : inv s m -> dead s = true -> forall s1 c tm d ev,
  mans s1 = [with_check m c d] -> dead s1 = false ->
  next s1 = next s -> emits s1 = emits s -> trace s1 = ev ++ trace s ->
  (ev = [] \/ exists b, ev = [EvCheck 0 b]) ->
  remove_timer s1 c = Ok (set_timers s1 tm) ->
  exists s2, reanimated s1 0 res = Ok s2 /\ timers s2 = tm /\
    inv (set_timers s2 []) (with_table (with_check m None d) (map (rearm res) (m_table m))).
Proof.
  intros I D s1 c tm d ev Em Ed En Ee Er Hev Hrm. unfold reanimated. rewrite Em. cbn [nth_error].
  cbn [with_check m_check m_kind m_live m_table m_handlers m_delay]. rewrite Hrm.
  eexists. split; [reflexivity|]. split; [reflexivity|].
  pose proof (quiet_rearm 0 res (m_table m)) as Q.
  assert (Hq : forall n, last_done (ev ++ trace s) 0 n = last_done (trace s) 0 n)
    by (intros n; destruct Hev as [->|[b ->]]; reflexivity).
  assert (Hnames : map w_name (map (rearm res) (m_table m)) = map w_name (m_table m))
    by (rewrite map_map; reflexivity).
  assert (Hadd : forall i id n, In (EvAdd i id n) (trace (say (set_man (set_timers s1 []) 0 m)
      (EvPresence 0 (negb (dead s1)) :: rearm_events 0 res (m_table m)))) <-> In (EvAdd i id n) (trace s)).
  { intros i id n. cbn [say trace set_man set_timers]. rewrite Er. cbn [app In]. rewrite !in_app_iff. split; auto.
    intros [H|[H|[H|H]]]; auto; try discriminate.
    - destruct (added_rearm _ _ _ _ _ _ H).
    - destruct Hev as [->|[b ->]]; cbn in H; intuition discriminate. }
  split; cbn [say set_man set_timers with_table with_check m_table m_handlers m_check m_delay m_live m_kind
              mans dead timers next emits trace].
  - rewrite Em. reflexivity.
  - apply (i_live _ _ I).
  - rewrite Ed. auto.
  - congruence.
  - rewrite Hnames. apply (i_names _ _ I).
  - apply (i_ids _ _ I).
  - rewrite En. apply (i_next _ _ I).
  - rewrite Hnames. apply (i_known _ _ I).
  - rewrite Hnames. intros n. rewrite (i_added _ _ I n). split; intros [id H]; exists id; apply Hadd; auto.
  - intros i id n H. apply (i_mans _ _ I i id n). apply (Hadd i id n). auto.
  - intros w Hw. apply in_map_iff in Hw. destruct Hw as (w0 & <- & Hw0).
    cbn [rearm w_on w_name]. unfold sees. rewrite Er. cbn [app last_done].
    rewrite last_done_app, last_done_rearm by apply (i_names _ _ I).
    assert (existsb (watch_is (w_name w0)) (m_table m) = true) as -> by (apply existsb_watch, in_map; auto).
    destruct (res (w_name w0)); reflexivity.
  - rewrite Hnames. intros n Hn. rewrite Er. cbn [app last_done].
    rewrite last_done_app, last_done_rearm by apply (i_names _ _ I).
    destruct (existsb (watch_is n) (m_table m)) eqn:E; [apply existsb_watch in E; contradiction|].
    rewrite Hq. apply (i_off _ _ I); auto.
  - congruence.
  - intros _ n Hn. apply (i_known _ _ I) in Hn. rewrite Er. cbn [app last_done].
    rewrite last_done_app, last_done_rearm by apply (i_names _ _ I).
    assert (existsb (watch_is n) (m_table m) = true) as -> by (apply existsb_watch; auto). eauto.
  - destruct (i_reports _ _ I) as (l & R & A). rewrite D in R, A. cbn [negb] in R, A.
    exists (l ++ [false]). rewrite Ed, Er. cbn [negb app reports Nat.eqb].
    rewrite reports_quiet by exact Q.
    assert (reports (ev ++ trace s) 0 = reports (trace s) 0) as ->
      by (destruct Hev as [->|[b ->]]; reflexivity).
    rewrite R. split; auto. apply alternates_snoc; auto.
  - rewrite Ee. apply (i_emits _ _ I).
Qed.

Lemma set_same s : timers s = [] -> set_timers s [] = s.
Proof. destruct s; cbn. intros ->. reflexivity. Qed.

Lemma remove_own s m id : mans s = [m] -> timers s = [Timer id 0 (m_delay m)] ->
  forall s1, timers s1 = timers s -> remove_timer s1 (Some id) = Ok (set_timers s1 []).
Proof.
  intros _ E s1 E1. unfold remove_timer. rewrite E1, E. cbn [existsb filter timer_is t_id].
  unfold timer_is. cbn [t_id]. rewrite Z.eqb_refl. reflexivity.
Qed.

Lemma inv_wait s m found res : inv s m -> exists s2 m2, wait_move s 0 found res = Ok s2 /\ inv s2 m2.
Proof.
  intros I. unfold wait_move, with_man. rewrite (i_man _ _ I). cbn [nth_error].
  rewrite (i_live _ _ I). destruct (dead s) eqn:D; cbn [negb]; [|eauto].
  destruct found; [|eauto].
  pose proof (i_timer _ _ I) as T. rewrite D in T. destruct T as (id & Hc & Ht & _).
  edestruct (inv_reanimated s m res I D (set_dead s false) (Some id) [] (m_delay m) []) as (s2 & E & T2 & I2);
    cbn [set_dead mans timers dead next emits trace app]; auto.
  - rewrite (i_man _ _ I). f_equal. destruct m; cbn in *; subst; reflexivity.
  - apply (remove_own s m id); auto. apply (i_man _ _ I).
  - exists s2. rewrite (set_same s2 T2) in I2. eauto.
Qed.

Lemma inv_check s m id ping res : inv s m ->
  check_timer s id ping res = Misuse \/
  exists s2 m2, check_timer s id ping res = Ok s2 /\ inv s2 m2.
Proof.
  intros I. unfold check_timer. pose proof (i_timer _ _ I) as T.
  destruct (dead s) eqn:D.
  2:{ destruct T as [_ ->]. left. reflexivity. }
  destruct T as (id0 & Hc & Ht & Hlt).
  assert (Hfind : find (timer_is id) (timers s) = if id0 =? id then Some (Timer id0 0 (m_delay m)) else None)
    by (rewrite Ht; cbn [find]; unfold timer_is; cbn [t_id]; destruct (id0 =? id); reflexivity).
  rewrite Hfind. destruct (Z.eqb_spec id0 id) as [->|N]; [right|left; reflexivity].
  cbv zeta. cbn [t_man]. rewrite (i_man _ _ I). cbn [nth_error].
  rewrite (i_live _ _ I). cbn [negb].
  unfold reanimate. rewrite D. cbv beta iota zeta. destruct ping; cbn [negb].
  - edestruct (inv_reanimated s m res I D
      (set_man (say (set_dead s false) [EvCheck 0 true]) 0 (with_check m None (m_delay m)))
      None (timers s) (m_delay m) [EvCheck 0 true]) as (s2 & E & T2 & I2);
      cbn [set_man say set_dead mans timers dead next emits trace app]; auto.
    + rewrite (i_man _ _ I). reflexivity.
    + eauto.
    + unfold set_man, say, set_dead in E. cbn [mans dead timers next emits trace app] in E.
      unfold set_man, say, set_dead. cbn [mans dead timers next emits trace app]. rewrite E.
      eexists. eexists. split; [reflexivity|].
      rewrite T2, Ht. cbn [filter]. unfold timer_is. cbn [t_id]. rewrite Z.eqb_refl. cbn [negb].
      exact I2.
  - pose proof (i_delay _ _ I D) as Hd. pose proof (failed_nonneg (trace s) 0) as F.
    unfold PRESENSE_WAIT_MS_MAX, PRESENSE_WAIT_MS_STEP.
    destruct (Z.ltb_spec (m_delay m) 1000) as [Hl|Hl].
    + eexists. exists (with_check m (Some (next s)) (m_delay m + 100)). split; [reflexivity|].
      assert (Hf : filter (fun t => negb (timer_is id t)) (timers s ++ [Timer (next s) 0 (m_delay m + 100)]) =
              [Timer (next s) 0 (m_delay m + 100)]).
      { rewrite Ht. cbn [app filter]. unfold timer_is. cbn [t_id]. rewrite Z.eqb_refl. cbn [negb].
        destruct (Z.eqb_spec (next s) id); auto. lia. }
      destruct I. split; cbn [add_timer fresh set_timers set_man say set_dead timers next mans dead emits trace
        with_check m_kind m_live m_table m_handlers m_check m_delay app]; auto.
      * rewrite i_man0. reflexivity.
      * exists (next s). split; auto. rewrite Hf. split; auto. lia.
      * intros _. cbn [failed_checks Nat.eqb]. lia.
      * split; [lia|]. intros h Hh. apply i_next0 in Hh. lia.
      * intros n. rewrite i_added0. split; intros [i H]; exists i; [right; auto|destruct H; [discriminate|auto]].
      * intros i j n [H|H]; [discriminate|eauto].
      * congruence.
      * rewrite D in *. cbn [reports]. auto.
    + eexists. exists m. split; [reflexivity|].
      destruct I. split; cbn [add_timer fresh set_timers set_man say set_dead timers next mans dead emits trace
        with_check m_kind m_live m_table m_handlers m_check m_delay app]; auto.
      * eauto.
      * intros _. cbn [failed_checks Nat.eqb]. lia.
      * intros n. rewrite i_added0. split; intros [i H]; exists i; [right; auto|destruct H; [discriminate|auto]].
      * intros i j n [H|H]; [discriminate|eauto].
      * congruence.
      * rewrite D in *. cbn [reports]. auto.
Qed.

Lemma inv_death s m : inv s m -> exists s2 m2, death s = Ok s2 /\ inv s2 m2.
Proof.
  intros I. unfold death. destruct (dead s) eqn:D; [eauto|].
  rewrite (i_man _ _ I). cbn [length seq all_died set_dead mans].
  rewrite (i_man _ _ I). cbn [nth_error]. rewrite (i_live _ _ I).
  unfold died, check_start. cbn [set_dead mans]. rewrite (i_man _ _ I). cbn [nth_error].
  cbn [add_timer fresh set_timers set_man mans next dead timers emits trace]. cbn [set_dead mans].
  rewrite (i_man _ _ I). cbn [replace_nth nth_error bind].
  eexists. exists (with_table (with_check m (Some (next s)) PRESENSE_WAIT_MS_MIN)
    (map (fun w => Watch (w_name w) false) (m_table m))).
  split; [reflexivity|]. cbn [set_dead dead negb].
  pose proof (i_timer _ _ I) as T. rewrite D in T. destruct T as [Hc Ht].
  rewrite unwatch_events_names. cbn [with_check m_table].
  pose proof (quiet_unwatch 0 (map w_name (filter w_on (m_table m)))) as Q.
  set (l := map w_name (filter w_on (m_table m))) in *.
  assert (Hl : forall n, existsb (name_eqb n) l = true <-> exists w, In w (m_table m) /\ w_name w = n /\ w_on w = true).
  { intros n. rewrite existsb_name. unfold l. rewrite in_map_iff. split.
    - intros (w & E & H). apply filter_In in H. exists w. tauto.
    - intros (w & H & E & O). exists w. split; auto. apply filter_In. auto. }
  assert (Hnames : map w_name (map (fun w => Watch (w_name w) false) (m_table m)) = map w_name (m_table m))
    by (rewrite map_map; reflexivity).
  assert (Hadd : forall i id n, In (EvAdd i id n)
     ((EvPresence 0 false :: rev (map (EvUnwatch 0) l)) ++ trace s) <-> In (EvAdd i id n) (trace s)).
  { intros i id n. cbn [app In]. rewrite in_app_iff. split; auto.
    intros [H|[H|H]]; auto; [discriminate|destruct (added_unwatch _ _ _ _ _ H)]. }
  destruct I. split; cbn [say add_timer set_man set_timers fresh with_table with_check m_table m_handlers m_check m_delay m_live m_kind
              mans dead timers next emits trace set_dead]; auto.
  - rewrite i_man0. reflexivity.
  - exists (next s). rewrite Ht. repeat split. lia.
  - rewrite Hnames. auto.
  - split; [lia|]. intros h Hh. apply i_next0 in Hh. lia.
  - rewrite Hnames. auto.
  - rewrite Hnames. intros n. rewrite i_added0. split; intros [id H]; exists id; apply Hadd; auto.
  - intros i id n H. apply Hadd in H. eauto.
  - intros w Hw. apply in_map_iff in Hw. destruct Hw as (w0 & <- & Hw0). cbn [w_on w_name].
    unfold sees. cbn [app last_done]. rewrite last_done_app, last_done_unwatch.
    destruct (existsb (name_eqb (w_name w0)) l) eqn:E; auto.
    fold (sees (trace s) (w_name w0)). rewrite <- (i_on0 w0 Hw0).
    destruct (w_on w0) eqn:O; auto. exfalso. assert (existsb (name_eqb (w_name w0)) l = true); [|congruence].
    apply Hl. eauto.
  - rewrite Hnames. intros n Hn. cbn [app last_done]. rewrite last_done_app, last_done_unwatch.
    destruct (existsb (name_eqb n) l) eqn:E; auto.
    apply Hl in E. destruct E as (w & Hw & <- & _). destruct Hn. apply in_map. auto.
  - intros _ w Hw. apply in_map_iff in Hw. destruct Hw as (w0 & <- & Hw0). reflexivity.
  - discriminate.
  - destruct i_reports0 as (rl & R & A). rewrite D in R, A. cbn [negb] in R, A.
    exists (rl ++ [true]). cbn [negb app reports Nat.eqb]. rewrite reports_quiet by exact Q.
    rewrite R. split; auto. apply alternates_snoc; auto.
Qed.

Lemma inv_add_presence s m : inv s m -> exists s2 m2, add_presence_handler s 0 = Ok s2 /\ inv s2 m2.
Proof.
  intros I. unfold add_presence_handler, with_man. rewrite (i_man _ _ I). cbn [nth_error].
  rewrite (i_live _ _ I). eexists.
  exists (with_handlers m (m_handlers m ++ [Handler (next s) None])). split; [reflexivity|].
  assert (Hh : forall n, has_handler (m_handlers m ++ [Handler (next s) None]) n = has_handler (m_handlers m) n).
  { intros n. unfold has_handler. rewrite existsb_app. cbn. rewrite orb_false_r. auto. }
  destruct I. split; cbn [say set_man fresh with_handlers m_table m_handlers m_check m_delay m_live m_kind
              mans dead timers next emits trace]; auto.
  - rewrite i_man0. reflexivity.
  - destruct (dead s); auto. destruct i_timer0 as (id & A & B & C). exists id. repeat split; auto. lia.
  - rewrite map_app. cbn [map h_id]. apply NoDup_app_snoc; auto.
    intros H. apply in_map_iff in H. destruct H as (h & E & H). apply i_next0 in H. lia.
  - split; [lia|]. intros h Hin. apply in_app_iff in Hin. destruct Hin as [Hin|[<-|[]]].
    + apply i_next0 in Hin. lia.
    + cbn [h_id]. lia.
  - intros n. rewrite Hh. auto.
  - intros D n. rewrite Hh. auto.
Qed.

(* gbinder_servicemanager_add_registration_handler: the table *)
Definition add_table (t : list watch) (n : name) : list watch :=
  if existsb (watch_is n) t then t else t ++ [Watch n false].
Lemma add_table_names t n x :
  In x (map w_name (add_table t n)) <-> x = n \/ In x (map w_name t).
Proof.
  unfold add_table. destruct (existsb (watch_is n) t) eqn:E.
  - apply existsb_watch in E. split; auto. intros [->|H]; auto.
  - rewrite map_app, in_app_iff. cbn. intuition.
Qed.
Lemma add_table_nodup t n : NoDup (map w_name t) -> NoDup (map w_name (add_table t n)).
Proof.
  unfold add_table. destruct (existsb (watch_is n) t) eqn:E; auto.
  intros H. rewrite map_app. apply NoDup_app_snoc; auto.
  cbn [w_name]. intros Hn. apply existsb_watch in Hn. congruence.
Qed.
Lemma add_table_in t n w : In w (add_table t n) -> In w t \/ (w = Watch n false /\ ~ In n (map w_name t)).
Proof.
  unfold add_table. destruct (existsb (watch_is n) t) eqn:E; auto.
  rewrite in_app_iff. cbn. intros [H|[<-|[]]]; auto. right. split; auto.
  intros Hn. apply existsb_watch in Hn. congruence.
Qed.
Lemma set_on_names n b t : map w_name (map (set_on n b) t) = map w_name t.
Proof.
  rewrite map_map. apply map_ext. intros w. unfold set_on. destruct (watch_is n w); reflexivity.
Qed.

Lemma inv_add s m n0 ok : inv s m -> exists s2 m2, add_handler s 0 n0 ok = Ok s2 /\ inv s2 m2.
Proof.
  intros I. unfold add_handler, with_man. rewrite (i_man _ _ I). cbn [nth_error].
  rewrite (i_live _ _ I). destruct (watch_name (m_kind m) n0) as [n|]; [|eauto].
  fold (add_table (m_table m) n). cbv zeta.
  set (t := add_table (m_table m) n).
  set (on := existsb (fun w => watch_is n w && w_on w) t).
  set (t2 := if negb on && negb (dead s) then map (set_on n ok) t else t).
  set (hs := m_handlers m ++ [Handler (next s) (Some n)]).
  set (ev := if negb on && negb (dead s) then [EvWatch 0 n ok] else []).
  eexists. exists (with_handlers (with_table m t2) hs). split; [reflexivity|].
  assert (Hh : forall x, has_handler hs x = true <-> x = n \/ has_handler (m_handlers m) x = true).
  { intros x. unfold hs, has_handler. rewrite existsb_app.
    change (existsb (detail_is x) [Handler (next s) (Some n)]) with (name_eqb x n || false).
    rewrite orb_false_r, orb_true_iff.
    destruct (name_eqb_spec x n) as [->|N]; split; auto; intros [H|H]; auto; congruence. }
  pose proof (add_table_names (m_table m) n) as Tn. fold t in Tn.
  assert (Hn2 : map w_name t2 = map w_name t)
    by (unfold t2; destruct (_ && _); auto using set_on_names).
  assert (Qe : forallb quiet (EvAdd 0 (next s) n :: ev) = true) by (unfold ev; destruct (_ && _); reflexivity).
  assert (Hadd : forall i id x, In (EvAdd i id x) ((EvAdd 0 (next s) n :: ev) ++ trace s) <->
            (i = 0%nat /\ id = next s /\ x = n) \/ In (EvAdd i id x) (trace s)).
  { intros i id x. cbn [app In]. rewrite in_app_iff. unfold ev. split.
    - intros [H|[H|H]]; auto; [left; injection H; auto|].
      destruct (negb on && negb (dead s)); cbn in H; [destruct H as [H|[]]; discriminate|tauto].
    - intros [(-> & -> & ->)|H]; auto. }
  assert (Hon : on = true <-> exists w, In w (m_table m) /\ w_name w = n /\ w_on w = true).
  { unfold on. rewrite existsb_exists. split.
    - intros (w & Hw & E). apply andb_true_iff in E. destruct E as [E O]. unfold watch_is in E.
      destruct (name_eqb_spec n (w_name w)) as [En|]; [|discriminate].
      apply add_table_in in Hw. destruct Hw as [Hw|[Ew _]]; [eauto|subst w; discriminate O].
    - intros (w & Hw & <- & O). exists w. split.
      + unfold t, add_table. assert (existsb (watch_is (w_name w)) (m_table m) = true) as ->; auto.
        apply existsb_watch, in_map. auto.
      + unfold watch_is. rewrite name_eqb_refl, O. reflexivity. }
  assert (Hlast : forall x, last_done ((EvAdd 0 (next s) n :: ev) ++ trace s) 0 x =
     if negb on && negb (dead s) && name_eqb x n then Tried ok else last_done (trace s) 0 x).
  { intros x. cbn [app last_done]. unfold ev. destruct (negb on && negb (dead s)); cbn [app last_done Nat.eqb andb]; auto. }
  destruct I. split; cbn [say set_man fresh with_handlers with_table m_table m_handlers m_check m_delay m_live m_kind
              mans dead timers next emits trace]; auto.
  - rewrite i_man0. reflexivity.
  - destruct (dead s); auto. destruct i_timer0 as (id & A & B & C). exists id. repeat split; auto. lia.
  - intros D. rewrite failed_quiet by exact Qe. auto.
  - rewrite Hn2. apply add_table_nodup. auto.
  - unfold hs. rewrite map_app. cbn [map h_id]. apply NoDup_app_snoc; auto.
    intros H. apply in_map_iff in H. destruct H as (h & E & H). apply i_next0 in H. lia.
  - split; [lia|]. intros h Hin. apply in_app_iff in Hin. destruct Hin as [Hin|[<-|[]]].
    + apply i_next0 in Hin. lia.
    + cbn [h_id]. lia.
  - intros x Hx. apply Hh in Hx. rewrite Hn2. apply Tn. destruct Hx; auto.
  - intros x. rewrite Hn2, Tn, i_added0. split.
    + intros [->|[id H]]; [exists (next s); apply Hadd; auto|exists id; apply Hadd; auto].
    + intros [id H]. apply Hadd in H. destruct H as [(_ & _ & ->)|H]; eauto.
  - intros i id x H. apply Hadd in H. destruct H as [(-> & _)|H]; eauto.
  - intros w Hw. unfold sees. rewrite Hlast.
    assert (Hold : forall u, In u t -> w_on u = sees (trace s) (w_name u)).
    { intros u Hu. apply add_table_in in Hu. destruct Hu as [Hu|[-> Hu]]; auto.
      cbn [w_on w_name]. unfold sees. rewrite i_off0; auto. }
    unfold t2 in Hw. destruct (negb on && negb (dead s)) eqn:A; cbn [andb].
    + apply in_map_iff in Hw. destruct Hw as (u & <- & Hu). unfold set_on, watch_is.
      destruct (name_eqb_spec n (w_name u)) as [->|N]; cbn [w_on w_name].
      * rewrite name_eqb_refl. destruct ok; reflexivity.
      * destruct (name_eqb_spec (w_name u) n); [congruence|]. apply Hold. auto.
    + apply Hold. auto.
  - intros x Hx. rewrite Hn2, Tn in Hx. rewrite Hlast.
    destruct (name_eqb_spec x n) as [->|N]; [tauto|]. rewrite andb_false_r. apply i_off0. tauto.
  - intros D w Hw. unfold t2 in Hw. rewrite D in Hw. rewrite andb_false_r in Hw.
    apply add_table_in in Hw. destruct Hw as [Hw|[-> _]]; auto.
  - intros D x Hx. apply Hh in Hx. rewrite Hlast, D. cbn [negb]. rewrite andb_true_r.
    destruct (name_eqb_spec x n) as [->|N]; [rewrite andb_true_r|rewrite andb_false_r].
    + destruct on eqn:O; cbn [negb]; [|eauto].
      destruct (proj1 Hon eq_refl) as (w & Hw & <- & Ow). rewrite (i_on0 w Hw) in Ow. unfold sees in Ow.
      destruct (last_done (trace s) 0 (w_name w)); try discriminate. eauto.
    + destruct Hx as [->|Hx]; [congruence|]. auto.
  - destruct i_reports0 as (l & R & A). exists l. rewrite reports_quiet by exact Qe. auto.
Qed.

(* gbinder_servicemanager_remove_handlers *)
Definition without (l : list handler) (id : Z) : list handler :=
  filter (fun h => negb (handler_is id h)) l.
Lemma without_in l id h : In h (without l id) <-> In h l /\ h_id h <> id.
Proof.
  unfold without. rewrite filter_In. unfold handler_is. destruct (Z.eqb_spec (h_id h) id); cbn; intuition congruence.
Qed.
Lemma without_nodup l id : NoDup (map h_id l) -> NoDup (map h_id (without l id)).
Proof.
  unfold without. intros N. induction l as [|x l IH]; cbn [filter map]; auto.
  inversion N; subst. destruct (negb (handler_is id x)); auto. cbn [map]. constructor; auto.
  intros H. apply H1. apply in_map_iff in H. destruct H as (y & <- & H). apply filter_In in H.
  apply in_map. tauto.
Qed.

Lemma disconnect_in : forall ids l c l' c', disconnect l ids c = Some (l', c') ->
  (forall h, In h l' -> In h l) /\ (NoDup (map h_id l) -> NoDup (map h_id l')).
Proof.
  induction ids as [|id r IH]; intros l c l' c'; cbn [disconnect].
  - intros [= <- <-]. auto.
  - destruct (id =? 0); [eauto|]. destruct (existsb (handler_is id) l); [|discriminate].
    intros E. destruct (IH _ _ _ _ E) as (A & B). fold (without l id) in *. split.
    + intros h Hh. apply A in Hh. apply without_in in Hh. tauto.
    + intros N. apply B. apply without_nodup. auto.
Qed.

Lemma unique_handler l h1 h2 : NoDup (map h_id l) -> In h1 l -> In h2 l -> h_id h1 = h_id h2 -> h1 = h2.
Proof.
  induction l as [|h l IH]; cbn [map In]; try tauto. intros H H1 H2 E.
  inversion H as [|x r Hw Hl]; subst.
  destruct H1 as [->|H1], H2 as [->|H2]; auto.
  - exfalso. apply Hw. rewrite E. apply in_map. auto.
  - exfalso. apply Hw. rewrite <- E. apply in_map. auto.
Qed.

Definition name_dec (a b : name) : {a = b} + {a <> b} := list_eq_dec Z.eq_dec a b.

Lemma remove_length (N : list name) x : NoDup N -> In x N -> S (length (remove name_dec x N)) = length N.
Proof.
  induction N as [|y N IH]; cbn [In remove]; [tauto|]. intros H Hx. inversion H; subst.
  destruct (name_dec x y) as [->|Ne].
  - rewrite notin_remove by auto. reflexivity.
  - destruct Hx as [->|Hx]; [congruence|]. cbn [length]. rewrite IH; auto.
Qed.
Lemma remove_nodup (N : list name) x : NoDup N -> NoDup (remove name_dec x N).
Proof.
  induction N as [|y N IH]; cbn [remove]; auto. intros H. inversion H; subst.
  destruct (name_dec x y); auto. constructor; auto. intros Hy. apply in_remove in Hy. tauto.
Qed.

(* No more services lose their last handlers than handlers are removed *)
Lemma disconnect_names : forall ids l c l' c', NoDup (map h_id l) ->
  disconnect l ids c = Some (l', c') ->
  forall N, NoDup N -> (forall n, In n N -> has_handler l n = true /\ has_handler l' n = false) ->
  (length N + c <= c')%nat.
Proof.
  induction ids as [|id r IH]; intros l c l' c' Nd; cbn [disconnect].
  - intros [= <- <-] N Hn H. destruct N as [|n N]; cbn [length]; [lia|].
    destruct (H n (or_introl eq_refl)). congruence.
  - destruct (id =? 0); [eauto|]. destruct (existsb (handler_is id) l) eqn:E; [|discriminate].
    fold (without l id). intros Ed N Hn H. apply existsb_exists in E. destruct E as (h & Hh & Ei).
    unfold handler_is in Ei. apply Z.eqb_eq in Ei.
    pose proof (without_nodup l id Nd) as Nd1.
    (* the service of the removed handler, if it's the last one *)
    assert (K : forall n, has_handler l n = true -> h_detail h <> Some n -> has_handler (without l id) n = true).
    { intros n Hx Hd. apply has_handler_spec in Hx. destruct Hx as (x & Hx & Dx).
      apply has_handler_spec. exists x. split; auto. apply without_in. split; auto.
      intros Ex. rewrite <- (unique_handler l x h Nd Hx Hh ltac:(congruence)) in Hd. contradiction. }
    destruct (h_detail h) as [d|] eqn:Dh.
    + destruct (in_dec name_dec d N) as [Hd|Hd].
      * pose proof (remove_length N d Hn Hd) as L.
        pose proof (IH _ _ _ _ Nd1 Ed (remove name_dec d N) (remove_nodup N d Hn)) as J.
        assert (length (remove name_dec d N) + S c <= c')%nat; [|lia].
        apply J. intros n Hx. apply in_remove in Hx. destruct Hx as [Hx Hne].
        destruct (H n Hx). split; auto. apply K; auto. congruence.
      * assert (length N + S c <= c')%nat; [|lia].
        apply (IH _ _ _ _ Nd1 Ed N Hn). intros n Hx. destruct (H n Hx). split; auto.
        apply K; auto. congruence.
    + assert (length N + S c <= c')%nat; [|lia].
      apply (IH _ _ _ _ Nd1 Ed N Hn). intros n Hx. destruct (H n Hx). split; auto.
      apply K; auto. congruence.
Qed.

Definition orphan (hs : list handler) (w : watch) : bool := w_on w && negb (has_handler hs (w_name w)).

Lemma unwatch_loop_facts : forall t hs c t2 l, NoDup (map w_name t) ->
  unwatch_loop hs t c = (t2, l) ->
  map w_name t2 = map w_name t /\
  (forall n, In n l -> In n (map w_name t) /\ has_handler hs n = false) /\
  (forall w, In w t2 -> (In w t /\ ~ In (w_name w) l) \/ (w_on w = false /\ In (w_name w) l)) /\
  ((length (filter (orphan hs) t) <= c)%nat -> forall w, In w t2 -> orphan hs w = false).
Proof.
  induction t as [|w t IH]; intros hs c t2 l Nd; cbn [unwatch_loop].
  - destruct c; intros [= <- <-]; cbn; repeat split; try tauto; intros; try tauto; contradiction.
  - inversion Nd as [|x r Hw Hl]; subst.
    destruct c as [|c].
    { intros [= <- <-]. split; [auto|]. split; [cbn; tauto|]. split; [intros; left; split; auto|].
      intros Hc u Hu. destruct (orphan hs u) eqn:O; auto. exfalso.
      assert (In u (filter (orphan hs) (w :: t))) by (apply filter_In; auto).
      destruct (filter (orphan hs) (w :: t)); [contradiction|cbn in Hc; lia]. }
    fold (orphan hs w). destruct (orphan hs w) eqn:O.
    + destruct (unwatch_loop hs t c) as [t3 l3] eqn:E. intros [= <- <-].
      destruct (IH _ _ _ _ Hl E) as (A & B & C & D). cbn [map w_name]. rewrite A.
      apply andb_true_iff in O. destruct O as [O1 O2]. apply negb_true_iff in O2.
      split; auto. split; [|split].
      * intros n [<-|Hn]; [split; [left; auto|auto]|]. destruct (B n Hn). split; [right; auto|auto].
      * intros u [<-|Hu]; [right; cbn; auto|].
        destruct (C u Hu) as [[C1 C2]|[C1 C2]]; [left|right; cbn; auto].
        split; [right; auto|]. intros [Eu|Hn]; [|auto]. apply Hw. rewrite Eu. apply in_map. auto.
      * intros Hc u [<-|Hu]; [reflexivity|]. apply D; auto.
        cbn [filter] in Hc. unfold orphan at 1 in Hc. rewrite O1, O2 in Hc. cbn in Hc. lia.
    + destruct (unwatch_loop hs t (S c)) as [t3 l3] eqn:E. intros [= <- <-].
      destruct (IH _ _ _ _ Hl E) as (A & B & C & D). cbn [map w_name]. rewrite A.
      split; auto. split; [|split].
      * intros n Hn. destruct (B n Hn). split; [right; auto|auto].
      * intros u [<-|Hu].
        -- left. split; [left; auto|]. intros Hn. apply B in Hn. tauto.
        -- destruct (C u Hu) as [[C1 C2]|[C1 C2]]; [left; split; [right; auto|auto]|right; auto].
      * intros Hc u [<-|Hu]; [auto|]. apply D; auto. cbn [filter] in Hc. rewrite O in Hc. auto.
Qed.

Lemma inv_remove s m ids : inv s m ->
  remove_handlers s 0 ids = Misuse \/
  exists s2 m2, remove_handlers s 0 ids = Ok s2 /\ inv s2 m2 /\ dead s2 = dead s /\
    ((forall w, In w (m_table m) -> w_on w = true -> has_handler (m_handlers m) (w_name w) = true) ->
     (forall w, In w (m_table m2) -> w_on w = true -> has_handler (m_handlers m2) (w_name w) = true)).
Proof.
  intros I. unfold remove_handlers, with_man. rewrite (i_man _ _ I). cbn [nth_error].
  rewrite (i_live _ _ I). destruct (disconnect (m_handlers m) ids 0) as [[hs c]|] eqn:Ed; auto.
  destruct (unwatch_loop hs (m_table m) c) as [t l] eqn:Eu. right.
  eexists. exists (with_handlers (with_table m t) hs). split; [reflexivity|].
  destruct (disconnect_in _ _ _ _ _ Ed) as [Din Dnd].
  destruct (unwatch_loop_facts _ _ _ _ _ (i_names _ _ I) Eu) as (A & B & C & D).
  pose proof (quiet_unwatch 0 l) as Q.
  assert (Hh : forall n, has_handler hs n = true -> has_handler (m_handlers m) n = true).
  { intros n. rewrite !has_handler_spec. intros (h & H1 & H2). eauto. }
  assert (Hl : forall n, last_done (rev (map (EvUnwatch 0) l) ++ trace s) 0 n =
             if existsb (name_eqb n) l then GivenUp else last_done (trace s) 0 n).
  { intros n. rewrite last_done_app, last_done_unwatch. destruct (existsb (name_eqb n) l); auto. }
  split; [|split; [reflexivity|]].
  - destruct I. split; cbn [say set_man with_handlers with_table m_table m_handlers m_check m_delay m_live m_kind
              mans dead timers next emits trace]; auto.
    + rewrite i_man0. reflexivity.
    + intros Dd. rewrite failed_quiet by exact Q. auto.
    + rewrite A. auto.
    + split; [tauto|]. intros h H. apply i_next0. auto.
    + rewrite A. auto.
    + rewrite A. intros n. rewrite i_added0. split; intros [id H]; exists id.
      * apply in_or_app. auto.
      * apply in_app_iff in H. destruct H as [H|H]; auto. destruct (added_unwatch _ _ _ _ _ H).
    + intros i id n H. apply in_app_iff in H. destruct H as [H|H]; eauto. destruct (added_unwatch _ _ _ _ _ H).
    + intros w Hw. unfold sees. rewrite Hl.
      destruct (C w Hw) as [[C1 C2]|[C1 C2]].
      * destruct (existsb (name_eqb (w_name w)) l) eqn:E; [apply existsb_name in E; contradiction|].
        apply i_on0. auto.
      * apply existsb_name in C2. rewrite C2. auto.
    + rewrite A. intros n Hn. rewrite Hl.
      destruct (existsb (name_eqb n) l) eqn:E; auto. apply existsb_name in E. apply B in E. tauto.
    + intros Dd w Hw. destruct (C w Hw) as [[C1 C2]|[C1 C2]]; auto.
    + intros Dd n Hn. rewrite Hl.
      destruct (existsb (name_eqb n) l) eqn:E; auto. apply existsb_name in E. apply B in E. destruct E. congruence.
    + destruct i_reports0 as (rl & R & Al). exists rl. rewrite reports_quiet by exact Q. auto.
  - intros G w Hw Ow. cbn [with_handlers with_table m_table m_handlers] in *.
    destruct (has_handler hs (w_name w)) eqn:E; auto. exfalso.
    assert (O : orphan hs w = false); [|unfold orphan in O; rewrite Ow, E in O; discriminate].
    apply D; auto.
    assert (length (map w_name (filter (orphan hs) (m_table m))) + 0 <= c)%nat; [|rewrite map_length in *; lia].
    eapply disconnect_names; [apply (i_ids _ _ I)|exact Ed| |].
    + pose proof (i_names _ _ I) as N. clear -N. induction (m_table m) as [|x r IH]; cbn [filter map]; auto.
      inversion N; subst. destruct (orphan hs x); auto. cbn [map]. constructor; auto.
      intros H. apply H1. apply in_map_iff in H. destruct H as (y & <- & H). apply filter_In in H.
      apply in_map. tauto.
    + intros n Hn. apply in_map_iff in Hn. destruct Hn as (u & <- & Hu). apply filter_In in Hu.
      destruct Hu as [Hu Ou]. apply andb_true_iff in Ou. destruct Ou as [O1 O2].
      apply negb_true_iff in O2. auto.
Qed.

Lemma inv_registered s m n : inv s m -> exists s2, service_registered s 0 n = Ok s2 /\ inv s2 m.
Proof.
  intros I. unfold service_registered, with_man. rewrite (i_man _ _ I). cbn [nth_error].
  rewrite (i_live _ _ I). eexists. split; [reflexivity|].
  destruct I. split; cbn [fresh set_emits mans dead timers next emits trace]; auto.
  - destruct (dead s); auto. destruct i_timer0 as (id & A & B & C). exists id. repeat split; auto. lia.
  - split; [lia|]. intros h H. apply i_next0 in H. lia.
Qed.

Lemma inv_deliver s m : inv s m -> deliver s = Misuse \/ exists s2, deliver s = Ok s2 /\ inv s2 m.
Proof.
  intros I. unfold deliver. pose proof (i_emits _ _ I) as Em.
  destruct (emits s) as [|e r] eqn:Ee; auto. right. inversion Em as [|x l He Hr]; subst.
  destruct (e_left e) as [|id l].
  - eexists. split; [reflexivity|].
    destruct I. split; cbn [set_emits mans dead timers next emits trace]; auto.
  - rewrite He, (i_man _ _ I). cbn [nth_error].
    destruct (existsb (handler_is id) (m_handlers m)); eexists; (split; [reflexivity|]).
    + destruct I. split; cbn [say set_emits mans dead timers next emits trace app]; auto.
      * intros n. rewrite i_added0. split; intros [i H]; exists i; [right; auto|destruct H; [discriminate|auto]].
      * intros i j n [H|H]; [discriminate|eauto].
    + destruct I. split; cbn [say set_emits mans dead timers next emits trace app]; auto.
Qed.

Lemma swap_at_in {A} : forall (l : list A) k x, In x (swap_at l k) <-> In x l.
Proof.
  induction l as [|a l IH]; intros k x; [destruct k; reflexivity|].
  destruct k as [|k].
  - destruct l as [|b l]; cbn; intuition.
  - destruct l as [|b l]; cbn [swap_at]; [destruct k; cbn; intuition|].
    change (In x (a :: swap_at (b :: l) k) <-> In x (a :: b :: l)).
    cbn [In]. rewrite IH. cbn [In]. reflexivity.
Qed.
Lemma swap_at_map {A B} (f : A -> B) : forall l k, map f (swap_at l k) = swap_at (map f l) k.
Proof.
  induction l as [|a l IH]; intros k; [destruct k; reflexivity|].
  destruct k as [|k], l as [|b l]; auto.
  - change (f a :: map f (swap_at (b :: l) k) = f a :: swap_at (map f (b :: l)) k).
    rewrite IH. reflexivity.
Qed.
Lemma swap_at_nodup {A} : forall (l : list A) k, NoDup l -> NoDup (swap_at l k).
Proof.
  induction l as [|a l IH]; intros k H; [destruct k; auto|].
  destruct k as [|k], l as [|b l]; auto.
  - inversion H as [|x r H1 H2]; subst. inversion H2 as [|y r2 H3 H4]; subst. constructor.
    + cbn in *. intros [->|]; tauto.
    + constructor; auto. cbn in H1. tauto.
  - change (NoDup (a :: swap_at (b :: l) k)).
    inversion H as [|x r H1 H2]; subst. constructor; auto. rewrite swap_at_in. auto.
Qed.

Lemma inv_swap s m k : inv s m ->
  inv (set_man s 0 (with_table m (swap_at (m_table m) k))) (with_table m (swap_at (m_table m) k)).
Proof.
  intros I.
  assert (Hn : forall x, In x (map w_name (swap_at (m_table m) k)) <-> In x (map w_name (m_table m)))
    by (intros x; rewrite swap_at_map, swap_at_in; reflexivity).
  destruct I. split; cbn [set_man with_table m_table m_handlers m_check m_delay m_live m_kind
              mans dead timers next emits trace]; auto.
  - rewrite i_man0. reflexivity.
  - rewrite swap_at_map. apply swap_at_nodup. auto.
  - intros n H. apply Hn. auto.
  - intros n. rewrite Hn. auto.
  - intros w H. apply swap_at_in in H. auto.
  - intros n H. rewrite Hn in H. auto.
  - intros D w H. apply swap_at_in in H. auto.
Qed.

Lemma inv_new k ping : exists s m, step init (MNew k ping) = Ok s /\ inv s m.
Proof.
  destruct ping.
  - exists (State [Man k true [] [] None 0] false [] 1 [] [EvNew 0 true]), (Man k true [] [] None 0).
    split; [reflexivity|].
    split; cbn [m_live m_table m_handlers m_check m_delay mans dead timers next emits trace map];
      auto using NoDup_nil; try discriminate; try (intros; contradiction).
    + split; [lia|intros; contradiction].
    + intros n. split; [contradiction|]. intros [id [H|[]]]. discriminate.
    + intros i id n [H|[]]. discriminate.
    + exists []. split; cbn; auto.
  - exists (State [Man k true [] [] (Some 1) 100] true [Timer 1 0 100] 2 [] [EvNew 0 false]),
      (Man k true [] [] (Some 1) 100).
    split; [reflexivity|].
    split; cbn [m_live m_table m_handlers m_check m_delay mans dead timers next emits trace map];
      auto using NoDup_nil; try discriminate; try (intros; contradiction).
    + exists 1. repeat split.
    + split; [lia|intros; contradiction].
    + intros n. split; [contradiction|]. intros [id [H|[]]]. discriminate.
    + intros i id n [H|[]]. discriminate.
    + exists []. split; cbn; auto.
Qed.

(* After the manager is finalized *)
Record gone (s : state) (m : man) : Prop := {
  g_man : mans s = [m];
  g_live : m_live m = false;
  g_handlers : m_handlers m = [];
  g_timers : timers s = [];
  g_emits : emits s = []
}.

Lemma inv_free s m : inv s m -> finalize s 0 = Misuse \/
  exists s2 m2, finalize s 0 = Ok s2 /\ gone s2 m2.
Proof.
  intros I. unfold finalize, with_man. rewrite (i_man _ _ I). cbn [nth_error].
  rewrite (i_live _ _ I). pose proof (i_emits _ _ I) as Em.
  destruct (emits s) as [|e r] eqn:Ee.
  2:{ left. inversion Em; subst. cbn [existsb]. rewrite H1. reflexivity. }
  cbn [existsb]. right. pose proof (i_timer _ _ I) as T. destruct (dead s) eqn:D.
  - destruct T as (id & Hc & Ht & _). rewrite Hc, (remove_own s m id (i_man _ _ I) Ht s eq_refl).
    eexists. exists (Man (m_kind m) false [] [] None (m_delay m)). split; [reflexivity|].
    split; cbn [set_man set_timers mans timers emits m_live]; auto.
    rewrite (i_man _ _ I). reflexivity.
  - destruct T as [-> Ht]. cbn [remove_timer].
    eexists. exists (Man (m_kind m) false [] [] None (m_delay m)). split; [reflexivity|].
    split; cbn [set_man set_timers mans timers emits m_live]; auto.
    rewrite (i_man _ _ I). reflexivity.
Qed.

Lemma other_man s i m : mans s = [m] -> i <> 0%nat -> forall f, with_man s i f = Misuse.
Proof.
  intros E N f. unfold with_man. rewrite E. destruct i; [congruence|]. destruct i; reflexivity.
Qed.

Lemma gone_step s m mv : gone s m -> is_new mv = false ->
  step s mv = Misuse \/ exists s2, step s mv = Ok s2 /\ gone s2 m.
Proof.
  intros [G1 G2 G3 G4 G5] N.
  assert (W : forall i f, with_man s i f = Misuse).
  { intros i f. unfold with_man. rewrite G1. destruct i as [|[|i]]; auto. cbn [nth_error]. rewrite G2. auto. }
  destruct mv; try discriminate; cbn [step];
    try (unfold finalize, wait_move, add_presence_handler, add_handler, remove_handlers, service_registered;
         rewrite W; auto).
  - right. unfold death. destruct (dead s); [eexists; split; [reflexivity|split; assumption]|].
    rewrite G1. cbn [length seq all_died set_dead mans]. rewrite G1. cbn [nth_error]. rewrite G2.
    eexists. split; [reflexivity|]. split; assumption.
  - left. unfold check_timer. rewrite G4. reflexivity.
  - left. unfold deliver. rewrite G5. reflexivity.
Qed.

Lemma inv_step s m mv : inv s m -> is_new mv = false ->
  step s mv = Misuse \/ exists s2 m2, step s mv = Ok s2 /\ (inv s2 m2 \/ gone s2 m2).
Proof.
  intros I N.
  assert (O : forall i, (i =? 0)%nat = true \/ (forall f, with_man s i f = Misuse)).
  { intros i. destruct (Nat.eqb_spec i 0); auto. right. intros f. eapply other_man; eauto. apply (i_man _ _ I). }
  destruct mv; try discriminate; cbn [step].
  - destruct (O i) as [E|E]; [apply Nat.eqb_eq in E; subst|left; apply E].
    destruct (inv_free s m I) as [H|(s2 & m2 & H & G)]; auto. right. eauto 6.
  - right. destruct (inv_death s m I) as (s2 & m2 & H & G). eauto 6.
  - destruct (inv_check s m id ping res I) as [H|(s2 & m2 & H & G)]; auto. right. eauto 6.
  - destruct (O i) as [E|E]; [apply Nat.eqb_eq in E; subst|left; apply E].
    right. destruct (inv_wait s m found res I) as (s2 & m2 & H & G). eauto 6.
  - destruct (O i) as [E|E]; [apply Nat.eqb_eq in E; subst|left; apply E].
    right. destruct (inv_add_presence s m I) as (s2 & m2 & H & G). eauto 6.
  - destruct (O i) as [E|E]; [apply Nat.eqb_eq in E; subst|left; apply E].
    right. destruct (inv_add s m n ok I) as (s2 & m2 & H & G). eauto 6.
  - destruct (O i) as [E|E]; [apply Nat.eqb_eq in E; subst|left; apply E].
    destruct (inv_remove s m ids I) as [H|(s2 & m2 & H & G & _)]; auto. right. eauto 6.
  - destruct (O i) as [E|E]; [apply Nat.eqb_eq in E; subst|left; apply E].
    right. destruct (inv_registered s m n I) as (s2 & H & G). eauto 6.
  - destruct (inv_deliver s m I) as [H|(s2 & H & G)]; auto. right. eauto 6.
  - destruct (O i) as [E|E]; [apply Nat.eqb_eq in E; subst|left; apply E].
    right. unfold with_man. rewrite (i_man _ _ I). cbn [nth_error]. rewrite (i_live _ _ I).
    eexists. eexists. split; [reflexivity|]. left. apply inv_swap. auto.
Qed.

Definition sane (s : state) : Prop := exists m, inv s m \/ gone s m.

Lemma sane_step s mv : sane s -> is_new mv = false ->
  step s mv = Misuse \/ exists s2, step s mv = Ok s2 /\ sane s2.
Proof.
  intros [m [I|G]] N.
  - destruct (inv_step s m mv I N) as [H|(s2 & m2 & H & K)]; auto. right. exists s2. split; auto. exists m2. auto.
  - destruct (gone_step s m mv G N) as [H|(s2 & H & K)]; auto. right. exists s2. split; auto. exists m. auto.
Qed.

Lemma sane_run : forall l s, sane s -> forallb (fun mv => negb (is_new mv)) l = true ->
  run s l = Misuse \/ exists s2, run s l = Ok s2 /\ sane s2.
Proof.
  induction l as [|mv l IH]; intros s H N; cbn [run]; [eauto|].
  cbn [forallb] in N. apply andb_true_iff in N. destruct N as [N1 N2]. apply negb_true_iff in N1.
  destruct (sane_step s mv H N1) as [->|(s2 & -> & H2)]; cbn [bind]; auto.
Qed.

Lemma single_sane l : single l -> run init l = Misuse \/ exists s, run init l = Ok s /\ sane s.
Proof.
  intros (k & ping & r & -> & N). cbn [run]. destruct (inv_new k ping) as (s & m & E & I).
  rewrite E. cbn [bind]. apply sane_run; auto. exists m. auto.
Qed.
