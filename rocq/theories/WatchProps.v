(* Property theorems about the presence and the watches of a service manager. The vocabulary
   is in WatchSpec.v, the modelled functions are in WatchModel.v. *)
From Coq Require Import ZArith List Lia Bool.
From Verif Require Import Base WaitModel WatchModel WatchSpec WatchProofs WatchMore.
Import ListNotations.

Lemma at_most_one s m : inv s m -> exists l, mans s = m :: l.
Proof. intros I. exists []. apply (i_man _ _ I). Qed.

(* C42: with one manager for the device and the protocol, whatever the application, the timers
   and the other side do, nothing is touched after it's freed; as long as the manager is
   absent there's exactly one scheduled check, after 100 ms, then 200 and so on up to 1000 ms;
   there's none when it is present, and none when the manager is released. *)
Theorem C42_one_check :
  forall (l : list move), single l ->
  run init l = Misuse \/
  exists s, run init l = Ok s /\
    match nth_error (mans s) 0 with
    | Some m =>
      if m_live m then
        if is_present s then timers s = []
        else length (timers s) = 1%nat /\
             scheduled s 0 = [Z.min 1000 (100 * (failed_checks (trace s) 0 + 1))]
      else timers s = []
    | None => False
    end.
Proof.
  intros l H. destruct (single_sane l H) as [E|(s & E & m & [I|G])]; auto; right; exists s; (split; [exact E|]).
  - rewrite (i_man _ _ I). cbn [nth_error]. rewrite (i_live _ _ I). unfold is_present, scheduled.
    pose proof (i_timer _ _ I) as T. pose proof (i_delay _ _ I) as D. destruct (dead s); cbn [negb].
    + destruct T as (id & _ & -> & _). rewrite D by reflexivity. split; reflexivity.
    + apply T.
  - rewrite (g_man _ _ G). cbn [nth_error]. rewrite (g_live _ _ G). apply (g_timers _ _ G).
Qed.
Print Assumptions C42_one_check.

Lemma run_app : forall l r s, run s (l ++ r) = bind (run s l) (fun s1 => run s1 r).
Proof.
  induction l as [|mv l IH]; intros r s; cbn [app run bind]; auto.
  destruct (step s mv); cbn [bind]; auto.
Qed.
Definition any (_ : name) : bool := true.
Definition absent_for_a_while : list move :=
  MNew Aidl false :: MTimer 1 false any :: MTimer 2 false any :: MTimer 3 true any :: MDeath ::
  map (fun k => MTimer (Z.of_nat k) false any) (seq 4 10 ++ [13; 13])%nat.
(* The first check of a new manager is scheduled after 100 ms, then after 200 and 300 ms; the
   limit is reached after nine failed checks, and nothing is scheduled while it's present *)
Example absent_single : single absent_for_a_while.
Proof. exists Aidl, false. eexists. split; [reflexivity|]. vm_compute. reflexivity. Qed.
Definition delays (n : nat) : option (list Z) :=
  match run init (firstn n absent_for_a_while) with Ok s => Some (scheduled s 0) | _ => None end.
Example absent_delays :
  map delays [1; 2; 3; 4; 5; 6; 13; 14; 15; 16]%nat =
  map Some [[100]; [200]; [300]; []; [100]; [200]; [900]; [1000]; [1000]; [1000]].
Proof. vm_compute. reflexivity. Qed.

(* C42: each change of the presence is signalled once: what the application is told differs
   from what it knew before, and the last thing it's told is the presence *)
Theorem C42_signals :
  forall (l : list move), single l -> forall s, run init l = Ok s ->
  forall m, nth_error (mans s) 0 = Some m -> m_live m = true ->
  exists before, reports (trace s) 0 = before ++ [is_present s] /\ alternates (before ++ [is_present s]).
Proof.
  intros l H s E m Em L. destruct (single_sane l H) as [E1|(s1 & E1 & m1 & [I|G])]; rewrite E in E1; try discriminate;
    injection E1 as <-.
  - apply (i_reports _ _ I).
  - rewrite (g_man _ _ G) in Em. injection Em as <-. rewrite (g_live _ _ G) in L. discriminate.
Qed.
Print Assumptions C42_signals.
Example signals_case :
  match run init absent_for_a_while with Ok s => reports (trace s) 0 | _ => [] end = [false; true; false].
Proof. vm_compute. reflexivity. Qed.

(* C42 fails when managers of two kinds are used for the same device and protocol. One of them
   finds out first that it's present, and marks the object which they share as alive; the
   check which the other one has scheduled remains (a), and a death schedules one more (b), and
   this one has been told twice that it is absent; the first one is forgotten, not removed
   with the manager, and touches it after it's been freed (c). *)
Definition two_managers : list move := [MNew Aidl false; MNew Hidl false; MTimer 1 true any].
Theorem C42_two_managers_refuted :
  (exists s, run init two_managers = Ok s /\ is_present s = true /\ scheduled s 1 = [100]) /\
  (exists s, run init (two_managers ++ [MDeath]) = Ok s /\ scheduled s 1 = [100; 100] /\
             reports (trace s) 1 = [false; false]) /\
  run init (two_managers ++ [MDeath; MFree 1; MTimer 2 true any]) = Crash.
Proof.
  split; [|split].
  - eexists. split; [vm_compute; reflexivity|]. split; reflexivity.
  - eexists. split; [vm_compute; reflexivity|]. split; reflexivity.
  - vm_compute. reflexivity.
Qed.
Print Assumptions C42_two_managers_refuted.

(* ------------------------------------------------------------------ *)

(* C41: as long as there's a handler for a service and the manager is present, the last thing
   that was done about this service is an attempt to watch it; it is watched if attempts to do
   so succeed. *)
Theorem C41_watched :
  forall (l : list move), single l -> forall s, run init l = Ok s ->
  forall n, handled s 0 n -> is_present s = true ->
  (exists ok, last_done (trace s) 0 n = Tried ok) /\
  ((forall ok, In (EvWatch 0 n ok) (trace s) -> ok = true) -> watched s 0 n).
Proof.
  intros l H s E n Hn P. destruct (single_sane l H) as [E1|(s1 & E1 & m & [I|G])]; rewrite E in E1; try discriminate;
    injection E1 as <-.
  - apply (handled_spec s m n (i_man _ _ I)) in Hn. unfold is_present in P.
    assert (D : dead s = false) by (destruct (dead s); [discriminate|auto]).
    destruct (i_tried _ _ I D n Hn) as [b Hb]. split; [eauto|]. intros A. unfold watched. rewrite Hb.
    f_equal. apply A. clear - Hb. induction (trace s) as [|e tr IH]; [discriminate|].
    cbn [last_done] in Hb. destruct e; try (right; apply IH; exact Hb).
    + destruct (Nat.eqb_spec i 0) as [->|]; cbn [andb] in Hb; [|right; auto].
      destruct (name_eqb_spec n n0) as [<-|]; [|right; auto]. injection Hb as ->. left. reflexivity.
    + destruct (Nat.eqb i 0 && name_eqb n n0); [discriminate|right; auto].
  - destruct Hn as (m1 & h & Em & Hh & _). rewrite (g_man _ _ G) in Em. injection Em as <-.
    rewrite (g_handlers _ _ G) in Hh. destruct Hh.
Qed.
Print Assumptions C41_watched.

(* C41: and nothing is watched while the manager is absent *)
Theorem C41_absent :
  forall (l : list move), single l -> forall s, run init l = Ok s ->
  forall m, nth_error (mans s) 0 = Some m -> m_live m = true ->
  forall n, watched s 0 n -> is_present s = true.
Proof.
  intros l H s E m Em L n W. destruct (single_sane l H) as [E1|(s1 & E1 & m1 & [I|G])]; rewrite E in E1; try discriminate;
    injection E1 as <-.
  - unfold is_present. destruct (dead s) eqn:D; [|reflexivity]. exfalso.
    destruct (in_dec (list_eq_dec Z.eq_dec) n (map w_name (m_table m1))) as [K|K].
    + apply in_map_iff in K. destruct K as (w & Ew & Hw). pose proof (i_on _ _ I w Hw) as O.
      rewrite (i_dead _ _ I D w Hw), Ew in O. unfold sees in O. rewrite W in O. discriminate.
    + unfold watched in W. rewrite (i_off _ _ I n K) in W. discriminate.
  - rewrite (g_man _ _ G) in Em. injection Em as <-. rewrite (g_live _ _ G) in L. discriminate.
Qed.
Print Assumptions C41_absent.

(* C41, the other direction: without handlers the service isn't watched, provided that
   whenever the manager appears again each service which ever had a handler has one. What's
   missing: see the theorems below. *)
Theorem C41_only_handled_partial :
  forall (l : list move), single l -> kept init l = true -> forall s, run init l = Ok s ->
  forall m, nth_error (mans s) 0 = Some m -> m_live m = true ->
  forall n, watched s 0 n -> handled s 0 n.
Proof.
  intros l H K s E m Em L n W. destruct (single_sane l H) as [E1|(s1 & E1 & m1 & [I|G])]; rewrite E in E1; try discriminate;
    injection E1 as <-.
  2:{ rewrite (g_man _ _ G) in Em. injection Em as <-. rewrite (g_live _ _ G) in L. discriminate. }
  destruct H as (k & ping & r & -> & N). destruct (inv_new k ping) as (s0 & m0 & E0 & I0).
  cbn [run] in E. rewrite E0 in E. cbn [bind] in E.
  cbn [kept] in K. rewrite E0 in K. apply andb_true_iff in K. destruct K as [_ K].
  assert (T0 : tidy m0).
  { clear - E0 I0. intros w Hw. exfalso. pose proof (proj1 (i_added _ _ I0 (w_name w)) (in_map w_name _ _ Hw)) as [id A].
    cbn [step] in E0. unfold new_manager in E0. cbn in E0. destruct ping; cbn in E0; injection E0 as <-; cbn in A;
      destruct A as [A|[]]; discriminate. }
  pose proof (tidy_run r s0 m0 I0 T0 N K s m1 E I) as T.
  apply (handled_spec s m1 n (i_man _ _ I)).
  destruct (in_dec (list_eq_dec Z.eq_dec) n (map w_name (m_table m1))) as [Kn|Kn].
  - apply in_map_iff in Kn. destruct Kn as (w & Ew & Hw). rewrite <- Ew. apply T; auto.
    rewrite (i_on _ _ I w Hw), Ew. unfold sees. rewrite W. reflexivity.
  - unfold watched in W. rewrite (i_off _ _ I n Kn) in W. discriminate.
Qed.
Print Assumptions C41_only_handled_partial.

(* "x" and "y" *)
Definition nx : name := [120].
Definition ny : name := [121].
Definition watched_b (s : state) (n : name) : bool :=
  match last_done (trace s) 0 n with Tried true => true | _ => false end.

(* Two handlers for a service and one for another, a restart of the manager, then handlers are
   removed one by one: the services are watched as long as they have handlers *)
Definition handlers_and_restart : list move :=
  [MNew Hidl true; MAdd 0 nx true; MAdd 0 (nx ++ [SLASH; 97]) true; MAdd 0 ny true;
   MDeath; MTimer 4 true any; MRemove 0 [1]; MRemove 0 [2; 0]; MRemove 0 [3]].
Example handlers_single : single handlers_and_restart /\ kept init handlers_and_restart = true.
Proof. split; [|vm_compute; reflexivity]. exists Hidl, true. eexists. split; [reflexivity|]. vm_compute. reflexivity. Qed.
Example handlers_watched :
  map (fun n => match run init (firstn n handlers_and_restart) with
                | Ok s => Some (watched_b s nx, watched_b s ny) | _ => None end) [1; 2; 3; 4; 5; 6; 7; 8; 9]%nat =
  map Some [(false, false); (true, false); (true, false); (true, true); (false, false); (true, true);
            (true, true); (false, true); (false, false)].
Proof. vm_compute. reflexivity. Qed.

(* C41 fails without this condition: after the last handler has been removed and the manager
   has been restarted, every service is watched again *)
Theorem C41_watched_without_handlers_refuted :
  forall k n d, service k n d ->
  exists s, run init [MNew k true; MAdd 0 n true; MRemove 0 [1]; MDeath; MTimer 2 true any] = Ok s /\
    is_present s = true /\ watched s 0 d /\ ~ exists x, handled s 0 x.
Proof.
  intros k n d H. apply watch_name_service in H.
  change (run init ?l) with (run init (firstn 2 l ++ skipn 2 l)). rewrite run_app.
  replace (run init (firstn 2 _)) with
    (Ok (State [Man k true [Watch d true] [Handler 1 (Some d)] None 0] false [] 2 []
               [EvAdd 0 1 d; EvWatch 0 d true; EvNew 0 true])).
  2:{ lazy -[watch_name name_eqb]. rewrite H. lazy -[name_eqb]. rewrite name_eqb_refl. reflexivity. }
  lazy -[name_eqb not watched handled is_present]. eexists. split; [reflexivity|]. split; [reflexivity|]. split.
  - unfold watched. cbn -[name_eqb]. rewrite name_eqb_refl. reflexivity.
  - intros (x & m & h & Em & Hh & _). cbn in Em. injection Em as <-. destruct Hh.
Qed.
Print Assumptions C41_watched_without_handlers_refuted.

(* And then removing the last handler of a service may end the watch of another one, and not
   this one: it remains watched without any handler, in one order of the table *)
Theorem C41_wrong_watch_ended_refuted :
  forall a b, a <> b ->
  exists s, run init [MNew Aidl true; MAdd 0 a true; MRemove 0 [1]; MDeath; MTimer 2 true any;
                      MAdd 0 b true; MRemove 0 [3]] = Ok s /\
    is_present s = true /\ watched s 0 b /\ ~ watched s 0 a /\ ~ exists x, handled s 0 x.
Proof.
  intros a b N.
  assert (Eab : name_eqb a b = false) by (destruct (name_eqb_spec a b); congruence).
  assert (Eba : name_eqb b a = false) by (destruct (name_eqb_spec b a); congruence).
  change (run init ?l) with (run init (firstn 2 l ++ skipn 2 l)). rewrite run_app.
  replace (run init (firstn 2 _)) with
    (Ok (State [Man Aidl true [Watch a true] [Handler 1 (Some a)] None 0] false [] 2 []
               [EvAdd 0 1 a; EvWatch 0 a true; EvNew 0 true])).
  2:{ lazy -[name_eqb]. rewrite name_eqb_refl. reflexivity. }
  cbn [bind]. change (run ?s (skipn 2 ?l)) with (run s (firstn 3 (skipn 2 l) ++ skipn 5 l)). rewrite run_app.
  replace (run _ (firstn 3 _)) with
    (Ok (State [Man Aidl true [Watch a true] [] None 100] false [] 3 []
               [EvPresence 0 true; EvWatch 0 a true; EvCheck 0 true; EvPresence 0 false; EvUnwatch 0 a;
                EvAdd 0 1 a; EvWatch 0 a true; EvNew 0 true])).
  2:{ lazy. reflexivity. }
  do 3 (lazy -[name_eqb not watched handled is_present]; rewrite ?name_eqb_refl, ?Eba).
  lazy -[name_eqb not watched handled is_present].
  eexists. split; [reflexivity|]. split; [reflexivity|]. split; [|split].
  - unfold watched. cbn. repeat (rewrite ?name_eqb_refl, ?Eab, ?Eba; cbn). reflexivity.
  - unfold watched. cbn. repeat (rewrite ?name_eqb_refl, ?Eab, ?Eba; cbn). discriminate.
  - intros (x & m & h & Em & Hh & _). cbn in Em. injection Em as <-. destruct Hh.
Qed.
Print Assumptions C41_wrong_watch_ended_refuted.

(* C41: a new handler is for the service which its name stands for; a name which doesn't stand
   for any service is refused *)
Theorem C41_handler_for_service :
  forall (l : list move), single l -> forall s, run init l = Ok s ->
  forall m, nth_error (mans s) 0 = Some m -> m_live m = true ->
  forall n ok, exists s2, step s (MAdd 0 n ok) = Ok s2 /\
    ((forall d, ~ service (m_kind m) n d) -> s2 = s) /\
    (forall d, service (m_kind m) n d ->
       handled s2 0 d /\
       (forall x, x <> d -> (handled s2 0 x <-> handled s 0 x)) /\
       exists tr, trace s2 = EvAdd 0 (next s) d :: tr).
Proof.
  intros l H s E m Em L n ok. destruct (single_sane l H) as [E1|(s1 & E1 & m1 & [I|G])]; rewrite E in E1; try discriminate;
    injection E1 as <-.
  2:{ rewrite (g_man _ _ G) in Em. injection Em as <-. rewrite (g_live _ _ G) in L. discriminate. }
  rewrite (i_man _ _ I) in Em. injection Em as ->.
  destruct (inv_add s m n ok I) as (s2 & m2 & E2 & I2). exists s2. cbn [step]. split; [exact E2|].
  unfold add_handler, with_man in E2. rewrite (i_man _ _ I) in E2. cbn [nth_error] in E2. rewrite L in E2.
  split.
  - intros N. destruct (watch_name (m_kind m) n) as [d|] eqn:W; [|injection E2 as <-; reflexivity].
    apply watch_name_service in W. destruct (N _ W).
  - intros d Hd. apply watch_name_service in Hd. rewrite Hd in E2. cbv zeta in E2. injection E2 as E2.
    assert (Hs : m_handlers m2 = m_handlers m ++ [Handler (next s) (Some d)]).
    { pose proof (i_man _ _ I2) as M. rewrite <- E2 in M. cbn [fresh say set_man mans] in M.
      rewrite (i_man _ _ I) in M. cbn [replace_nth] in M. injection M as <-. reflexivity. }
    assert (X : forall x, handled s2 0 x <-> x = d \/ handled s 0 x).
    { intros x. rewrite (handled_spec s2 m2 x (i_man _ _ I2)), (handled_spec s m x (i_man _ _ I)), Hs.
      unfold has_handler. rewrite existsb_app, orb_true_iff. cbn [existsb detail_is h_detail]. rewrite orb_false_r.
      destruct (name_eqb_spec x d) as [->|Nx]; intuition congruence. }
    split; [apply X; auto|]. split.
    + intros x Nx. rewrite X. intuition congruence.
    + rewrite <- E2. cbn [fresh say trace]. rewrite <- app_comm_cons. eauto.
Qed.
Print Assumptions C41_handler_for_service.
(* The service "x" of "x/a"; an underscore isn't allowed *)
Example instance_of_x : service Hidl (nx ++ SLASH :: [97]) nx.
Proof. apply watch_name_service. vm_compute. reflexivity. Qed.
Example underscore_refused : forall d, ~ service Hidl [120; 95] d.
Proof. intros d H. apply watch_name_service in H. vm_compute in H. discriminate. Qed.

(* C41: a notification about a registered name reaches exactly the handlers for its service:
   none of them twice, no other ones, and all of those which aren't removed until the end of
   the notification; whatever happens meanwhile (handlers come and go, the manager dies, more
   notifications arrive and interrupt this one). They get the name which was registered. *)
Theorem C41_notification :
  forall (l : list move), single l -> forall s, run init l = Ok s ->
  forall m n s1, nth_error (mans s) 0 = Some m -> step s (MRegistered 0 n) = Ok s1 ->
  forall later, forallb (fun mv => negb (is_new mv)) later = true ->
  forall s2, run s1 later = Ok s2 -> (forall e, In e (emits s2) -> e_id e <> next s) ->
  forall id,
  let entitled := exists h d, In h (m_handlers m) /\ h_id h = id /\ h_detail h = Some d /\ service (m_kind m) n d in
  let still := exists m2 h, nth_error (mans s2) 0 = Some m2 /\ In h (m_handlers m2) /\ h_id h = id in
  (calls (trace s2) (next s) id <= 1)%nat /\
  (~ entitled -> calls (trace s2) (next s) id = 0%nat) /\
  (entitled -> still -> calls (trace s2) (next s) id = 1%nat) /\
  (forall x, In (EvCall (next s) id x) (trace s2) -> x = n).
Proof.
  intros l H s E m n s1 Em Es later N s2 E2 Over id entitled still.
  pose proof (single_older l s H E) as O.
  destruct (single_sane l H) as [E1|(s0 & E1 & m1 & [I|G])]; rewrite E in E1; try discriminate;
    injection E1 as <-.
  2:{ exfalso. cbn [step] in Es. unfold service_registered, with_man in Es. rewrite (g_man _ _ G) in Es.
      cbn [nth_error] in Es. rewrite (g_live _ _ G) in Es. discriminate. }
  rewrite (i_man _ _ I) in Em. injection Em as ->. cbn [step] in Es.
  destruct (registered_ids s m n s1 I O Es) as (ids & D1 & Hids).
  pose proof (due_run _ _ _ later s1 s2 D1 N E2) as D2.
  pose proof (todo_other (emits s2) (next s) id Over) as T.
  split; [pose proof (d_max _ _ _ _ D2 id); lia|]. split; [|split].
  - intros A. assert (~ In id ids) by (rewrite Hids; exact A). pose proof (d_out _ _ _ _ D2 id). intuition lia.
  - intros A (m2 & h & Em2 & Hh & Eh). assert (In id ids) by (rewrite Hids; exact A).
    assert (C : connected s2 id).
    { exists h. split; auto. unfold all_handlers. apply in_flat_map. exists m2. split; auto. eapply nth_error_In; eauto. }
    pose proof (d_in _ _ _ _ D2 id). intuition lia.
  - apply (d_named _ _ _ _ D2).
Qed.
Print Assumptions C41_notification.

(* Three handlers for "x", one for "y"; during the notification the second one is removed and
   another one is added, and "y" is registered: the notification about "x/a" calls 1 and 3 *)
Definition four_handlers : list move :=
  [MNew Hidl true; MAdd 0 nx true; MAdd 0 nx true; MAdd 0 (nx ++ [SLASH; 98]) true; MAdd 0 ny true].
Definition during : list move :=
  [MDeliver; MRemove 0 [2]; MAdd 0 nx true; MRegistered 0 ny; MDeliver; MDeliver; MDeliver; MDeliver; MDeliver].
Example notification_case :
  match run init four_handlers with
  | Ok s => match step s (MRegistered 0 (nx ++ [SLASH; 97])) with
            | Ok s1 => match run s1 during with
                       | Ok s2 => Some (emits s2, map (fun id => calls (trace s2) (next s) id) [1; 2; 3; 4; 6])
                       | _ => None end
            | _ => None end
  | _ => None end = Some ([], [1; 0; 1; 0; 0]%nat).
Proof. vm_compute. reflexivity. Qed.
