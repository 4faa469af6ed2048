(* Proofs about service names. *)
From Coq Require Import ZArith List Bool Lia.
From Verif Require Import Base NameModel NameSpec.
Import ListNotations.

Definition olist (t : option Z) : list Z := match t with Some x => [x] | None => [] end.
Definition ilist (id : Z) : list Z := if id =? 0 then [] else [id].

(* While the name is in use *)
Record inv (s : state) : Prop := {
  v_created : created s = true;
  v_refs : 0 < refs s;
  v_nodup : NoDup (map c_id (calls s));
  v_ids : forall c, In c (calls s) -> 0 < c_id c < next s;
  v_next : 0 < next s;
  v_awaited : awaited s = ilist (add_call_id s);
  v_timers : timers s = olist (retry_timer s);
  v_obj : obj_refs s = 1 + Z.of_nat (length (calls s));
  v_ms : forall id ms, In (EvTimer id ms) (trace s) -> ms = 500;
  v_absent : told (trace s) = true -> present s = false -> add_call_id s = 0 /\ retry_timer s = None;
  v_present : told (trace s) = true -> present s = true ->
    match last_attempt (since (trace s)) with
    | NoCall => False
    | Pending id => add_call_id s = id /\ id <> 0
    | Result id st => add_call_id s = 0 /\ (st <> 0 -> retry_timer s <> None)
    end
}.
(* In orderly histories *)
Record tidy (s : state) : Prop := {
  y_one : add_call_id s <> 0 -> retry_timer s = None;
  y_back : told (trace s) = false -> present s = true -> add_call_id s = 0 /\ retry_timer s = None
}.

Lemma ilist_pos id : id <> 0 -> ilist id = [id].
Proof. unfold ilist. destruct (Z.eqb_spec id 0); congruence. Qed.

Lemma awaited_cancel s id : NoDup (map c_id (calls s)) -> awaited s = ilist id -> awaited (cancel s id) = [].
Proof.
  unfold cancel, ilist, awaited. destruct (Z.eqb_spec id 0) as [->|N]; auto. cbn [set_calls calls].
  induction (calls s) as [|c l IH]; cbn [map filter]; auto. intros ND E. inversion ND as [|x y Hc Hl]; subst.
  unfold cancel_call at 1. destruct (Z.eqb_spec (c_id c) id) as [Ec|Ec].
  - cbn [c_cancelled negb].
    assert (F : filter (fun c => negb (c_cancelled c)) (map (cancel_call id) l) = filter (fun c => negb (c_cancelled c)) l).
    { f_equal. clear - Hc Ec. induction l as [|x l IH]; cbn [map]; auto. rewrite IH.
      - f_equal. unfold cancel_call. destruct (Z.eqb_spec (c_id x) id); auto. exfalso. apply Hc. left. congruence.
      - intros H. apply Hc. right. auto. }
    rewrite F. destruct (c_cancelled c) eqn:Cc; cbn [negb] in E; [|cbn [map] in E; injection E as _ E; exact E].
    exfalso. apply Hc. rewrite Ec.
    assert (In id (map c_id (filter (fun c => negb (c_cancelled c)) l))) by (rewrite E; left; auto).
    apply in_map_iff in H. destruct H as (x & Ex & Hx). apply filter_In in Hx. rewrite <- Ex. apply in_map. tauto.
  - destruct (c_cancelled c) eqn:Cc; cbn [negb] in *; [auto|]. cbn [map] in E. injection E as E _. congruence.
Qed.
Lemma cancel_ids s id : map c_id (calls (cancel s id)) = map c_id (calls s).
Proof.
  unfold cancel. destruct (id =? 0); auto. cbn [set_calls calls]. rewrite map_map. apply map_ext.
  intros c. unfold cancel_call. destruct (_ =? _); auto.
Qed.
Lemma cancel_fields s id : present (cancel s id) = present s /\ created (cancel s id) = created s /\
  refs (cancel s id) = refs s /\ add_call_id (cancel s id) = add_call_id s /\
  retry_timer (cancel s id) = retry_timer s /\ timers (cancel s id) = timers s /\ next (cancel s id) = next s /\
  obj_refs (cancel s id) = obj_refs s /\ trace (cancel s id) = trace s.
Proof. unfold cancel. destruct (id =? 0); cbn; auto 20. Qed.
Lemma cancel_length s id : length (calls (cancel s id)) = length (calls s).
Proof. rewrite <- (map_length c_id), cancel_ids, map_length. auto. Qed.

Lemma ids_map s s2 : map c_id (calls s2) = map c_id (calls s) ->
  (forall c, In c (calls s) -> 0 < c_id c < next s) -> forall c, In c (calls s2) -> 0 < c_id c < next s.
Proof.
  intros E H c Hc. assert (K : In (c_id c) (map c_id (calls s))) by (rewrite <- E; apply in_map; auto).
  apply in_map_iff in K. destruct K as (x & <- & Hx). auto.
Qed.

(* gbinder_servicename_add_service, when the name is in use *)
Record base (s : state) : Prop := {
  b_created : created s = true;
  b_refs : 0 < refs s;
  b_nodup : NoDup (map c_id (calls s));
  b_ids : forall c, In c (calls s) -> 0 < c_id c < next s;
  b_next : 0 < next s;
  b_awaited : awaited s = ilist (add_call_id s);
  b_timers : timers s = olist (retry_timer s);
  b_obj : obj_refs s = 1 + Z.of_nat (length (calls s));
  b_ms : forall id ms, In (EvTimer id ms) (trace s) -> ms = 500
}.
Lemma inv_base s : inv s -> base s.
Proof. intros []. split; auto. Qed.

Lemma not_freed s : 0 < refs s -> freed s = false.
Proof. intros H. unfold freed. destruct (Z.eqb_spec (refs s) 0); auto. lia. Qed.

Lemma add_service_ok s : base s -> exists s2, add_service s = Ok s2 /\ base s2 /\
  add_call_id s2 = next s /\ retry_timer s2 = retry_timer s /\ present s2 = present s /\
  trace s2 = EvCall (next s) :: trace s.
Proof.
  intros B. unfold add_service. rewrite (not_freed _ (b_refs _ B)). cbn [sm_add_service].
  destruct (cancel_fields s (add_call_id s)) as (F1 & F2 & F3 & F4 & F5 & F6 & F7 & F8 & F9).
  pose proof (awaited_cancel s (add_call_id s) (b_nodup _ B) (b_awaited _ B)) as A.
  pose proof (cancel_ids s (add_call_id s)) as CI. pose proof (cancel_length s (add_call_id s)) as CL.
  set (s1 := cancel s (add_call_id s)) in *. pose proof (b_next _ B) as N.
  eexists. split; [reflexivity|]. split; [|cbn; rewrite F7, F5, F1, F9; auto].
  split; cbn [set_id fresh obj_ref set_calls say created refs calls next add_call_id timers retry_timer obj_refs trace].
  - rewrite F2. apply (b_created _ B).
  - rewrite F3. apply (b_refs _ B).
  - rewrite map_app, CI. cbn [map c_id]. rewrite F7.
    apply NoDup_Add with (a := next s) (l := map c_id (calls s)).
    { replace (map c_id (calls s)) with (map c_id (calls s) ++ []) at 1 by apply app_nil_r. apply Add_app. }
    split; [apply (b_nodup _ B)|]. intros H. apply in_map_iff in H. destruct H as (c & E & Hc).
    apply (b_ids _ B) in Hc. lia.
  - intros c Hc. rewrite F7. apply in_app_iff in Hc. destruct Hc as [Hc|[<-|[]]].
    + pose proof (ids_map s s1 CI (b_ids _ B) c Hc). lia.
    + cbn [c_id]. rewrite F7. lia.
  - rewrite F7. lia.
  - unfold awaited. cbn [set_id fresh obj_ref set_calls say calls]. rewrite filter_app, map_app.
    unfold awaited in A. rewrite A. cbn. rewrite F7, ilist_pos by lia. reflexivity.
  - rewrite F6, F5. apply (b_timers _ B).
  - rewrite F8, (b_obj _ B), app_length, CL. cbn [length]. lia.
  - intros id ms [H|H]; [discriminate|]. rewrite F9 in H. apply (b_ms _ B _ _ H).
Qed.

(* A call was just made *)
Lemma called s id : base s -> add_call_id s = id -> trace s = EvCall id :: tl (trace s) -> id <> 0 ->
  (told (trace s) = true -> present s = true) -> inv s.
Proof.
  intros B E T N P. destruct B. split; auto.
  - intros H1 H2. rewrite P in H2; [discriminate|auto].
  - intros _ _. rewrite T. cbn [since last_attempt]. auto.
Qed.

Lemma timeout_own s : timers s = olist (retry_timer s) ->
  timeout_remove s (retry_timer s) = Ok (set_timers s []).
Proof.
  intros E. unfold timeout_remove. destruct (retry_timer s) as [t|]; cbn [olist] in E.
  - rewrite E. cbn [existsb]. rewrite Z.eqb_refl. cbn. rewrite Z.eqb_refl. reflexivity.
  - destruct s; cbn in *. subst. reflexivity.
Qed.

Lemma inv_new s : created s = false -> refs s = 0 -> calls s = [] -> timers s = [] ->
  0 < next s -> obj_refs s = 0 -> (forall e, In e (trace s) -> exists b, e = EvFlip b) ->
  exists s2, servicename_new s = Ok s2 /\ inv s2 /\ tidy s2.
Proof.
  intros C R Cs Ts N O Tr. unfold servicename_new. rewrite C. cbn [present].
  set (s1 := State _ _ _ _ _ _ _ _ _ _).
  assert (B : base s1).
  { subst s1. split; cbn [created refs calls next add_call_id timers retry_timer obj_refs trace]; unfold awaited; cbn [calls]; rewrite ?Cs; auto; try lia.
    - constructor.
    - intros c [].
    - cbn. lia.
    - intros id ms [H|H]; [discriminate|]. apply Tr in H. destruct H. discriminate. }
  assert (A1 : add_call_id s1 = 0) by reflexivity. assert (A2 : retry_timer s1 = None) by reflexivity.
  assert (A3 : present s1 = present s) by reflexivity. assert (A4 : told (trace s1) = true) by reflexivity.
  assert (A5 : next s1 = next s) by reflexivity.
  change (present s1) with (present s). destruct (present s) eqn:P.
  - destruct (add_service_ok s1 B) as (s2 & E & B2 & F1 & F2 & F3 & F4). exists s2. split; [exact E|]. split.
    + apply (called s2 (next s1)); auto; try (rewrite F4; reflexivity); try (pose proof (b_next _ B); lia).
    + split.
      * intros _. rewrite F2. auto.
      * rewrite F4. cbn [told]. rewrite A4. discriminate.
  - exists s1. split; [reflexivity|]. split.
    + destruct B. split; auto. intros _ H. rewrite A3 in H. discriminate.
    + split; [congruence|]. rewrite A4. discriminate.
Qed.

Lemma inv_flip s : inv s -> inv (say (set_present s (negb (present s))) (EvFlip (negb (present s)))).
Proof.
  intros []. split; cbn [say set_present created refs calls next add_call_id timers retry_timer obj_refs trace]; auto.
  - intros id ms [H|H]; [discriminate|eauto].
  - cbn [told]. discriminate.
  - cbn [told]. discriminate.
Qed.
Lemma tidy_flip s : inv s -> tidy s -> told (trace s) = true ->
  tidy (say (set_present s (negb (present s))) (EvFlip (negb (present s)))).
Proof.
  intros I [A _] T. split; cbn [say set_present add_call_id retry_timer present trace]; auto.
  intros _ P. apply (v_absent _ I T). destruct (present s); auto; discriminate.
Qed.

Lemma base_say s e : base s -> (forall id ms, e <> EvTimer id ms) -> base (say s e).
Proof.
  intros [] N. split; auto. cbn [say trace]. intros id ms [H|H]; [destruct (N _ _ H)|eauto].
Qed.

Lemma inv_signal s : inv s -> exists s2, presence_handler s = Ok s2 /\ inv s2 /\
  (told (trace s) = false -> tidy s -> tidy s2).
Proof.
  intros I. unfold presence_handler. rewrite (not_freed _ (v_refs _ I)).
  pose proof (base_say s (EvSignal (present s)) (inv_base _ I) ltac:(discriminate)) as B.
  set (s1 := say s (EvSignal (present s))) in *.
  assert (A4 : told (trace s1) = true) by reflexivity.
  change (present s1) with (present s). destruct (present s) eqn:P.
  - destruct (add_service_ok s1 B) as (s2 & E & B2 & F1 & F2 & F3 & F4). exists s2. split; [exact E|]. split.
    + apply (called s2 (next s1)); auto; try (rewrite F4; reflexivity); try (pose proof (b_next _ B); lia).
      intros _. rewrite F3. exact P.
    + intros T Y. split.
      * intros _. rewrite F2. apply (y_back _ Y T P).
      * rewrite F4. cbn [told]. rewrite A4. discriminate.
  - set (s2 := if add_call_id s1 =? 0 then s1 else set_id (cancel s1 (add_call_id s1)) 0).
    assert (B2 : base s2 /\ add_call_id s2 = 0 /\ present s2 = false /\ trace s2 = trace s1).
    { subst s2. destruct (Z.eqb_spec (add_call_id s1) 0) as [Z0|Z0]; [auto|].
      pose proof (awaited_cancel s1 (add_call_id s1) (b_nodup _ B) (b_awaited _ B)) as A.
      destruct (cancel_fields s1 (add_call_id s1)) as (F1 & F2 & F3 & F4 & F5 & F6 & F7 & F8 & F9).
      pose proof (cancel_ids s1 (add_call_id s1)) as CI. pose proof (cancel_length s1 (add_call_id s1)) as CL.
      set (sc := cancel s1 (add_call_id s1)) in *.
      split; [|split; [reflexivity|split; [cbn [set_id present]; rewrite F1; exact P|cbn [set_id trace]; exact F9]]].
      split; cbn [set_id created refs calls next add_call_id timers retry_timer obj_refs trace].
      - rewrite F2. apply (b_created _ B).
      - rewrite F3. apply (b_refs _ B).
      - rewrite CI. apply (b_nodup _ B).
      - rewrite F7. apply (ids_map s1 sc CI (b_ids _ B)).
      - rewrite F7. apply (b_next _ B).
      - unfold awaited in *. cbn [set_id calls]. rewrite A. reflexivity.
      - rewrite F6, F5. apply (b_timers _ B).
      - rewrite F8, CL. apply (b_obj _ B).
      - rewrite F9. exact (b_ms _ B). }
    clearbody s2. destruct B2 as (B2 & Z2 & P2 & T2).
    assert (R : exists s3, match retry_timer s2 with
      | None => Ok s2
      | Some _ => bind (timeout_remove s2 (retry_timer s2)) (fun s3 => Ok (set_retry s3 None)) end = Ok s3 /\
      base s3 /\ add_call_id s3 = 0 /\ retry_timer s3 = None /\ present s3 = false /\ trace s3 = trace s1).
    { rewrite (timeout_own s2 (b_timers _ B2)). cbn [bind]. destruct (retry_timer s2) eqn:Er.
      - eexists. split; [reflexivity|]. split; [|cbn; auto]. destruct B2. split; auto.
      - exists s2. auto 10. }
    destruct R as (s3 & E3 & B3 & Z3 & R3 & P3 & T3). exists s3. split; [exact E3|]. split.
    + destruct B3. split; auto. intros _ H. congruence.
    + intros _ _. split; [congruence|]. rewrite T3, A4. discriminate.
Qed.

Lemma inv_timer s id : inv s -> retry s id = Misuse \/ exists s2, retry s id = Ok s2 /\ inv s2 /\ (tidy s -> tidy s2) /\
  awaited s2 = [next s] /\ timers s2 = [] /\ trace s2 = EvCall (next s) :: trace s.
Proof.
  intros I. unfold retry. destruct (existsb (Z.eqb id) (timers s)) eqn:X; auto. right.
  rewrite (v_timers _ I) in X. destruct (retry_timer s) as [t|] eqn:Et; [|discriminate].
  cbn [olist existsb] in X. rewrite orb_false_r in X. apply Z.eqb_eq in X. subst t.
  assert (Er : remove_id (timers s) id = []).
  { rewrite (v_timers _ I), Et. cbn. rewrite Z.eqb_refl. reflexivity. }
  rewrite Er. change (freed (set_timers s [])) with (freed s). rewrite (not_freed _ (v_refs _ I)).
  assert (B : base (set_retry (set_timers s []) None)).
  { pose proof (inv_base _ I) as []. split; auto. }
  destruct (add_service_ok _ B) as (s2 & E & B2 & F1 & F2 & F3 & F4). exists s2. split; [exact E|].
  cbn [set_retry set_timers next retry_timer present trace] in *.
  pose proof (b_next _ B) as N. cbn in N. split; [|split; [|split; [|split]]].
  - apply (called s2 (next s)); auto; try (rewrite F4; reflexivity); try lia.
    rewrite F4, F3. cbn [told]. intros T. destruct (present s) eqn:P; auto.
    destruct (v_absent _ I T P). congruence.
  - intros [Y1 Y2]. split; [congruence|]. rewrite F4, F3. cbn [told]. intros T P. destruct (Y2 T P). congruence.
  - rewrite (b_awaited _ B2), F1. apply ilist_pos. lia.
  - rewrite (b_timers _ B2), F2. reflexivity.
  - exact F4.
Qed.

Lemma inv_ref s : inv s -> inv (set_refs s (refs s + 1)) /\ (tidy s -> tidy (set_refs s (refs s + 1))).
Proof.
  intros []. split; [split; cbn; auto; lia|]. intros []. split; auto.
Qed.
Lemma inv_unref s : inv s -> refs s <> 1 -> inv (set_refs s (refs s - 1)) /\ (tidy s -> tidy (set_refs s (refs s - 1))).
Proof.
  intros [] N. split; [split; cbn; auto; lia|]. intros []. split; auto.
Qed.

(* After the release *)
Record over (s : state) : Prop := {
  o_created : created s = true;
  o_refs : refs s = 0;
  o_awaited : awaited s = [];
  o_timers : timers s = [];
  o_obj : obj_refs s = Z.of_nat (length (calls s));
  o_nodup : NoDup (map c_id (calls s));
  o_silent : exists after before, trace s = after ++ EvReleased :: before /\
             forallb (fun e => negb (activity e)) after = true
}.

Lemma inv_last_unref s : inv s -> refs s = 1 -> exists s2, servicename_unref s = Ok s2 /\ over s2.
Proof.
  intros I R. unfold servicename_unref. rewrite (not_freed _ (v_refs _ I)). cbn [set_refs refs].
  rewrite R. change (1 - 1 =? 0) with true. cbv iota.
  set (s1 := say (set_refs s (1 - 1)) EvReleased).
  change (add_call_id (set_refs s (1 - 1))) with (add_call_id s1).
  pose proof (awaited_cancel s1 (add_call_id s1) (v_nodup _ I) (v_awaited _ I)) as A.
  destruct (cancel_fields s1 (add_call_id s1)) as (F1 & F2 & F3 & F4 & F5 & F6 & F7 & F8 & F9).
  pose proof (cancel_ids s1 (add_call_id s1)) as CI. pose proof (cancel_length s1 (add_call_id s1)) as CL.
  set (sc := cancel s1 (add_call_id s1)) in *.
  assert (Et : timers (obj_ref sc (-1)) = olist (retry_timer (obj_ref sc (-1)))).
  { cbn [obj_ref timers retry_timer]. rewrite F6, F5. apply (v_timers _ I). }
  rewrite (timeout_own _ Et). eexists. split; [reflexivity|].
  split; cbn [set_timers obj_ref created refs calls timers obj_refs trace]; auto.
  - rewrite F2. apply (v_created _ I).
  - rewrite F8, CL. cbn. rewrite (v_obj _ I). lia.
  - rewrite CI. apply (v_nodup _ I).
  - exists [], (trace s). rewrite F9. auto.
Qed.

(* Worker threads *)
Lemma find_call_in s id c : find_call s id = Some c -> In c (calls s) /\ c_id c = id.
Proof. unfold find_call. intros H. apply find_some in H. rewrite Z.eqb_eq in H. auto. Qed.
Lemma set_call_ids s id p : map c_id (calls (set_call s id p)) = map c_id (calls s).
Proof.
  cbn [set_call set_calls calls]. rewrite map_map. apply map_ext. intros c.
  destruct (Z.eqb_spec (c_id c) id); auto.
Qed.
Lemma set_call_awaited s id p : awaited (set_call s id p) = awaited s.
Proof.
  unfold awaited. cbn [set_call set_calls calls]. induction (calls s) as [|c l IH]; cbn [map filter]; auto.
  destruct (Z.eqb_spec (c_id c) id) as [E|E]; cbn [c_cancelled]; [|destruct (negb (c_cancelled c)); cbn [map]; congruence].
  destruct (negb (c_cancelled c)); cbn [map c_id]; congruence.
Qed.
Lemma inv_set_call s id p : inv s -> inv (set_call s id p) /\ (tidy s -> tidy (set_call s id p)).
Proof.
  intros I. pose proof (set_call_ids s id p) as CI. pose proof (set_call_awaited s id p) as CA.
  assert (CL : length (calls (set_call s id p)) = length (calls s)) by (rewrite <- (map_length c_id), CI, map_length; auto).
  split; [|intros []; split; auto].
  pose proof (ids_map s _ CI (v_ids _ I)) as Hi.
  destruct I. split; auto.
  - rewrite CI. auto.
  - rewrite CA. auto.
  - rewrite CL. auto.
Qed.
Lemma inv_exec s id : inv s -> inv (say s (EvExec id)) /\ (tidy s -> tidy (say s (EvExec id))).
Proof.
  intros I. split; [|intros []; split; auto]. destruct I. split; auto.
  cbn [say trace]. intros t ms [H|H]; [discriminate|eauto].
Qed.
Lemma over_set_call s id p : over s -> over (set_call s id p).
Proof.
  intros O. pose proof (set_call_ids s id p) as CI. pose proof (set_call_awaited s id p) as CA.
  assert (CL : length (calls (set_call s id p)) = length (calls s)) by (rewrite <- (map_length c_id), CI, map_length; auto).
  destruct O. split; auto; try congruence; rewrite ?CL, ?CI; auto.
Qed.

Lemma awaited_in s c : In c (calls s) -> c_cancelled c = false -> In (c_id c) (awaited s).
Proof.
  intros H E. unfold awaited. apply in_map, filter_In. rewrite E. auto.
Qed.

Lemma free_awaited l id : NoDup (map c_id l) ->
  map c_id (filter (fun c => negb (c_cancelled c)) (filter (fun c => negb (c_id c =? id)) l)) =
  filter (fun x => negb (x =? id)) (map c_id (filter (fun c => negb (c_cancelled c)) l)).
Proof.
  intros _. induction l as [|c l IH]; cbn [filter map]; auto.
  destruct (c_id c =? id) eqn:E1, (c_cancelled c) eqn:E2; cbn [negb filter map]; rewrite ?E1, ?E2; cbn [negb filter map];
    rewrite ?E1; cbn [negb]; try congruence; rewrite IH; auto.
Qed.
Lemma filter_ids_nodup (l : list call) f : NoDup (map c_id l) -> NoDup (map c_id (filter f l)).
Proof.
  induction l as [|h l IH]; cbn [map filter]; auto. intros N. inversion N; subst.
  destruct (f h); auto. cbn [map]. constructor; auto. intros H. apply in_map_iff in H.
  destruct H as (x & Ex & Hx). apply filter_In in Hx. destruct Hx as [Hx _]. apply H1. rewrite <- Ex.
  apply in_map. auto.
Qed.
Lemma filter_one (l : list call) c : NoDup (map c_id l) -> In c l ->
  S (length (filter (fun x => negb (c_id x =? c_id c)) l)) = length l.
Proof.
  induction l as [|h l IH]; cbn [map In filter]; [tauto|]. intros N H. inversion N; subst.
  destruct H as [->|H].
  - rewrite Z.eqb_refl. cbn [negb length]. f_equal.
    assert (F : filter (fun x => negb (c_id x =? c_id c)) l = l); [|rewrite F; auto].
    clear - H2. induction l as [|x l IH]; cbn [filter]; auto. destruct (Z.eqb_spec (c_id x) (c_id c)) as [E|E].
    + exfalso. apply H2. left. auto.
    + cbn [negb]. f_equal. apply IH. intros H. apply H2. right. auto.
  - destruct (Z.eqb_spec (c_id h) (c_id c)) as [E|E].
    + exfalso. apply H2. rewrite E. apply in_map. auto.
    + cbn [negb length]. rewrite <- (IH H3 H). auto.
Qed.

(* The end of a call whose result isn't awaited anymore *)
Lemma base_free s c : base s -> In c (calls s) -> ~ In (c_id c) (awaited s) -> base (free_call s (c_id c)).
Proof.
  intros [] H N. split; cbn [free_call obj_ref set_calls created refs calls next add_call_id timers retry_timer obj_refs trace]; auto.
  - apply filter_ids_nodup. auto.
  - intros x Hx. apply filter_In in Hx. apply b_ids0. tauto.
  - unfold awaited. cbn [free_call obj_ref set_calls calls]. rewrite free_awaited by auto. fold (awaited s).
    rewrite <- b_awaited0. clear - N. induction (awaited s) as [|x l IH]; cbn [filter]; auto.
    destruct (Z.eqb_spec x (c_id c)) as [E|E]; [exfalso; apply N; left; auto|]. cbn [negb]. f_equal.
    apply IH. intros H. apply N. right. auto.
  - pose proof (filter_one (calls s) c b_nodup0 H) as L. lia.
Qed.

Lemma inv_complete s id : inv s -> complete s id = Misuse \/
  exists s2, complete s id = Ok s2 /\ inv s2 /\ (tidy s -> tidy s2).
Proof.
  intros I. unfold complete. destruct (find_call s id) as [[i k p]|] eqn:F; auto.
  destruct p as [| |r]; auto. right. apply find_call_in in F. destruct F as [Fi Fe]. cbn [c_id] in Fe. subst i.
  destruct k.
  - assert (N : ~ In id (awaited s)).
    { intros H. unfold awaited in H. apply in_map_iff in H. destruct H as (x & Ex & Hx). apply filter_In in Hx.
      destruct Hx as [Hx Hc]. assert (Call id true (Ended r) = x); [|subst x; discriminate].
      pose proof (v_nodup _ I) as ND. clear - ND Fi Hx Ex. induction (calls s) as [|y l IH]; [destruct Hx|].
      cbn [map] in ND. inversion ND; subst. destruct Fi as [->|Fi], Hx as [->|Hx]; auto.
      - exfalso. apply H1. apply (in_map c_id _ _ Hx).
      - exfalso. apply H1. apply (in_map c_id _ _ Fi). }
    pose proof (base_free s (Call id true (Ended r)) (inv_base _ I) Fi N) as B. cbn [c_id] in B.
    eexists. split; [reflexivity|]. split; [|intros []; split; auto].
    pose proof (v_absent _ I). pose proof (v_present _ I). destruct B. split; auto.
  - pose proof (awaited_in s _ Fi eq_refl) as Ha. cbn [c_id] in Ha. rewrite (v_awaited _ I) in Ha.
    assert (Ea : add_call_id s = id /\ id <> 0).
    { unfold ilist in Ha. destruct (Z.eqb_spec (add_call_id s) 0) as [E|E]; [destruct Ha|]. destruct Ha as [<-|[]]. auto. }
    destruct Ea as [Ea Nz]. set (st := match r with Some x => x | None => - EFAULT end).
    unfold add_service_done. rewrite (not_freed _ (v_refs _ I)).
    set (s1 := say (set_id s 0) (EvResult id st)).
    assert (Told : told (trace s) = true -> present s = true).
    { intros T. destruct (present s) eqn:P; auto. destruct (v_absent _ I T P). congruence. }
    assert (AW : forall s2, calls s2 = calls s -> awaited (free_call s2 id) = []).
    { intros s2 E. unfold awaited. cbn [free_call obj_ref set_calls calls]. rewrite E, free_awaited by apply (v_nodup _ I).
      fold (awaited s). rewrite (v_awaited _ I), Ea, ilist_pos by auto. cbn. rewrite Z.eqb_refl. reflexivity. }
    assert (LEN : obj_refs s - 1 = 1 + Z.of_nat (length (filter (fun c => negb (c_id c =? id)) (calls s)))).
    { pose proof (filter_one (calls s) _ (v_nodup _ I) Fi) as L. cbn [c_id] in L. rewrite (v_obj _ I). lia. }
    destruct (Z.eqb_spec st 0) as [E0|E0]; cbn [bind].
    + eexists. split; [reflexivity|]. split.
      * split; cbn [free_call obj_ref set_calls s1 say set_id created refs calls next add_call_id timers retry_timer obj_refs trace present];
          try apply I.
        -- apply filter_ids_nodup, I.
        -- intros c Hc. apply filter_In in Hc. apply (v_ids _ I). tauto.
        -- rewrite AW; auto.
        -- exact LEN.
        -- intros t ms [H|H]; [discriminate|]. apply (v_ms _ I _ _ H).
        -- cbn [told]. intros T P. rewrite Told in P; [discriminate|auto].
        -- cbn [told since last_attempt]. intros _ _. split; [reflexivity|contradiction].
      * intros [Y1 Y2]. split; cbn [free_call obj_ref set_calls s1 say set_id add_call_id retry_timer trace present told]; auto.
        intros T P. destruct (Y2 T P). congruence.
    + change (retry_timer s1) with (retry_timer s).
      assert (TO : timeout_remove s1 (retry_timer s) = Ok (set_timers s1 [])) by (apply (timeout_own s1), (v_timers _ I)).
      rewrite TO. cbn [bind]. eexists. split; [reflexivity|]. split.
      * split; cbn [free_call obj_ref set_calls timeout_add set_retry fresh set_timers s1 say set_id created refs calls next add_call_id timers retry_timer obj_refs trace present];
          try apply I; try reflexivity.
        -- apply filter_ids_nodup, I.
        -- intros c Hc. apply filter_In in Hc. pose proof (v_ids _ I c). intuition lia.
        -- pose proof (v_next _ I). lia.
        -- rewrite AW; auto.
        -- exact LEN.
        -- intros t ms [H|[H|H]]; [injection H as _ <-; reflexivity|discriminate|]. apply (v_ms _ I _ _ H).
        -- cbn [told]. intros T P. rewrite Told in P; [discriminate|auto].
        -- cbn [told since last_attempt]. intros _ _. split; auto. discriminate.
      * intros [Y1 Y2]. split; cbn [free_call obj_ref set_calls timeout_add set_retry fresh set_timers s1 say set_id add_call_id retry_timer trace present told].
        -- congruence.
        -- intros T P. destruct (Y2 T P). congruence.
Qed.

(* Before the name is created *)
Record unborn (s : state) : Prop := {
  u_created : created s = false;
  u_refs : refs s = 0;
  u_calls : calls s = [];
  u_timers : timers s = [];
  u_next : 0 < next s;
  u_obj : obj_refs s = 0;
  u_trace : forall e, In e (trace s) -> exists b, e = EvFlip b
}.

Lemma over_step s mv : over s -> step s mv = Misuse \/ exists s2, step s mv = Ok s2 /\ over s2.
Proof.
  intros O. pose proof (o_refs _ O) as R. assert (F : freed s = true) by (unfold freed; rewrite R; reflexivity).
  destruct mv; cbn [step].
  - left. unfold servicename_new. rewrite (o_created _ O). reflexivity.
  - left. unfold servicename_ref. rewrite F. reflexivity.
  - left. unfold servicename_unref. rewrite F. reflexivity.
  - right. eexists. split; [reflexivity|]. destruct O. split; auto.
    destruct o_silent0 as (a & b & E & H). exists (EvFlip (negb (present s)) :: a), b. cbn [say set_present trace].
    rewrite E. auto.
  - rewrite F. auto.
  - left. unfold retry. rewrite (o_timers _ O). reflexivity.
  - unfold start. destruct (find_call s id) as [[i k p]|] eqn:Fc; auto. destruct p; auto.
    apply find_call_in in Fc. destruct Fc as [Fi _]. destruct k.
    + right. eexists. split; [reflexivity|]. apply over_set_call. auto.
    + apply awaited_in in Fi; auto. rewrite (o_awaited _ O) in Fi. destruct Fi.
  - unfold finish. destruct (find_call s id) as [[i k p]|] eqn:Fc; auto. destruct p; auto.
    right. eexists. split; [reflexivity|]. apply over_set_call. auto.
  - unfold complete. destruct (find_call s id) as [[i k p]|] eqn:Fc; auto. destruct p as [| |r]; auto.
    apply find_call_in in Fc. destruct Fc as [Fi Fe]. cbn [c_id] in Fe. subst i. destruct k.
    + right. eexists. split; [reflexivity|]. destruct O.
      split; cbn [free_call obj_ref set_calls created refs calls timers obj_refs trace]; auto.
      * unfold awaited. cbn [free_call obj_ref set_calls calls]. rewrite free_awaited by auto. fold (awaited s).
        rewrite o_awaited0. reflexivity.
      * pose proof (filter_one (calls s) _ o_nodup0 Fi) as L. cbn [c_id] in L. lia.
      * apply filter_ids_nodup. auto.
    + apply awaited_in in Fi; auto. rewrite (o_awaited _ O) in Fi. destruct Fi.
Qed.

(* All states *)
Inductive good (s : state) : Prop :=
| G_unborn : unborn s -> good s
| G_inv : inv s -> good s
| G_over : over s -> good s.

Lemma good_step s mv : good s -> step s mv = Misuse \/ exists s2, step s mv = Ok s2 /\ good s2.
Proof.
  intros [U|I|O].
  - pose proof (u_refs _ U) as R. assert (F : freed s = true) by (unfold freed; rewrite R; reflexivity).
    destruct mv; cbn [step].
    + right. destruct (inv_new s (u_created _ U) R (u_calls _ U) (u_timers _ U) (u_next _ U) (u_obj _ U) (u_trace _ U))
        as (s2 & E & I & _). exists s2. split; [exact E|apply G_inv; auto].
    + left. unfold servicename_ref. rewrite F. reflexivity.
    + left. unfold servicename_unref. rewrite F. reflexivity.
    + right. eexists. split; [reflexivity|]. apply G_unborn. destruct U. split; auto.
      cbn [say set_present trace]. intros e [<-|H]; eauto.
    + rewrite F. auto.
    + left. unfold retry. rewrite (u_timers _ U). reflexivity.
    + left. unfold start, find_call. rewrite (u_calls _ U). reflexivity.
    + left. unfold finish, find_call. rewrite (u_calls _ U). reflexivity.
    + left. unfold complete, find_call. rewrite (u_calls _ U). reflexivity.
  - destruct mv; cbn [step].
    + left. unfold servicename_new. rewrite (v_created _ I). reflexivity.
    + right. unfold servicename_ref. rewrite (not_freed _ (v_refs _ I)). eexists. split; [reflexivity|].
      apply G_inv, inv_ref. auto.
    + right. destruct (Z.eq_dec (refs s) 1) as [R|R].
      * destruct (inv_last_unref s I R) as (s2 & E & O). exists s2. split; [exact E|apply G_over; auto].
      * unfold servicename_unref. rewrite (not_freed _ (v_refs _ I)). cbn [set_refs refs].
        destruct (Z.eqb_spec (refs s - 1) 0); [lia|]. eexists. split; [reflexivity|]. apply G_inv, inv_unref; auto.
    + right. eexists. split; [reflexivity|]. apply G_inv, inv_flip. auto.
    + rewrite (not_freed _ (v_refs _ I)). right. destruct (inv_signal s I) as (s2 & E & I2 & _). eauto using G_inv.
    + destruct (inv_timer s id I) as [H|(s2 & E & I2 & _)]; eauto using G_inv.
    + unfold start. destruct (find_call s id) as [[i k p]|] eqn:Fc; auto. destruct p; auto. right.
      destruct k; (eexists; split; [reflexivity|]); apply G_inv; [|apply inv_exec]; apply inv_set_call; auto.
    + unfold finish. destruct (find_call s id) as [[i k p]|] eqn:Fc; auto. destruct p; auto. right.
      eexists; split; [reflexivity|]; apply G_inv; apply inv_set_call; auto.
    + destruct (inv_complete s id I) as [H|(s2 & E & I2 & _)]; eauto using G_inv.
  - destruct (over_step s mv O) as [H|(s2 & E & O2)]; eauto using G_over.
Qed.

Lemma good_run : forall l s, good s -> run s l = Misuse \/ exists s2, run s l = Ok s2 /\ good s2.
Proof.
  induction l as [|mv l IH]; intros s G; cbn [run]; eauto.
  destruct (good_step s mv G) as [->|(s2 & -> & G2)]; cbn [bind]; auto.
Qed.
Lemma good_init p : good (init p).
Proof. apply G_unborn. split; cbn; auto; try lia. Qed.

(* Orderly histories *)
Lemma told_unborn s : unborn s -> told (trace s) = false.
Proof.
  intros U. pose proof (u_trace _ U) as H. induction (trace s) as [|e tr IH]; auto.
  destruct (H e) as [b ->]; [left; auto|]. reflexivity.
Qed.
Definition neat (s : state) : Prop := good s /\ (0 < refs s -> tidy s).

Lemma good_inv s : good s -> 0 < refs s -> inv s.
Proof. intros [U|I|O] H; auto; [pose proof (u_refs _ U)|pose proof (o_refs _ O)]; lia. Qed.

Lemma neat_step s mv s2 : neat s -> orderly s [mv] = true -> step s mv = Ok s2 -> neat s2.
Proof.
  intros [G T] H E. destruct (good_step s mv G) as [K|(s3 & K & G2)]; rewrite E in K; [discriminate|].
  injection K as <-. split; auto. intros R2. cbn [orderly] in H. apply andb_true_iff in H. destruct H as [H _].
  destruct (Z_lt_dec 0 (refs s)) as [R|R].
  - pose proof (good_inv s G R) as I. specialize (T R). clear G G2.
    assert (W : waits s = negb (told (trace s))) by (unfold waits; rewrite (not_freed _ R); reflexivity).
    destruct mv; cbn [step] in E.
    + unfold servicename_new in E. rewrite (v_created _ I) in E. discriminate.
    + unfold servicename_ref in E. rewrite (not_freed _ R) in E. injection E as <-. apply inv_ref; auto.
    + destruct (Z.eq_dec (refs s) 1) as [R1|R1].
      * destruct (inv_last_unref s I R1) as (s3 & E3 & O). rewrite E in E3. injection E3 as <-.
        pose proof (o_refs _ O). lia.
      * unfold servicename_unref in E. rewrite (not_freed _ R) in E. cbn [set_refs refs] in E.
        destruct (Z.eqb_spec (refs s - 1) 0); [lia|]. injection E as <-. apply inv_unref; auto.
    + injection E as <-. rewrite W, negb_involutive in H. apply tidy_flip; auto.
    + rewrite (not_freed _ R) in E. destruct (inv_signal s I) as (s3 & E3 & _ & K). rewrite E in E3. injection E3 as <-.
      apply K; auto. rewrite W in H. destruct (told (trace s)); auto; discriminate.
    + destruct (inv_timer s id I) as [K|(s3 & E3 & _ & K & _)]; rewrite E in *; [discriminate|]. injection E3 as <-. auto.
    + unfold start in E. destruct (find_call s id) as [[i k p]|] eqn:Fc; [|discriminate]. destruct p; try discriminate.
      destruct k; injection E as <-; [apply inv_set_call; auto|].
      apply (inv_exec _ id (proj1 (inv_set_call s id Running I))). apply inv_set_call; auto.
    + unfold finish in E. destruct (find_call s id) as [[i k p]|] eqn:Fc; [|discriminate]. destruct p; try discriminate.
      injection E as <-. apply inv_set_call; auto.
    + destruct (inv_complete s id I) as [K|(s3 & E3 & _ & K)]; rewrite E in *; [discriminate|]. injection E3 as <-. auto.
  - destruct G as [U|I|O].
    + destruct mv; cbn [step] in E.
      1:{ destruct (inv_new s (u_created _ U) (u_refs _ U) (u_calls _ U) (u_timers _ U) (u_next _ U) (u_obj _ U) (u_trace _ U))
            as (s3 & E3 & _ & Y). rewrite E in E3. injection E3 as <-. auto. }
      all: exfalso; assert (F : freed s = true) by (unfold freed; rewrite (u_refs _ U); reflexivity).
      * unfold servicename_ref in E. rewrite F in E. discriminate.
      * unfold servicename_unref in E. rewrite F in E. discriminate.
      * injection E as <-. cbn in R2. lia.
      * rewrite F in E. discriminate.
      * unfold retry in E. rewrite (u_timers _ U) in E. discriminate.
      * unfold start, find_call in E. rewrite (u_calls _ U) in E. discriminate.
      * unfold finish, find_call in E. rewrite (u_calls _ U) in E. discriminate.
      * unfold complete, find_call in E. rewrite (u_calls _ U) in E. discriminate.
    + pose proof (v_refs _ I). lia.
    + exfalso. destruct (over_step s mv O) as [K|(s3 & K & O2)]; rewrite E in K; [discriminate|]. injection K as <-.
      pose proof (o_refs _ O2). lia.
Qed.

Lemma neat_run : forall l s s2, neat s -> orderly s l = true -> run s l = Ok s2 -> neat s2.
Proof.
  induction l as [|mv l IH]; intros s s2 N O E; cbn [run] in E; [injection E as <-; auto|].
  destruct (step s mv) as [| |s1] eqn:Es; cbn [bind] in E; try discriminate.
  cbn [orderly] in O. rewrite Es in O. apply andb_true_iff in O. destruct O as [O1 O2].
  apply (IH s1); auto. apply (neat_step s mv); auto. cbn [orderly]. rewrite Es, O1. reflexivity.
Qed.
