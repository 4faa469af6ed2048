From Coq Require Import String Lia.
From Verif Require Import Base ObjModel ConfModel ConfSpec ConfProofs CfgModel CfgSpec.
Open Scope string_scope.

(* ---- The tables *)
Lemma tmap_lookup {A B} (f : A -> B) t k : ht_lookup (tmap f t) k = option_map f (ht_lookup t k).
Proof.
  unfold tmap. induction t as [|(k', a) r IH]; [reflexivity|]. cbn [map ht_lookup fst snd].
  destruct (k =? k'); [reflexivity|exact IH].
Qed.
Lemma tmap_remove {A B} (f : A -> B) t k : ht_remove (tmap f t) k = tmap f (ht_remove t k).
Proof.
  unfold tmap, ht_remove. induction t as [|(k', a) r IH]; [reflexivity|].
  cbn [map filter fst]. destruct (k =? k'); cbn [negb map fst]; [exact IH|]. f_equal. exact IH.
Qed.
Lemma tmap_choose {A B} (f : A -> B) t d dev :
  choose (first_choice (tmap f t) (f d)) dev = f (choose (first_choice t d) dev).
Proof.
  unfold choose, first_choice. rewrite tmap_lookup. destruct (ht_lookup t "Default") as [p|]; cbn [option_map fst snd].
  - rewrite tmap_remove, tmap_lookup. destruct (ht_lookup (ht_remove t "Default") dev); reflexivity.
  - rewrite tmap_lookup. destruct (ht_lookup t dev); reflexivity.
Qed.

Definition settled_choice (w : what) (kf : option keyfile) : choice value :=
  first_choice (load_table w kf) (builtin_default w).

Lemma settled_answer to_int w d dev :
  answer to_int w d dev (choose (settled_choice w (contents to_int d)) dev).
Proof.
  unfold settled_choice, answer, contents.
  assert (Hn : forall k, load_files to_int (fst d) (snd d) = Some k -> NoDup (keys k))
    by (intros k; apply load_files_nodup).
  destruct w; cbn [load_table builtin_default]; rewrite tmap_choose.
  - apply (choose_chosen protocol_known protocol_find _ _ _ _ _ _ _ _ protocol_find_known);
      try discriminate; [exact Hn|reflexivity].
  - apply (choose_chosen sm_known sm_value_map _ _ _ _ _ _ _ _ sm_find_known);
      try discriminate; [exact Hn|reflexivity].
Qed.

Lemma settled_some w kf : exists t, fst (settled_choice w kf) = Some t.
Proof. unfold settled_choice, first_choice. destruct (ht_lookup _ _); cbn [fst]; eauto. Qed.

Lemma what_eqb_spec a b : reflect (a = b) (what_eqb a b).
Proof. destruct a, b; cbn; constructor; congruence. Qed.
Lemma upd_w_same {A} (f : what -> A) w a : upd_w f w a w = a.
Proof. unfold upd_w. destruct w; reflexivity. Qed.
Lemma upd_w_other {A} (f : what -> A) w w' a : w' <> w -> upd_w f w a w' = f w'.
Proof. unfold upd_w. destruct (what_eqb_spec w' w); [contradiction|reflexivity]. Qed.
Lemma upd_t_same f t p : upd_t f t p t = p.
Proof. unfold upd_t. rewrite Nat.eqb_refl. reflexivity. Qed.
Lemma upd_t_other f t t' p : t' <> t -> upd_t f t p t' = f t'.
Proof. intros H. unfold upd_t. apply Nat.eqb_neq in H. rewrite H. reflexivity. Qed.

Lemma set_nth_length {A} (l : list A) : forall n a, List.length (set_nth l n a) = List.length l.
Proof. induction l as [|x r IH]; intros [|n] a; cbn; auto. Qed.
Lemma set_nth_same {A} (l : list A) : forall n a, (n < List.length l)%nat -> nth_error (set_nth l n a) n = Some a.
Proof. induction l as [|x r IH]; intros [|n] a H; cbn in *; try lia; [reflexivity|]. apply IH. lia. Qed.
Lemma set_nth_other {A} (l : list A) : forall n m a, m <> n -> nth_error (set_nth l n a) m = nth_error l m.
Proof.
  induction l as [|x r IH]; intros [|n] [|m] a H; cbn; try reflexivity; try contradiction.
  apply IH. lia.
Qed.
Lemma nth_snoc {A} (l : list A) x n : nth_error (l ++ [x])%list n =
  if Nat.ltb n (List.length l) then nth_error l n else if Nat.eqb n (List.length l) then Some x else None.
Proof.
  destruct (Nat.ltb_spec n (List.length l)).
  - apply nth_error_app1. assumption.
  - rewrite nth_error_app2 by assumption. destruct (Nat.eqb_spec n (List.length l)) as [->|].
    + rewrite Nat.sub_diag. reflexivity.
    + destruct (n - List.length l)%nat as [|m] eqn:E; [lia|]. cbn. destruct m; reflexivity.
Qed.
Lemma nth_lt {A} (l : list A) n x : nth_error l n = Some x -> (n < List.length l)%nat.
Proof. intros H. apply nth_error_Some. congruence. Qed.

(* ---- The invariant of careful histories *)

(* The first lookup of a kind is being made *)
Definition initing (p : pc) : option what :=
  match p with
  | AtGet w _ | AtStore w _ _ | AtSchedule w _ | AtReturn w _ | AtKeys w _ _ | AtValues w _ _
  | AtMap w _ _ | AtDefault w _ | AtRemove w _ _ | AtSetDefault w _ _ => Some w
  | _ => None
  end.
(* ... and it has loaded what it needs, or found it loaded *)
Definition loaded (p : pc) : option what :=
  match p with
  | AtStore w _ _ | AtSchedule w _ | AtReturn w _ | AtKeys w _ _ | AtValues w _ _ | AtMap w _ _ => Some w
  | _ => None
  end.

Definition fresh_kind (s : state) (w : what) : Prop :=
  tables s w = None /\ tables_made s w = 0%nat /\ ~ answered s w.
Definition settled (s : state) (w : what) (kf : option keyfile) : Prop :=
  (tables s w, default s w) = settled_choice w kf /\ tables_made s w = 1%nat.

Definition begun (s : state) (w : what) : nat :=
  match tables s w with
  | Some _ => 1
  | None => match loaded (threads s 0%nat) with Some w' => if what_eqb w' w then 1 else 0 | None => 0 end
  end.

Section Inv.
  Variable D : list (option keyfile).

  Definition first_lookup (s : state) : Prop :=
    match threads s 0%nat with
    | AtGet w _ => fresh_kind s w
    | AtStore w _ k => fresh_kind s w /\ current s = None /\
        match k with
        | Some k => S k = List.length (keyfiles s) /\ exists kf, nth_error (keyfiles s) k = Some (kf, true)
        | None => In None D
        end
    | AtSchedule w _ => fresh_kind s w /\ (current s = None -> In None D)
    | AtReturn w _ => fresh_kind s w /\ (current s = None -> In None D)
    | AtKeys w _ k => fresh_kind s w /\ current s = k /\ (current s = None -> In None D)
    | AtValues w _ k => fresh_kind s w /\ current s = Some k
    | AtMap w _ t => fresh_kind s w /\ exists kf, In kf D /\ t = load_table w kf
    | AtDefault w _ => tables_made s w = 1%nat /\ ~ answered s w /\
        exists kf, In kf D /\ tables s w = Some (load_table w kf)
    | AtRemove w _ v => tables_made s w = 1%nat /\ ~ answered s w /\
        exists kf, In kf D /\ tables s w = Some (load_table w kf) /\
          ht_lookup (load_table w kf) "Default" = Some v
    | AtSetDefault w _ v => tables_made s w = 1%nat /\ ~ answered s w /\
        exists kf, In kf D /\ (tables s w, v) = settled_choice w kf
    | AtFind w _ => tables s w <> None
    | AtFallback w dev => exists t, tables s w = Some t /\ ht_lookup t dev = None
    | Idle | AtCheck _ _ => True
    end.

  Definition scheduling (p : pc) : bool := match p with AtSchedule _ _ => true | _ => false end.
  Definition storing (p : pc) : bool := match p with AtStore _ _ (Some _) => true | _ => false end.

  Record inv (s : state) : Prop := {
    i_disk : True;
    i_others : forall t, t <> 0%nat ->
      match threads s t with
      | Idle => True
      | AtCheck w _ | AtFind w _ => answered s w
      | AtFallback w dev => answered s w /\ exists m, tables s w = Some m /\ ht_lookup m dev = None
      | _ => False
      end;
    i_kinds : forall w, initing (threads s 0%nat) <> Some w ->
      fresh_kind s w \/ exists kf, In kf D /\ settled s w kf;
    i_first : first_lookup s;
    i_answers : forall t w dev v, In (t, w, dev, v) (returned s) ->
      initing (threads s 0%nat) <> Some w /\ v = choose (tables s w, default s w) dev;
    i_contents : forall k kf b, nth_error (keyfiles s) k = Some (kf, b) -> In (Some kf) D;
    i_current : forall k, current s = Some k -> exists kf, nth_error (keyfiles s) k = Some (kf, true);
    i_alive : forall k kf, nth_error (keyfiles s) k = Some (kf, true) ->
      current s = Some k \/ exists w dev, threads s 0%nat = AtStore w dev (Some k);
    i_scheduled : forall i k, nth_error (callbacks s) i = Some (k, true) ->
      current s = Some k /\ S i = List.length (callbacks s) /\ scheduling (threads s 0%nat) = false;
    i_will_be_released : forall k, current s = Some k -> scheduling (threads s 0%nat) = false ->
      exists i, nth_error (callbacks s) i = Some (k, true);
    i_held : autorelease s = match callbacks s with [] => None | _ => Some (List.length (callbacks s) - 1)%nat end;
    i_one_each : List.length (keyfiles s) = (List.length (callbacks s) +
      (if storing (threads s 0%nat) then 1 else if scheduling (threads s 0%nat)
       then match current s with Some _ => 1 | None => 0 end else 0))%nat;
    i_loads : (List.length (keyfiles s) <= begun s Protocols + begun s Managers)%nat
  }.

  Lemma inv_init d : inv (init d).
  Proof.
    constructor; cbn; auto; try discriminate.
    - intros w _. left. repeat split; auto. intros (t & dev & v & []).
    - intros t w dev v [].
    - intros [|k] kf b H; discriminate.
    - intros [|k] kf H; discriminate.
    - intros [|i] k H; discriminate.
  Qed.

  Ltac simp := cbn [disk keyfiles current callbacks autorelease tables tables_made default threads returned
    goto set_disk set_keyfiles set_current set_callbacks set_table set_default give initing loaded
    scheduling storing] in *.
  Ltac fields := unfold answered, fresh_kind, settled, begun, first_lookup in *; simp;
    rewrite ?upd_t_same in *; simp.

  (* Thread 0 goes on from one point of the first lookup to the next *)
  Lemma others_goto s p :
    inv s -> forall t, t <> 0%nat ->
      match upd_t (threads s) 0%nat p t with
      | Idle => True
      | AtCheck w _ | AtFind w _ => answered s w
      | AtFallback w dev => answered s w /\ exists m, tables s w = Some m /\ ht_lookup m dev = None
      | _ => False
      end.
  Proof. intros I t Ht. rewrite upd_t_other by exact Ht. apply (i_others _ I t Ht). Qed.

  Lemma step_main to_int s r : inv s ->
    (forall w dev, threads s 0%nat = AtGet w dev -> current s = None -> In (contents to_int (disk s)) D) ->
    thread_step to_int s 0%nat = Some r -> exists s1, r = Next s1 /\ inv s1 /\ disk s1 = disk s.
  Proof.
    intros I Hd H. pose proof (i_first _ I) as F. unfold first_lookup in F. unfold thread_step in H.
    pose proof (i_kinds _ I) as K. pose proof (i_answers _ I) as A.
    pose proof (i_scheduled _ I) as Sc. pose proof (i_will_be_released _ I) as W.
    pose proof (i_one_each _ I) as One. pose proof (i_loads _ I) as Lo. pose proof (i_alive _ I) as Al.
    unfold begun in Lo.
    destruct (threads s 0%nat) as [|w dev|w dev|w dev k|w dev|w dev|w dev k|w dev k|w dev m|w dev|w dev v|w dev v|w dev|w dev] eqn:T;
      cbn [initing loaded scheduling storing] in *.
    - discriminate.
    - (* AtCheck *)
      injection H as <-. eexists. split; [reflexivity|]. split; [|reflexivity].
      destruct (tables s w) as [m|] eqn:Tw.
      + constructor; fields; try solve [apply I]; try exact Logic.I.
        * apply others_goto. exact I.
        * exact K.
        * congruence.
        * exact A.
        * intros k kf E. left. destruct (Al k kf E) as [|(?&?&?)]; [assumption|discriminate].
        * exact Sc.
        * exact W.
        * exact One.
        * exact Lo.
      + assert (Fw : fresh_kind s w).
        { destruct (K w) as [X|(kf & _ & X & _)]; [discriminate|exact X|].
          destruct (settled_some w kf) as [x E]. rewrite <- X in E. cbn in E. congruence. }
        constructor; fields; try solve [apply I]; try exact Logic.I.
        * apply others_goto. exact I.
        * intros w' _. apply K. discriminate.
        * exact Fw.
        * intros t w' d v E. split; [|apply (A t w' d v E)]. intros X. injection X as <-.
          apply (proj2 (proj2 Fw)). exists t, d, v. exact E.
        * intros k kf E. left. destruct (Al k kf E) as [|(?&?&?)]; [assumption|discriminate].
        * exact Sc.
        * exact W.
        * exact One.
        * exact Lo.
    - (* AtGet *)
      destruct (current s) as [k|] eqn:Ck.
      + injection H as <-. eexists. split; [reflexivity|]. split; [|reflexivity].
        constructor; fields; try solve [apply I]; try exact Logic.I.
        * apply others_goto. exact I.
        * exact K.
        * split; [exact F|]. congruence.
        * exact A.
        * intros j kf E. left. destruct (Al j kf E) as [|(?&?&?)]; [congruence|discriminate].
        * rewrite Ck. exact Sc.
        * rewrite Ck. exact W.
        * exact One.
        * destruct (tables s Protocols), (tables s Managers), w; cbn in *; lia.
      + specialize (Hd w dev eq_refl eq_refl). destruct (contents to_int (disk s)) as [kf|] eqn:Cd.
        * injection H as <-. eexists. split; [reflexivity|]. split; [|reflexivity].
          constructor; fields; try solve [apply I]; try exact Logic.I.
          -- apply others_goto. exact I.
          -- exact K.
          -- split; [exact F|]. split; [exact Ck|]. rewrite List.app_length. cbn. split; [lia|].
             exists kf. rewrite nth_snoc, Nat.ltb_irrefl, Nat.eqb_refl. reflexivity.
          -- exact A.
          -- intros j kf' b E. rewrite nth_snoc in E. destruct (Nat.ltb j _); [apply (i_contents _ I j kf' b E)|].
             destruct (Nat.eqb j _); [|discriminate]. injection E as <- <-. exact Hd.
          -- congruence.
          -- intros j kf' E. rewrite nth_snoc in E. destruct (Nat.ltb j _) eqn:L.
             ++ destruct (Al j kf' E) as [|(?&?&?)]; [congruence|discriminate].
             ++ destruct (Nat.eqb_spec j (List.length (keyfiles s))) as [->|]; [|discriminate]. right. eauto.
          -- rewrite Ck. exact Sc.
          -- congruence.
          -- rewrite List.app_length. cbn. lia.
          -- rewrite List.app_length. cbn.
             destruct F as (F1 & _). destruct w; rewrite F1 in *; cbn in *;
             destruct (tables s Protocols), (tables s Managers); cbn in *; lia.
        * injection H as <-. eexists. split; [reflexivity|]. split; [|reflexivity].
          constructor; fields; try solve [apply I]; try exact Logic.I.
          -- apply others_goto. exact I.
          -- exact K.
          -- split; [exact F|]. split; [exact Ck|]. exact Hd.
          -- exact A.
          -- intros j kf' E. destruct (Al j kf' E) as [|(?&?&?)]; [congruence|discriminate].
          -- rewrite Ck. exact Sc.
          -- congruence.
          -- exact One.
          -- destruct (tables s Protocols), (tables s Managers), w; cbn in *; lia.
    - (* AtStore *)
      destruct F as (F & Ck & Hk). injection H as <-. eexists. split; [reflexivity|]. split; [|reflexivity].
      assert (Nos : forall i j, nth_error (callbacks s) i <> Some (j, true)).
      { intros i j E. destruct (Sc i j E) as (X & _). congruence. }
      constructor; fields; try solve [apply I]; try exact Logic.I.
      + apply others_goto. exact I.
      + exact K.
      + split; [exact F|]. intros ->. exact Hk.
      + exact A.
      + intros j ->. destruct Hk as (_ & kf & E). eauto.
      + intros j kf E. left. destruct (Al j kf E) as [|(?&?&X)]; [congruence|]. injection X as _ _ ->. reflexivity.
      + intros i j E. exfalso. apply (Nos i j E).
      + discriminate.
      + destruct k; exact One.
      + exact Lo.
    - (* AtSchedule *)
      destruct F as (F & Hn). destruct (current s) as [k|] eqn:Ck.
      + injection H as <-. eexists. split; [reflexivity|]. split; [|reflexivity].
        constructor; fields; try solve [apply I]; try exact Logic.I.
        * apply others_goto. exact I.
        * exact K.
        * split; [exact F|]. congruence.
        * exact A.
        * intros j kf E. left. destruct (Al j kf E) as [|(?&?&?)]; [congruence|discriminate].
        * intros i j E. rewrite nth_snoc in E. destruct (Nat.ltb i _) eqn:L.
          -- destruct (Sc i j E) as (_ & _ & X). discriminate.
          -- destruct (Nat.eqb_spec i (List.length (callbacks s))) as [->|]; [|discriminate]. injection E as <-.
             split; [exact Ck|]. rewrite List.app_length. cbn. split; [lia|reflexivity].
        * intros j E _. exists (List.length (callbacks s)). rewrite nth_snoc, Nat.ltb_irrefl, Nat.eqb_refl. congruence.
        * rewrite List.app_length. cbn. destruct (callbacks s); cbn; [reflexivity|]. f_equal. lia.
        * rewrite List.app_length. cbn. lia.
        * exact Lo.
      + injection H as <-. eexists. split; [reflexivity|]. split; [|reflexivity].
        constructor; fields; try solve [apply I]; try exact Logic.I.
        * apply others_goto. exact I.
        * exact K.
        * split; [exact F|]. exact (fun _ => Hn eq_refl).
        * exact A.
        * intros j kf E. left. destruct (Al j kf E) as [|(?&?&?)]; [congruence|discriminate].
        * intros i j E. destruct (Sc i j E) as (_ & _ & X). discriminate.
        * congruence.
        * exact One.
        * exact Lo.
    - (* AtReturn *)
      destruct F as (F & Hn). injection H as <-. eexists. split; [reflexivity|]. split; [|reflexivity].
      constructor; fields; try solve [apply I]; try exact Logic.I.
      + apply others_goto. exact I.
      + exact K.
      + split; [exact F|]. split; [reflexivity|exact Hn].
      + exact A.
      + intros j kf E. left. destruct (Al j kf E) as [|(?&?&?)]; [congruence|discriminate].
      + exact Sc.
      + exact W.
      + exact One.
      + exact Lo.
    - (* AtKeys *)
      destruct F as (F & Ck & Hn). destruct k as [k|].
      + destruct (i_current _ I k Ck) as [kf E]. rewrite E in H.
        injection H as <-. eexists. split; [reflexivity|]. split; [|reflexivity].
        constructor; fields; try solve [apply I]; try exact Logic.I.
        * apply others_goto. exact I.
        * exact K.
        * split; [exact F|exact Ck].
        * exact A.
        * intros j kf' X. left. destruct (Al j kf' X) as [|(?&?&?)]; [congruence|discriminate].
        * exact Sc.
        * exact W.
        * exact One.
        * exact Lo.
      + injection H as <-. eexists. split; [reflexivity|]. split; [|reflexivity].
        constructor; fields; try solve [apply I]; try exact Logic.I.
        * apply others_goto. exact I.
        * exact K.
        * split; [exact F|]. exists None. split; [apply Hn; exact Ck|reflexivity].
        * exact A.
        * intros j kf' X. left. destruct (Al j kf' X) as [|(?&?&?)]; [congruence|discriminate].
        * exact Sc.
        * exact W.
        * exact One.
        * exact Lo.
    - (* AtValues *)
      destruct F as (F & Ck). destruct (i_current _ I k Ck) as [kf E]. rewrite E in H.
      injection H as <-. eexists. split; [reflexivity|]. split; [|reflexivity].
      constructor; fields; try solve [apply I]; try exact Logic.I.
      + apply others_goto. exact I.
      + exact K.
      + split; [exact F|]. exists (Some kf). split; [apply (i_contents _ I k kf true E)|reflexivity].
      + exact A.
      + intros j kf' X. left. destruct (Al j kf' X) as [|(?&?&?)]; [congruence|discriminate].
      + exact Sc.
      + exact W.
      + exact One.
      + exact Lo.
    - (* AtMap *)
      destruct F as ((F1 & F2 & F3) & kf & Hkf & ->). injection H as <-. eexists. split; [reflexivity|]. split; [|reflexivity].
      constructor; fields; try solve [apply I]; try exact Logic.I.
      + intros t Ht. pose proof (others_goto s (AtDefault w dev) I t Ht) as O.
        destruct (upd_t (threads s) 0%nat (AtDefault w dev) t); try exact O.
        destruct O as (O1 & O2). split; [exact O1|]. rewrite upd_w_other; [exact O2|]. intros ->. contradiction.
      + intros w' Hw. assert (w' <> w) by congruence. rewrite !upd_w_other by assumption. apply K. exact Hw.
      + rewrite !upd_w_same. split; [lia|]. split; [exact F3|]. exists kf. auto.
      + intros t w' d v E. destruct (A t w' d v E) as (A1 & A2). split; [exact A1|].
        assert (w' <> w) by congruence. rewrite upd_w_other by assumption. exact A2.
      + intros j kf' X. left. destruct (Al j kf' X) as [|(?&?&?)]; [congruence|discriminate].
      + exact Sc.
      + exact W.
      + exact One.
      + destruct w; unfold upd_w; cbn [what_eqb]; rewrite F1 in Lo; cbn in *;
          destruct (tables s Protocols), (tables s Managers); cbn in *; lia.
    - (* AtDefault *)
      destruct F as (F1 & F2 & kf & Hkf & Tw). rewrite Tw in H.
      injection H as <-. eexists. split; [reflexivity|]. split; [|reflexivity].
      destruct (ht_lookup (load_table w kf) "Default") as [v|] eqn:Ld.
      + constructor; fields; try solve [apply I]; try exact Logic.I.
        * apply others_goto. exact I.
        * exact K.
        * split; [exact F1|]. split; [exact F2|]. exists kf. auto.
        * exact A.
        * intros j kf' X. left. destruct (Al j kf' X) as [|(?&?&?)]; [congruence|discriminate].
        * exact Sc.
        * exact W.
        * exact One.
        * exact Lo.
      + constructor; fields; try solve [apply I]; try exact Logic.I.
        * apply others_goto. exact I.
        * exact K.
        * split; [exact F1|]. split; [exact F2|]. exists kf. split; [exact Hkf|].
          unfold settled_choice, first_choice. rewrite Ld, Tw. reflexivity.
        * exact A.
        * intros j kf' X. left. destruct (Al j kf' X) as [|(?&?&?)]; [congruence|discriminate].
        * exact Sc.
        * exact W.
        * exact One.
        * exact Lo.
    - (* AtRemove *)
      destruct F as (F1 & F2 & kf & Hkf & Tw & Ld). rewrite Tw in H.
      injection H as <-. eexists. split; [reflexivity|]. split; [|reflexivity].
      constructor; fields; try solve [apply I]; try exact Logic.I.
      + intros t Ht. pose proof (others_goto s (AtSetDefault w dev v) I t Ht) as O.
        destruct (upd_t (threads s) 0%nat (AtSetDefault w dev v) t); try exact O.
        destruct O as (O1 & O2). split; [exact O1|]. rewrite upd_w_other; [exact O2|]. intros ->. contradiction.
      + intros w' Hw. assert (w' <> w) by congruence. rewrite !upd_w_other by assumption. apply K. exact Hw.
      + rewrite !upd_w_same. split; [exact F1|]. split; [exact F2|]. exists kf. split; [exact Hkf|].
        unfold settled_choice, first_choice. rewrite Ld. reflexivity.
      + intros t w' d v' E. destruct (A t w' d v' E) as (A1 & A2). split; [exact A1|].
        assert (w' <> w) by congruence. rewrite upd_w_other by assumption. exact A2.
      + intros j kf' X. left. destruct (Al j kf' X) as [|(?&?&?)]; [congruence|discriminate].
      + exact Sc.
      + exact W.
      + exact One.
      + destruct w; unfold upd_w; cbn [what_eqb]; rewrite Tw in Lo; cbn in *;
          destruct (tables s Protocols), (tables s Managers); cbn in *; lia.
    - (* AtSetDefault *)
      destruct F as (F1 & F2 & kf & Hkf & Ch). injection H as <-. eexists. split; [reflexivity|]. split; [|reflexivity].
      constructor; fields; try solve [apply I]; try exact Logic.I.
      + apply others_goto. exact I.
      + intros w' _. destruct (what_eqb_spec w' w) as [->|N].
        * right. exists kf. split; [exact Hkf|]. rewrite upd_w_same. auto.
        * rewrite upd_w_other by exact N. apply K. congruence.
      + destruct (settled_some w kf) as [x E]. rewrite <- Ch in E. cbn in E. congruence.
      + intros t w' d v' E. destruct (A t w' d v' E) as (A1 & A2). split; [discriminate|].
        assert (w' <> w) by congruence. rewrite upd_w_other by assumption. exact A2.
      + intros j kf' X. left. destruct (Al j kf' X) as [|(?&?&?)]; [congruence|discriminate].
      + exact Sc.
      + exact W.
      + exact One.
      + exact Lo.
    - (* AtFind *)
      destruct (tables s w) as [m|] eqn:Tw; [|congruence].
      destruct (ht_lookup m dev) as [v|] eqn:Lm; injection H as <-; (eexists; split; [reflexivity|]; split; [|reflexivity]).
      + destruct (K w) as [(X & _)|(kf & Hkf & Hs)]; [discriminate|congruence|].
        constructor; fields; try solve [apply I]; try exact Logic.I.
        * intros t Ht. pose proof (others_goto s Idle I t Ht) as O. destruct (upd_t (threads s) 0%nat Idle t); try exact O.
          -- destruct O as (a & b & c & O). exists a, b, c. right. exact O.
          -- destruct O as (a & b & c & O). exists a, b, c. right. exact O.
          -- destruct O as ((a & b & c & O) & O2). split; [exists a, b, c; right; exact O|exact O2].
        * intros w' Hw. destruct (K w' Hw) as [(X & Y & Z)|X]; [|right; exact X].
          left. split; [exact X|]. split; [exact Y|]. intros (a & b & c & [E|E]); [injection E as <- <- <- <-; congruence|].
          apply Z. exists a, b, c. exact E.
        * intros t w' d v' [E|E].
          -- injection E as <- <- <- <-. split; [discriminate|]. unfold choose. cbn [fst]. rewrite Tw, Lm. reflexivity.
          -- exact (A t w' d v' E).
        * intros j kf' X. left. destruct (Al j kf' X) as [|(?&?&?)]; [congruence|discriminate].
        * exact Sc.
        * exact W.
        * exact One.
        * exact Lo.
      + constructor; fields; try solve [apply I]; try exact Logic.I.
        * apply others_goto. exact I.
        * exact K.
        * exists m. auto.
        * exact A.
        * intros j kf' X. left. destruct (Al j kf' X) as [|(?&?&?)]; [congruence|discriminate].
        * exact Sc.
        * exact W.
        * exact One.
        * exact Lo.
    - (* AtFallback *)
      destruct F as (m & Tw & Lm). injection H as <-. eexists. split; [reflexivity|]. split; [|reflexivity].
      destruct (K w) as [(X & _)|(kf & Hkf & Hs)]; [discriminate|congruence|].
      constructor; fields; try solve [apply I]; try exact Logic.I.
      + intros t Ht. pose proof (others_goto s Idle I t Ht) as O. destruct (upd_t (threads s) 0%nat Idle t); try exact O.
        -- destruct O as (a & b & c & O). exists a, b, c. right. exact O.
        -- destruct O as (a & b & c & O). exists a, b, c. right. exact O.
        -- destruct O as ((a & b & c & O) & O2). split; [exists a, b, c; right; exact O|exact O2].
      + intros w' Hw. destruct (K w' Hw) as [(X & Y & Z)|X]; [|right; exact X].
        left. split; [exact X|]. split; [exact Y|]. intros (a & b & c & [E|E]); [injection E as <- <- <- <-; congruence|].
        apply Z. exists a, b, c. exact E.
      + intros t w' d v' [E|E].
        * injection E as <- <- <- <-. split; [discriminate|]. unfold choose. cbn [fst snd]. rewrite Tw, Lm. reflexivity.
        * exact (A t w' d v' E).
      + intros j kf' X. left. destruct (Al j kf' X) as [|(?&?&?)]; [congruence|discriminate].
      + exact Sc.
      + exact W.
      + exact One.
      + exact Lo.
  Qed.

  (* Another thread goes on *)
  Lemma inv_goto_other s t p : inv s -> t <> 0%nat ->
    match p with
    | Idle => True
    | AtCheck w _ | AtFind w _ => answered s w
    | AtFallback w dev => answered s w /\ exists m, tables s w = Some m /\ ht_lookup m dev = None
    | _ => False
    end -> inv (goto s t p).
  Proof.
    intros I Ht Hp.
    assert (T0 : threads (goto s t p) 0%nat = threads s 0%nat) by (simp; apply upd_t_other; auto).
    constructor; unfold first_lookup, begun; try rewrite T0; simp; try solve [apply I]; try exact Logic.I.
    - intros t' Ht'. destruct (Nat.eq_dec t' t) as [->|N].
      + rewrite upd_t_same. exact Hp.
      + rewrite upd_t_other by exact N. apply (i_others _ I t' Ht').
  Qed.

  Lemma inv_give_other s t w dev : inv s -> t <> 0%nat -> answered s w ->
    inv (give s t w dev (choose (tables s w, default s w) dev)).
  Proof.
    intros I Ht Hw. set (v := choose (tables s w, default s w) dev).
    assert (T0 : threads (give s t w dev v) 0%nat = threads s 0%nat) by (simp; apply upd_t_other; auto).
    assert (An : forall w', answered (give s t w dev v) w' <-> answered s w').
    { intros w'. unfold answered. simp. split.
      - intros (a & b & c & [E|E]); [injection E as _ <- _ _; exact Hw|eauto].
      - intros (a & b & c & E). exists a, b, c. right. exact E. }
    assert (Fr : forall w', fresh_kind (give s t w dev v) w' <-> fresh_kind s w').
    { intros w'. unfold fresh_kind. rewrite An. reflexivity. }
    destruct Hw as (a & b & c & Hw).
    constructor; unfold begun; try rewrite T0; try solve [apply I]; try exact Logic.I.
    - intros t' Ht'. simp. destruct (Nat.eq_dec t' t) as [->|N].
      + rewrite upd_t_same. exact Logic.I.
      + rewrite upd_t_other by exact N. pose proof (i_others _ I t' Ht') as O.
        destruct (threads s t'); rewrite ?An; exact O.
    - intros w' X. rewrite Fr. apply (i_kinds _ I w' X).
    - unfold first_lookup. rewrite T0. pose proof (i_first _ I) as F. unfold first_lookup in F.
      destruct (threads s 0%nat); rewrite ?Fr, ?An; exact F.
    - intros t' w' d v' [E|E].
      + injection E as <- <- <- <-. split; [apply (i_answers _ I _ _ _ _ Hw)|reflexivity].
      + apply (i_answers _ I _ _ _ _ E).
  Qed.

  Lemma step_other to_int s t r : inv s -> t <> 0%nat ->
    thread_step to_int s t = Some r -> exists s1, r = Next s1 /\ inv s1 /\ disk s1 = disk s.
  Proof.
    intros I Ht H. pose proof (i_others _ I t Ht) as O. unfold thread_step in H.
    assert (Set_ : forall w, answered s w -> exists m, tables s w = Some m).
    { intros w (a & b & c & E). destruct (i_answers _ I _ _ _ _ E) as (N & _).
      destruct (i_kinds _ I w N) as [(_ & _ & X)|(kf & _ & X & _)]; [exfalso; apply X; exists a, b, c; exact E|].
      destruct (settled_some w kf) as [m Em]. rewrite <- X in Em. cbn in Em. eauto. }
    destruct (threads s t) as [|w dev|w dev|w dev k|w dev|w dev|w dev k|w dev k|w dev m|w dev|w dev v|w dev v|w dev|w dev] eqn:T;
      try contradiction; try discriminate.
    - destruct (Set_ w O) as [m Em]. rewrite Em in H. injection H as <-.
      eexists. split; [reflexivity|]. split; [|reflexivity]. apply inv_goto_other; assumption.
    - destruct (Set_ w O) as [m Em]. rewrite Em in H. destruct (ht_lookup m dev) as [v|] eqn:Lm.
      + injection H as <-. eexists. split; [reflexivity|]. split; [|reflexivity].
        replace v with (choose (tables s w, default s w) dev); [apply inv_give_other; assumption|].
        unfold choose. cbn [fst]. rewrite Em, Lm. reflexivity.
      + injection H as <-. eexists. split; [reflexivity|]. split; [|reflexivity].
        apply inv_goto_other; [exact I|exact Ht|]. split; [exact O|]. exists m. auto.
    - destruct O as (O & m & Em & Lm). injection H as <-. eexists. split; [reflexivity|]. split; [|reflexivity].
      replace (default s w) with (choose (tables s w, default s w) dev); [apply inv_give_other; assumption|].
      unfold choose. cbn [fst snd]. rewrite Em, Lm. reflexivity.
  Qed.

  Lemma inv_call_main s w dev : inv s -> threads s 0%nat = Idle -> inv (goto s 0%nat (AtCheck w dev)).
  Proof.
    intros I T. pose proof (i_kinds _ I) as K. pose proof (i_answers _ I) as A.
    pose proof (i_scheduled _ I) as Sc. pose proof (i_will_be_released _ I) as W.
    pose proof (i_one_each _ I) as One. pose proof (i_loads _ I) as Lo. pose proof (i_alive _ I) as Al.
    unfold begun in Lo. rewrite T in *.
    constructor; fields; try solve [apply I]; try exact Logic.I.
    - apply others_goto. exact I.
    - exact K.
    - exact A.
    - intros k kf E. left. destruct (Al k kf E) as [|(?&?&?)]; [assumption|discriminate].
    - exact Sc.
    - exact W.
    - exact One.
    - exact Lo.
  Qed.

  Lemma fire_inv to_int s i r : inv s -> step to_int s (Fire i) = Some r ->
    exists s1, r = Next s1 /\ inv s1 /\ disk s1 = disk s.
  Proof.
    intros I H. cbn [step] in H. destruct (threads s 0%nat) eqn:T; try discriminate.
    destruct (nth_error (callbacks s) i) as [[k []]|] eqn:Ci; try discriminate.
    destruct (i_scheduled _ I i k Ci) as (Ck & Li & _). destruct (i_current _ I k Ck) as [kf Ek]. rewrite Ek in H.
    injection H as <-. eexists. split; [reflexivity|]. split; [|reflexivity].
    pose proof (i_kinds _ I) as K. pose proof (i_answers _ I) as A. pose proof (i_others _ I) as O.
    pose proof (i_one_each _ I) as One. pose proof (i_loads _ I) as Lo. pose proof (i_alive _ I) as Al.
    unfold begun in Lo. rewrite T in *.
    constructor; fields; rewrite ?T; simp; try exact Logic.I; try assumption; try discriminate.
    - intros j kf' b E. destruct (Nat.eq_dec j k) as [->|N].
      + rewrite set_nth_same in E by (apply nth_lt in Ek; exact Ek). injection E as <- _. apply (i_contents _ I _ _ _ Ek).
      + rewrite set_nth_other in E by exact N. apply (i_contents _ I _ _ _ E).
    - intros j kf' E. exfalso. destruct (Nat.eq_dec j k) as [->|N].
      + rewrite set_nth_same in E by (apply nth_lt in Ek; exact Ek). discriminate.
      + rewrite set_nth_other in E by exact N. destruct (Al j kf' E) as [X|(?&?&X)]; [congruence|discriminate].
    - intros j k' E. exfalso. destruct (Nat.eq_dec j i) as [->|N].
      + rewrite set_nth_same in E by (apply nth_lt in Ci; exact Ci). discriminate.
      + rewrite set_nth_other in E by exact N. destruct (i_scheduled _ I j k' E) as (_ & X & _). lia.
    - rewrite (i_held _ I). rewrite set_nth_length. destruct (callbacks s) as [|x l]; [reflexivity|]. destruct i; reflexivity.
    - rewrite !set_nth_length. exact One.
    - rewrite set_nth_length. exact Lo.
  Qed.

  Lemma inv_change s d : inv s -> inv (set_disk s d).
  Proof. intros I. constructor; try apply I. Qed.

  Lemma step_inv to_int s o r : inv s ->
    (forall w dev, threads s 0%nat = AtGet w dev -> current s = None -> In (contents to_int (disk s)) D) ->
    match o with Call t w _ => t = 0%nat \/ answered s w | _ => True end ->
    step to_int s o = Some r -> exists s1, r = Next s1 /\ inv s1 /\
      match o with Change d => disk s1 = d | _ => disk s1 = disk s end.
  Proof.
    intros I Hd Hc H. destruct o as [t w dev|t|i|d].
    - cbn [step] in H. destruct (threads s t) eqn:T; try discriminate. injection H as <-.
      eexists. split; [reflexivity|]. split; [|reflexivity].
      destruct (Nat.eq_dec t 0) as [->|N]; [apply inv_call_main; assumption|].
      apply inv_goto_other; [exact I|exact N|]. destruct Hc; [contradiction|assumption].
    - cbn [step] in H. destruct (Nat.eq_dec t 0) as [->|N].
      + apply (step_main to_int s r I Hd H).
      + apply (step_other to_int s t r I N H).
    - apply (fire_inv to_int s i r I H).
    - cbn [step] in H. injection H as <-. eexists. split; [reflexivity|]. split; [apply inv_change; exact I|reflexivity].
  Qed.
End Inv.

Lemma run_inv to_int D l : forall s r, inv D s -> (forall d, In d (versions (disk s) l) -> In (contents to_int d) D) ->
  careful to_int s l -> run to_int s l = Some r -> exists s1, r = Next s1 /\ inv D s1.
Proof.
  induction l as [|o l IH]; intros s r I Hd Hc H; cbn [run careful versions] in *.
  - injection H as <-. eauto.
  - destruct Hc as (Hc & Hr). destruct (step to_int s o) as [x|] eqn:E; [|discriminate].
    assert (Hs : In (contents to_int (disk s)) D).
    { apply Hd. clear. destruct o; try (now left).
      all: revert s; induction l as [|o l IH]; intros s; cbn [versions]; [now left|].
      all: destruct o; try (now left); apply IH. }
    destruct (step_inv D to_int s o x I (fun _ _ _ _ => Hs) Hc E) as (s1 & -> & I1 & Hdk).
    apply (IH s1 r I1); [|exact Hr|exact H].
    intros d X. apply Hd. destruct o; rewrite Hdk in X; try exact X. right. exact X.
Qed.

(* ---- Without releases in between, both tables are made of the same version *)
Lemma inv_mono D D' s : (forall x, In x D -> In x D') -> inv D s -> inv D' s.
Proof.
  intros Hs I. constructor; try apply I.
  - intros w Hw. destruct (i_kinds _ _ I w Hw) as [X|(kf & X & Y)]; [left; exact X|right; eauto].
  - pose proof (i_first _ _ I) as F. unfold first_lookup in *. destruct (threads s 0%nat) as [| | |? ? [?|]| | | | | | | | | |]; try exact F.
    + destruct F as (? & ? & ?). auto.
    + destruct F as (? & ?). auto.
    + destruct F as (? & ?). auto.
    + destruct F as (? & ? & ?). auto.
    + destruct F as (? & kf & ? & ?). eauto 6.
    + destruct F as (? & ? & kf & ? & ?). eauto 8.
    + destruct F as (? & ? & kf & ? & ? & ?). eauto 8.
    + destruct F as (? & ? & kf & ? & ?). eauto 8.
  - intros k kf b E. apply Hs. apply (i_contents _ _ I _ _ _ E).
Qed.

(* The files were loaded once and are still there *)
Definition kept (s : state) : Prop :=
  current s <> None \/ storing (threads s 0%nat) = true.

Lemma step_kept to_int kf s o r : inv [Some kf] s -> kept s -> (forall i, o <> Fire i) ->
  match o with Call t w _ => t = 0%nat \/ answered s w | _ => True end ->
  step to_int s o = Some r -> exists s1, r = Next s1 /\ inv [Some kf] s1 /\ kept s1 /\
    match o with Change d => disk s1 = d | _ => disk s1 = disk s end.
Proof.
  intros I K Nf Hc H.
  destruct (step_inv [Some kf] to_int s o r I) with (3 := H) as (s1 & -> & I1 & Hd); [|exact Hc|].
  { intros w dev X Y. destruct K as [K|K]; [contradiction|]. rewrite X in K. discriminate. }
  exists s1. split; [reflexivity|]. split; [exact I1|]. split; [|exact Hd].
  destruct o as [t w dev|t|i|d]; cbn [step] in H.
  - destruct (threads s t) eqn:T; try discriminate. injection H as <-.
    destruct K as [K|K]; [left; exact K|]. right. cbn [threads goto].
    destruct (Nat.eq_dec t 0) as [->|N]; [rewrite T in K; discriminate|]. rewrite upd_t_other by auto. exact K.
  - unfold thread_step in H. destruct (Nat.eq_dec t 0) as [->|N].
    + pose proof (i_first _ _ I) as F. unfold first_lookup in F. unfold kept in K.
      destruct (threads s 0%nat) as [|w dev|w dev|w dev k|w dev|w dev|w dev k|w dev k|w dev m|w dev|w dev v|w dev v|w dev|w dev] eqn:T;
        cbn [storing] in K;
        try (match goal with H : None = Some _ |- _ => discriminate end);
        try (destruct K as [K|K]; [|discriminate]).
      all: try (left; destruct (tables s w); try discriminate; injection H as <-; exact K).
      * left. destruct (current s) eqn:C; [|contradiction]. injection H as <-. cbn. congruence.
      * left. injection H as <-. cbn. destruct k; [discriminate|]. cbn in K.
        destruct F as (_ & _ & [X|[]]). discriminate.
      * left. destruct (current s) eqn:C; [|contradiction]. injection H as <-. cbn. congruence.
      * left. destruct k as [k|]; [destruct (nth_error (keyfiles s) k) as [[? []]|]|]; try discriminate; injection H as <-; exact K.
      * left. destruct (nth_error (keyfiles s) k) as [[? []]|]; try discriminate; injection H as <-; exact K.
      * left. destruct (tables s w) as [m|]; [|discriminate]. destruct (ht_lookup m dev); injection H as <-; exact K.
    + pose proof (i_others _ _ I t N) as O. unfold kept in *.
      destruct (threads s t) as [|w dev|w dev|w dev k|w dev|w dev|w dev k|w dev k|w dev m|w dev|w dev v|w dev v|w dev|w dev] eqn:T;
        try contradiction; try discriminate.
      * injection H as <-. cbn [threads goto current]. rewrite upd_t_other by auto. exact K.
      * destruct (tables s w) as [m|]; [|discriminate].
        destruct (ht_lookup m dev); injection H as <-; cbn [threads goto give current]; rewrite upd_t_other by auto; exact K.
      * injection H as <-. cbn [threads give current]. rewrite upd_t_other by auto. exact K.
  - exfalso. apply (Nf i eq_refl).
  - injection H as <-. exact K.
Qed.

Lemma run_kept to_int kf l : forall s s1, inv [Some kf] s -> kept s -> no_release l ->
  careful to_int s l -> run to_int s l = Some (Next s1) -> inv [Some kf] s1.
Proof.
  induction l as [|o l IH]; intros s s1 I K Nf Hc H; cbn [run careful] in *.
  - injection H as <-. exact I.
  - destruct Hc as (Hc & Hr). destruct (step to_int s o) as [x|] eqn:E; [|discriminate].
    destruct (step_kept to_int kf s o x I K) with (3 := E) as (s2 & -> & I2 & K2 & _); [|exact Hc|].
    { intros i ->. apply (Nf i). now left. }
    apply (IH s2 s1 I2 K2); [|exact Hr|exact H]. intros i X. apply (Nf i). now right.
Qed.

(* Nothing has been loaded yet *)
Lemma run_one_version to_int l : forall s s1, inv [] s -> no_release l ->
  (forall d, In d (versions (disk s) l) -> contents to_int d <> None) ->
  careful to_int s l -> run to_int s l = Some (Next s1) ->
  inv [] s1 \/ exists d kf, In d (versions (disk s) l) /\ contents to_int d = Some kf /\ inv [Some kf] s1.
Proof.
  induction l as [|o l IH]; intros s s1 I Nf Hd Hc H; cbn [run careful versions] in *.
  - injection H as <-. left. exact I.
  - assert (Hs : In (disk s) (versions (disk s) (o :: l))).
    { clear. cbn [versions]. destruct o; try (now left).
      all: revert s; induction l as [|o l IH]; intros s; cbn [versions]; [now left|].
      all: destruct o; try (now left); apply IH. }
    assert (Nf' : no_release l) by (intros i X; apply (Nf i); now right).
    destruct Hc as (Hc & Hr). destruct (step to_int s o) as [x|] eqn:E; [|discriminate].
    destruct (contents to_int (disk s)) as [kf|] eqn:Cd; [|exfalso; apply (Hd (disk s) Hs Cd)].
    assert (I' : inv [Some kf] s) by (apply (inv_mono []); [intros y []|exact I]).
    destruct (step_inv [Some kf] to_int s o x I') with (3 := E) as (s2 & -> & I2 & Hdk);
      [intros _ _ _ _; rewrite Cd; now left|exact Hc|].
    (* either something was loaded by this step or not *)
    assert (Alt : inv [] s2 \/ kept s2).
    { assert (Ck : current s = None).
      { destruct (current s) as [k|] eqn:C; [|reflexivity]. destruct (i_current _ _ I k C) as [kf' X].
        destruct (i_contents _ _ I _ _ _ X). }
      destruct (storing (threads s 0%nat)) eqn:St.
      { pose proof (i_first _ _ I) as F. unfold first_lookup in F. destruct (threads s 0%nat) as [| | |? ? [k|]| | | | | | | | | |] eqn:T; try discriminate.
        destruct F as (_ & _ & _ & kf' & X). destruct (i_contents _ _ I _ _ _ X). }
      assert (Dec : (exists w dev, threads s 0%nat = AtGet w dev) \/ ~ (exists w dev, threads s 0%nat = AtGet w dev)).
      { destruct (threads s 0%nat) eqn:T; try (right; intros (?&?&X); discriminate). left. eauto. }
      destruct Dec as [(w & dev & T)|Nd].
      - destruct o as [t w' dev'|t|i|d].
        + left. cbn [step] in E. destruct (threads s t) eqn:Tt; try discriminate. injection E as <-.
          destruct (Nat.eq_dec t 0) as [->|N]; [congruence|]. apply inv_goto_other; [exact I|exact N|].
          destruct Hc; [contradiction|assumption].
        + destruct (Nat.eq_dec t 0) as [->|N].
          * right. cbn [step] in E. unfold thread_step in E. rewrite T, Ck, Cd in E. injection E as <-.
            right. cbn [threads goto]. rewrite upd_t_same. reflexivity.
          * left. destruct (step_other [] to_int s t _ I N E) as (s3 & X & I3 & _). injection X as <-. exact I3.
        + exfalso. apply (Nf i). now left.
        + left. cbn [step] in E. injection E as <-. apply inv_change. exact I.
      - left. destruct (step_inv [] to_int s o (Next s2) I) with (3 := E) as (s3 & X & I3 & _);
          [|exact Hc|injection X as <-; exact I3].
        intros w dev X _. exfalso. apply Nd. eauto. }
    assert (Hd' : forall d, In d (versions (disk s2) l) -> In d (versions (disk s) (o :: l))).
    { intros d X. cbn [versions]. destruct o; rewrite Hdk in X; try exact X. now right. }
    destruct Alt as [I3|K2].
    + destruct (IH s2 s1 I3 Nf') as [X|(d & kf' & X & Y & Z)]; [|exact Hr|exact H|left; exact X|].
      * intros d X. apply Hd. apply Hd'. exact X.
      * right. exists d, kf'. split; [apply Hd'; exact X|]. auto.
    + right. exists (disk s), kf. split; [exact Hs|]. split; [exact Cd|].
      apply (run_kept to_int kf l s2 s1 I2 K2 Nf' Hr H).
Qed.

Section Theorems.
  Variable to_int : string -> Z.

  Definition all_contents (d : files) (l : list op) : list (option keyfile) :=
    map (contents to_int) (versions d l).

  Lemma reached d l r : careful to_int (init d) l -> run to_int (init d) l = Some r ->
    exists s, r = Next s /\ inv (all_contents d l) s.
  Proof.
    intros Hc H. apply (run_inv to_int _ l (init d)); [apply inv_init| |exact Hc|exact H].
    intros d' X. apply in_map. exact X.
  Qed.

  Theorem right_answers d l s : careful to_int (init d) l -> run to_int (init d) l = Some (Next s) ->
    exists f : what -> files, forall w, In (f w) (versions d l) /\
      forall t dev v, In (t, w, dev, v) (returned s) -> answer to_int w (f w) dev v.
  Proof.
    intros Hc H. destruct (reached d l _ Hc H) as (s' & E & I). injection E as <-.
    assert (P : forall w, exists x, In x (versions d l) /\
       forall t dev v, In (t, w, dev, v) (returned s) -> answer to_int w x dev v).
    { intros w.
      assert (Dc : answered s w \/ ~ answered s w).
      { unfold answered. clear. induction (returned s) as [|[[[a b] c] e] r IH].
        - right. intros (?&?&?&[]).
        - destruct IH as [(a' & c' & e' & X)|N]; [left; exists a', c', e'; right; exact X|].
          destruct (what_eqb_spec b w) as [->|Nw]; [left; exists a, c, e; left; reflexivity|].
          right. intros (a' & c' & e' & [X|X]); [congruence|]. apply N. eauto. }
      destruct Dc as [(a & b & c & X)|N].
      - destruct (i_answers _ _ I _ _ _ _ X) as (Ni & _).
        destruct (i_kinds _ _ I w Ni) as [(_ & _ & Y)|(kf & Hkf & Hs & _)];
          [exfalso; apply Y; exists a, b, c; exact X|].
        apply in_map_iff in Hkf. destruct Hkf as (x & <- & Hx). exists x. split; [exact Hx|].
        intros t dev v E. destruct (i_answers _ _ I _ _ _ _ E) as (_ & ->). rewrite Hs. apply settled_answer.
      - exists d. split.
        + clear. revert d. induction l as [|o l IH]; intros d; cbn [versions]; [now left|]. destruct o; try apply IH. now left.
        + intros t dev v E. exfalso. apply N. exists t, dev, v. exact E. }
    destruct (P Protocols) as (x & Px), (P Managers) as (y & Py).
    exists (fun w => match w with Protocols => x | Managers => y end). intros []; assumption.
  Qed.

  Theorem no_crash d l : careful to_int (init d) l -> run to_int (init d) l <> Some Crash.
  Proof. intros Hc H. destruct (reached d l _ Hc H) as (s & E & _). discriminate. Qed.

  Theorem released d l s : careful to_int (init d) l -> run to_int (init d) l = Some (Next s) -> quiet s ->
    (forall k, ~ in_memory s k) /\ (List.length (keyfiles s) <= 2)%nat /\
    (forall w, (tables_made s w <= 1)%nat) /\
    (forall i, lost_callback s i <-> (S i < List.length (keyfiles s))%nat).
  Proof.
    intros Hc H (Q1 & Q2). destruct (reached d l _ Hc H) as (s' & E & I). injection E as <-.
    pose proof (Q1 0%nat) as T. split; [|split; [|split]].
    - intros k (kf & X). destruct (i_alive _ _ I k kf X) as [Y|(w & dev & Y)]; [|congruence].
      destruct (i_will_be_released _ _ I k Y) as [i Z]; [rewrite T; reflexivity|]. apply (Q2 i k Z).
    - pose proof (i_loads _ _ I) as L. unfold begun in L. rewrite T in L. cbn in L.
      destruct (tables s Protocols), (tables s Managers); lia.
    - intros w. destruct (i_kinds _ _ I w) as [(_ & -> & _)|(kf & _ & _ & ->)]; [rewrite T; discriminate|lia|lia].
    - intros i. pose proof (i_one_each _ _ I) as One. rewrite T in One. cbn in One. rewrite Nat.add_0_r in One.
      unfold lost_callback. rewrite (i_held _ _ I). split.
      + intros ((k & X) & Y). apply nth_lt in X. destruct (callbacks s) eqn:C; [cbn in X; lia|]. rewrite One.
        assert (i <> (List.length (p :: l0) - 1)%nat) by congruence. cbn in *. lia.
      + intros L. rewrite One in L. split.
        * destruct (nth_error (callbacks s) i) as [[k []]|] eqn:X.
          -- exfalso. apply (Q2 i k X).
          -- eauto.
          -- apply nth_error_None in X. lia.
        * destruct (callbacks s); [discriminate|]. intros X. injection X as X. cbn in *. lia.
  Qed.

  Lemma answers_from kf s : inv [kf] s -> forall t w dev v, In (t, w, dev, v) (returned s) ->
    v = choose (settled_choice w kf) dev.
  Proof.
    intros I t w dev v E. destruct (i_answers _ _ I _ _ _ _ E) as (N & ->).
    destruct (i_kinds _ _ I w N) as [(_ & _ & X)|(kf' & [<-|[]] & Hs & _)].
    - exfalso. apply X. eexists. eexists. eexists. exact E.
    - rewrite Hs. reflexivity.
  Qed.

  Theorem same_version d l s : careful to_int (init d) l -> run to_int (init d) l = Some (Next s) ->
    no_release l -> (forall x, In x (versions d l) -> load_files to_int (fst x) (snd x) <> None) ->
    exists x, In x (versions d l) /\
      forall t w dev v, In (t, w, dev, v) (returned s) -> answer to_int w x dev v.
  Proof.
    intros Hc H Nf Hv.
    destruct (run_one_version to_int l (init d) s) as [I|(x & kf & X & Y & I)]; try assumption.
    - apply inv_init.
    - exists d. split.
      + clear. revert d. induction l as [|o l IH]; intros d; cbn [versions]; [now left|]. destruct o; try apply IH. now left.
      + intros t w dev v E. exfalso. destruct (i_answers _ _ I _ _ _ _ E) as (N & _).
        destruct (i_kinds _ _ I w N) as [(_ & _ & Z)|(kf & [] & _)]. apply Z. exists t, dev, v. exact E.
    - exists x. split; [exact X|]. intros t w dev v E. rewrite (answers_from _ _ I _ _ _ _ E), <- Y. apply settled_answer.
  Qed.
End Theorems.

(* ---- Histories which go wrong *)
Lemma run_next to_int s o s1 l x : step to_int s o = Some (Next s1) -> run to_int s1 l = x ->
  run to_int s (o :: l) = x.
Proof. intros E H. cbn [run]. rewrite E. exact H. Qed.
Lemma run_crash to_int s o l : step to_int s o = Some Crash -> run to_int s (o :: l) = Some Crash.
Proof. intros E. cbn [run]. rewrite E. reflexivity. Qed.
Lemma run_app to_int l : forall s s1 r, run to_int s l = Some (Next s1) ->
  run to_int s (l ++ r)%list = run to_int s1 r.
Proof.
  induction l as [|o l IH]; intros s s1 r H; cbn [run Datatypes.app] in *; [congruence|].
  destruct (step to_int s o) as [[s2|]|]; try discriminate. apply IH. exact H.
Qed.

Ltac eval_step := cbv -[contents load_table ht_lookup ht_remove keyfile table assignment files].

(* A lookup by the main thread which is the first one of its kind *)
Lemma first_lookup_runs to_int s w dev kf :
  threads s 0%nat = Idle -> tables s w = None -> current s = None ->
  contents to_int (disk s) = Some kf ->
  exists n s1, run to_int s (Call 0 w dev :: go 0 n) = Some (Next s1) /\
    disk s1 = disk s /\ threads s1 0%nat = Idle /\
    callbacks s1 = (callbacks s ++ [(List.length (keyfiles s), true)])%list /\
    keyfiles s1 = (keyfiles s ++ [(kf, true)])%list /\
    (forall w', w' <> w -> tables s1 w' = tables s w') /\
    returned s1 = (0%nat, w, dev, choose (settled_choice w (Some kf)) dev) :: returned s.
Proof.
  intros T Tw C Cd.
  destruct s as [dk kfs cur cbs au tb tm df th rt]. cbn [threads tables current disk callbacks keyfiles returned] in *.
  pose proof (eq_refl (settled_choice w (Some kf))) as St. unfold settled_choice at 2, first_choice in St.
  set (R := fun n s' => run to_int s' (go 0 n)).
  assert (Snoc : nth_error (kfs ++ [(kf, true)])%list (List.length kfs) = Some (kf, true)).
  { rewrite nth_snoc, Nat.ltb_irrefl, Nat.eqb_refl. reflexivity. }
  destruct (ht_lookup (load_table w (Some kf)) "Default") as [v|] eqn:Ld;
  [destruct (ht_lookup (ht_remove (load_table w (Some kf)) "Default") dev) as [u|] eqn:Lv
  |destruct (ht_lookup (load_table w (Some kf)) dev) as [u|] eqn:Lv];
  [exists 12%nat|exists 13%nat|exists 11%nat|exists 12%nat];
  (eexists; split;
   [unfold go; cbn [repeat];
    repeat (eapply run_next;
      [cbn [step]; unfold thread_step;
       cbn [disk keyfiles current callbacks autorelease tables tables_made default threads returned
            goto set_keyfiles set_current set_callbacks set_table set_default give];
       rewrite ?upd_t_same, ?T, ?upd_w_same, ?Tw, ?C, ?Cd, ?Snoc, ?Ld, ?Lv; reflexivity|]);
    reflexivity
   |cbn [disk keyfiles current callbacks autorelease tables tables_made default threads returned
            goto set_keyfiles set_current set_callbacks set_table set_default give];
    rewrite ?upd_t_same, ?upd_w_same;
    do 5 (split; [solve [reflexivity | intros; rewrite ?upd_w_other by assumption; reflexivity]|]);
    unfold choose; rewrite St; cbn [fst snd]; rewrite Lv; reflexivity]).
Qed.

Lemma careful_main to_int l : forall s, (forall t w dev, In (Call t w dev) l -> t = 0%nat) -> careful to_int s l.
Proof.
  induction l as [|o l IH]; intros s H; cbn [careful]; [exact Logic.I|]. split.
  - destruct o; try exact Logic.I. left. apply (H t w dev). now left.
  - destruct (step to_int s o) as [[s1|]|]; try exact Logic.I. apply IH. intros t w dev X. apply (H t w dev). now right.
Qed.
Lemma in_go t n o : In o (go t n) -> o = Step t.
Proof. intros H. apply repeat_spec in H. exact H. Qed.
Lemma versions_go d n r : versions d (go 0 n ++ r)%list = versions d r.
Proof. induction n as [|n IH]; [reflexivity|]. exact IH. Qed.

Theorem two_versions to_int d1 d2 dev :
  load_files to_int (fst d1) (snd d1) <> None -> load_files to_int (fst d2) (snd d2) <> None ->
  exists l s v1 v2,
    careful to_int (init d1) l /\ run to_int (init d1) l = Some (Next s) /\
    versions d1 l = [d1; d2] /\
    returned s = [(0%nat, Managers, dev, v2); (0%nat, Protocols, dev, v1)] /\
    answer to_int Protocols d1 dev v1 /\ answer to_int Managers d2 dev v2.
Proof.
  intros N1 N2.
  destruct (contents to_int d1) as [k1|] eqn:C1; [|contradiction].
  destruct (contents to_int d2) as [k2|] eqn:C2; [|contradiction].
  destruct (first_lookup_runs to_int (init d1) Protocols dev k1) as (n1 & s1 & R1 & A1 & A2 & A3 & A4 & A5 & A6);
    try reflexivity; [exact C1|].
  cbn [init callbacks keyfiles returned List.length Datatypes.app] in A3, A4, A6.
  pose (s2 := set_callbacks (set_keyfiles (set_current s1 None) [(k1, false)]) [(0%nat, false)] (autorelease s1)).
  assert (F : step to_int s1 (Fire 0) = Some (Next s2)).
  { cbn [step]. rewrite A2, A3. cbn [nth_error]. rewrite A4. reflexivity. }
  destruct (first_lookup_runs to_int (set_disk s2 d2) Managers dev k2) as (n2 & s3 & R2 & B1 & B2 & B3 & B4 & B5 & B6).
  { exact A2. } { cbn. rewrite A5 by discriminate. reflexivity. } { reflexivity. } { exact C2. }
  exists ((Call 0 Protocols dev :: go 0 n1) ++ [Fire 0; Change d2] ++ (Call 0 Managers dev :: go 0 n2))%list.
  exists s3, (choose (settled_choice Protocols (Some k1)) dev), (choose (settled_choice Managers (Some k2)) dev).
  split; [|split; [|split; [|split; [|split]]]].
  - apply careful_main. intros t w dv H. rewrite !in_app_iff in H. cbn [In] in H.
    destruct H as [[H|H]|[[H|[H|[]]]|[H|H]]]; try (apply in_go in H); congruence.
  - rewrite (run_app to_int _ _ s1 _ R1). cbn [Datatypes.app]. eapply run_next; [exact F|].
    eapply run_next; [reflexivity|]. exact R2.
  - cbn [Datatypes.app versions]. rewrite versions_go. cbn [versions].
    rewrite <- (app_nil_r (go 0 n2)), versions_go. reflexivity.
  - rewrite B6. cbn. rewrite A6. reflexivity.
  - rewrite <- C1. apply settled_answer.
  - rewrite <- C2. apply settled_answer.
Qed.

Theorem freed_in_use to_int d w dev : load_files to_int (fst d) (snd d) <> None ->
  run to_int (init d) ([Call 1 w dev] ++ go 1 5 ++ [Fire 0; Step 1])%list = Some Crash.
Proof.
  intros N. destruct (contents to_int d) as [k|] eqn:C; [|contradiction].
  unfold go. cbn [repeat Datatypes.app].
  do 7 (eapply run_next; [eval_step; rewrite ?C; reflexivity|]).
  apply run_crash. reflexivity.
Qed.

Theorem released_twice to_int d dev : load_files to_int (fst d) (snd d) <> None ->
  let l := [Call 1 Protocols dev; Call 2 Managers dev; Step 1; Step 2; Step 1; Step 2; Step 1; Step 2; Step 1; Step 2;
            Fire 0]%list in
  exists s, run to_int (init d) l = Some (Next s) /\ in_memory s 0 /\
    (forall i k, nth_error (callbacks s) i = Some (k, true) -> k <> 0%nat) /\
    run to_int (init d) (l ++ [Fire 1])%list = Some Crash.
Proof.
  intros N l. destruct (contents to_int d) as [k|] eqn:C; [|contradiction].
  assert (E : exists s, run to_int (init d) l = Some (Next s) /\ keyfiles s = [(k, true); (k, false)] /\
     callbacks s = [(1%nat, false); (1%nat, true)] /\ threads s 0%nat = Idle).
  { unfold l. eexists. split.
    - do 11 (eapply run_next; [eval_step; rewrite ?C; reflexivity|]). reflexivity.
    - repeat split. }
  destruct E as (s & R & K & Cb & T). exists s. split; [exact R|]. split; [|split].
  - exists k. rewrite K. reflexivity.
  - intros i j. rewrite Cb. destruct i as [|[|i]]; cbn; try discriminate; [|destruct i; discriminate].
    intros X. injection X as <-. discriminate.
  - rewrite (run_app to_int _ _ s _ R). apply run_crash. cbn [step]. rewrite T, Cb. cbn [nth_error]. rewrite K. reflexivity.
Qed.

Theorem wrong_default to_int d dev def p :
  let kf := load_files to_int (fst d) (snd d) in
  config_value kf "Protocol" "Default" = Some def -> protocol_known def p -> p <> Aidl ->
  config_value kf "Protocol" dev = None -> dev <> "/dev/binder" -> dev <> "/dev/hwbinder" ->
  exists l s,
    run to_int (init d) l = Some (Next s) /\
    versions d l = [d] /\ In (2%nat, Protocols, dev, VProtocol Aidl) (returned s) /\
    answer to_int Protocols d dev (VProtocol p) /\ ~ answer to_int Protocols d dev (VProtocol Aidl).
Proof.
  intros kf Hd Hp Na Hn N1 N2.
  destruct kf as [k|] eqn:E; [|discriminate]. unfold kf in E.
  assert (C : contents to_int d = Some k) by exact E.
  assert (Lt : ht_lookup (load_table Protocols (Some k)) dev = None).
  { cbn [load_table]. rewrite tmap_lookup. unfold protocol_load_config.
    rewrite !lookup_default, config_load_get by (intros k' X; injection X as <-; exact (load_files_nodup to_int _ _ k E)).
    rewrite Hn. apply String.eqb_neq in N1, N2. rewrite N1, N2. reflexivity. }
  assert (Hans : answer to_int Protocols d dev (VProtocol p)).
  { unfold answer, chosen. rewrite E. right. split; [intros x (v & X & _); congruence|]. right.
    split; [intros x [X|[X|[]]]; congruence|]. left. exists def. auto. }
  exists ([Call 1 Protocols "/dev/x"; Call 2 Protocols dev] ++ go 1 8 ++ go 2 3)%list.
  unfold go. cbn [repeat Datatypes.app]. eexists. split; [|split; [|split; [|split]]].
  - do 10 (eapply run_next; [eval_step; rewrite ?C, ?Lt; reflexivity|]).
    do 3 (eapply run_next; [eval_step; rewrite ?C, ?Lt; reflexivity|]). reflexivity.
  - reflexivity.
  - cbn [returned]. left. reflexivity.
  - exact Hans.
  - unfold answer, chosen. rewrite E. intros [(v & X & _)|(_ & [X|(_ & [(v & X & Y)|(X & _)])])].
    + congruence.
    + destruct X as [X|[X|[]]]; congruence.
    + assert (v = def) by congruence. subst v. apply Na. apply lower_known in Y, Hp. rewrite Hp in Y.
      destruct p; try reflexivity; discriminate.
    + apply (X p). exists def. auto.
Qed.
