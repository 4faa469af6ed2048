(* Putting the writer and the reader of a synchronized queue together *)
From Verif Require Import Base BaseLemmas FmqModel FmqSpec FmqProofs.
Open Scope prog_scope.

Section System.
  Variable q : queue.
  Hypothesis Hq : queue_ok q Sync.
  Let SZ := extent q.
  Notation aligned := (aligned q).

  (* The shared memory, when [log] has been committed and [pend] placed behind it by a
     writer which knows that the reader's counter is at least [r0] *)
  Definition mem_ok (s : shared) (log pend : bytes) (r0 : Z) : Prop :=
    0 <= r0 <= rp s /\ rp s <= blen log /\ wp s = blen log /\ blen (ring s) = SZ /\
    aligned r0 /\ aligned (rp s) /\ aligned (blen log) /\ blen log < 2 ^ 64 /\
    blen log + blen pend <= r0 + SZ /\
    forall i, rp s <= i < blen log + blen pend -> zn (ring s) (i mod SZ) = zn (log ++ pend) i.

  Lemma SZp : 0 < SZ < 2 ^ 32. Proof. apply (SZ_pos q Hq). Qed.

  Lemma ring_index i : 0 <= i mod SZ < SZ.
  Proof. apply Z.mod_pos_bound. pose proof SZp. lia. Qed.

  Lemma wok_step {A} target (P : A -> bytes -> bytes -> Z -> Prop) p s log pend r0 :
    wok q target P p log pend r0 -> mem_ok s log pend r0 -> aligned (blen target) -> blen target < 2 ^ 64 ->
    exists log' pend' r0',
      wok q target P (fst (pstep p s)) log' pend' r0' /\ mem_ok (snd (pstep p s)) log' pend' r0' /\
      rp (snd (pstep p s)) = rp s /\ r0 <= r0' /\
      (log' = log \/ (log ++ pend = target /\ log' = target)).
  Proof.
    intros Hw Hm Hat Htl. pose proof Hm as (M1 & M2 & M3 & M4 & M5 & M6 & M7 & M8 & M9 & M10). pose proof SZp as Hs.
    pose proof (blen_nonneg _ pend) as Hpn. pose proof (blen_nonneg _ log) as Hln.
    destruct p as [a|e|k|k|v p|v p|off k|off b p]; cbn [wok pstep fst snd] in *; try contradiction.
    - exists log, pend, r0. repeat split; auto; lia.
    - exists log, pend, (rp s). split; [apply Hw; [lia|exact M6]|]. split.
      + repeat split; try assumption; lia.
      + repeat split; auto; lia.
    - rewrite M3. exists log, pend, r0. repeat split; auto; lia.
    - destruct Hw as (E1 & -> & Hk). exists target, [], r0. split; [exact Hk|].
      assert (Eb : blen log + blen pend = blen target) by (rewrite <- E1, blen_app; reflexivity).
      split.
      + unfold mem_ok. cbn [rp wp ring]. rewrite blen_nil, app_nil_r, Z.add_0_r.
        split; [exact M1|]. split; [lia|]. split; [reflexivity|]. split; [exact M4|]. split; [exact M5|]. split; [exact M6|].
        split; [exact Hat|]. split; [exact Htl|]. split; [lia|]. intros i Hi. rewrite <- E1. apply M10. lia.
      + cbn [rp]. repeat split; auto; lia.
    - destruct Hw as (-> & Hroom & Hk). fold SZ in Hroom |- *. pose proof (ring_index (blen log + blen pend)) as Hi.
      destruct (Z.leb_spec 0 ((blen log + blen pend) mod SZ)); [|lia].
      destruct (Z.ltb_spec ((blen log + blen pend) mod SZ) (blen (ring s))); [|lia]. cbn [andb fst snd].
      exists log, (pend ++ [b]), r0. split; [exact Hk|]. split.
      + unfold mem_ok. cbn [rp wp ring]. rewrite blen_app, blen_cons, blen_nil.
        split; [exact M1|]. split; [exact M2|]. split; [exact M3|].
        split; [rewrite blen_poke; rewrite ?blen_cons, ?blen_nil; lia|]. split; [exact M5|]. split; [exact M6|].
        split; [exact M7|]. split; [exact M8|]. split; [lia|]. intros i Hi2.
        pose proof (ring_index i). rewrite zn_poke by lia. rewrite app_assoc.
        destruct (Z.eqb_spec (i mod SZ) ((blen log + blen pend) mod SZ)) as [E|E].
        * assert (Ei : i = blen log + blen pend) by (apply (mod_inj_window i _ SZ); lia).
          rewrite Ei, zn_app_r, blen_app by (rewrite blen_app; lia). rewrite Z.sub_diag. reflexivity.
        * assert (i <> blen log + blen pend) by (intros ->; apply E; reflexivity).
          rewrite M10 by lia. rewrite (zn_app_l (log ++ pend)) by (rewrite blen_app; lia). reflexivity.
      + cbn [rp]. repeat split; auto; lia.
  Qed.

  (* A reader's step *)
  Lemma rok_step {A} (P : A -> bytes -> Z -> bytes -> Prop) p s log pend r0 known got :
    rok q P p known (rp s) got -> mem_ok s log pend r0 -> (exists more, log = known ++ more) ->
    exists known' got',
      rok q P (fst (pstep p s)) known' (rp (snd (pstep p s))) got' /\
      mem_ok (snd (pstep p s)) log pend r0 /\ (exists more, log = known' ++ more) /\
      (exists more, known' = known ++ more) /\ rp s <= rp (snd (pstep p s)) /\ wp (snd (pstep p s)) = wp s.
  Proof.
    intros Hw Hm (more & Hk). pose proof Hm as (M1 & M2 & M3 & M4 & M5 & M6 & M7 & M8 & M9 & M10). pose proof SZp as Hs.
    pose proof (blen_nonneg _ pend) as Hpn. pose proof (blen_nonneg _ got) as Hgn.
    assert (Hkl : blen known <= blen log) by (eapply prefix_blen; exact Hk).
    assert (Hnil : exists m, known = known ++ m) by (exists []; rewrite app_nil_r; reflexivity).
    destruct p as [a|e|k|k|v p|v p|off k|off b p]; cbn [rok pstep fst snd] in *; try contradiction.
    - exists known, got. split; [exact Hw|]. split; [exact Hm|]. split; [exists more; exact Hk|]. split; [exact Hnil|]. split; [lia|reflexivity].
    - exists known, got. split; [exact Hw|]. split; [exact Hm|]. split; [exists more; exact Hk|]. split; [exact Hnil|]. split; [lia|reflexivity].
    - exists log, got. split.
      + rewrite M3, Hk. apply Hw. rewrite <- Hk. repeat split; try assumption; fold SZ; lia.
      + split; [exact Hm|]. split; [exists []; rewrite app_nil_r; reflexivity|].
        split; [exists more; exact Hk|]. split; [lia|reflexivity].
    - destruct Hw as (-> & Hle & Ha & Hw). exists known, []. cbn [rp wp]. split; [exact Hw|]. split.
      + unfold mem_ok. cbn [rp wp ring]. repeat split; try assumption; try lia. intros i Hi. apply M10. lia.
      + split; [exists more; exact Hk|]. split; [exact Hnil|]. split; [lia|reflexivity].
    - destruct Hw as (-> & Hle & Hw). fold SZ. pose proof (ring_index (rp s + blen got)) as Hi.
      destruct (Z.leb_spec 0 ((rp s + blen got) mod SZ)); [|lia].
      destruct (Z.ltb_spec ((rp s + blen got) mod SZ) (blen (ring s))); [|lia]. cbn [andb fst snd].
      assert (Ev : zn (ring s) ((rp s + blen got) mod SZ) = zn known (rp s + blen got)).
      { rewrite M10 by lia. rewrite Hk, <- app_assoc, zn_app_l by lia. reflexivity. }
      unfold zn in Ev at 1. rewrite Ev.
      exists known, (got ++ [zn known (rp s + blen got)]). split; [exact Hw|]. split; [exact Hm|].
      split; [exists more; exact Hk|]. split; [exact Hnil|]. split; [lia|reflexivity].
  Qed.

  (* ---------------------------------------------------------------- *)
  Definition writer_inv (ops : list op) (t : thread) (log pend : bytes) (r0 : Z) : Prop :=
    Forall (writer_record_ok q) (done t) /\ Forall (op_ok q) (todo t) /\ Forall writer_op (todo t) /\
    aligned (blen (accepted_by t)) /\
    blen (accepted_by t) + blen (current_data t) + volume (todo t) < 2 ^ 64 /\
    ops = map e_op (done t) ++ match current t with Some (o, _, _, _) => [o] | None => [] end ++ todo t /\
    match current t with
    | None => log = accepted_by t /\ pend = []
    | Some (o, r00, w00, p) =>
      op_ok q o /\ writer_op o /\ w00 = blen (accepted_by t) /\
      (log = accepted_by t \/ log = accepted_by t ++ op_data o) /\
      wok q (accepted_by t ++ op_data o) (wpost q o (accepted_by t) r00) p log pend r0
    end.

  Definition reader_inv (ops : list op) (t : thread) (log : bytes) (r : Z) : Prop :=
    Forall (reader_record_ok q) (done t) /\ Forall (op_ok q) (todo t) /\ Forall reader_op (todo t) /\
    ops = map e_op (done t) ++ match current t with Some (o, _, _, _) => [o] | None => [] end ++ todo t /\
    match current t with
    | None => returned_by t = ztake r log
    | Some (o, r00, w00, p) => exists known0 known got,
      r00 <= r /\ 0 <= r00 <= blen known0 /\ w00 = blen known0 /\ returned_by t = ztake r00 known0 /\
      (exists m, known = known0 ++ m) /\ (exists m, log = known ++ m) /\
      rok q (rpost q o known0 r00) p known r got
    end.

  Definition system_inv (wops rops : list op) (y : system) : Prop :=
    exists log pend r0,
      mem_ok (memory y) log pend r0 /\ writer_inv wops (writer y) log pend r0 /\
      reader_inv rops (reader y) log (rp (memory y)).

  Lemma aligned_data o : op_ok q o -> aligned (blen (op_data o)).
  Proof.
    destruct o; cbn [op_ok op_data]; try (intros; apply Z.divide_0_r); intros [_ ->]; apply Z.divide_factor_r.
  Qed.

  Lemma concat_map_snoc {X} (f : X -> bytes) l x : concat (map f (l ++ [x])) = concat (map f l) ++ f x.
  Proof. rewrite map_app, concat_app. cbn. rewrite app_nil_r. reflexivity. Qed.

  (* the reader doesn't care about more data being committed *)
  Lemma reader_inv_more rops t log more r : reader_inv rops t log r -> 0 <= r <= blen log ->
    reader_inv rops t (log ++ more) r.
  Proof.
    intros (H1 & H2 & H3 & H4 & H5) Hr. split; [exact H1|]. split; [exact H2|]. split; [exact H3|]. split; [exact H4|].
    destruct (current t) as [[[[o r00] w00] p]|].
    - destruct H5 as (k0 & k & g & A0 & A1 & A2 & A3 & A4 & (m & A5) & A6). exists k0, k, g.
      split; [exact A0|]. split; [exact A1|]. split; [exact A2|]. split; [exact A3|]. split; [exact A4|].
      split; [exists (m ++ more); rewrite A5, app_assoc; reflexivity|exact A6].
    - rewrite H5, ztake_app_l by lia. reflexivity.
  Qed.

  Lemma step_writer wops rops y : system_inv wops rops y -> system_inv wops rops (system_step q true y).
  Proof.
    intros (log & pend & r0 & Hm & Hw & Hr). unfold system_step, thread_step.
    pose proof Hm as (M1 & M2 & M3 & M4 & M5 & M6 & M7 & M8 & M9 & M10).
    destruct Hw as (W1 & W2 & W3 & W4 & W5 & W6 & W7).
    destruct (current (writer y)) as [[[[o r00] w00] p]|] eqn:Ec.
    - destruct W7 as (Oo & Ow & Ew & Hlog & Hok).
      set (acc := accepted_by (writer y)) in *.
      assert (Hcd : current_data (writer y) = op_data o) by (unfold current_data; rewrite Ec; reflexivity).
      rewrite Hcd in W5.
      assert (Hv : 0 <= volume (todo (writer y))) by apply blen_nonneg.
      assert (Hat : aligned (blen (acc ++ op_data o))).
      { rewrite blen_app. apply Z.divide_add_r; [exact W4|apply aligned_data; exact Oo]. }
      assert (Htl : blen (acc ++ op_data o) < 2 ^ 64) by (rewrite blen_app; lia).
      destruct (wok_step _ _ _ _ _ _ _ Hok Hm Hat Htl) as (log' & pend' & r0' & S1 & S2 & S3 & S4 & S5).
      assert (Hgen : system_inv wops rops
        {| writer := {| todo := todo (writer y); current := Some (o, r00, w00, fst (pstep p (memory y))); done := done (writer y) |};
           reader := reader y; memory := snd (pstep p (memory y)) |}).
      { exists log', pend', r0'. cbn [memory writer reader]. split; [exact S2|]. split.
        - split; [exact W1|]. split; [exact W2|]. split; [exact W3|]. split; [exact W4|].
          split; [unfold current_data; cbn [current todo]; exact W5|]. split; [exact W6|]. cbn [current].
          split; [exact Oo|]. split; [exact Ow|]. split; [exact Ew|]. split; [|exact S1].
          destruct S5 as [->|[_ ->]]; [exact Hlog|]. right. reflexivity.
        - rewrite S3. destruct S5 as [->|[<- ->]]; [exact Hr|]. apply reader_inv_more; [exact Hr|lia]. }
      destruct p as [a|e|k|k|v p|v p|off k|off b p].
      1:{ cbn [wok] in Hok. destruct Hok as (-> & P2 & P3 & P4).
          exists log, [], r0. cbn [memory writer reader]. split; [exact Hm|]. split; [|exact Hr].
          assert (Eacc : accepted_by {| todo := todo (writer y); current := None; done := done (writer y) ++
             [{| e_op := o; e_answer := a; e_rp0 := r00; e_wp0 := w00; e_rp1 := rp (memory y); e_wp1 := wp (memory y) |}] |} = log).
          { unfold accepted_by. cbn [done]. rewrite concat_map_snoc. rewrite P3. reflexivity. }
          split.
          { apply Forall_app. split; [exact W1|]. apply Forall_cons; [|apply Forall_nil].
            rewrite Ew, M3. apply P4. lia. }
          split; [exact W2|]. split; [exact W3|]. split; [rewrite Eacc; exact M7|].
          split; [rewrite Eacc|].
          { unfold current_data. cbn [current todo]. rewrite blen_nil.
            assert (blen log <= blen acc + blen (op_data o)).
            { rewrite P3, blen_app. unfold accepted. cbn [e_answer e_op].
              pose proof (blen_nonneg _ (op_data o)). destruct a as [[|]| |]; rewrite ?blen_nil; lia. }
            lia. }
          cbn [done current todo]. split; [rewrite map_app, <- app_assoc; exact W6|]. rewrite Eacc. auto. }
      all: try (revert Hgen; destruct (pstep _ _) as [p1 s1]; cbn [fst snd]; intros Hgen; exact Hgen).
    - destruct (todo (writer y)) as [|o r] eqn:Et.
      + exists log, pend, r0. cbn [memory writer reader]. split; [exact Hm|]. split; [|exact Hr].
        destruct (writer y) as [td cu dn]. cbn [todo current done] in *. subst.
        split; [exact W1|]. split; [exact W2|]. split; [exact W3|]. split; [exact W4|]. split; [exact W5|].
        split; [reflexivity|]. exact W7.
      + destruct W7 as (-> & ->). inversion W2; subst. inversion W3; subst.
        exists (accepted_by (writer y)), [], (rp (memory y)). cbn [memory writer reader].
        rewrite blen_nil, Z.add_0_r, app_nil_r in *.
        split.
        { unfold mem_ok. rewrite blen_nil, Z.add_0_r, app_nil_r. repeat split; try assumption; lia. }
        split; [|exact Hr].
        split; [exact W1|]. split; [assumption|]. split; [assumption|]. split; [exact W4|].
        assert (Ev : volume (o :: r) = blen (op_data o) + volume r).
        { unfold volume. cbn [map concat]. apply blen_app. }
        unfold current_data in W5. rewrite Ec, Ev, blen_nil in W5.
        split; [unfold current_data; cbn [current todo]; change (accepted_by _) with (accepted_by (writer y)); lia|].
        split; [cbn [done current todo app]; reflexivity|].
        cbn [current]. split; [assumption|]. split; [assumption|]. split; [exact M3|].
        split; [left; reflexivity|].
        assert (Hv : 0 <= volume r) by apply blen_nonneg.
        change (accepted_by _) with (accepted_by (writer y)).
        apply (wok_op q Hq); try assumption; try reflexivity.
        * repeat split; try assumption; fold SZ; lia.
        * rewrite blen_app. lia.
  Qed.

  Lemma mem_wpre s log pend r0 : mem_ok s log pend r0 -> wpre q log (rp s).
  Proof.
    intros (M1 & M2 & M3 & M4 & M5 & M6 & M7 & M8 & M9 & M10). pose proof (blen_nonneg _ pend).
    repeat split; try assumption; fold SZ; lia.
  Qed.

  Lemma ztake_slice (l : bytes) a n : 0 <= a -> 0 <= n -> ztake a l ++ slice l a n = ztake (a + n) l.
  Proof.
    intros Ha Hn. assert (E : forall m, ztake m l = slice l 0 m) by (intros; unfold slice; rewrite (zdrop_neg _ l 0) by lia; reflexivity).
    rewrite !E, slice_split by lia. reflexivity.
  Qed.

  Lemma step_reader wops rops y : system_inv wops rops y -> system_inv wops rops (system_step q false y).
  Proof.
    intros (log & pend & r0 & Hm & Hw & Hr). unfold system_step, thread_step.
    pose proof Hm as (M1 & M2 & M3 & M4 & M5 & M6 & M7 & M8 & M9 & M10).
    destruct Hr as (R1 & R2 & R3 & R4 & R5).
    destruct (current (reader y)) as [[[[o r00] w00] p]|] eqn:Ec.
    - destruct R5 as (k0 & k & g & A0 & A1 & A2 & A3 & A4 & A5 & A6).
      destruct (rok_step _ _ _ _ _ _ _ _ A6 Hm A5) as (k' & g' & S1 & S2 & S3 & S4 & S5 & S6).
      assert (Hgen : system_inv wops rops
        {| writer := writer y;
           reader := {| todo := todo (reader y); current := Some (o, r00, w00, fst (pstep p (memory y))); done := done (reader y) |};
           memory := snd (pstep p (memory y)) |}).
      { exists log, pend, r0. cbn [memory writer reader]. split; [exact S2|]. split; [exact Hw|].
        split; [exact R1|]. split; [exact R2|]. split; [exact R3|]. split; [exact R4|]. cbn [current].
        exists k0, k', g'. split; [lia|]. split; [exact A1|]. split; [exact A2|]. split; [exact A3|].
        split; [destruct A4 as (m1 & E1), S4 as (m2 & E2); destruct (more_more _ _ _ _ _ E1 E2) as (m3 & E3); exists m3; exact E3|].
        split; [exact S3|exact S1]. }
      destruct p as [a|e|kk|kk|v p|v p|off kk|off b p].
      1:{ cbn [rok] in A6. destruct A6 as (-> & A7 & (P1 & P2 & P3) & P4).
          exists log, pend, r0. cbn [memory writer reader]. split; [exact Hm|]. split; [exact Hw|].
          destruct A5 as (m5 & E5). pose proof (prefix_blen _ _ _ E5).
          split.
          { apply Forall_app. split; [exact R1|]. apply Forall_cons; [|apply Forall_nil].
            rewrite A2. apply P4. lia. }
          split; [exact R2|]. split; [exact R3|]. split; [cbn [done current todo]; rewrite map_app, <- app_assoc; exact R4|].
          cbn [current]. unfold returned_by. cbn [done]. rewrite concat_map_snoc.
          change (concat (map returned (done (reader y)))) with (returned_by (reader y)). rewrite A3.
          set (d := returned _) in *. change (returned _) with d.
          destruct A7 as (m7 & E7).
          pose proof (blen_nonneg _ d).
          rewrite P1, P2. rewrite E5, (ztake_app_l _ k m5) by lia.
          rewrite <- (ztake_slice k r00 (blen d)) by lia. f_equal. rewrite E7, ztake_app_l by lia. reflexivity. }
      all: try (revert Hgen; destruct (pstep _ _) as [p1 s1]; cbn [fst snd]; intros Hgen; exact Hgen).
    - destruct (todo (reader y)) as [|o r] eqn:Et.
      + exists log, pend, r0. cbn [memory writer reader]. split; [exact Hm|]. split; [exact Hw|].
        split; [exact R1|]. rewrite Et. split; [exact R2|]. split; [exact R3|]. rewrite Ec. split; [exact R4|]. exact R5.
      + inversion R2; subst. inversion R3; subst.
        exists log, pend, r0. cbn [memory writer reader]. split; [exact Hm|]. split; [exact Hw|].
        split; [exact R1|]. split; [assumption|]. split; [assumption|]. cbn [current todo done].
        split; [reflexivity|].
        exists log, log, []. split; [lia|]. split; [lia|]. split; [exact M3|]. split; [exact R5|].
        split; [exists []; rewrite app_nil_r; reflexivity|]. split; [exists []; rewrite app_nil_r; reflexivity|].
        apply (rok_op q Hq); try assumption. eapply mem_wpre. exact Hm.
  Qed.

  Lemma system_run wops rops schedule : forall y, system_inv wops rops y -> system_inv wops rops (run_system q schedule y).
  Proof.
    induction schedule as [|[|] r IH]; intros y H; cbn [run_system fold_left]; [exact H| |].
    - apply IH, step_writer, H.
    - apply IH, step_reader, H.
  Qed.

  Lemma system_start wops rops mem : blen mem = extent q -> Forall (op_ok q) wops -> Forall writer_op wops ->
    Forall (op_ok q) rops -> Forall reader_op rops -> volume wops < 2 ^ 64 ->
    system_inv wops rops {| writer := thread_init wops; reader := thread_init rops; memory := fmq_initial mem |}.
  Proof.
    intros Hm H1 H2 H3 H4 Hv. pose proof SZp. exists [], [], 0. cbn [memory writer reader thread_init fmq_initial rp].
    assert (A0 : aligned 0) by apply Z.divide_0_r.
    split; [|split].
    - unfold mem_ok, fmq_initial. cbn [rp wp ring]. rewrite !blen_nil. repeat split; try assumption; try lia.
    - split; [constructor|]. split; [exact H1|]. split; [exact H2|]. split; [exact A0|].
      split; [unfold accepted_by, current_data; cbn; exact Hv|]. split; [reflexivity|]. split; reflexivity.
    - split; [constructor|]. split; [exact H3|]. split; [exact H4|]. split; reflexivity.
  Qed.

  Theorem two_threads wops rops mem schedule :
    blen mem = extent q -> Forall (op_ok q) wops -> Forall writer_op wops ->
    Forall (op_ok q) rops -> Forall reader_op rops -> volume wops < 2 ^ 64 ->
    let y := run_system q schedule
      {| writer := thread_init wops; reader := thread_init rops; memory := fmq_initial mem |} in
    ~ faulty (writer y) /\ ~ faulty (reader y) /\
    Forall (writer_record_ok q) (done (writer y)) /\ Forall (reader_record_ok q) (done (reader y)) /\
    (exists rest, wops = map e_op (done (writer y)) ++ rest) /\
    (exists rest, rops = map e_op (done (reader y)) ++ rest) /\
    exists log, (log = accepted_by (writer y) \/ log = accepted_by (writer y) ++ current_data (writer y)) /\
      wp (memory y) = blen log /\ 0 <= rp (memory y) <= wp (memory y) /\ wp (memory y) - rp (memory y) <= extent q /\
      (exists rest, log = returned_by (reader y) ++ rest) /\
      (current (reader y) = None -> rp (memory y) = blen (returned_by (reader y))) /\
      unread_intact q (memory y) log.
  Proof.
    intros Hm H1 H2 H3 H4 Hv y.
    destruct (system_run wops rops schedule _ (system_start _ _ _ Hm H1 H2 H3 H4 Hv)) as (log & pend & r0 & M & W & R).
    fold y in M, W, R. destruct W as (W1 & W2 & W3 & W4 & W5 & W6 & W7). destruct R as (R1 & R2 & R3 & R4 & R5).
    pose proof M as (M1 & M2 & M3 & M4 & M5 & M6 & M7 & M8 & M9 & M10). pose proof (blen_nonneg _ pend).
    split. { intros (o & a & b & f & E). rewrite E in W7. destruct W7 as (_ & _ & _ & _ & W7). exact W7. }
    split. { intros (o & a & b & f & E). rewrite E in R5. destruct R5 as (k0 & k & g & _ & _ & _ & _ & _ & _ & R5). exact R5. }
    split; [exact W1|]. split; [exact R1|]. split; [eexists; exact W6|]. split; [eexists; exact R4|].
    exists log. split.
    { unfold current_data. destruct (current (writer y)) as [[[[o a] b] p]|]; [apply W7|]. left. apply W7. }
    split; [exact M3|]. split; [lia|]. split; [unfold SZ in M9; lia|].
    split.
    { destruct (current (reader y)) as [[[[o r00] b] p]|].
      - destruct R5 as (k0 & k & g & A0 & A1 & A2 & A3 & (m4 & A4) & (m5 & A5) & A6). rewrite A3.
        exists (zdrop r00 k0 ++ m4 ++ m5). rewrite A5, A4. rewrite app_assoc, ztake_zdrop, app_assoc. reflexivity.
      - rewrite R5. exists (zdrop (rp (memory y)) log). symmetry. apply ztake_zdrop. }
    split.
    { intros E. rewrite E in R5. rewrite R5, blen_ztake. lia. }
    intros i Hi. fold SZ. change (nth (Z.to_nat (i mod SZ)) (ring (memory y)) 0) with (zn (ring (memory y)) (i mod SZ)).
    rewrite M10 by lia. rewrite zn_app_l by lia. reflexivity.
  Qed.

  (* ---------------------------------------------------------------- *)
  (* A single thread *)
  Lemma prun_step {A} (p : prog A) s : (forall a, p <> Ret a) -> (forall f, p <> Bad f) ->
    prun p s = prun (fst (pstep p s)) (snd (pstep p s)).
  Proof.
    intros H1 H2. destruct p; cbn [prun pstep fst snd]; try reflexivity; try (exfalso; eapply H1; reflexivity);
      try (exfalso; eapply H2; reflexivity); destruct (_ && _); reflexivity.
  Qed.

  Lemma wok_run {A} target (P : A -> bytes -> bytes -> Z -> Prop) (p : prog A) : forall s log pend r0,
    wok q target P p log pend r0 -> mem_ok s log pend r0 -> aligned (blen target) -> blen target < 2 ^ 64 ->
    exists a s' log' pend' r0', prun p s = Ok (a, s') /\ P a log' pend' r0' /\ mem_ok s' log' pend' r0' /\ rp s' = rp s.
  Proof.
    induction p as [a|e|k IH|k IH|v p IH|v p IH|off k IH|off b p IH]; intros s log pend r0 Hw Hm Ha Ht;
      try (cbn [wok] in Hw; contradiction).
    - cbn [wok prun] in *. exists a, s, log, pend, r0. auto.
    - destruct (wok_step _ _ _ _ _ _ _ Hw Hm Ha Ht) as (l1 & p1 & r1 & S1 & S2 & S3 & S4 & S5). cbn [pstep fst snd prun] in *.
      destruct (IH _ _ _ _ _ S1 S2 Ha Ht) as (a & s' & l2 & p2 & r2 & E1 & E2 & E3 & E4). exists a, s', l2, p2, r2. repeat split; assumption || congruence || apply E3.
    - destruct (wok_step _ _ _ _ _ _ _ Hw Hm Ha Ht) as (l1 & p1 & r1 & S1 & S2 & S3 & S4 & S5). cbn [pstep fst snd prun] in *.
      destruct (IH _ _ _ _ _ S1 S2 Ha Ht) as (a & s' & l2 & p2 & r2 & E1 & E2 & E3 & E4). exists a, s', l2, p2, r2. repeat split; assumption || congruence || apply E3.
    - destruct (wok_step _ _ _ _ _ _ _ Hw Hm Ha Ht) as (l1 & p1 & r1 & S1 & S2 & S3 & S4 & S5). cbn [pstep fst snd prun] in *.
      destruct (IH _ _ _ _ S1 S2 Ha Ht) as (a & s' & l2 & p2 & r2 & E1 & E2 & E3 & E4). exists a, s', l2, p2, r2.
      split; [exact E1|]. split; [exact E2|]. split; [exact E3|]. rewrite E4. exact S3.
    - destruct (wok_step _ _ _ _ _ _ _ Hw Hm Ha Ht) as (l1 & p1 & r1 & S1 & S2 & S3 & S4 & S5). cbn [pstep fst snd prun] in *.
      destruct (_ && _); cbn [fst snd] in *; [|contradiction].
      destruct (IH _ _ _ _ S1 S2 Ha Ht) as (a & s' & l2 & p2 & r2 & E1 & E2 & E3 & E4). exists a, s', l2, p2, r2.
      split; [exact E1|]. split; [exact E2|]. split; [exact E3|]. rewrite E4. exact S3.
  Qed.

  Lemma rok_run {A} (P : A -> bytes -> Z -> bytes -> Prop) (p : prog A) : forall s log r0 known got,
    rok q P p known (rp s) got -> mem_ok s log [] r0 -> (exists more, log = known ++ more) ->
    exists a s' known' got', prun p s = Ok (a, s') /\ P a known' (rp s') got' /\ mem_ok s' log [] r0 /\
      (exists more, log = known' ++ more).
  Proof.
    induction p as [a|e|k IH|k IH|v p IH|v p IH|off k IH|off b p IH]; intros s log r0 known got Hw Hm Hk;
      try (cbn [rok] in Hw; contradiction).
    - cbn [rok prun] in *. exists a, s, known, got. auto.
    - destruct (rok_step _ _ _ _ _ _ _ _ Hw Hm Hk) as (k1 & g1 & S1 & S2 & S3 & S4 & S5 & S6). cbn [pstep fst snd prun] in *.
      apply (IH _ _ _ _ _ _ S1 S2 S3).
    - destruct (rok_step _ _ _ _ _ _ _ _ Hw Hm Hk) as (k1 & g1 & S1 & S2 & S3 & S4 & S5 & S6). cbn [pstep fst snd prun] in *.
      apply (IH _ _ _ _ _ _ S1 S2 S3).
    - destruct (rok_step _ _ _ _ _ _ _ _ Hw Hm Hk) as (k1 & g1 & S1 & S2 & S3 & S4 & S5 & S6). cbn [pstep fst snd prun] in *.
      apply (IH _ _ _ _ _ S1 S2 S3).
    - destruct (rok_step _ _ _ _ _ _ _ _ Hw Hm Hk) as (k1 & g1 & S1 & S2 & S3 & S4 & S5 & S6). cbn [pstep fst snd prun] in *.
      destruct (_ && _); cbn [fst snd] in *; [|contradiction].
      apply (IH _ _ _ _ _ _ S1 S2 S3).
  Qed.

  Lemma mem_forget s log r0 : mem_ok s log [] r0 -> mem_ok s log [] (rp s).
  Proof.
    intros (M1 & M2 & M3 & M4 & M5 & M6 & M7 & M8 & M9 & M10). rewrite blen_nil in M9.
    unfold mem_ok. rewrite blen_nil. repeat split; try assumption; try lia.
  Qed.

  Lemma one_op o s log : op_ok q o -> mem_ok s log [] (rp s) -> blen log + blen (op_data o) < 2 ^ 64 ->
    exists a s' log', prun (run_op q o) s = Ok (a, s') /\ mem_ok s' log' [] (rp s') /\
      blen log' <= blen log + blen (op_data o) /\
      fifo_step q (rp s) (zdrop (rp s) log) o a (rp s') (zdrop (rp s') log').
  Proof.
    intros Ho Hm Hv. pose proof Hm as (M1 & M2 & M3 & M4 & M5 & M6 & M7 & M8 & M9 & M10). pose proof SZp as Hs.
    pose proof (Q_pos q Hq) as HQ.
    assert (Bl : blen (zdrop (rp s) log) = blen log - rp s) by (rewrite blen_zdrop; lia).
    assert (Epos : rp s + (blen log - rp s) = blen log) by lia.
    assert (Hd : writer_op o \/ reader_op o /\ ~ writer_op o) by (destruct o; cbn; auto). destruct Hd as [Hw|[Hr Hnw]].
    - assert (Ht : blen (log ++ op_data o) < 2 ^ 64) by (rewrite blen_app; exact Hv).
      pose proof (wok_op q Hq _ o log (rp s) (mem_wpre _ _ _ _ Hm) eq_refl Ht Ho Hw) as Hok.
      assert (Ha : aligned (blen (log ++ op_data o))).
      { rewrite blen_app. apply Z.divide_add_r; [exact M7|apply aligned_data; exact Ho]. }
      destruct (wok_run _ _ _ _ _ _ _ Hok Hm Ha Ht) as (a & s' & log' & pend' & r' & E1 & (-> & P2 & P3 & P4) & E3 & E4).
      pose proof E3 as (N1 & N2 & _). assert (Er : r' = rp s) by lia. subst r'. rewrite E4 in *.
      exists a, s', log'. split; [exact E1|]. rewrite E4. split; [exact E3|].
      split.
      { rewrite P3, blen_app. unfold accepted. cbn [e_answer e_op].
        pose proof (blen_nonneg _ (op_data o)). destruct a as [[|]| |]; rewrite ?blen_nil; lia. }
      specialize (P4 (rp s) ltac:(lia)).
      assert (Ez : zdrop (rp s) log' = zdrop (rp s) log ++
         accepted {| e_op := o; e_answer := a; e_rp0 := rp s; e_wp0 := blen log; e_rp1 := rp s; e_wp1 := blen log' |}).
      { rewrite P3 at 1. rewrite zdrop_app_l by lia. reflexivity. }
      unfold fifo_step. cbv zeta. rewrite Bl, Epos.
      destruct o as [items data|items data|items|items| | | |]; cbn [writer_op op_ok op_data] in *; try contradiction;
        destruct a as [ok|d|n]; cbn [writer_record_ok e_op e_answer e_rp0 e_wp0 e_rp1 e_wp1] in P4; try contradiction;
        try (destruct ok; contradiction).
      + destruct Ho as [Hi Hdl]. destruct ok; unfold writer_record_ok in P4; cbn [e_op e_answer e_rp0 e_wp0 e_rp1 e_wp1] in P4.
        * split; [|split; [reflexivity|exact Ez]]. destruct (Z.ltb_spec 0 items); [|lia].
          destruct (Z.leb_spec (blen data) (extent q - (blen log - rp s))); [reflexivity|]. lia.
        * split; [|split; [reflexivity|rewrite Ez; apply app_nil_r]]. destruct P4 as [_ [->|Hlt]]; [reflexivity|].
          destruct (Z.leb_spec (blen data) (extent q - (blen log - rp s))); [lia|]. rewrite andb_false_r. reflexivity.
      + destruct Ho as [Hi Hdl]. destruct ok; unfold writer_record_ok in P4; cbn [e_op e_answer e_rp0 e_wp0 e_rp1 e_wp1] in P4.
        * split; [|split; [reflexivity|exact Ez]]. destruct (Z.ltb_spec 0 items); [|lia].
          destruct (Z.leb_spec (blen data) (Z.min (extent q - (blen log - rp s)) (extent q - blen log mod extent q))); [reflexivity|]. lia.
        * split; [|split; [reflexivity|rewrite Ez; apply app_nil_r]]. destruct P4 as [_ [->|Hlt]]; [reflexivity|].
          destruct (Z.leb_spec (blen data) (Z.min (extent q - (blen log - rp s)) (extent q - blen log mod extent q))); [lia|].
          rewrite andb_false_r. reflexivity.
      + cbn in P4. split; [lia|]. split; [reflexivity|]. rewrite Ez; apply app_nil_r.
      + cbn in P4. split; [lia|]. split; [reflexivity|]. rewrite Ez; apply app_nil_r.
      + cbn in P4. destruct P4 as (_ & r & Hr & P4). assert (r = rp s) by lia. subst r.
        split; [lia|]. split; [reflexivity|]. rewrite Ez; apply app_nil_r.
      + cbn in P4. split; [lia|]. split; [reflexivity|]. rewrite Ez; apply app_nil_r.
    - pose proof (rok_op q Hq o log (rp s) (mem_wpre _ _ _ _ Hm) Ho Hr) as Hok.
      destruct (rok_run _ _ _ _ _ _ _ Hok Hm) as (a & s' & known' & got' & E1 & (-> & (m1 & P2) & (P3 & P5 & P6) & P4) & E3 & (m2 & E4)).
      { exists []; rewrite app_nil_r; reflexivity. }
      assert (Ek : known' = log).
      { pose proof (prefix_blen _ _ _ P2). pose proof (prefix_blen _ _ _ E4). rewrite E4, blen_app in H.
        assert (m2 = []) by (apply blen_zero; pose proof (blen_nonneg _ m2); lia). subst m2. rewrite app_nil_r in E4. congruence. }
      rewrite Ek in *. clear Ek. specialize (P4 (blen log) ltac:(lia)).
      exists a, s', log. split; [exact E1|]. split; [eapply mem_forget; exact E3|].
      split; [pose proof (blen_nonneg _ (op_data o)); lia|].
      set (d0 := returned _) in *.
      assert (Ez : zdrop (rp s) log = d0 ++ zdrop (rp s') log).
      { rewrite P3. unfold slice. rewrite <- (ztake_zdrop _ (zdrop (rp s) log) (blen d0)) at 1. f_equal.
        rewrite zdrop_zdrop by (try apply blen_nonneg; lia). f_equal. lia. }
      unfold fifo_step. cbv zeta. rewrite Bl, Epos.
      destruct o as [items data|items data|items|items| | | |]; cbn [reader_op writer_op op_ok op_data] in *; try contradiction;
        try (exfalso; apply Hnw; exact I);
        destruct a as [ok|d|n]; try (cbn in P4; contradiction); try (destruct d; cbn in P4; contradiction);
        unfold d0 in *; cbn [returned e_answer] in *; unfold reader_record_ok in P4; cbn [e_op e_answer e_rp0 e_wp0 e_rp1 e_wp1] in P4.
      + destruct d as [d|].
        * split; [lia|]. split; [lia|]. split; [lia|exact Ez].
        * destruct P4 as (P4 & P7). split; [exact P7|]. split; [exact P4|]. rewrite P4. reflexivity.
      + destruct d as [d|].
        * split; [lia|]. split; [lia|]. split; [lia|exact Ez].
        * destruct P4 as (P4 & P7). split; [lia|]. split; [exact P4|]. rewrite P4. reflexivity.
  Qed.

  Lemma ops_fifo ops : forall s log, Forall (op_ok q) ops -> mem_ok s log [] (rp s) -> blen log + volume ops < 2 ^ 64 ->
    exists h s' l', run_ops q ops s = Ok (h, s') /\ map fst h = ops /\
      fifo_history q (rp s) (zdrop (rp s) log) h l'.
  Proof.
    induction ops as [|o r IH]; intros s log Ho Hm Hv; cbn [run_ops].
    - exists [], s, (zdrop (rp s) log). split; [reflexivity|]. split; [reflexivity|]. constructor.
    - inversion Ho; subst.
      assert (Ev : volume (o :: r) = blen (op_data o) + volume r).
      { unfold volume. cbn [map concat]. apply blen_app. }
      assert (0 <= volume r) by apply blen_nonneg.
      destruct (one_op o s log H1 Hm ltac:(lia)) as (a & s1 & log1 & E1 & Hm1 & Hl1 & Hf). rewrite E1. cbn [bind].
      destruct (IH s1 log1 H2 Hm1 ltac:(lia)) as (h & s2 & l2 & E2 & E3 & Hh). rewrite E2. cbn [bind].
      exists ((o, a) :: h), s2, l2. split; [reflexivity|]. split; [cbn [map fst]; rewrite E3; reflexivity|].
      eapply fh_cons; eassumption.
  Qed.

  Theorem one_thread ops mem : blen mem = extent q -> Forall (op_ok q) ops -> volume ops < 2 ^ 64 ->
    exists h s' l', run_ops q ops (fmq_initial mem) = Ok (h, s') /\ map fst h = ops /\
      fifo_history q 0 [] h l'.
  Proof.
    intros Hm Ho Hv. pose proof SZp. apply (ops_fifo ops (fmq_initial mem) []); [exact Ho| |exact Hv].
    assert (A0 : aligned 0) by apply Z.divide_0_r.
    unfold mem_ok, fmq_initial. cbn [rp wp ring]. rewrite !blen_nil. repeat split; try assumption; try lia.
  Qed.
End System.
