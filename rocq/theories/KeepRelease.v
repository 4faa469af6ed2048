(* An object which nobody uses goes away *)
From Verif Require Import Base LocalModel LocalSpec LocalProofs.
From Coq Require Import Lia.

Local Arguments Z.mul : simpl never.
Local Arguments Z.add : simpl never.
Local Arguments Z.sub : simpl never.
Local Arguments Z.of_nat : simpl never.
Definition tweight (t : thread) : Z := 15 * Z.of_nat (length (t_queue t)) + 14 * Z.of_nat (length (t_later t)).
Definition pweight (p : phase) : Z := match p with Idle => 0 | Begun => 5 | Left_ | Removed => 4 | Final => 3 end.
Definition oweight (x : option object) : Z :=
  match x with None => 0 | Some o => 6 * by_lib o + pweight (state_of o) + 1 end.
Definition weight (s : state) : Z :=
  40 * b2z (k_strong s) + sumz tweight (threads s) + 7 * Z.of_nat (length (tasks s)) + oweight (obj s).

Lemma tweight_nonneg t : 0 <= tweight t.
Proof. unfold tweight. lia. Qed.
Lemma weight_nonneg s : inv s -> 0 <= weight s.
Proof.
  intros V. unfold weight. pose proof (sumz_nonneg tweight (threads s) tweight_nonneg).
  pose proof (i_obj _ V) as O. unfold oweight, b2z. destruct (obj s) as [o|].
  - pose proof (o_lib _ _ O). unfold pweight. destruct (k_strong s), (state_of o); lia.
  - destruct (k_strong s); lia.
Qed.

(* What goes on without the application, the driver and other processes *)
Definition internal (m : move) : bool :=
  match m with MUnref false | MDispose | MUnrefEnd | MFinalize | MHandle _ | MDrain _ | MMain => true | _ => false end.

Lemma threads_cases l :
  (forall t, In t l -> t_queue t = [] /\ t_later t = []) \/
  (exists i t c q, nth_error l i = Some t /\ t_queue t = c :: q) \/
  (exists i x r, nth_error l i = Some (Thread [] (x :: r))).
Proof.
  induction l as [|[q la] l IH]; [left; intros t []|].
  destruct q as [|c q]; [|right; left; exists O, (Thread (c :: q) la), c, q; split; reflexivity].
  destruct la as [|x r]; [|right; right; exists O, x, r; reflexivity].
  destruct IH as [IH|[(i & t & c & q & A & B)|(i & x & r & A)]].
  - left. intros t [<-|I]; [split; reflexivity|apply IH, I].
  - right. left. exists (S i), t, c, q. split; assumption.
  - right. right. exists (S i), x, r. exact A.
Qed.

Lemma progress s o :
  inv s -> obj s = Some o -> by_app o = 0 ->
  quiet s \/
  exists m s1, internal m = true /\ careful s m = true /\ step s m = Ok s1 /\ weight s1 < weight s /\
               match obj s1 with Some o1 => by_app o1 = 0 | None => True end.
Proof.
  intros V OB A. pose proof (i_obj _ V) as O. rewrite OB in O. destruct O as [OA OL OS OW OT].
  assert (P : forall m s1, internal m = true -> careful s m = true -> step s m = Ok s1 -> weight s1 < weight s ->
              match obj s1 with Some o1 => by_app o1 = 0 | None => True end ->
              quiet s \/ exists m s1, internal m = true /\ careful s m = true /\ step s m = Ok s1 /\ weight s1 < weight s /\
              match obj s1 with Some o1 => by_app o1 = 0 | None => True end).
  { intros m s1 P1 P2 P3 P4 P5. right. exists m, s1. auto. }
  destruct (state_of o) eqn:ST.
  - destruct OT as ((IT & _) & RT & R1).
    assert (GL : forall x, obj x = Some o -> get_local x = Known o) by (intros x X; unfold get_local; rewrite X, IT, ST; reflexivity).
    destruct (Z_lt_dec 0 (by_lib o)) as [LB|LB].
    { assert (C : careful s (MUnref false) = true) by (cbn; rewrite OB, ST; reflexivity).
      destruct (Z.ltb_spec 1 (refs o)) as [RR|RR].
      - eapply (P (MUnref false)); [reflexivity|exact C| | |];
          [cbn [step]; unfold unref; rewrite OB; destruct (Z.leb_spec (by_lib o) 0); [lia|]; cbn zeta;
           destruct (Z.ltb_spec 1 (refs o)); [reflexivity|lia] | |].
        + unfold weight. cbn. rewrite OB. cbn. rewrite ST. cbn. lia.
        + cbn. lia.
      - eapply (P (MUnref false)); [reflexivity|exact C| | |];
          [cbn [step]; unfold unref; rewrite OB; destruct (Z.leb_spec (by_lib o) 0); [lia|]; cbn zeta;
           destruct (Z.ltb_spec 1 (refs o)); [lia|reflexivity] | |].
        + unfold weight. cbn. rewrite OB. cbn. rewrite ST. cbn. lia.
        + cbn. lia. }
    assert (LZ : by_lib o = 0) by lia.
    destruct (tasks s) as [|t r] eqn:TS.
    + destruct (threads_cases (threads s)) as [Q|[(i & t & c & q & TI & TQ)|(i & x & r & TI)]].
      * left. split; [exact Q|]. split; [exact TS|]. intros o1 E. rewrite OB in E. injection E as <-. auto.
      * assert (C : careful s (MHandle i) = true) by (cbn; rewrite ?OB; reflexivity).
        pose proof (sumz_replace tweight (threads s) i t (Thread q (t_later t)) TI) as W1.
        assert (W2 : forall l, sumz tweight (replace_nth (threads s) i (Thread q (t_later t ++ [l]))) =
                     sumz tweight (threads s) - tweight t + tweight (Thread q (t_later t ++ [l]))) by (intros l; apply sumz_replace, TI).
        assert (TT : tweight t = 15 * (1 + Z.of_nat (length q)) + 14 * Z.of_nat (length (t_later t)))
          by (unfold tweight; rewrite TQ; cbn [length]; lia).
        rewrite TT in W1, W2. change (tweight (Thread q (t_later t))) with (15 * Z.of_nat (length q) + 14 * Z.of_nat (length (t_later t))) in W1.
        assert (W3 : forall l, tweight (Thread q (t_later t ++ [l])) = 15 * Z.of_nat (length q) + 14 * (Z.of_nat (length (t_later t)) + 1))
          by (intros l; unfold tweight; cbn [t_queue t_later]; rewrite List.app_length; cbn [length]; lia).
        destruct c.
        -- eapply (P (MHandle i)); [reflexivity|exact C| | |];
             [cbn [step]; unfold handle; rewrite TI, TQ; cbn zeta; rewrite GL by (cbn; exact OB); reflexivity| |].
           ++ unfold weight. cbn. rewrite OB, TS. cbn. rewrite LZ, ST. cbn. rewrite W1. lia.
           ++ cbn. exact A.
        -- eapply (P (MHandle i)); [reflexivity|exact C| | |];
             [cbn [step]; unfold handle; rewrite TI, TQ; cbn zeta; rewrite GL by (cbn; exact OB); reflexivity| |].
           ++ unfold weight. cbn. rewrite OB, TS. cbn. rewrite LZ, ST. cbn. rewrite W1. lia.
           ++ cbn. exact A.
        -- eapply (P (MHandle i)); [reflexivity|exact C| | |];
             [cbn [step]; unfold handle; rewrite TI, TQ; cbn zeta; rewrite GL by (cbn; exact OB); reflexivity| |].
           ++ unfold weight. cbn. rewrite OB, TS. cbn. rewrite LZ, ST. cbn. rewrite W2, W3. lia.
           ++ cbn. exact A.
        -- eapply (P (MHandle i)); [reflexivity|exact C| | |];
             [cbn [step]; unfold handle; rewrite TI, TQ; cbn zeta; rewrite GL by (cbn; exact OB); reflexivity| |].
           ++ unfold weight. cbn. rewrite OB, TS. cbn. rewrite LZ, ST. cbn. rewrite W2, W3. lia.
           ++ cbn. exact A.
      * assert (C : careful s (MDrain i) = true) by (cbn; rewrite ?OB; reflexivity).
        pose proof (sumz_replace tweight (threads s) i (Thread [] (x :: r)) (Thread [] r) TI) as W1.
        change (tweight (Thread [] r)) with (15 * 0 + 14 * Z.of_nat (length r)) in W1.
        change (tweight (Thread [] (x :: r))) with (15 * 0 + 14 * Z.of_nat (S (length r))) in W1.
        eapply (P (MDrain i)); [reflexivity|exact C| | |];
          [cbn [step]; unfold drain; rewrite TI; unfold with_object; rewrite OB, ST; reflexivity| |].
        ++ unfold weight. cbn. rewrite OB, TS. cbn. rewrite LZ, ST. cbn. rewrite W1. lia.
        ++ cbn. exact A.
    + assert (C : careful s MMain = true) by (cbn; rewrite ?OB; reflexivity).
      destruct t; [| |destruct (0 <? strong o) eqn:SO|];
        (eapply (P MMain); [reflexivity|exact C| | |];
          [cbn [step]; unfold main_step; rewrite TS; unfold with_object; rewrite OB, ST; rewrite ?SO; reflexivity| |];
          [unfold weight; cbn; rewrite OB, TS; cbn [length oweight]; rewrite LZ, ST; cbn; lia|cbn; exact A]).
  - assert (C : careful s MDispose = true) by (cbn; rewrite ?OB; reflexivity).
    destruct (refs o =? 1) eqn:R1; (eapply (P MDispose); [reflexivity|exact C| | |];
      [cbn [step]; unfold dispose; rewrite OB, ST, R1; reflexivity| |]; [unfold weight; cbn; rewrite OB; cbn; rewrite ST; cbn; lia|cbn; exact A]).
  - assert (C : careful s MUnrefEnd = true) by (cbn; rewrite ?OB; reflexivity).
    destruct (1 <? refs o) eqn:R1; (eapply (P MUnrefEnd); [reflexivity|exact C| | |];
      [cbn [step]; unfold unref_end; rewrite OB, ST, R1; reflexivity| |]; [unfold weight; cbn; rewrite OB; cbn; rewrite ST; cbn; lia|cbn; exact A]).
  - assert (C : careful s MUnrefEnd = true) by (cbn; rewrite ?OB; reflexivity).
    destruct (1 <? refs o) eqn:R1; (eapply (P MUnrefEnd); [reflexivity|exact C| | |];
      [cbn [step]; unfold unref_end; rewrite OB, ST, R1; reflexivity| |]; [unfold weight; cbn; rewrite OB; cbn; rewrite ST; cbn; lia|cbn; exact A]).
  - assert (C : careful s MFinalize = true) by (cbn; rewrite ?OB; reflexivity).
    eapply (P MFinalize); [reflexivity|exact C| | |]; [cbn [step]; unfold finalize; rewrite OB, ST; reflexivity| |];
      [unfold weight; cbn; rewrite OB; cbn; rewrite ST; cbn; lia|cbn; exact Logic.I].
Qed.

(* When it's quiet, the driver may say that the strong reference is gone *)
Lemma quiet_work s o i w :
  inv s -> quiet s -> obj s = Some o -> k_strong s = true -> (i < length (threads s))%nat ->
  exists s1, step s (MWork i w false) = Ok s1 /\ weight s1 < weight s /\ obj s1 = Some o.
Proof.
  intros V (Q1 & Q2 & Q3) OB KS L. cbn [step]. unfold kernel_work.
  destruct (nth_error (threads s) i) as [t|] eqn:TI; [|apply nth_error_None in TI; lia].
  eexists. split; [reflexivity|]. split; [|exact OB]. unfold weight. cbn.
  rewrite KS, (sumz_replace tweight _ _ _ _ TI). destruct (Q1 t (nth_error_In _ _ TI)) as [EQ EL].
  unfold tweight at 2 3. cbn [t_queue t_later]. rewrite EQ, EL. cbn [Datatypes.app length]. unfold work. rewrite KS.
  destruct w, (k_weak s); cbn; lia.
Qed.
Lemma quiet_app s o : inv s -> quiet s -> obj s = Some o -> by_app o = 0 -> k_strong s = true.
Proof.
  intros V Q OB A. destruct (quiet_counts s o V Q OB) as (C1 & _ & C3 & _). destruct Q as (_ & _ & Q3). destruct (Q3 o OB) as [_ ST].
  pose proof (i_obj _ V) as O. rewrite OB in O. pose proof (o_state _ _ O) as T. rewrite ST in T. destruct T as (_ & _ & T).
  destruct (k_strong s); [reflexivity|]. cbn in C1. lia.
Qed.
Lemma quiet_pending s : inv s -> quiet s -> k_pstrong s = false /\ k_pweak s = false.
Proof.
  intros V (Q1 & Q2 & Q3). assert (NQ : forall c, nq c s = 0).
  { intros c. apply sumz_zero. intros t I. destruct (Q1 t I) as [-> _]. reflexivity. }
  pose proof (i_ps _ V) as A. pose proof (i_pw _ V) as B. rewrite !NQ in *. unfold nt in A. rewrite Q2 in A. cbn in A.
  destruct (k_pstrong s), (k_pweak s); cbn in *; try lia; auto.
Qed.

Lemma replace_length {A} (l : list A) i x : length (replace_nth l i x) = length l.
Proof. revert i. induction l as [|a l IH]; intros [|i]; cbn; auto. Qed.
Lemma step_threads s m s1 : step s m = Ok s1 -> length (threads s1) = length (threads s).
Proof.
  intros E. destruct m; cbn [step] in E.
  - unfold new_object in E. destruct (obj s); [discriminate|]. injection E as <-. reflexivity.
  - unfold app_ref in E. destruct (obj s); [|discriminate]. destruct (_ <? _); [|discriminate]. injection E as <-. reflexivity.
  - unfold unref in E. destruct (obj s); [|discriminate]. destruct (_ <=? _); [discriminate|]. cbn zeta in E.
    destruct (1 <? _); injection E as <-; reflexivity.
  - unfold dispose in E. destruct (obj s) as [o|]; [|discriminate]. destruct (state_of o); try discriminate.
    destruct (_ =? _); injection E as <-; reflexivity.
  - unfold unref_end in E. destruct (obj s) as [o|]; [|discriminate]. destruct (state_of o); try discriminate;
    destruct (_ <? _); injection E as <-; reflexivity.
  - unfold finalize in E. destruct (obj s) as [o|]; [|discriminate]. destruct (state_of o); try discriminate.
    injection E as <-; reflexivity.
  - unfold clear_handler in E. destruct (obj s) as [o|]; [|discriminate]. destruct (_ <? _); [|discriminate]. injection E as <-; reflexivity.
  - unfold kernel_work in E. destruct (nth_error _ _); [|discriminate]. injection E as <-. cbn. apply replace_length.
  - unfold transaction in E. destruct (get_local s); try discriminate; injection E as <-; reflexivity.
  - unfold handle in E. destruct (nth_error _ _) as [t|]; [|discriminate]. destruct (t_queue t) as [|c q]; [discriminate|].
    cbn zeta in E. destruct (get_local _); try discriminate; destruct c; injection E as <-; cbn; apply replace_length.
  - unfold drain in E. destruct (nth_error _ _) as [[q l]|]; [|discriminate]. destruct q; [|discriminate]. destruct l; [discriminate|].
    unfold with_object in E. destruct (obj s) as [o|]; [|discriminate]. destruct (state_of o); try discriminate; injection E as <-; cbn; apply replace_length.
  - unfold main_step in E. destruct (tasks s) as [|t r]; [discriminate|].
    unfold with_object in E. destruct (obj s) as [o|]; [|discriminate].
    destruct (state_of o); try discriminate; destruct t; try (destruct (0 <? strong o)); injection E as <-; reflexivity.
Qed.
Lemma reach_threads n s : reach n s -> length (threads s) = n.
Proof. induction 1 as [|s mv s1 R IH L C E]; [apply repeat_length|]. rewrite (step_threads _ _ _ E). exact IH. Qed.
