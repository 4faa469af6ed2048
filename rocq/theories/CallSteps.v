From Verif Require Import Base AsyncModel AsyncSpec AsyncProofs CallModel CallSpec CallProofs.
Local Notation bind := CallModel.bind.

(* Dropping references and changing a call are independent *)
Definition put (k : nat) (d : option data) (r : out cstate) : out cstate := bind r (fun s => Ok (with_data s k d)).
Lemma put_bind k d r (f : cstate -> out cstate) : (forall s, f (with_data s k d) = put k d (f s)) -> bind (put k d r) f = put k d (bind r f).
Proof. intros H. destruct r; cbn [put bind]; auto. Qed.
Lemma put_drop k d s t : drop (with_data s k d) t = put k d (drop s t).
Proof. unfold drop. cbn [with_data refs]. destruct (0 <? refs s t); reflexivity. Qed.
Lemma put_drop_opt k d s o : drop_opt (with_data s k d) o = put k d (drop_opt s o).
Proof. destruct o; [apply put_drop|reflexivity]. Qed.
Lemma put_drop_list k d l : forall s, drop_list (with_data s k d) l = put k d (drop_list s l).
Proof.
  induction l as [|t l IH]; intros s; [reflexivity|]. cbn [drop_list]. rewrite put_drop, put_bind; [reflexivity|]. intros s1. apply IH.
Qed.
Lemma put_finalize k d s h : finalize (with_data s k d) h = put k d (finalize s h).
Proof.
  unfold finalize. cbn [with_data auto_cb].
  assert (E : idle_destroy (with_data s k d) (auto_cb s h) = with_data (idle_destroy s (auto_cb s h)) k d) by (destruct (auto_cb s h); reflexivity).
  rewrite E. cbn [with_data auto]. fold (with_data (idle_destroy s (auto_cb s h)) k d). rewrite put_drop_list, put_bind; reflexivity.
Qed.
Lemma put_unref k d s t : unref (with_data s k d) t = put k d (unref s t).
Proof.
  unfold unref. rewrite put_drop, put_bind; [reflexivity|]. intros s1. cbn [with_data refs kinds]. destruct (_ && _); [apply put_finalize|reflexivity].
Qed.

(* ------------------------------------------------------------------ *)
(* Everything which holds between moves *)
Definition both : spec := {| has_reply := true; has_destroy := true |}.
Definition shape (d : data) : Prop :=
  match d_kind d with
  | KList => d_name d = None /\ d_obj d = None
  | KGet => d_obj d = None
  | KAdd => d_result d = None
  | KTx => d_name d = None
  end.
Definition phase_ok (p : phase) (o : option data) : Prop :=
  match p with
  | Freed => o = None
  | _ => exists d, o = Some d /\ shape d /\
    match p with
    | Queued | Executing _ | Lost => d_result d = None
    | InDestroy => d_kind d = KTx -> d_obj d = None /\ d_result d = None
    | _ => True
    end
  end.
Record fullp (P : nat -> phase -> option data -> Prop) (s : cstate) : Prop := {
  u_own : own s (count (ca s)) [];
  u_lists : lists_ok (ca s);
  u_spec : forall k, (k < count (ca s))%nat -> t_spec (txs (ca s) k) = both;
  u_data : forall k, (k < count (ca s))%nat -> P k (t_phase (txs (ca s) k)) (datas s k)
}.
Notation full := (fullp (fun _ => phase_ok)).
(* One call has just begun to be destroyed *)
Definition destroyed (k : nat) (j : nat) (p : phase) (o : option data) : Prop :=
  if Nat.eqb j k then p = InDestroy /\ exists d, o = Some d /\ shape d else phase_ok p o.

Lemma full_change (P : nat -> phase -> option data -> Prop) s s1 a k p es : full s -> change (ca s) a k p es -> own s1 (count (ca s)) [] ->
  (forall j, j <> k -> datas s1 j = datas s j) -> (forall j q o, j <> k -> phase_ok q o -> P j q o) -> P k p (datas s1 k) -> fullp P (with_ca s1 a).
Proof.
  intros [O L Sp D] C O1 H1 HP H2. pose proof (ch_count _ _ _ _ _ C) as N. pose proof (change_lists _ _ _ _ _ L C) as L1. pose proof (ch_tx _ _ _ _ _ C) as T.
  constructor; cbn [with_ca ca].
  - rewrite N. apply own_ca. exact O1.
  - exact L1.
  - intros j Hj. rewrite N in Hj. rewrite T. destruct (Nat.eqb_spec j k) as [->|NE]; [cbn [with_phase t_spec]|]; auto.
  - intros j Hj. rewrite N in Hj. change (datas (with_ca s1 a)) with (datas s1). rewrite T. destruct (Nat.eqb_spec j k) as [->|NE]; [exact H2|].
    rewrite H1 by exact NE. apply HP; [exact NE|]. auto.
Qed.

(* Moves of AsyncModel which change nothing but the counter of ids, a flag, or the pool *)
Lemma full_same s a : full s -> count a = count (ca s) -> lists_ok a ->
  (forall k, t_spec (txs a k) = t_spec (txs (ca s) k) /\ t_phase (txs a k) = t_phase (txs (ca s) k)) -> full (with_ca s a).
Proof.
  intros [O L Sp D] N L1 H. constructor; cbn [with_ca ca].
  - rewrite N. apply own_ca. exact O.
  - exact L1.
  - intros k Hk. rewrite N in Hk. rewrite (proj1 (H k)). auto.
  - intros k Hk. rewrite N in Hk. change (datas (with_ca s a)) with (datas s). rewrite (proj2 (H k)). auto.
Qed.

(* A call starts with what's at hand *)
Lemma start_full s s0 d : full s0 -> ca s = ca s0 -> datas s = datas s0 ->
  own s (count (ca s)) (d_holder d :: match d_name d with Some t => [t] | None => [] end ++ match d_obj d with Some t => [t] | None => [] end) ->
  d_result d = None -> shape d -> data_kinds s d ->
  match start s d with Ok s1 => full s1 | Crash => False | Never => True end.
Proof.
  intros F0 Eca Edt O Rn Sh Kd. unfold start. destruct (step (ca s) (Transact _)) as [a|] eqn:E; [|exact Logic.I].
  destruct F0 as [_ L Sp D]. rewrite Eca in *. pose proof (lists_step _ _ _ L E) as L1.
  cbn [step] in E. destruct (0 <? ipc_refs (ca s0)); [|discriminate]. unfold ipc_transact in E.
  destruct (tx_get_id _ _ _) as [[id nx]|]; [|discriminate]. set (n := count (ca s0)) in *.
  assert (N : count a = S n) by (injection E as <-; reflexivity).
  assert (T : forall j, j <> n -> txs a j = txs (ca s0) j) by (intros j Hj; injection E as <-; cbn [txs]; fold n; now rewrite upd_other by exact Hj).
  assert (TN : t_spec (txs a n) = both /\ (t_phase (txs a n) = Queued \/ t_phase (txs a n) = Lost)).
  { injection E as <-. cbn [txs]. fold n. rewrite upd_same. cbn [t_spec t_phase]. split; [reflexivity|]. destruct (pool (ca s0)); auto. }
  constructor; cbn [with_ca ca].
  - rewrite N. apply own_ca. apply (data_own s (S n) _ _ n (Some d) (own_grow _ _ _ O)); [lia| |exact Kd].
    intros t. rewrite (o_data _ _ _ O n) by lia. cbn [call_has]. rewrite occurs_cons, occurs_app, occurs_nil, Rn. cbn [one].
    destruct (d_name d), (d_obj d); rewrite ?occurs_cons, ?occurs_nil; cbn [one]; lia.
  - exact L1.
  - intros k Hk. rewrite N in Hk. destruct (Nat.eq_dec k n) as [->|NE]; [apply TN|]. rewrite T by exact NE. apply Sp. lia.
  - intros k Hk. rewrite N in Hk. cbn [with_data datas]. change (datas (with_ca (with_data s n (Some d)) a)) with (upd (datas s) n (Some d)).
    destruct (Nat.eq_dec k n) as [->|NE].
    + rewrite upd_same. destruct TN as [_ [-> | ->]]; cbn [phase_ok]; exists d; auto.
    + rewrite upd_other, T, Edt by exact NE. apply D. lia.
Qed.

(* What may be used is there *)
Lemma usable_there s t : full s -> usable s t = true -> 0 < refs s t.
Proof.
  intros F H. pose proof (u_own _ _ F) as O. unfold usable in H. apply Bool.orb_true_iff in H. destruct H as [H|H].
  - apply (app_there O). now apply Z.ltb_lt.
  - apply existsb_exists in H. destruct H as (k & _ & H). unfold lends in H.
    destruct (t_phase (txs (ca s) k)); try discriminate. destruct (datas s k) as [d|] eqn:D; [|discriminate].
    apply (call_there O k). rewrite D. cbn [call_has].
    pose proof (one_nonneg (Some (d_holder d)) t). pose proof (one_nonneg (d_name d) t). pose proof (one_nonneg (d_obj d) t). pose proof (one_nonneg (d_result d) t).
    apply Bool.orb_true_iff in H. destruct H as [H|H].
    + cbn [one] in *. rewrite H in *. lia.
    + destruct (d_result d) as [r|]; [|discriminate]. cbn [one] in *. rewrite H in *. lia.
Qed.
Lemma kind_eqb k k1 : tkind_eqb k k1 = true -> k = k1.
Proof. destruct k, k1; try discriminate; reflexivity. Qed.

(* What comes from the other side *)
Lemma get_object_own s n p r : own s n p ->
  match get_object s r with
  | Ok (s1, o) => own s1 n (match o with Some t => t :: p | None => p end) /\ ca s1 = ca s /\ datas s1 = datas s /\ app_has s1 = app_has s /\
      match o with Some t => kinds s1 t = Object /\ 0 < refs s1 t | None => True end /\
      (forall u, 0 < refs s u -> kinds s1 u = kinds s u /\ refs s u <= refs s1 u) /\
      auto s1 = auto s /\ auto_cb s1 = auto_cb s /\ cbs s1 = cbs s /\ next_cb s1 = next_cb s
  | Crash => False
  | Never => True
  end.
Proof.
  intros O. destruct r as [| |t]; cbn [get_object].
  - split; [exact O|]. repeat (split; [reflexivity || exact Logic.I|]). split; [intros u Hu; split; [reflexivity|lia]|auto].
  - destruct (make s Object) as [t s1] eqn:E. destruct (make_own _ _ _ _ _ _ O E) as (O1 & _ & K & A & D & P & R0 & R1 & X & Y).
    split; [exact O1|]. repeat (split; [assumption || (split; [assumption|lia])|]). split; [|exact Y].
    intros u Hu. assert (u <> t) by (intros ->; lia). destruct (X u H). split; [auto|lia].
  - destruct ((0 <? refs s t) && tkind_eqb (kinds s t) Object) eqn:E; [|exact Logic.I]. apply Bool.andb_true_iff in E. destruct E as [E1 E2].
    apply Z.ltb_lt in E1. apply kind_eqb in E2.
    destruct (ref_own _ _ _ t O E1) as (s1 & Er & -> & O1); [unfold stringy; rewrite E2; intros [?|?]; discriminate|].
    rewrite Er. cbn [bind]. split; [exact O1|]. cbn [with_refs ca datas app_has kinds auto auto_cb cbs next_cb refs]. rewrite upd_same.
    repeat (split; [reflexivity || (split; [assumption|lia])|]). split; [|auto].
    intros u Hu. split; [reflexivity|]. unfold upd. destruct (Nat.eqb_spec u t) as [->|]; lia.
Qed.

(* How calls end *)
Lemma put_rw k d r : bind r (fun s => Ok (with_data s k d)) = put k d r.
Proof. reflexivity. Qed.
Lemma P1 o l t : occurs (match o with Some u => u :: l | None => l end) t = one o t + occurs l t.
Proof. destruct o as [u|]; [apply occurs_cons|cbn [one]; lia]. Qed.
Lemma free_end_own s n k d : own s n [] -> (k < n)%nat -> datas s k = Some d -> shape d -> (d_kind d = KTx -> d_obj d = None /\ d_result d = None) ->
  exists s1, free_end s k d = Ok s1 /\ ca s1 = ca s /\ own s1 n [] /\ datas s1 k = None /\ (forall j, j <> k -> datas s1 j = datas s j) /\
    kinds s1 = kinds s /\ app_has s1 = app_has s.
Proof.
  intros O Hk Hd Sh Tx. pose proof (o_kinds _ _ _ O _ _ Hd) as (_ & K2 & K3 & K4 & _). unfold free_end.
  assert (G : forall p, (forall t, call_has (Some d) t = occurs p t) -> own (with_data s k None) n p).
  { intros p Hp. apply (data_own s n [] p k None O Hk); [|exact Logic.I]. intros t. rewrite Hd, occurs_nil, <- Hp. cbn [call_has]. lia. }
  assert (W : forall s1, frame (with_data s k None) s1 -> own s1 n [] ->
     ca s1 = ca s /\ own s1 n [] /\ datas s1 k = None /\ (forall j, j <> k -> datas s1 j = datas s j) /\ kinds s1 = kinds s /\ app_has s1 = app_has s).
  { intros s1 [] O1. cbn [with_data ca kinds next_thing datas next_cb app_has] in *. rewrite f_datas, upd_same.
    split; [auto|]. split; [auto|]. split; [auto|]. split; [|auto]. intros j Hj. now rewrite upd_other by exact Hj. }
  unfold shape in Sh. destruct (d_kind d).
  - destruct Sh as [Nm Ob].
    rewrite put_rw, <- put_bind by (intros; apply put_unref). rewrite <- put_drop_opt.
    destruct (drop_opt_own (with_data s k None) n [d_holder d] (d_result d)) as (s1 & -> & F1 & O1 & _).
    { apply G. intros t. rewrite P1, occurs_cons, occurs_nil. cbn [call_has]. rewrite Nm, Ob. cbn [one]. lia. }
    { exact K4. }
    cbn [bind]. destruct (unref_own _ _ _ _ O1) as (s2 & -> & F2 & O2). exists s2. split; [reflexivity|]. apply W; [exact (frame_trans _ _ _ F1 F2)|exact O2].
  - rewrite put_rw, <- put_bind.
    2:{ intros s1. rewrite put_drop_opt. apply put_bind. intros s2. apply put_drop_opt. }
    rewrite <- put_unref.
    destruct (unref_own (with_data s k None) n (match d_result d with Some t => t :: match d_name d with Some t => [t] | None => [] end | None => match d_name d with Some t => [t] | None => [] end end) (d_holder d)) as (s1 & -> & F1 & O1).
    { apply G. intros t. rewrite occurs_cons, !P1, occurs_nil. cbn [call_has]. rewrite Sh. cbn [one]. lia. }
    cbn [bind]. destruct (drop_opt_own s1 n _ _ O1) as (s2 & -> & F2 & O2 & _).
    { unfold not_manager. rewrite (f_kinds _ _ F1). exact K4. }
    cbn [bind]. destruct (drop_opt_own s2 n [] _ O2) as (s3 & -> & F3 & O3 & _).
    { unfold not_manager. rewrite (f_kinds _ _ F2), (f_kinds _ _ F1). exact K2. }
    exists s3. split; [reflexivity|]. apply W; [exact (frame_trans _ _ _ (frame_trans _ _ _ F1 F2) F3)|exact O3].
  - rewrite put_rw, <- put_bind.
    2:{ intros s1. rewrite put_drop_opt. apply put_bind. intros s2. apply put_drop_opt. }
    rewrite <- put_unref.
    destruct (unref_own (with_data s k None) n (match d_obj d with Some t => t :: match d_name d with Some t => [t] | None => [] end | None => match d_name d with Some t => [t] | None => [] end end) (d_holder d)) as (s1 & -> & F1 & O1).
    { apply G. intros t. rewrite occurs_cons, !P1, occurs_nil. cbn [call_has]. rewrite Sh. cbn [one]. lia. }
    cbn [bind]. destruct (drop_opt_own s1 n _ _ O1) as (s2 & -> & F2 & O2 & _).
    { unfold not_manager. rewrite (f_kinds _ _ F1). exact K3. }
    cbn [bind]. destruct (drop_opt_own s2 n [] _ O2) as (s3 & -> & F3 & O3 & _).
    { unfold not_manager. rewrite (f_kinds _ _ F2), (f_kinds _ _ F1). exact K2. }
    exists s3. split; [reflexivity|]. apply W; [exact (frame_trans _ _ _ (frame_trans _ _ _ F1 F2) F3)|exact O3].
  - destruct (Tx eq_refl) as [Ob Re]. rewrite put_rw, <- put_unref.
    destruct (unref_own (with_data s k None) n [] (d_holder d)) as (s1 & -> & F1 & O1).
    { apply G. intros t. rewrite occurs_cons, occurs_nil. cbn [call_has]. rewrite Sh, Ob, Re. cbn [one]. lia. }
    exists s1. split; [reflexivity|]. apply W; auto.
Qed.

Definition same_things (s s1 : cstate) : Prop :=
  kinds s1 = kinds s /\ auto s1 = auto s /\ auto_cb s1 = auto_cb s /\ cbs s1 = cbs s /\ next_cb s1 = next_cb s /\ next_thing s1 = next_thing s.

(* A transaction lets go of its request and reply *)
Lemma free_begin_own s n k d : own s n [] -> (k < n)%nat -> datas s k = Some d -> shape d ->
  exists s1, free_begin s k d = Ok s1 /\ ca s1 = ca s /\ own s1 n [] /\ (exists d1, datas s1 k = Some d1 /\ shape d1 /\ (d_kind d1 = KTx -> d_obj d1 = None /\ d_result d1 = None)) /\
    (forall j, j <> k -> datas s1 j = datas s j) /\ same_things s s1 /\ app_has s1 = app_has s /\ (d_kind d <> KTx -> s1 = s).
Proof.
  intros O Hk Hd Sh. pose proof (o_kinds _ _ _ O _ _ Hd) as (K1 & K2 & K3 & K4 & K5). unfold free_begin.
  destruct (d_kind d) eqn:Kd.
  1-3: exists s; split; [reflexivity|]; split; [reflexivity|]; split; [exact O|]; split; [exists d; split; [exact Hd|]; split; [exact Sh|congruence]|]; split; [auto|]; split; [repeat split|auto].
  set (d1 := {| d_kind := KTx; d_holder := d_holder d; d_name := None; d_obj := None; d_result := None |}).
  unfold shape in Sh. rewrite Kd in Sh.
  assert (O0 : own (with_data s k (Some d1)) n (match d_obj d with Some t => t :: match d_result d with Some t => [t] | None => [] end | None => match d_result d with Some t => [t] | None => [] end end)).
  { apply (data_own s n [] _ k (Some d1) O Hk).
    - intros t. rewrite Hd, !P1, occurs_nil. cbn [call_has d1 d_holder d_name d_obj d_result]. rewrite Sh. cbn [one]. lia.
    - split; [exact K1|]. cbn. repeat (split; [auto|]). auto. }
  destruct (drop_opt_own _ n _ _ O0 K3) as (s1 & E1 & F1 & O1 & _ & Y1 & Y2 & Y3).
  destruct (drop_opt_own s1 n [] _ O1) as (s2 & E2 & F2 & O2 & _ & Z1 & Z2 & Z3).
  { unfold not_manager. rewrite (f_kinds _ _ F1). exact K4. }
  exists s2.
  assert (E : put k (Some d1) (bind (drop_opt s (d_obj d)) (fun s1 => drop_opt s1 (d_result d))) = Ok s2).
  { rewrite <- put_bind by (intros; apply put_drop_opt). rewrite <- put_drop_opt, E1. exact E2. }
  split.
  { revert E. destruct (drop_opt s (d_obj d)) as [x| |]; cbn [bind put]; auto. }
  pose proof (frame_trans _ _ _ F1 F2) as []. cbn [with_data ca kinds next_thing datas next_cb app_has] in *.
  split; [auto|]. split; [exact O2|]. split; [exists d1; rewrite f_datas, upd_same; split; [reflexivity|]; split; [reflexivity|auto]|].
  split; [intros j Hj; rewrite f_datas; now rewrite upd_other by exact Hj|].
  split; [|split; [exact f_app|congruence]].
  split; [exact f_kinds|]. rewrite Z1, Z2, Z3, Y1, Y2, Y3. repeat (split; [reflexivity || assumption|]). assumption.
Qed.

Lemma after_destroy_full s k : (k < count (ca s))%nat -> fullp (destroyed k) s -> 
  exists s1, after_destroy s k = Ok s1 /\ full s1 /\ same_things s s1 /\ app_has s1 = app_has s /\ ca s1 = ca s /\
   ((forall d, datas s k = Some d -> d_kind d <> KTx) -> s1 = s).
Proof.
  intros Hk [O L Sp D]. pose proof (D k Hk) as Dk. unfold destroyed in Dk. rewrite Nat.eqb_refl in Dk. destruct Dk as (Ph & d & Hd & Sh).
  unfold after_destroy, destroying. rewrite Ph, Hd.
  destruct (free_begin_own _ _ _ _ O Hk Hd Sh) as (s1 & E & Eca & O1 & (d1 & D1 & Sh1 & T1) & Dj & ST & AH & Same).
  exists s1. split; [exact E|]. split; [|split; [exact ST|split; [exact AH|split; [exact Eca|intros X; apply Same, X; reflexivity]]]].
  constructor; rewrite Eca; auto.
  intros j Hj. pose proof (D j Hj) as Dj2. unfold destroyed in Dj2. destruct (Nat.eqb_spec j k) as [K0|N].
  - rewrite K0, Ph, D1. exists d1. auto.
  - rewrite Dj by exact N. exact Dj2.
Qed.
Lemma after_destroy_not s k : full s -> (forall d, t_phase (txs (ca s) k) = InDestroy -> datas s k = Some d -> False) -> t_phase (txs (ca s) k) <> InDestroy -> after_destroy s k = Ok s.
Proof. intros _ _ H. unfold after_destroy, destroying. destruct (t_phase (txs (ca s) k)); try reflexivity. congruence. Qed.

(* What the callback returns *)
Lemma done_end_own s n k d v : own s n [] -> (k < n)%nat -> datas s k = Some d -> shape d ->
  exists s1, done_end s k d v = Ok s1 /\ ca s1 = ca s /\ own s1 n [] /\ (exists d1, datas s1 k = Some d1 /\ shape d1 /\ d_kind d1 = d_kind d) /\
    (forall j, j <> k -> datas s1 j = datas s j) /\ same_things s s1.
Proof.
  intros O Hk Hd Sh. pose proof (o_kinds _ _ _ O _ _ Hd) as (K1 & K2 & K3 & K4 & K5). unfold done_end.
  destruct (d_kind d) eqn:Kd.
  2-4: exists s; split; [reflexivity|]; split; [reflexivity|]; split; [exact O|]; split; [exists d; auto|]; split; [auto|repeat split].
  assert (Sh1 : shape (set_result d None)) by (unfold shape in *; cbn [set_result d_kind d_name d_obj]; rewrite Kd in *; exact Sh).
  set (d1 := set_result d None).
  assert (O0 : own (with_data s k (Some d1)) n (match d_result d with Some t => [t] | None => [] end)).
  { apply (data_own s n [] _ k (Some d1) O Hk).
    - intros t. rewrite Hd, !P1, occurs_nil. cbn [call_has d1 set_result d_holder d_name d_obj d_result]. cbn [one]. lia.
    - split; [exact K1|]. split; [exact K2|]. split; [exact K3|]. split; [exact Logic.I|intros _; exact Logic.I]. }
  destruct v.
  - cbn [bind]. destruct (d_result d) as [t|].
    + eexists. split; [reflexivity|]. split; [reflexivity|]. split.
      { apply (app_own _ n [t] [] t 1 O0); [intros u; rewrite occurs_cons, occurs_nil; lia|]. pose proof (o_app _ _ _ O0 t). lia. }
      split; [exists d1; cbn [with_data with_app datas]; rewrite upd_same; auto|]. split; [|repeat split].
      intros j Hj. cbn [with_data with_app datas]. now rewrite upd_other by exact Hj.
    + eexists. split; [reflexivity|]. split; [reflexivity|]. split; [exact O0|].
      split; [exists d1; cbn [with_data with_app datas]; rewrite upd_same; auto|]. split; [|repeat split].
      intros j Hj. cbn [with_data with_app datas]. now rewrite upd_other by exact Hj.
  - destruct (drop_opt_own _ n [] (d_result d) O0 K4) as (s1 & E1 & F1 & O1 & _ & Y1 & Y2 & Y3).
    exists s1. split; [rewrite put_rw, <- put_drop_opt; exact E1|]. destruct F1. cbn [with_data ca kinds next_thing datas next_cb app_has] in *.
    split; [auto|]. split; [exact O1|]. split; [exists d1; rewrite f_datas, upd_same; auto|].
    split; [intros j Hj; rewrite f_datas; now rewrite upd_other by exact Hj|]. unfold same_things. rewrite Y1, Y2, Y3. auto 9.
Qed.

(* The result of what a worker thread has done *)
Lemma there_not_gone s o : there_opt s o -> gone s o = false.
Proof. destruct o; cbn [there_opt gone]; [|reflexivity]. unfold there. intros H. apply Z.ltb_lt in H. now rewrite H. Qed.
Lemma call_all_there s n p k d : own s n p -> datas s k = Some d ->
  there s (d_holder d) /\ there_opt s (d_name d) /\ there_opt s (d_obj d) /\ there_opt s (d_result d).
Proof.
  intros O Hd.
  assert (TH : forall u, 0 < call_has (Some d) u -> there s u) by (intros u Hu; apply (call_there O k); rewrite Hd; exact Hu).
  pose proof (fun u => one_nonneg (Some (d_holder d)) u) as Q1. pose proof (fun u => one_nonneg (d_name d) u) as Q2.
  pose proof (fun u => one_nonneg (d_obj d) u) as Q3. pose proof (fun u => one_nonneg (d_result d) u) as Q4. cbn [call_has] in TH.
  split; [|split; [|split]].
  - apply TH. specialize (Q2 (d_holder d)); specialize (Q3 (d_holder d)); specialize (Q4 (d_holder d)). rewrite one_same. lia.
  - destruct (d_name d) as [u|]; [|exact Logic.I]. apply TH. specialize (Q1 u); specialize (Q3 u); specialize (Q4 u). rewrite (one_same u). lia.
  - destruct (d_obj d) as [u|]; [|exact Logic.I]. apply TH. specialize (Q1 u); specialize (Q2 u); specialize (Q4 u). rewrite (one_same u). lia.
  - destruct (d_result d) as [u|]; [|exact Logic.I]. apply TH. specialize (Q1 u); specialize (Q2 u); specialize (Q3 u). rewrite (one_same u). lia.
Qed.
Lemma exec_end_own s n k d r : own s n [] -> (k < n)%nat -> datas s k = Some d -> shape d -> d_result d = None ->
  match exec_end s k d r with
  | Ok s1 => ca s1 = ca s /\ own s1 n [] /\ (exists d1, datas s1 k = Some d1 /\ shape d1) /\ (forall j, j <> k -> datas s1 j = datas s j) /\
      app_has s1 = app_has s /\ auto s1 = auto s /\ auto_cb s1 = auto_cb s /\ cbs s1 = cbs s /\ next_cb s1 = next_cb s
  | Crash => False
  | Never => True
  end.
Proof.
  intros O Hk Hd Sh Rn. pose proof (call_all_there _ _ _ _ _ O Hd) as (T1 & T2 & T3 & _). unfold exec_end.
  rewrite (there_not_gone s (Some (d_holder d)) T1), (there_not_gone _ _ T2), (there_not_gone _ _ T3). cbn [orb].
  pose proof (o_kinds _ _ _ O _ _ Hd) as (K1 & K2 & K3 & K4 & K5).
  (* with a new result *)
  assert (G : forall s1 o, own s1 n (match o with Some t => [t] | None => [] end) -> ca s1 = ca s -> datas s1 = datas s -> app_has s1 = app_has s ->
     (forall u, 0 < refs s u -> kinds s1 u = kinds s u) -> not_manager s1 o -> (d_kind d = KList -> match o with Some t => kinds s1 t = StrV | None => True end) -> (o <> None -> d_kind d <> KAdd) ->
     auto s1 = auto s /\ auto_cb s1 = auto_cb s /\ cbs s1 = cbs s /\ next_cb s1 = next_cb s ->
     let s2 := with_data s1 k (Some (set_result d o)) in
     ca s2 = ca s /\ own s2 n [] /\ (exists d1, datas s2 k = Some d1 /\ shape d1) /\ (forall j, j <> k -> datas s2 j = datas s j) /\
      app_has s2 = app_has s /\ auto s2 = auto s /\ auto_cb s2 = auto_cb s /\ cbs s2 = cbs s /\ next_cb s2 = next_cb s).
  { intros s1 o O1 Eca Ed Ea Ek Ko KL NA Y s2. split; [exact Eca|]. split.
    - apply (data_own s1 n _ [] k (Some (set_result d o)) O1 Hk).
      + intros t. rewrite Ed, Hd, P1, occurs_nil. cbn [call_has set_result d_holder d_name d_obj d_result]. rewrite Rn. cbn [one]. lia.
      + unfold data_kinds, not_manager in *. cbn [set_result d_holder d_name d_obj d_result].
        split; [rewrite (Ek _ T1); exact K1|]. split; [destruct (d_name d) as [u|]; [rewrite (Ek u T2)|]; exact K2|].
        split; [destruct (d_obj d) as [u|]; [rewrite (Ek u T3)|]; exact K3|]. split; [exact Ko|exact KL].
    - split.
      + exists (set_result d o). split; [unfold s2; cbn [with_data datas]; now rewrite upd_same|]. unfold shape in *. cbn [set_result d_kind d_name d_obj d_result].
        destruct (d_kind d); auto. destruct o; [exfalso; apply NA; [discriminate|reflexivity]|reflexivity].
      + split; [intros j Hj; unfold s2; cbn [with_data datas]; now rewrite upd_other, Ed by exact Hj|]. split; [exact Ea|exact Y]. }
  assert (GN : let s2 := with_data s k (Some (set_result d None)) in
     ca s2 = ca s /\ own s2 n [] /\ (exists d1, datas s2 k = Some d1 /\ shape d1) /\ (forall j, j <> k -> datas s2 j = datas s j) /\
      app_has s2 = app_has s /\ auto s2 = auto s /\ auto_cb s2 = auto_cb s /\ cbs s2 = cbs s /\ next_cb s2 = next_cb s).
  { apply (G s None); auto; try exact Logic.I. }
  assert (GM : forall kd, kd <> Manager -> d_kind d <> KAdd -> (d_kind d = KList -> kd = StrV) ->
     match (let (t, s1) := make s kd in Ok (with_data s1 k (Some (set_result d (Some t))))) with
     | Ok s1 => ca s1 = ca s /\ own s1 n [] /\ (exists d1, datas s1 k = Some d1 /\ shape d1) /\ (forall j, j <> k -> datas s1 j = datas s j) /\
      app_has s1 = app_has s /\ auto s1 = auto s /\ auto_cb s1 = auto_cb s /\ cbs s1 = cbs s /\ next_cb s1 = next_cb s
     | Crash => False
     | Never => True
     end).
  { intros kd NM NA KL. destruct (make s kd) as [t s1] eqn:E. destruct (make_own _ _ _ _ _ _ O E) as (O1 & _ & K & A & Dt & P & R0 & R1 & X & Y).
    apply (G s1 (Some t)); auto.
    - intros u Hu. apply X. intros ->. lia.
    - cbn [not_manager]. rewrite K. exact NM.
    - intros X0. rewrite K. exact (KL X0). }
  destruct (d_kind d) eqn:Kd.
  - destruct r; [exact GN|apply GM; [discriminate|discriminate|auto; discriminate]|exact Logic.I].
  - pose proof (get_object_own s n [] r O) as X. destruct (get_object s r) as [[s1 o]| |]; cbn [bind]; auto.
    destruct X as (O1 & A & Dt & P & Ko & Ku & Y). apply (G s1 o); auto.
    + intros u Hu. exact (proj1 (Ku u Hu)).
    + destruct o as [t|]; cbn [not_manager]; [destruct Ko as [-> _]; discriminate|exact Logic.I].
    + discriminate.
    + discriminate.
  - destruct r; try exact Logic.I. split; [reflexivity|]. split; [exact O|]. split; [exists d; auto|]. auto 9.
  - destruct r; [exact GN|apply GM; [discriminate|discriminate|auto; discriminate]|exact Logic.I].
Qed.
