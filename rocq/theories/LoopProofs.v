(* Proofs about deferred calls and timeouts (C59) *)
From Verif Require Import Base LoopModel LoopSpec.
Local Arguments Nat.ltb : simpl never.

Lemma upd_same : forall A (f : nat -> A) i x, upd f i x i = x.
Proof. intros. unfold upd. now rewrite Nat.eqb_refl. Qed.
Lemma upd_other : forall A (f : nat -> A) i j x, j <> i -> upd f i x j = f j.
Proof. intros. unfold upd. apply Nat.eqb_neq in H. now rewrite H. Qed.
Lemma eqb_other : forall i j, j <> i -> Nat.eqb j i = false.
Proof. intros. now apply Nat.eqb_neq. Qed.

(* Operations as functions of one source; events are in the order of the trace *)
Definition loc := option (source * list event).
Definition lbind (r : loc) (f : source -> loc) : loc :=
  match r with
  | Some (x, e) => match f x with Some (y, e1) => Some (y, e1 ++ e) | None => None end
  | None => None
  end.
Definition acts (s : state) (i : nat) (r : loc) (o : out) : Prop :=
  match r, o with
  | Some (x, e), Ok s1 =>
    sources s1 i = x /\ (forall j, j <> i -> sources s1 j = sources s j) /\
    count s1 = count s /\ current s1 = current s /\ trace s1 = e ++ trace s
  | None, Crash => True
  | _, _ => False
  end.
Lemma acts_bind : forall s i r o g f, acts s i r o ->
  (forall s1, acts s1 i (g (sources s1 i)) (f s1)) -> acts s i (lbind r g) (obind o f).
Proof.
  intros s i r o g f A B. unfold acts in A. destruct r as [[x e]|]; destruct o as [| |s1]; try contradiction; [|exact I].
  destruct A as (A1 & A2 & A3 & A4 & A5). cbn. specialize (B s1). rewrite A1 in B. unfold acts in *.
  destruct (g x) as [[y e1]|]; destruct (f s1) as [| |s2]; try contradiction; auto.
  destruct B as (B1 & B2 & B3 & B4 & B5). repeat split; try congruence.
  - intros j N. rewrite B2, A2; auto.
  - rewrite B5, A5. now rewrite app_assoc.
Qed.
Lemma acts_put : forall s i x, acts s i (Some (x, [])) (Ok (put s i x)).
Proof. intros. cbn -[upd]. repeat split; [now rewrite upd_same|]. intros. now rewrite upd_other. Qed.
Lemma acts_same : forall s i, acts s i (Some (sources s i, [])) (Ok s).
Proof. intros. cbn. auto. Qed.
Lemma acts_say : forall s i e, acts s i (Some (sources s i, [e])) (Ok (say s e)).
Proof. intros. cbn. auto. Qed.
Definition ladd (r : loc) (e : list event) : loc :=
  match r with Some (y, e1) => Some (y, e1 ++ e) | None => None end.
Lemma acts_pre : forall s s1 i x e r o, acts s i (Some (x, e)) (Ok s1) -> acts s1 i r o ->
  acts s i (ladd r e) o.
Proof.
  intros s s1 i x e r o (A1 & A2 & A3 & A4 & A5) B. unfold acts, ladd in *.
  destruct r as [[y e1]|]; destruct o as [| |s2]; try contradiction; auto.
  destruct B as (B1 & B2 & B3 & B4 & B5). repeat split; try congruence.
  - intros j N. rewrite B2, A2; auto.
  - rewrite B5, A5. now rewrite app_assoc.
Qed.

Definition l_data_unref (i : nat) (x : source) : loc :=
  if s_data x <=? 0 then None
  else Some (with_data x (s_data x - 1), if s_data x =? 1 then [EvFree i] else []).
Lemma data_unref_acts : forall s i, acts s i (l_data_unref i (sources s i)) (data_unref s i).
Proof.
  intros. unfold l_data_unref, data_unref. cbv zeta. destruct (s_data (sources s i) <=? 0); [exact I|].
  destruct (s_data (sources s i) =? 1).
  - change [EvFree i] with ([EvFree i] ++ []).
    pose proof (acts_pre s _ i _ _ _ _ (acts_put s i (with_data (sources s i) (s_data (sources s i) - 1)))
      (acts_say _ i (EvFree i))) as A. cbn [ladd] in A. cbn -[upd] in A |- *. now rewrite upd_same in *.
  - apply acts_put.
Qed.
Definition l_src_unref (i : nat) (x : source) : loc :=
  if s_gone x then None
  else
    let y := with_refs x (s_refs x - 1) in
    if 1 <? s_refs x then Some (y, [])
    else lbind (if s_has x then l_data_unref i (without_data y) else Some (y, [])) (fun z => Some (freed z, [])).
Lemma src_unref_acts : forall s i, acts s i (l_src_unref i (sources s i)) (src_unref s i).
Proof.
  intros. unfold l_src_unref, src_unref. cbv zeta. destruct (s_gone (sources s i)); [exact I|].
  destruct (1 <? s_refs (sources s i)); [apply acts_put|].
  apply acts_bind; [|intros; apply acts_put].
  destruct (s_has (sources s i)); [|apply acts_put].
  set (y := with_refs (sources s i) (s_refs (sources s i) - 1)).
  replace (sources (put s i y) i) with y by (cbn -[upd]; now rewrite upd_same).
  pose proof (data_unref_acts (put (put s i y) i (without_data y)) i) as A. cbn -[upd l_data_unref data_unref] in A.
  rewrite upd_same in A.
  assert (B : acts s i (Some (without_data y, [])) (Ok (put (put s i y) i (without_data y)))).
  { cbn -[upd]. repeat split; [now rewrite upd_same|]. intros j N. now rewrite !upd_other. }
  pose proof (acts_pre _ _ _ _ _ _ _ B A) as C. unfold ladd in C.
  destruct (l_data_unref i (without_data y)) as [[z e]|]; [|exact C]. now rewrite app_nil_r in C.
Qed.
Definition l_src_ref (x : source) : loc := if s_gone x then None else Some (with_refs x (s_refs x + 1), []).
Lemma src_ref_acts : forall s i, acts s i (l_src_ref (sources s i)) (src_ref s i).
Proof. intros. unfold l_src_ref, src_ref. cbv zeta. destruct (s_gone (sources s i)); [exact I|]. apply acts_put. Qed.
Definition l_src_attach (x : source) : loc :=
  if s_gone x then None
  else if s_attached x || s_destroyed x then Some (x, [])
  else Some (with_attached (with_refs x (s_refs x + 1)) true, []).
Lemma src_attach_acts : forall s i, acts s i (l_src_attach (sources s i)) (src_attach s i).
Proof.
  intros. unfold l_src_attach, src_attach. cbv zeta. destruct (s_gone (sources s i)); [exact I|].
  destruct (s_attached (sources s i) || s_destroyed (sources s i)); [apply acts_same|apply acts_put].
Qed.
Definition l_src_destroy (i : nat) (x : source) : loc :=
  if s_gone x then None
  else if s_destroyed x then Some (x, [])
  else
    let y := with_destroyed x in
    if s_attached x then
      lbind (if s_has x then l_data_unref i (without_data y) else Some (y, [])) (fun z =>
      l_src_unref i (with_attached z false))
    else Some (y, []).
Lemma src_destroy_acts : forall s i, acts s i (l_src_destroy i (sources s i)) (src_destroy s i).
Proof.
  intros. unfold l_src_destroy, src_destroy. cbv zeta. destruct (s_gone (sources s i)); [exact I|].
  destruct (s_destroyed (sources s i)); [apply acts_same|].
  destruct (s_attached (sources s i)); [|apply acts_put].
  set (y := with_destroyed (sources s i)).
  apply acts_bind.
  - destruct (s_has (sources s i)); [|apply acts_put].
    replace (sources (put s i y) i) with y by (cbn -[upd]; now rewrite upd_same).
    pose proof (data_unref_acts (put (put s i y) i (without_data y)) i) as A. cbn -[upd l_data_unref data_unref] in A.
    rewrite upd_same in A.
    assert (B : acts s i (Some (without_data y, [])) (Ok (put (put s i y) i (without_data y)))).
    { cbn -[upd]. repeat split; [now rewrite upd_same|]. intros j N. now rewrite !upd_other. }
    pose proof (acts_pre _ _ _ _ _ _ _ B A) as C. unfold ladd in C.
    destruct (l_data_unref i (without_data y)) as [[z e]|]; [|exact C]. now rewrite app_nil_r in C.
  - intros s1. pose proof (src_unref_acts (put s1 i (with_attached (sources s1 i) false)) i) as A.
    cbn -[upd l_src_unref src_unref] in A. rewrite upd_same in A.
    pose proof (acts_pre _ _ _ _ _ _ _ (acts_put s1 i (with_attached (sources s1 i) false)) A) as C. unfold ladd in C.
    destruct (l_src_unref i (with_attached (sources s1 i) false)) as [[z e]|]; [|exact C]. now rewrite app_nil_r in C.
Qed.

(* Moves as functions of one source *)
Definition call (i : nat) (x : source) : event := EvCall (s_owner x) i.
Definition l_ref (i : nat) (x : source) : loc := if s_gone x then None else ladd (l_src_ref x) [call i x].
Definition l_unref (i : nat) (x : source) : loc := if s_gone x then None else ladd (l_src_unref i x) [call i x].
Definition l_schedule (i : nat) (x : source) : loc := if s_gone x then None else ladd (l_src_attach x) [call i x].
Definition l_cancel (i : nat) (x : source) : loc :=
  if s_gone x then None else ladd (l_src_destroy i x) [EvCancel i; call i x].
Definition l_destroy (i : nat) (x : source) : loc :=
  if s_gone x then None
  else lbind (ladd (l_src_destroy i x) [EvCancel i; call i x]) (fun z => ladd (l_src_unref i z) [EvCall (s_owner x) i]).
Definition l_end (x : source) : loc := if s_data x <=? 0 then None else Some (stored x, []).
Definition l_remove (i : nat) (x : source) : loc :=
  if s_data x <=? 0 then None
  else ladd (if s_destroyed x then Some (x, []) else l_src_destroy i x) [EvCancel i; call i x].
Definition l_dispatch (i : nat) (x : source) : loc :=
  if s_gone x || (s_data x <=? 0) then None
  else Some (with_running (with_data (with_refs x (s_refs x + 1)) (s_data x + 1)) true, [EvInvoke i]).
Definition l_finished (i : nat) (again : bool) (x : source) : loc :=
  lbind (match s_kind x with
         | Later => ladd (l_unref i (with_held x (s_held x - 1))) [EvReturn i]
         | _ => Some (x, [EvReturn i])
         end) (fun y =>
  lbind (l_data_unref i (with_running y false)) (fun z =>
  lbind (if match s_kind x with Timeout => again | _ => false end then Some (z, [])
         else l_src_destroy i (match s_kind x with Timeout => with_held z 0 | _ => z end)) (fun w =>
  l_src_unref i w))).
Definition lheld (x : source) (d : Z) : source := with_held x (s_held x + d).

Lemma pre_nil : forall s s1 i x r o, acts s i (Some (x, [])) (Ok s1) -> acts s1 i r o -> acts s i r o.
Proof.
  intros s s1 i x r o A B. pose proof (acts_pre _ _ _ _ _ _ _ A B) as C. unfold ladd in C.
  destruct r as [[z e]|]; [|exact C]. now rewrite app_nil_r in C.
Qed.
Lemma after_say : forall s i e (l : source -> loc) f, (forall s, acts s i (l (sources s i)) (f s)) ->
  acts s i (ladd (l (sources s i)) [e]) (f (say s e)).
Proof. intros s i e l f A. exact (acts_pre _ _ _ _ _ _ _ (acts_say s i e) (A (say s e))). Qed.
Lemma after_say2 : forall s i e e1 (l : source -> loc) f, (forall s, acts s i (l (sources s i)) (f s)) ->
  acts s i (ladd (l (sources s i)) [e1; e]) (f (say (say s e) e1)).
Proof.
  intros s i e e1 l f A. apply (acts_pre _ (say (say s e) e1) _ (sources s i)); [|exact (A (say (say s e) e1))].
  cbn. auto.
Qed.
Lemma after_put : forall s i x (l : source -> loc) f, (forall s, acts s i (l (sources s i)) (f s)) ->
  acts s i (l x) (f (put s i x)).
Proof.
  intros s i x l f A. apply (pre_nil s (put s i x) i x); [apply acts_put|].
  specialize (A (put s i x)). cbn -[upd] in A. rewrite upd_same in A. exact A.
Qed.
Lemma ref_acts : forall s i, acts s i (l_ref i (sources s i)) (callback_ref s i).
Proof.
  intros. unfold l_ref, callback_ref. destruct (s_gone (sources s i)); [exact I|].
  exact (after_say s i _ l_src_ref (fun s => src_ref s i) (fun s => src_ref_acts s i)).
Qed.
Lemma unref_acts : forall s i, acts s i (l_unref i (sources s i)) (callback_unref s i).
Proof.
  intros. unfold l_unref, callback_unref. destruct (s_gone (sources s i)); [exact I|].
  exact (after_say s i _ (l_src_unref i) (fun s => src_unref s i) (fun s => src_unref_acts s i)).
Qed.
Lemma schedule_acts : forall s i, acts s i (l_schedule i (sources s i)) (callback_schedule s i).
Proof.
  intros. unfold l_schedule, callback_schedule. destruct (s_gone (sources s i)); [exact I|].
  exact (after_say s i _ l_src_attach (fun s => src_attach s i) (fun s => src_attach_acts s i)).
Qed.
Lemma cancel_acts : forall s i, acts s i (l_cancel i (sources s i)) (callback_cancel s i).
Proof.
  intros. unfold l_cancel, callback_cancel. destruct (s_gone (sources s i)); [exact I|].
  exact (after_say2 s i _ _ (l_src_destroy i) (fun s => src_destroy s i) (fun s => src_destroy_acts s i)).
Qed.
Lemma destroy_acts : forall s i, acts s i (l_destroy i (sources s i)) (callback_destroy s i).
Proof.
  intros. unfold l_destroy, callback_destroy. cbv zeta. destruct (s_gone (sources s i)); [exact I|]. apply acts_bind.
  - exact (after_say2 s i _ _ (l_src_destroy i) (fun s => src_destroy s i) (fun s => src_destroy_acts s i)).
  - intros s1. exact (after_say s1 i _ (l_src_unref i) (fun s => src_unref s i) (fun s => src_unref_acts s i)).
Qed.
Lemma end_acts : forall s i, acts s i (l_end (sources s i)) (timeout_end s i).
Proof. intros. unfold l_end, timeout_end. cbv zeta. destruct (s_data (sources s i) <=? 0); [exact I|]. apply acts_put. Qed.
Lemma remove_acts : forall s i, acts s i (l_remove i (sources s i)) (timeout_remove s i).
Proof.
  intros. unfold l_remove, timeout_remove. cbv zeta. destruct (s_data (sources s i) <=? 0); [exact I|].
  destruct (s_destroyed (sources s i)).
  - cbn. auto.
  - exact (after_say2 s i _ _ (l_src_destroy i) (fun s => src_destroy s i) (fun s => src_destroy_acts s i)).
Qed.
Lemma dispatch_acts : forall s i, dispatch s i <> Disabled -> acts s i (l_dispatch i (sources s i)) (dispatch s i).
Proof.
  intros s i. unfold l_dispatch, dispatch. cbv zeta.
  destruct (s_attached (sources s i) && negb (s_destroyed (sources s i)) && negb (s_running (sources s i))); [|congruence].
  intros _. destruct (s_gone (sources s i) || (s_data (sources s i) <=? 0)); [exact I|].
  cbn -[upd]. repeat split; [now rewrite upd_same|]. intros. now rewrite upd_other.
Qed.
Lemma finished_acts : forall s i again, finished s i again <> Disabled ->
  acts s i (l_finished i again (sources s i)) (finished s i again).
Proof.
  intros s i again. unfold l_finished, finished. cbv zeta. destruct (s_running (sources s i)); [|congruence].
  intros _. apply acts_bind.
  - destruct (s_kind (sources s i)); [apply acts_say|apply acts_say|].
    apply (acts_pre _ (say s (EvReturn i)) _ (sources s i)); [apply acts_say|].
    exact (after_put (say s (EvReturn i)) i _ (l_unref i) (fun s => callback_unref s i) (fun s => unref_acts s i)).
  - intros s1. apply acts_bind.
    { exact (after_put s1 i _ (l_data_unref i) (fun s => data_unref s i) (fun s => data_unref_acts s i)). }
    intros s2. apply acts_bind; [|intros s3; apply src_unref_acts].
    destruct (s_kind (sources s i)); try apply src_destroy_acts.
    destruct again; [apply acts_same|].
    exact (after_put s2 i _ (l_src_destroy i) (fun s => src_destroy s i) (fun s => src_destroy_acts s i)).
Qed.

(* What is true of one source *)
Definition b2z (b : bool) : Z := if b then 1 else 0.
Definition b2n (b : bool) : nat := if b then 1%nat else 0%nat.
Definition hold (x : source) : Z := match s_kind x with Timeout => 0 | _ => s_held x end.
Definition Alive (x : source) : Prop :=
  s_gone x = false /\ s_refs x = hold x + b2z (s_attached x) + b2z (s_running x) /\ 0 < s_refs x /\ 0 <= s_held x /\
  s_data x = b2z (s_has x) + b2z (s_running x) /\
  (s_attached x = true -> s_destroyed x = false /\ s_has x = true) /\
  (s_destroyed x = false -> s_has x = true) /\
  (s_running x = true -> s_attached x = true \/ (s_destroyed x = true /\ s_has x = false)) /\
  (s_kind x = Timeout -> s_held x = b2z (s_attached x)).
Definition Gone (x : source) : Prop :=
  s_gone x = true /\ s_held x = 0 /\ s_attached x = false /\ s_running x = false /\ s_has x = false /\ s_data x = 0.
Definition Told (i : nat) (x : source) (tr : list event) : Prop :=
  frees tr i = b2n (s_data x =? 0) /\ (invokes tr i = returns tr i + b2n (s_running x))%nat /\
  (s_kind x <> Timeout -> (invokes tr i <= 1)%nat /\ (s_destroyed x = false -> s_running x = false -> invokes tr i = 0%nat)) /\
  (cancelled tr i = true -> s_attached x = false /\ s_destroyed x = true) /\
  (s_kind x = Later ->
   (s_gone x = false /\ s_attached x = true /\ s_held x = 1 /\ cancelled tr i = false) \/ (s_gone x = true /\ returns tr i = 1%nat)) /\
  created tr i = Some (s_owner x, s_kind x).
(* What is true of the trace, for one source *)
Fixpoint fine (i : nat) (tr : list event) : Prop :=
  match tr with
  | [] => True
  | e :: l =>
    match e with
    | EvInvoke j => j = i -> cancelled l i = false /\ frees l i = 0%nat /\ invokes l i = returns l i
    | EvReturn j => j = i -> frees l i = 0%nat /\ invokes l i = S (returns l i)
    | EvFree j => j = i -> frees l i = 0%nat /\ invokes l i = returns l i
    | EvCall n j => j = i -> exists k, created l i = Some (n, k)
    | _ => True
    end /\ fine i l
  end.
Definition J (i : nat) (x : source) (tr : list event) : Prop := (Alive x \/ Gone x) /\ Told i x tr /\ fine i tr.
Definition Jloc (i : nat) (r : loc) (tr : list event) : Prop :=
  match r with Some (x, e) => J i x (e ++ tr) | None => False end.

Ltac decide_z := repeat match goal with
  | |- context [?a <? ?b] => first [rewrite (proj2 (Z.ltb_lt a b)) by lia | rewrite (proj2 (Z.ltb_ge a b)) by lia | destruct (Z.ltb_spec a b)]
  | |- context [?a <=? ?b] => first [rewrite (proj2 (Z.leb_le a b)) by lia | rewrite (proj2 (Z.leb_gt a b)) by lia | destruct (Z.leb_spec a b)]
  | |- context [?a =? ?b] => first [rewrite (proj2 (Z.eqb_eq a b)) by lia | rewrite (proj2 (Z.eqb_neq a b)) by lia | destruct (Z.eqb_spec a b)]
  | H : context [?a =? ?b] |- _ => first [rewrite (proj2 (Z.eqb_eq a b)) in H by lia | rewrite (proj2 (Z.eqb_neq a b)) in H by lia]
  end.
Ltac norm := repeat match goal with
  | H : ?x = ?x -> _ |- _ => specialize (H eq_refl)
  | H : ?x <> ?x -> _ |- _ => clear H
  | H : true = false -> _ |- _ => clear H
  | H : false = true -> _ |- _ => clear H
  | H : Callback = _ -> _ |- _ => clear H
  | H : Timeout = _ -> _ |- _ => clear H
  | H : Later = _ -> _ |- _ => clear H
  | H : Callback <> Timeout -> _ |- _ => specialize (H ltac:(discriminate))
  | H : Later <> Timeout -> _ |- _ => specialize (H ltac:(discriminate))
  | H : _ /\ _ |- _ => destruct H
  | H : _ \/ _ |- _ => destruct H
  | H : ?x = ?x |- _ => clear H
  | H : true = false |- _ => discriminate H
  | H : false = true |- _ => discriminate H
  end.
Ltac expand := cbn [with_refs with_data with_held with_attached with_destroyed without_data with_running freed stored
  s_kind s_owner s_refs s_attached s_destroyed s_has s_data s_running s_gone s_ready s_held
  b2z b2n hold app ladd lbind lheld call invokes returns frees cancelled created fine orb andb negb is_callback is_timeout] in *.
Ltac open := unfold J, Jloc, Alive, Gone, Told, hold, lheld, call, l_ref, l_unref, l_schedule, l_cancel, l_destroy, l_end, l_remove,
  l_dispatch, l_finished, l_data_unref, l_src_ref, l_src_unref, l_src_attach, l_src_destroy in *.
Ltac go := repeat progress (expand; unfold l_src_destroy, l_src_unref, l_src_ref, l_src_attach, l_unref, l_data_unref; expand; cbv zeta; decide_z;
  rewrite ?Nat.eqb_refl in *; expand).
Ltac close := norm; repeat match goal with
  | |- _ /\ _ => split
  | |- _ -> _ => intro
  | |- ?x = ?x => reflexivity
  | H : true = false |- _ => discriminate H
  | H : false = true |- _ => discriminate H
  | |- exists k, _ => eexists; eassumption
  | |- _ \/ _ => first [solve [left; close] | solve [right; close]]
  | H : cancelled ?t ?i = true -> _ |- cancelled ?t ?i = false => destruct (cancelled t i); [norm|reflexivity]
  end; try assumption; try congruence; try lia.
Ltac done := unfold J, Alive, Gone, Told, hold, call in *; go; norm; first [solve [split; [left; close|close]] | solve [split; [right; close|close]]].
Ltac start k a d h r g := destruct k; try discriminate; destruct a, d, h, r, g; open; expand; norm; subst; try lia; try congruence.

Lemma J_ref : forall i x tr, J i x tr -> is_callback x = true -> 0 < s_held x ->
  Jloc i (l_ref i (lheld x 1)) tr.
Proof.
  intros i [k n refs a d h data r g rd held] tr H K P. start k a d h r g; go; done.
Qed.
Lemma J_unref : forall i x tr, J i x tr -> is_callback x = true -> 0 < s_held x ->
  Jloc i (l_unref i (lheld x (-1))) tr.
Proof. intros i [k n refs a d h data r g rd held] tr H K P. start k a d h r g; go; done. Qed.
Lemma J_schedule : forall i x tr, J i x tr -> is_callback x = true -> 0 < s_held x ->
  Jloc i (l_schedule i x) tr.
Proof. intros i [k n refs a d h data r g rd held] tr H K P. start k a d h r g; go; done. Qed.
Lemma J_cancel : forall i x tr, J i x tr -> is_callback x = true -> 0 < s_held x ->
  Jloc i (l_cancel i x) tr.
Proof. intros i [k n refs a d h data r g rd held] tr H K P. start k a d h r g; go; done. Qed.
Lemma J_destroy : forall i x tr, J i x tr -> is_callback x = true -> 0 < s_held x ->
  Jloc i (l_destroy i (lheld x (-1))) tr.
Proof. intros i [k n refs a d h data r g rd held] tr H K P. start k a d h r g; go; done. Qed.
Lemma J_end : forall i x tr, J i x tr -> is_timeout x = true -> 0 < s_data x -> Jloc i (l_end x) tr.
Proof. intros i [k n refs a d h data r g rd held] tr H K P. start k a d h r g; go; done. Qed.
Lemma J_remove : forall i x tr, J i x tr -> is_timeout x = true -> 0 < s_held x ->
  Jloc i (l_remove i (lheld x (-1))) tr.
Proof. intros i [k n refs a d h data r g rd held] tr H K P. start k a d h r g; go; done. Qed.
Lemma J_dispatch : forall i x tr, J i x tr -> s_attached x = true -> s_destroyed x = false -> s_running x = false ->
  Jloc i (l_dispatch i x) tr.
Proof. intros i [k n refs a d h data r g rd held] tr H K P Q. start k a d h r g; go; done. Qed.

Lemma du2 : forall i x, s_data x = 2 -> l_data_unref i x = Some (with_data x 1, []).
Proof. intros i x H. unfold l_data_unref. now rewrite H. Qed.
Lemma du1 : forall i x, s_data x = 1 -> l_data_unref i x = Some (with_data x 0, [EvFree i]).
Proof. intros i x H. unfold l_data_unref. now rewrite H. Qed.
Lemma su_more : forall i x, s_gone x = false -> 1 < s_refs x -> l_src_unref i x = Some (with_refs x (s_refs x - 1), []).
Proof. intros i x G H. unfold l_src_unref. rewrite G. apply Z.ltb_lt in H. now rewrite H. Qed.
Lemma su_last : forall i x, s_gone x = false -> s_refs x <= 1 -> s_has x = false ->
  l_src_unref i x = Some (freed (with_refs x (s_refs x - 1)), []).
Proof. intros i x G H D. unfold l_src_unref. rewrite G. apply Z.ltb_ge in H. rewrite H, D. reflexivity. Qed.
Lemma sd_done : forall i x, s_gone x = false -> s_destroyed x = true -> l_src_destroy i x = Some (x, []).
Proof. intros i x G D. unfold l_src_destroy. now rewrite G, D. Qed.
Lemma sd_att : forall i x, s_gone x = false -> s_destroyed x = false -> s_attached x = true -> s_has x = true ->
  s_data x = 1 -> 1 < s_refs x ->
  l_src_destroy i x = Some (with_refs (with_attached (with_data (without_data (with_destroyed x)) 0) false) (s_refs x - 1), [EvFree i]).
Proof.
  intros i x G D A H N R. unfold l_src_destroy. rewrite G, D, A, H. rewrite du1 by exact N. cbn [lbind].
  rewrite su_more by (cbn; auto). reflexivity.
Qed.
Ltac stage := repeat (cbn [lbind ladd app s_kind]; first
  [ rewrite du2 by (cbn; lia) | rewrite du1 by (cbn; lia)
  | rewrite sd_done by (cbn; reflexivity) | rewrite sd_att by (cbn; first [reflexivity | lia])
  | rewrite su_more by (cbn; first [reflexivity | lia]) | rewrite su_last by (cbn; first [reflexivity | lia]) ]).
Lemma J_finished : forall i x tr again, J i x tr -> s_running x = true -> Jloc i (l_finished i again x) tr.
Proof.
  intros i [k n refs a d h data r g rd held] tr again ([A|A] & T & F) K; cbn in K; subst r;
    [|unfold Gone in A; cbn in A; destruct A as (_ & _ & _ & A & _); discriminate].
  unfold Alive, hold in A. cbn [s_gone s_refs s_held s_data s_attached s_destroyed s_has s_running s_kind] in A.
  destruct A as (-> & A & A1 & A2 & A3 & A4 & A5 & A6 & A7).
  assert (C : (a = true /\ d = false /\ h = true) \/ (a = false /\ d = true /\ h = false)).
  { destruct (A6 eq_refl) as [->|[-> ->]]; [left; destruct (A4 eq_refl); auto|right].
    destruct a; auto. destruct (A4 eq_refl); discriminate. }
  unfold l_finished, l_unref.
  destruct C as [(-> & -> & ->)|(-> & -> & ->)]; destruct k, again; cbn [b2z s_kind s_gone with_held] in *;
    try (assert (held = 1) by now apply A7); try (assert (held = 0) by now apply A7);
    unfold Told in T; cbn [s_gone s_refs s_held s_data s_attached s_destroyed s_has s_running s_kind s_owner] in T;
    norm.
  all: try lia.
  all: try (destruct (Z.eq_dec held 0) as [Z0|Z0]).
  all: stage.
  all: cbn [Jloc]; unfold J, Alive, Gone, Told, hold, call; go; norm; subst;
    first [solve [split; [left; close|close]] | solve [split; [right; close|close]] | idtac].

Qed.

(* Events of one source *)
Definition about (i : nat) (e : event) : Prop :=
  match e with
  | EvNew _ j _ | EvCall _ j | EvCancel j | EvInvoke j | EvReturn j | EvFree j => j = i
  | EvCleanup _ => False
  end.
Definition labout (i : nat) (r : loc) : Prop := match r with Some (_, e) => Forall (about i) e | None => True end.
Lemma labout_bind : forall i r f, labout i r -> (forall x, labout i (f x)) -> labout i (lbind r f).
Proof.
  intros i [[x e]|] f A B; [|exact I]. cbn. specialize (B x). unfold labout in *. destruct (f x) as [[y e1]|]; auto.
  apply Forall_app. auto.
Qed.
Lemma labout_add : forall i r e, labout i r -> Forall (about i) e -> labout i (ladd r e).
Proof. intros i [[x e1]|] e A B; [|exact I]. cbn in *. apply Forall_app. auto. Qed.
Lemma data_unref_about : forall i x, labout i (l_data_unref i x).
Proof. intros. unfold l_data_unref. destruct (s_data x <=? 0); cbn; auto. destruct (s_data x =? 1); cbn; auto. constructor; cbn; auto. Qed.
Lemma src_unref_about : forall i x, labout i (l_src_unref i x).
Proof.
  intros. unfold l_src_unref. destruct (s_gone x); cbn; auto. cbv zeta. destruct (1 <? s_refs x); [cbn; auto|].
  apply labout_bind; [|cbn; auto]. destruct (s_has x); [apply data_unref_about|cbn; auto].
Qed.
Lemma src_destroy_about : forall i x, labout i (l_src_destroy i x).
Proof.
  intros. unfold l_src_destroy. destruct (s_gone x); cbn; auto. destruct (s_destroyed x); cbn; auto.
  cbv zeta. destruct (s_attached x); [|cbn; auto].
  apply labout_bind; [|intros; apply src_unref_about]. destruct (s_has x); [apply data_unref_about|cbn; auto].
Qed.
Lemma src_attach_about : forall i x, labout i (l_src_attach x).
Proof. intros. unfold l_src_attach. destruct (s_gone x); cbn; auto. destruct (s_attached x || s_destroyed x); cbn; auto. Qed.
Ltac abouts := repeat (constructor; cbn; auto).
Lemma unref_about : forall i x, labout i (l_unref i x).
Proof. intros. unfold l_unref. destruct (s_gone x); [exact I|]. apply labout_add; [apply src_unref_about|abouts]. Qed.
Lemma ref_about : forall i x, labout i (l_ref i x).
Proof. intros. unfold l_ref, l_src_ref. destruct (s_gone x); [exact I|]. cbn. abouts. Qed.
Lemma schedule_about : forall i x, labout i (l_schedule i x).
Proof. intros. unfold l_schedule. destruct (s_gone x); [exact I|]. apply labout_add; [apply src_attach_about|abouts]. Qed.
Lemma cancel_about : forall i x, labout i (l_cancel i x).
Proof. intros. unfold l_cancel. destruct (s_gone x); [exact I|]. apply labout_add; [apply src_destroy_about|abouts]. Qed.
Lemma destroy_about : forall i x, labout i (l_destroy i x).
Proof.
  intros. unfold l_destroy. destruct (s_gone x); [exact I|]. apply labout_bind.
  - apply labout_add; [apply src_destroy_about|abouts].
  - intros. apply labout_add; [apply src_unref_about|abouts].
Qed.
Lemma end_about : forall i x, labout i (l_end x).
Proof. intros. unfold l_end. destruct (s_data x <=? 0); cbn; auto. Qed.
Lemma remove_about : forall i x, labout i (l_remove i x).
Proof.
  intros. unfold l_remove. destruct (s_data x <=? 0); [exact I|]. apply labout_add; [|abouts].
  destruct (s_destroyed x); [cbn; auto|apply src_destroy_about].
Qed.
Lemma dispatch_about : forall i x, labout i (l_dispatch i x).
Proof. intros. unfold l_dispatch. destruct (s_gone x || (s_data x <=? 0)); [exact I|]. cbn. abouts. Qed.
Lemma finished_about : forall i again x, labout i (l_finished i again x).
Proof.
  intros. unfold l_finished. apply labout_bind.
  - destruct (s_kind x); [cbn; abouts|cbn; abouts|]. apply labout_add; [apply unref_about|abouts].
  - intros. apply labout_bind; [apply data_unref_about|]. intros. apply labout_bind; [|intros; apply src_unref_about].
    destruct (s_kind x); try apply src_destroy_about. destruct again; [cbn; auto|apply src_destroy_about].
Qed.

(* Counters of the others *)
Definition same (j : nat) (tr1 tr : list event) : Prop :=
  frees tr1 j = frees tr j /\ invokes tr1 j = invokes tr j /\ returns tr1 j = returns tr j /\
  cancelled tr1 j = cancelled tr j /\ created tr1 j = created tr j /\ (fine j tr -> fine j tr1).
Lemma same_others : forall i j e tr, j <> i -> Forall (about i) e -> same j (e ++ tr) tr.
Proof.
  intros i j e tr N. induction e as [|v e IH]; intros A; [repeat split; auto|].
  inversion A as [|? ? A1 A2]; subst. destruct (IH A2) as (B1 & B2 & B3 & B4 & B5 & B6).
  destruct v; cbn in A1; try contradiction; subst; unfold same; cbn [app frees invokes returns cancelled created fine];
    rewrite ?(eqb_other j i) by auto; cbn [orb Nat.add]; repeat split; auto; try congruence.
Qed.
Lemma J_same : forall j x tr1 tr, same j tr1 tr -> J j x tr -> J j x tr1.
Proof.
  intros j x tr1 tr (B1 & B2 & B3 & B4 & B5 & B6) (A & T & F). split; [exact A|]. split; [|auto].
  unfold Told in *. now rewrite B1, B2, B3, B4, B5.
Qed.
Definition Fresh (i : nat) (tr : list event) : Prop :=
  frees tr i = 0%nat /\ invokes tr i = 0%nat /\ returns tr i = 0%nat /\ cancelled tr i = false /\
  created tr i = None /\ fine i tr.
Lemma Fresh_same : forall j tr1 tr, same j tr1 tr -> Fresh j tr -> Fresh j tr1.
Proof.
  intros j tr1 tr (B1 & B2 & B3 & B4 & B5 & B6) (A1 & A2 & A3 & A4 & A5 & A6). unfold Fresh.
  rewrite B1, B2, B3, B4, B5. auto 10.
Qed.
Definition Inv (s : state) : Prop :=
  (forall i, (i < count s)%nat -> J i (sources s i) (trace s)) /\
  (forall i, (count s <= i)%nat -> sources s i = nothing /\ Fresh i (trace s)).
Lemma inv_init : Inv init.
Proof. split; intros i H; cbn in *; [lia|]. repeat split. Qed.
Lemma inv_acts : forall s i r o, Inv s -> (i < count s)%nat -> acts s i r o -> Jloc i r (trace s) -> labout i r ->
  exists s1, o = Ok s1 /\ Inv s1.
Proof.
  intros s i r o [H1 H2] L A Jl Ab. unfold acts, Jloc, labout in *.
  destruct r as [[x e]|]; [|contradiction]. destruct o as [| |s1]; try contradiction.
  destruct A as (A1 & A2 & A3 & A4 & A5). exists s1. split; auto. split; intros j Hj; rewrite A3 in Hj; rewrite A5.
  - destruct (Nat.eq_dec j i) as [->|N]; [now rewrite A1|]. rewrite A2 by auto.
    apply (J_same j _ _ (trace s)); [|auto]. now apply (same_others i).
  - rewrite A2 by lia. destruct (H2 j Hj) as [X Y]. split; auto. apply (Fresh_same j _ (trace s)); auto.
    apply (same_others i); auto. lia.
Qed.
Lemma inv_fresh : forall s s1 x e, Inv s -> sources s1 (count s) = x -> (forall j, j <> count s -> sources s1 j = sources s j) ->
  count s1 = S (count s) -> trace s1 = e ++ trace s -> Forall (about (count s)) e -> J (count s) x (e ++ trace s) -> Inv s1.
Proof.
  intros s s1 x e [H1 H2] A1 A2 A3 A5 Ab Jl. split; intros j Hj; rewrite A3 in Hj; rewrite A5.
  - destruct (Nat.eq_dec j (count s)) as [->|N]; [now rewrite A1|]. rewrite A2 by auto.
    apply (J_same j _ _ (trace s)); [|apply H1; lia]. now apply (same_others (count s)).
  - rewrite A2 by lia. destruct (H2 j) as [X Y]; [lia|]. split; auto. apply (Fresh_same j _ (trace s)); auto.
    apply (same_others (count s)); auto. lia.
Qed.
Lemma J_fresh : forall s e x, Inv s -> (forall tr, Fresh (count s) tr -> J (count s) x (e ++ tr)) -> J (count s) x (e ++ trace s).
Proof. intros s e x [_ H] A. apply A. apply H. lia. Qed.
Ltac newborn := intros tr (F1 & F2 & F3 & F4 & F5 & F6);
  unfold J, Alive, Gone, Told, hold; go; rewrite ?F1, ?F2, ?F3, ?F4, ?F5; split; [left; close|close]; eauto.
Lemma inv_callback_new : forall s, Inv s -> Inv (callback_new s Callback).
Proof.
  intros s H. eapply (inv_fresh s _ _ [EvNew (current s) (count s) Callback]); try reflexivity; auto.
  - intros j N. cbn -[upd]. now rewrite upd_other.
  - abouts.
  - cbn -[upd app]. rewrite upd_same. apply J_fresh; auto. newborn.
Qed.
Lemma inv_later : forall s, Inv s -> exists s1, invoke_later s = Ok s1 /\ Inv s1.
Proof.
  intros s H. unfold invoke_later, callback_schedule, src_attach. cbn -[upd]. rewrite upd_same. cbn -[upd].
  eexists. split; [reflexivity|].
  eapply (inv_fresh s _ _ [EvCall (current s) (count s); EvNew (current s) (count s) Later]); try reflexivity; auto.
  - intros j N. cbn -[upd]. now rewrite !upd_other.
  - abouts.
  - cbn -[upd app]. rewrite !upd_same. apply J_fresh; auto. newborn.
Qed.
Lemma inv_start : forall s, Inv s -> Inv (timeout_start s).
Proof.
  intros s H. eapply (inv_fresh s _ _ [EvNew (current s) (count s) Timeout]); try reflexivity; auto.
  - intros j N. cbn -[upd]. now rewrite upd_other.
  - abouts.
  - cbn -[upd app]. rewrite upd_same. apply J_fresh; auto. newborn.
Qed.
Lemma usable_count : forall s i, Inv s -> usable s i = true ->
  (i < count s)%nat /\ is_callback (sources s i) = true /\ 0 < s_held (sources s i).
Proof.
  intros s i [_ H] U. unfold usable in U. apply andb_prop in U. destruct U as [U1 U2]. apply Z.ltb_lt in U2.
  repeat split; auto. destruct (le_lt_dec (count s) i) as [L|L]; auto.
  destruct (H i L) as [E _]. rewrite E in U2. cbn in U2. lia.
Qed.
Lemma held_acts : forall s i d (l : source -> loc) f, (forall s, acts s i (l (sources s i)) (f s)) ->
  acts s i (l (lheld (sources s i) d)) (f (held s i d)).
Proof. intros s i d l f A. exact (after_put s i (lheld (sources s i) d) l f A). Qed.
Lemma inv_schedule : forall s i, Inv s -> usable s i = true -> exists s1, callback_schedule s i = Ok s1 /\ Inv s1.
Proof.
  intros s i H U. destruct (usable_count s i H U) as (L & K & P).
  apply (inv_acts s i (l_schedule i (sources s i))); auto;
    [apply schedule_acts|apply J_schedule; auto; apply H; auto|apply schedule_about].
Qed.
Lemma inv_end : forall s i, Inv s -> (i < count s)%nat -> is_timeout (sources s i) = true -> 0 < s_data (sources s i) ->
  exists s1, timeout_end s i = Ok s1 /\ Inv s1.
Proof.
  intros s i H L K P. apply (inv_acts s i (l_end (sources s i))); auto;
    [apply end_acts|apply J_end; auto; apply H; auto|apply end_about].
Qed.
Lemma finished_enabled : forall s i again, s_running (sources s i) = true -> finished s i again <> Disabled.
Proof.
  intros s i again U E. unfold finished in E. cbv zeta in E. rewrite U in E.
      assert (N : forall r f, r <> Disabled -> (forall s, f s <> Disabled) -> obind r f <> Disabled).
      { intros r f A B. destruct r; cbn; auto. }
      assert (Nd : forall s, data_unref s i <> Disabled).
      { intros s0. unfold data_unref. cbv zeta. destruct (s_data (sources s0 i) <=? 0); [discriminate|].
        destruct (s_data (sources s0 i) =? 1); discriminate. }
      assert (Nu : forall s, src_unref s i <> Disabled).
      { intros s0. unfold src_unref. cbv zeta. destruct (s_gone (sources s0 i)); [discriminate|].
        destruct (1 <? s_refs (sources s0 i)); [discriminate|]. apply N; [|discriminate].
        destruct (s_has (sources s0 i)); [apply Nd|discriminate]. }
      assert (Ns : forall s, src_destroy s i <> Disabled).
      { intros s0. unfold src_destroy. cbv zeta. destruct (s_gone (sources s0 i)); [discriminate|].
        destruct (s_destroyed (sources s0 i)); [discriminate|]. destruct (s_attached (sources s0 i)); [|discriminate].
        apply N; [|intros; apply Nu]. destruct (s_has (sources s0 i)); [apply Nd|discriminate]. }
      revert E. apply N.
      - destruct (s_kind (sources s i)); try discriminate. unfold callback_unref.
        match goal with |- (if ?b then _ else _) <> _ => destruct b end; [discriminate|apply Nu].
      - intros s0. apply N; [apply Nd|]. intros s2. apply N; [|intros; apply Nu].
        destruct (s_kind (sources s i)); try apply Ns. destruct again; [discriminate|apply Ns].
Qed.
(* The only step which may go wrong is the second half of adding a timeout *)
Lemma step_ok : forall s m, Inv s ->
  step s m = Disabled \/ (exists s1, step s m = Ok s1 /\ Inv s1) \/
  (exists i, m = MEnd i /\ s_data (sources s i) <= 0 /\ s_ready (sources s i) = false).
Proof.
  intros s [| |i|i|i|i|i| | | |i|i|n|i|i again] H; cbn [step].
  - right. left. eexists. split; [reflexivity|]. now apply inv_callback_new.
  - right. left. unfold callback_schedule_new. pose proof (inv_callback_new s H) as H1.
    apply inv_schedule; auto. unfold usable. cbn -[upd]. rewrite upd_same. reflexivity.
  - destruct (usable s i) eqn:U; [|auto]. right. left. destruct (usable_count s i H U) as (L & K & P).
    apply (inv_acts s i (l_ref i (lheld (sources s i) 1))); auto.
    + exact (held_acts s i 1 (l_ref i) (fun s => callback_ref s i) (fun s => ref_acts s i)).
    + apply J_ref; auto. now apply H.
    + apply ref_about.
  - destruct (usable s i) eqn:U; [|auto]. right. left. destruct (usable_count s i H U) as (L & K & P).
    apply (inv_acts s i (l_unref i (lheld (sources s i) (-1)))); auto.
    + exact (held_acts s i (-1) (l_unref i) (fun s => callback_unref s i) (fun s => unref_acts s i)).
    + apply J_unref; auto. now apply H.
    + apply unref_about.
  - destruct (usable s i) eqn:U; [|auto]. right. left. now apply inv_schedule.
  - destruct (usable s i) eqn:U; [|auto]. right. left. destruct (usable_count s i H U) as (L & K & P).
    apply (inv_acts s i (l_cancel i (sources s i))); auto.
    + apply cancel_acts.
    + apply J_cancel; auto. now apply H.
    + apply cancel_about.
  - destruct (usable s i) eqn:U; [|auto]. right. left. destruct (usable_count s i H U) as (L & K & P).
    apply (inv_acts s i (l_destroy i (lheld (sources s i) (-1)))); auto.
    + exact (held_acts s i (-1) (l_destroy i) (fun s => callback_destroy s i) (fun s => destroy_acts s i)).
    + apply J_destroy; auto. now apply H.
    + apply destroy_about.
  - right. left. now apply inv_later.
  - right. left. apply inv_end; [now apply inv_start|cbn; lia| |]; cbn -[upd]; rewrite upd_same; cbn; auto; lia.
  - right. left. eexists. split; [reflexivity|]. now apply inv_start.
  - destruct (is_timeout (sources s i)) eqn:K; [|auto]. destruct (s_ready (sources s i)) eqn:R; [auto|].
    cbn [andb negb]. destruct (i <? count s)%nat eqn:L; [|auto]. apply Nat.ltb_lt in L. right.
    destruct (Z_lt_le_dec 0 (s_data (sources s i))) as [D|D].
    + left. now apply inv_end.
    + right. eauto.
  - destruct (is_timeout (sources s i) && s_ready (sources s i) && (0 <? s_held (sources s i))) eqn:U; [|auto].
    apply andb_prop in U. destruct U as [U P]. apply andb_prop in U. destruct U as [K _]. apply Z.ltb_lt in P.
    assert (L : (i < count s)%nat).
    { destruct (le_lt_dec (count s) i) as [L|L]; auto. destruct (proj2 H i L) as [E _]. rewrite E in P. cbn in P. lia. }
    right. left. apply (inv_acts s i (l_remove i (lheld (sources s i) (-1)))); auto.
    + exact (held_acts s i (-1) (l_remove i) (fun s => timeout_remove s i) (fun s => remove_acts s i)).
    + apply J_remove; auto. now apply H.
    + apply remove_about.
  - right. left. eexists. split; [reflexivity|]. unfold eventloop_set. destruct (Nat.eqb (current s) n); auto.
    destruct H as [H1 H2]. split; intros i L; cbn in *.
    + apply (J_same i _ _ (trace s)); auto. repeat split; auto.
    + destruct (H2 i L) as [X Y]. split; auto. apply (Fresh_same i _ (trace s)); auto. repeat split; auto.
  - destruct (s_attached (sources s i) && negb (s_destroyed (sources s i)) && negb (s_running (sources s i))) eqn:U;
      [|unfold dispatch; cbv zeta; rewrite U; auto].
    apply andb_prop in U as U1. destruct U1 as [U1 U3]. apply andb_prop in U1. destruct U1 as [U1 U2].
    apply negb_true_iff in U2, U3.
    assert (L : (i < count s)%nat).
    { destruct (le_lt_dec (count s) i) as [L|L]; auto. destruct (proj2 H i L) as [E _]. rewrite E in U1. discriminate. }
    right. left. apply (inv_acts s i (l_dispatch i (sources s i))); auto.
    + apply dispatch_acts. unfold dispatch. cbv zeta. rewrite U.
      destruct (s_gone (sources s i) || (s_data (sources s i) <=? 0)); discriminate.
    + apply J_dispatch; auto. now apply H.
    + apply dispatch_about.
  - destruct (s_running (sources s i)) eqn:U; [|unfold finished; cbv zeta; rewrite U; auto].
    assert (L : (i < count s)%nat).
    { destruct (le_lt_dec (count s) i) as [L|L]; auto. destruct (proj2 H i L) as [E _]. rewrite E in U. discriminate. }
    pose proof (J_finished i _ (trace s) again (proj1 H i L) U) as Jf.
    right. left. destruct (finished s i again) as [| |s1] eqn:E.
    { exfalso. exact (finished_enabled s i again U E). }
    + rewrite <- E. apply (inv_acts s i (l_finished i again (sources s i))); auto.
      * apply finished_acts. congruence.
      * apply finished_about.
    + rewrite <- E. apply (inv_acts s i (l_finished i again (sources s i))); auto.
      * apply finished_acts. congruence.
      * apply finished_about.
Qed.
Lemma inv_step : forall s m s1, Inv s -> step s m = Ok s1 -> Inv s1.
Proof.
  intros s m s1 H E. destruct (step_ok s m H) as [D|[(s2 & D & I)|(i & -> & D & R)]]; try congruence.
  - exfalso. cbn [step] in E. destruct (is_timeout (sources s i) && negb (s_ready (sources s i)) && (i <? count s)%nat); [|discriminate].
    unfold timeout_end in E. cbv zeta in E. apply Z.leb_le in D. rewrite D in E. discriminate.
Qed.
Lemma inv_run : forall l s s1, Inv s -> run s l = Ok s1 -> Inv s1.
Proof.
  induction l as [|m r IH]; intros s s1 H U; cbn in U; [now injection U as <-|].
  destruct (step s m) as [| |s2] eqn:E; try discriminate. exact (IH _ _ (inv_step _ _ _ H E) U).
Qed.
Lemma reach : forall l s, run init l = Ok s -> Inv s.
Proof. intros l s. apply inv_run. exact inv_init. Qed.
(* Without other threads all timeouts are ready *)
Definition Ready (s : state) : Prop := forall i, s_ready (sources s i) = true.
Lemma ready_loc : forall s i r s1, acts s i r (Ok s1) ->
  match r with Some (x, _) => s_ready x = true | None => True end -> Ready s -> Ready s1.
Proof.
  intros s i [[x e]|] s1 A R H; [|contradiction]. destruct A as (A1 & A2 & _). intros j.
  destruct (Nat.eq_dec j i) as [->|N]; [congruence|]. rewrite A2; auto.
Qed.
Definition keeps (f : source -> loc) : Prop :=
  forall x, match f x with Some (y, _) => s_ready y = s_ready x | None => True end.
Lemma keeps_bind : forall x0 r f, match r with Some (y, _) => s_ready y = s_ready x0 | None => True end -> keeps f ->
  match lbind r f with Some (y, _) => s_ready y = s_ready x0 | None => True end.
Proof.
  intros x0 [[x e]|] f A B; [|exact I]. cbn. specialize (B x). destruct (f x) as [[y e1]|]; auto. congruence.
Qed.
Lemma keeps_add : forall x0 r e, match r with Some (y, _) => s_ready y = s_ready x0 | None => True end ->
  match ladd r e with Some (y, _) => s_ready y = s_ready x0 | None => True end.
Proof. intros x0 [[x e1]|] e A; [|exact I]. exact A. Qed.
Lemma keeps_data : forall i, keeps (l_data_unref i).
Proof. intros i x. unfold l_data_unref. now destruct (s_data x <=? 0). Qed.
Lemma keeps_unref : forall i, keeps (l_src_unref i).
Proof.
  intros i x. unfold l_src_unref. destruct (s_gone x); [exact I|]. cbv zeta. destruct (1 <? s_refs x); [reflexivity|].
  apply keeps_bind; [|intros y; reflexivity]. destruct (s_has x); [|reflexivity].
  exact (keeps_data i (without_data (with_refs x (s_refs x - 1)))).
Qed.
Lemma keeps_destroy : forall i, keeps (l_src_destroy i).
Proof.
  intros i x. unfold l_src_destroy. destruct (s_gone x); [exact I|]. destruct (s_destroyed x); [reflexivity|].
  cbv zeta. destruct (s_attached x); [|reflexivity]. apply keeps_bind.
  - destruct (s_has x); [|reflexivity]. exact (keeps_data i (without_data (with_destroyed x))).
  - intros y. exact (keeps_unref i (with_attached y false)).
Qed.
Lemma ready_step : forall s m s1, m <> MStart -> Ready s -> step s m = Ok s1 -> Ready s1.
Proof.
  intros s [| |i|i|i|i|i| | | |i|i|n|i|i again] s1 NS R E; cbn [step] in E; try congruence.
  - injection E as <-. intros j. cbn -[upd]. unfold upd. destruct (Nat.eqb j (count s)); [reflexivity|apply R].
  - unfold callback_schedule_new in E. pose proof (schedule_acts (callback_new s Callback) (count s)) as A. rewrite E in A.
    eapply ready_loc; [exact A| |].
    + unfold l_schedule, l_src_attach. cbn -[upd]. rewrite upd_same. reflexivity.
    + intros j. cbn -[upd]. unfold upd. destruct (Nat.eqb j (count s)); [reflexivity|apply R].
  - destruct (usable s i); [|discriminate].
    pose proof (held_acts s i 1 (l_ref i) (fun s => callback_ref s i) (fun s => ref_acts s i)) as A. cbv beta in A. rewrite E in A.
    eapply ready_loc; [exact A| |exact R]. unfold l_ref, l_src_ref. cbn. destruct (s_gone (sources s i)); cbn; auto.
  - destruct (usable s i); [|discriminate].
    pose proof (held_acts s i (-1) (l_unref i) (fun s => callback_unref s i) (fun s => unref_acts s i)) as A. cbv beta in A. rewrite E in A.
    eapply ready_loc; [exact A| |exact R]. rewrite <- (R i).
    unfold l_unref. destruct (s_gone (lheld (sources s i) (-1))); [exact I|]. apply keeps_add.
    exact (keeps_unref i (lheld (sources s i) (-1))).
  - destruct (usable s i); [|discriminate]. pose proof (schedule_acts s i) as A. rewrite E in A.
    eapply ready_loc; [exact A| |exact R]. unfold l_schedule, l_src_attach. destruct (s_gone (sources s i)); [exact I|].
    destruct (s_attached (sources s i) || s_destroyed (sources s i)); cbn; auto.
  - destruct (usable s i); [|discriminate]. pose proof (cancel_acts s i) as A. rewrite E in A.
    eapply ready_loc; [exact A| |exact R]. rewrite <- (R i). unfold l_cancel. destruct (s_gone (sources s i)); [exact I|].
    apply keeps_add. apply keeps_destroy.
  - destruct (usable s i); [|discriminate].
    pose proof (held_acts s i (-1) (l_destroy i) (fun s => callback_destroy s i) (fun s => destroy_acts s i)) as A. cbv beta in A. rewrite E in A.
    eapply ready_loc; [exact A| |exact R]. rewrite <- (R i). unfold l_destroy.
    destruct (s_gone (lheld (sources s i) (-1))); [exact I|]. apply keeps_bind.
    + apply keeps_add. exact (keeps_destroy i (lheld (sources s i) (-1))).
    + intros y. apply keeps_add. apply keeps_unref.
  - unfold invoke_later in E. pose proof (schedule_acts (callback_new s Later) (count s)) as A. rewrite E in A.
    eapply ready_loc; [exact A| |].
    + unfold l_schedule, l_src_attach. cbn -[upd]. rewrite upd_same. reflexivity.
    + intros j. cbn -[upd]. unfold upd. destruct (Nat.eqb j (count s)); [reflexivity|apply R].
  - unfold timeout_end in E. cbn -[upd] in E. rewrite upd_same in E. cbn -[upd] in E. injection E as <-.
    intros j. cbn -[upd]. unfold upd. destruct (Nat.eqb j (count s)); [reflexivity|apply R].
  - rewrite (R i) in E. cbn in E. rewrite Bool.andb_false_r in E. discriminate.
  - destruct (is_timeout (sources s i) && s_ready (sources s i) && (0 <? s_held (sources s i))); [|discriminate].
    pose proof (held_acts s i (-1) (l_remove i) (fun s => timeout_remove s i) (fun s => remove_acts s i)) as A. cbv beta in A. rewrite E in A.
    eapply ready_loc; [exact A| |exact R]. rewrite <- (R i). unfold l_remove.
    destruct (s_data (lheld (sources s i) (-1)) <=? 0); [exact I|]. apply keeps_add.
    destruct (s_destroyed (lheld (sources s i) (-1))); [reflexivity|]. exact (keeps_destroy i (lheld (sources s i) (-1))).
  - injection E as <-. unfold eventloop_set. destruct (Nat.eqb (current s) n); exact R.
  - pose proof (dispatch_acts s i ltac:(congruence)) as A. rewrite E in A.
    eapply ready_loc; [exact A| |exact R]. unfold l_dispatch. destruct (s_gone (sources s i) || (s_data (sources s i) <=? 0)); cbn; auto.
  - pose proof (finished_acts s i again ltac:(congruence)) as A. rewrite E in A.
    eapply ready_loc; [exact A| |exact R]. rewrite <- (R i). unfold l_finished. apply keeps_bind.
    + destruct (s_kind (sources s i)); try reflexivity. apply keeps_add. unfold l_unref.
      destruct (s_gone (with_held (sources s i) (s_held (sources s i) - 1))); [exact I|]. apply keeps_add.
      exact (keeps_unref i (with_held (sources s i) (s_held (sources s i) - 1))).
    + intros y. apply keeps_bind; [exact (keeps_data i (with_running y false))|]. intros z. apply keeps_bind.
      * destruct (s_kind (sources s i)); try apply keeps_destroy. destruct again; [reflexivity|].
        exact (keeps_destroy i (with_held z 0)).
      * intros w. apply keeps_unref.
Qed.
Lemma safe_run : forall l s, Inv s -> Ready s -> on_loop l -> run s l <> Crash.
Proof.
  induction l as [|m r IH]; intros s H R O; cbn; [discriminate|].
  assert (NS : m <> MStart) by (apply O; now left).
  destruct (step_ok s m H) as [D|[(s2 & D & I)|(i & -> & D & Q)]].
  - rewrite D. discriminate.
  - rewrite D. apply IH; auto; [now apply (ready_step s m)|]. intros m1 H1. apply O. now right.
  - rewrite R in Q. discriminate.
Qed.
Lemma run_app : forall l s r, run s (l ++ r) = match run s l with Ok s1 => run s1 r | x => x end.
Proof. induction l as [|m l IH]; intros; cbn; auto. destruct (step s m); auto. Qed.

(* What the trace says about one moment *)
Lemma fine_all : forall l s, run init l = Ok s -> forall i, fine i (trace s).
Proof.
  intros l s R i. pose proof (reach l s R) as H. destruct (le_lt_dec (count s) i) as [L|L].
  - apply (proj2 H i L).
  - apply (proj1 H i L).
Qed.
Lemma fine_split : forall i a b, fine i (a ++ b) -> fine i b.
Proof. intros i a b. induction a as [|e a IH]; cbn; auto. intros [_ F]. auto. Qed.
Lemma frees_app : forall i a b, frees (a ++ b) i = (frees a i + frees b i)%nat.
Proof. intros i a b. induction a as [|[ ] a IH]; cbn; auto. rewrite IH. lia. Qed.
Lemma invokes_app : forall i a b, invokes (a ++ b) i = (invokes a i + invokes b i)%nat.
Proof. intros i a b. induction a as [|[ ] a IH]; cbn; auto. rewrite IH. lia. Qed.
Lemma cancelled_app : forall i a b, cancelled (a ++ b) i = cancelled a i || cancelled b i.
Proof. intros i a b. induction a as [|[ ] a IH]; cbn; auto. rewrite IH. now rewrite Bool.orb_assoc. Qed.

(* Who is called *)
Definition by_owner (n : nat) (v : event) : Prop := forall m, calls v m = true -> m = n.
Definition lown (n : nat) (r : loc) : Prop :=
  match r with Some (y, e) => s_owner y = n /\ Forall (by_owner n) e | None => True end.
Lemma lown_bind : forall n r f, lown n r -> (forall x, s_owner x = n -> lown n (f x)) -> lown n (lbind r f).
Proof.
  intros n [[x e]|] f A B; [|exact I]. destruct A as [A1 A2]. cbn. specialize (B x A1). unfold lown in *.
  destruct (f x) as [[y e1]|]; auto. destruct B as [B1 B2]. split; auto. apply Forall_app. auto.
Qed.
Lemma lown_add : forall n r e, lown n r -> Forall (by_owner n) e -> lown n (ladd r e).
Proof. intros n [[x e1]|] e A B; [|exact I]. destruct A as [A1 A2]. cbn. split; auto. apply Forall_app. auto. Qed.
Lemma own_call : forall n i, by_owner n (EvCall n i).
Proof. intros n i m H. cbn in H. apply Nat.eqb_eq in H. auto. Qed.
Ltac owns := repeat constructor; try apply own_call; try (intros ? ?; discriminate).
Lemma own_data : forall n i x, s_owner x = n -> lown n (l_data_unref i x).
Proof.
  intros n i x H. unfold l_data_unref. destruct (s_data x <=? 0); [exact I|]. cbn. split; auto.
  destruct (s_data x =? 1); owns.
Qed.
Lemma own_src_unref : forall n i x, s_owner x = n -> lown n (l_src_unref i x).
Proof.
  intros n i x H. unfold l_src_unref. destruct (s_gone x); [exact I|]. cbv zeta.
  destruct (1 <? s_refs x); [cbn; auto|]. apply lown_bind; [|intros; cbn; auto].
  destruct (s_has x); [now apply own_data|cbn; auto].
Qed.
Lemma own_src_destroy : forall n i x, s_owner x = n -> lown n (l_src_destroy i x).
Proof.
  intros n i x H. unfold l_src_destroy. destruct (s_gone x); [exact I|]. destruct (s_destroyed x); [cbn; auto|].
  cbv zeta. destruct (s_attached x); [|cbn; auto]. apply lown_bind; [|intros; now apply own_src_unref].
  destruct (s_has x); [now apply own_data|cbn; auto].
Qed.
Lemma own_src_attach : forall n x, s_owner x = n -> lown n (l_src_attach x).
Proof.
  intros n x H. unfold l_src_attach. destruct (s_gone x); [exact I|].
  destruct (s_attached x || s_destroyed x); cbn; auto.
Qed.
Lemma own_unref : forall n i x, s_owner x = n -> lown n (l_unref i x).
Proof.
  intros n i x H. unfold l_unref. destruct (s_gone x); [exact I|]. apply lown_add; [now apply own_src_unref|].
  unfold call. rewrite H. owns.
Qed.
(* A move uses at most one existing object, which hasn't been freed *)
Definition target (m : move) : option nat :=
  match m with
  | MRef i | MUnref i | MSchedule i | MCancel i | MDestroy i | MRemove i | MReturn i _ => Some i
  | _ => None
  end.
Lemma alive_of : forall i x tr, J i x tr -> 0 < s_held x \/ s_running x = true -> s_gone x = false.
Proof.
  intros i x tr ([A|A] & _) H; [apply A|]. destruct A as (_ & A1 & _ & A2 & _). destruct H; [lia|congruence].
Qed.
Lemma who_is_called : forall s m s1 e v n, Inv s -> step s m = Ok s1 -> trace s1 = e ++ trace s -> In v e -> calls v n = true ->
  n = current s \/ (exists i, target m = Some i /\ (i < count s)%nat /\ s_owner (sources s i) = n /\ s_gone (sources s i) = false).
Proof.
  intros s m s1 e v n H E T V C.
  assert (AP : forall e1, trace s1 = e1 ++ trace s -> e = e1) by (intros e1 T1; rewrite T in T1; now apply app_inv_tail in T1).
  assert (LO : forall i r, acts s i r (Ok s1) -> lown (s_owner (sources s i)) r -> n = s_owner (sources s i)).
  { intros i [[y e1]|] A L; [|contradiction]. destruct A as (_ & _ & _ & _ & A). destruct L as [_ L].
    apply AP in A. subst e1. rewrite Forall_forall in L. exact (L v V n C). }
  assert (US : forall i, usable s i = true -> (i < count s)%nat /\ s_gone (sources s i) = false).
  { intros i U. destruct (usable_count s i H U) as (L & K & P). split; auto.
    apply (alive_of i _ (trace s)); auto. now apply H. }
  destruct m as [| |i|i|i|i|i| | | |i|i|k|i|i again]; cbn [step target] in *.
  - left. injection E as <-. specialize (AP [EvNew (current s) (count s) Callback] eq_refl). subst e.
    destruct V as [<-|[]]. cbn in C. apply Nat.eqb_eq in C. auto.
  - left. unfold callback_schedule_new, callback_schedule, src_attach in E. cbn -[upd] in E. rewrite upd_same in E.
    cbn -[upd] in E. injection E as <-.
    specialize (AP [EvCall (current s) (count s); EvNew (current s) (count s) Callback] eq_refl). subst e.
    destruct V as [<-|[<-|[]]]; cbn in C; apply Nat.eqb_eq in C; auto.
  - right. destruct (usable s i) eqn:U; [|discriminate]. destruct (US i U) as [L G]. exists i. repeat split; auto.
    symmetry. pose proof (held_acts s i 1 (l_ref i) (fun s => callback_ref s i) (fun s => ref_acts s i)) as A.
    cbv beta in A. rewrite E in A. apply (LO i _ A). unfold l_ref, l_src_ref. cbn. rewrite G. cbn. split; auto. owns.
  - right. destruct (usable s i) eqn:U; [|discriminate]. destruct (US i U) as [L G]. exists i. repeat split; auto.
    symmetry. pose proof (held_acts s i (-1) (l_unref i) (fun s => callback_unref s i) (fun s => unref_acts s i)) as A.
    cbv beta in A. rewrite E in A. apply (LO i _ A). now apply own_unref.
  - right. destruct (usable s i) eqn:U; [|discriminate]. destruct (US i U) as [L G]. exists i. repeat split; auto.
    symmetry. pose proof (schedule_acts s i) as A. rewrite E in A. apply (LO i _ A). unfold l_schedule.
    rewrite G. apply lown_add; [now apply own_src_attach|owns].
  - right. destruct (usable s i) eqn:U; [|discriminate]. destruct (US i U) as [L G]. exists i. repeat split; auto.
    symmetry. pose proof (cancel_acts s i) as A. rewrite E in A. apply (LO i _ A). unfold l_cancel.
    rewrite G. apply lown_add; [now apply own_src_destroy|owns].
  - right. destruct (usable s i) eqn:U; [|discriminate]. destruct (US i U) as [L G]. exists i. repeat split; auto.
    symmetry. pose proof (held_acts s i (-1) (l_destroy i) (fun s => callback_destroy s i) (fun s => destroy_acts s i)) as A.
    cbv beta in A. rewrite E in A. apply (LO i _ A). unfold l_destroy. cbn [s_gone lheld with_held]. rewrite G.
    apply lown_bind.
    + apply lown_add; [now apply own_src_destroy|]. owns.
    + intros y Y. apply lown_add; [now apply own_src_unref|]. cbn. owns.
  - left. unfold invoke_later, callback_schedule, src_attach in E. cbn -[upd] in E. rewrite upd_same in E.
    cbn -[upd] in E. injection E as <-.
    specialize (AP [EvCall (current s) (count s); EvNew (current s) (count s) Later] eq_refl). subst e.
    destruct V as [<-|[<-|[]]]; cbn in C; apply Nat.eqb_eq in C; auto.
  - left. unfold timeout_end in E. cbn -[upd] in E. rewrite upd_same in E. cbn -[upd] in E. injection E as <-.
    specialize (AP [EvNew (current s) (count s) Timeout] eq_refl). subst e.
    destruct V as [<-|[]]. cbn in C. apply Nat.eqb_eq in C. auto.
  - left. injection E as <-. specialize (AP [EvNew (current s) (count s) Timeout] eq_refl). subst e.
    destruct V as [<-|[]]. cbn in C. apply Nat.eqb_eq in C. auto.
  - exfalso. destruct (is_timeout (sources s i) && negb (s_ready (sources s i)) && (i <? count s)%nat); [|discriminate].
    unfold timeout_end in E. cbv zeta in E. destruct (s_data (sources s i) <=? 0); [discriminate|]. injection E as <-.
    specialize (AP [] eq_refl). subst e. destruct V.
  - right. destruct (is_timeout (sources s i) && s_ready (sources s i) && (0 <? s_held (sources s i))) eqn:U; [|discriminate].
    apply andb_prop in U. destruct U as [U P]. apply Z.ltb_lt in P.
    assert (L : (i < count s)%nat).
    { destruct (le_lt_dec (count s) i) as [L|L]; auto. destruct (proj2 H i L) as [X _]. rewrite X in P. cbn in P. lia. }
    exists i. repeat split; auto; [|apply (alive_of i _ (trace s)); auto; now apply H].
    symmetry. pose proof (held_acts s i (-1) (l_remove i) (fun s => timeout_remove s i) (fun s => remove_acts s i)) as A.
    cbv beta in A. rewrite E in A. apply (LO i _ A). unfold l_remove.
    destruct (s_data (lheld (sources s i) (-1)) <=? 0); [exact I|]. apply lown_add; [|owns].
    destruct (s_destroyed (lheld (sources s i) (-1))); [cbn; auto|now apply own_src_destroy].
  - exfalso. injection E as <-. unfold eventloop_set in *. destruct (Nat.eqb (current s) k).
    + specialize (AP [] eq_refl). subst e. destruct V.
    + specialize (AP [EvCleanup (current s)] eq_refl). subst e. destruct V as [<-|[]]. discriminate.
  - exfalso. unfold dispatch in E. cbv zeta in E.
    destruct (s_attached (sources s i) && negb (s_destroyed (sources s i)) && negb (s_running (sources s i))); [|discriminate].
    destruct (s_gone (sources s i) || (s_data (sources s i) <=? 0)); [discriminate|]. injection E as <-.
    specialize (AP [EvInvoke i] eq_refl). subst e. destruct V as [<-|[]]. discriminate.
  - right. assert (U : s_running (sources s i) = true).
    { unfold finished in E. cbv zeta in E. destruct (s_running (sources s i)); [reflexivity|discriminate]. }
    assert (L : (i < count s)%nat).
    { destruct (le_lt_dec (count s) i) as [L|L]; auto. destruct (proj2 H i L) as [X _]. rewrite X in U. discriminate. }
    exists i. repeat split; auto; [|apply (alive_of i _ (trace s)); auto; now apply H].
    symmetry. pose proof (finished_acts s i again ltac:(congruence)) as A. rewrite E in A. apply (LO i _ A).
    unfold l_finished. apply lown_bind.
    + destruct (s_kind (sources s i)); try (cbn; split; auto; owns).
      apply lown_add; [now apply own_unref|owns].
    + intros y Y. apply lown_bind; [now apply own_data|]. intros z Z0. apply lown_bind; [|intros; now apply own_src_unref].
      destruct (s_kind (sources s i)); try (now apply own_src_destroy). destruct again; [cbn; auto|now apply own_src_destroy].
Qed.
