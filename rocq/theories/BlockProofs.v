(* Proofs about incoming transactions: one transaction and its pipe *)
From Verif Require Import Base BlockModel BlockSpec.

Definition b2z (b : bool) : Z := if b then 1 else 0.

(* How the answer is decided *)
Inductive verdict := Undecided | ByHandler | ByCompletion | Decided (a : answer).
Definition judge (k : nat) (v : verdict) (e : bev) : verdict :=
  if about k e then
    match v, e with
    | Undecided, BlockCalled _ => ByCompletion
    | Undecided, CompleteCalled _ _ => ByHandler
    | Undecided, HandlerReturned _ a => Decided a
    | ByHandler, HandlerReturned _ a => Decided a
    | ByCompletion, CompleteCalled _ a => Decided a
    | ByCompletion, Dropped _ => Decided (None, - ECANCELED)
    | _, _ => v
    end
  else v.
Definition outcome (k : nat) (t : list bev) : verdict := fold_left (judge k) t Undecided.

Lemma outcome_app k t1 t2 : outcome k (t1 ++ t2) = fold_left (judge k) t2 (outcome k t1).
Proof. unfold outcome. apply fold_left_app. Qed.

(* Where the thread is with respect to the transaction *)
Inductive mode := MAway | MWait1 | MWait2 | MTake (done : bool) | MUnref (a : answer) | MCancel (a : answer) | MSent.
Definition mode_of (th : phase) (k : nat) : mode :=
  match th with
  | TIdle => MAway
  | TWait1 j => if Nat.eqb j k then MWait1 else MAway
  | TWait2 j => if Nat.eqb j k then MWait2 else MAway
  | TTake j d => if Nat.eqb j k then MTake d else MAway
  | TUnref j a => if Nat.eqb j k then MUnref a else MAway
  | TCancel j a => if Nat.eqb j k then MCancel a else MAway
  | TSent j => if Nat.eqb j k then MSent else MAway
  end.
(* The thread has a reference to the transaction, to the request *)
Definition holds (m : mode) : bool :=
  match m with MWait1 | MWait2 | MTake _ | MUnref _ => true | _ => false end.
Definition drives (m : mode) : bool := match m with MAway => false | _ => true end.

Definition cb_alive (c : cbstate) : bool := match c with CbGone => false | _ => true end.

Definition state_ok (m : mode) (t : ltx) : Prop :=
  match x_cb t, x_state t with
  | CbPending, SCHEDULED => q_has_tx t = false /\ x_has_req t = true /\ q_app t = 0 /\ (m = MSent \/ m = MAway -> False)
  | CbGone, SCHEDULED => q_has_tx t = false /\ x_has_req t = true /\ q_app t = 0 /\ match m with MSent | MAway | MCancel _ => True | _ => False end
  | CbRunning, PROCESSING => x_has_req t = true
  | CbRunning, PROCESSED => x_has_req t = true /\ q_has_tx t = false
  | CbRunning, BLOCKING => x_has_req t = true /\ q_has_tx t = true
  | (CbReturned | CbGone), BLOCKED => x_has_req t = false /\ q_has_tx t = true /\ 0 < q_refs t
  | (CbReturned | CbGone), COMPLETE => q_has_tx t = false
  | _, _ => False
  end.

Definition verdict_ok (v : verdict) (t : ltx) : Prop :=
  match x_state t with
  | SCHEDULED => v = Undecided
  | PROCESSING => v = if q_has_tx t then Undecided else ByHandler
  | BLOCKING | BLOCKED => v = ByCompletion
  | PROCESSED | COMPLETE => v = Decided (x_answer t)
  end.

(* The contents of the pipe while the thread is waiting, and what it has read *)
Definition wait_ok (m : mode) (stop : bool) (t : ltx) (p : option (list note)) : Prop :=
  match m with
  | MWait1 =>
    match x_state t with
    | BLOCKED => p = Some [TX_BLOCKED]
    | COMPLETE => p = Some (if x_has_req t then [TX_DONE] else [TX_BLOCKED; TX_DONE])
    | _ => p = Some []
    end
  | MWait2 =>
    match x_state t with
    | BLOCKED => p = Some []
    | COMPLETE => p = Some [TX_DONE] /\ x_has_req t = false
    | _ => False
    end
  | MTake true => p = Some [] /\ x_state t = COMPLETE
  | MTake false => stop = true
  | MUnref a => p = Some [] /\ x_state t = COMPLETE /\ a = x_answer t \/ stop = true /\ a = (None, - EFAULT)
  | MCancel a => x_state t = COMPLETE /\ a = x_answer t \/ stop = true /\ a = (None, - EFAULT)
  | MAway | MSent => True
  end.

Record cell_ok (m : mode) (stop : bool) (v : verdict) (t : ltx) (p : option (list note)) : Prop := {
  ok_refs : x_refs t = b2z (holds m) + b2z (cb_alive (x_cb t)) + b2z (q_has_tx t);
  ok_qrefs : q_refs t = b2z (drives m) + b2z (x_has_req t && (0 <? x_refs t)) + q_app t;
  ok_app : 0 <= q_app t;
  ok_state : state_ok m t;
  ok_verdict : verdict_ok v t;
  ok_pipe : 0 < x_refs t -> p <> None;
  ok_wait : wait_ok m stop t p
}.

(* What happens to the references, as events *)
Definition freed_ok (k : nat) (t t' : ltx) (l : list bev) : Prop :=
  times (is_tx_freed k) l = (if (0 <? x_refs t) && (x_refs t' =? 0) then 1%nat else 0%nat) /\
  times (is_req_freed k) l = (if (0 <? q_refs t) && (q_refs t' =? 0) then 1%nat else 0%nat) /\
  (x_refs t = 0 -> x_refs t' = 0) /\ (q_refs t = 0 -> q_refs t' = 0).

(* The handler has returned *)
Definition final (t : ltx) : bool := match x_state t with BLOCKED | COMPLETE => true | _ => false end.
Definition is_return (k : nat) (e : bev) : bool :=
  match e with HandlerReturned j _ => Nat.eqb j k | _ => false end.

(* What an operation does *)
Record moved (k : nat) (m : mode) (stop : bool) (v : verdict) (c c' : cell) (l : list bev) : Prop := {
  mv_ev : c_ev c' = c_ev c ++ l;
  mv_ok : cell_ok m stop (fold_left (judge k) l v) (c_tx c') (c_pipe c');
  mv_pipe : x_pipe (c_tx c') = x_pipe (c_tx c);
  mv_freed : freed_ok k (c_tx c) (c_tx c') l;
  mv_closed : times (is_close (x_pipe (c_tx c))) l =
              match c_pipe c, c_pipe c' with Some _, None => 1%nat | _, _ => 0%nat end;
  mv_none : c_pipe c = None -> c_pipe c' = None;
  mv_frozen : x_refs (c_tx c) = 0 -> c_pipe c' = c_pipe c;
  mv_about : forall e, In e l -> about k e = true \/ e = PipeClosed (x_pipe (c_tx c));
  mv_answer : forall a, ~ In (Answered k a) l;
  mv_dropped : In (Dropped k) l -> m = MAway;
  mv_final : final (c_tx c') = final (c_tx c) || existsb (is_return k) l
}.

Ltac simp :=
  cbn [c_tx c_pipe c_ev put say x_set_state x_set_answer x_set_refs x_set_has_req q_set_refs q_set_has_tx
       q_set_app x_set_cb x_state x_answer x_refs x_pipe x_has_req q_refs q_has_tx q_app x_cb
       bind b2z holds drives cb_alive andb orb negb mode_of] in *.


(* Everything is decided by a few small things *)
Ltac split_cell H :=
  match goal with c : cell |- _ =>
    destruct c as [[st an xr xp hr qr ht qa cb] p ev]; destruct H as [H1 H2 H7 H3 H4 H5 H6]; simp
  end.
Ltac tests :=
  repeat match goal with
  | H : context [?a <=? ?b] |- _ => destruct (Z.leb_spec a b); try lia; simp
  | H : context [?a <? ?b] |- _ => destruct (Z.ltb_spec a b); try lia; simp
  | H : context [?a =? ?b] |- _ => destruct (Z.eqb_spec a b); try lia; simp
  | |- context [?a <=? ?b] => destruct (Z.leb_spec a b); try lia; simp
  | |- context [?a <? ?b] => destruct (Z.ltb_spec a b); try lia; simp
  | |- context [?a =? ?b] => destruct (Z.eqb_spec a b); try lia; simp
  end.
Ltac pieces :=
  repeat match goal with
  | H : _ /\ _ |- _ => destruct H
  | H : ?b = true |- _ => is_var b; subst b; simp
  | H : ?b = false |- _ => is_var b; subst b; simp
  | H : _ \/ _ |- _ => destruct H; try discriminate; try contradiction
  | H : False |- _ => contradiction
  | H : True |- _ => clear H
  | H : ?x = Some _ |- _ => is_var x; subst x
  end.
Ltac each_case m :=
  unfold state_ok, verdict_ok, wait_ok in *; simp;
  match goal with cb : cbstate, st : txstate |- _ => destruct cb, st; simp; try contradiction; try discriminate end;
  destruct m as [| | |d|a0|a0|]; simp;
  try (destruct d; simp); pieces;
  try congruence; try (exfalso; intuition congruence).


Ltac close_goal :=
  repeat match goal with
  | |- _ /\ _ => split
  | |- _ -> _ => intro
  | |- ~ _ => intro
  end; pieces; subst;
  try solve [reflexivity | assumption | discriminate | lia | congruence | contradiction | tauto
            | left; repeat split; auto | right; auto].
Ltac ok_goal :=
  cbn [fold_left]; unfold judge; cbn [about]; rewrite ?Nat.eqb_refl; cbn iota;
  constructor; unfold state_ok, verdict_ok, wait_ok; simp; tests; close_goal.
Ltac finish :=
  unshelve (eexists _, _; split; [reflexivity|]; constructor; simp;
  [ rewrite <- ?app_assoc; cbn [Datatypes.app]; (reflexivity || (symmetry; apply app_nil_r))
  | ok_goal
  | reflexivity
  | unfold freed_ok, times; cbn [filter is_tx_freed is_req_freed length]; rewrite ?Nat.eqb_refl;
    cbn [length]; simp; tests; repeat split; close_goal
  | unfold times; cbn [filter is_close]; rewrite ?Nat.eqb_refl; cbn [length];
    try reflexivity; try (match goal with p : option (list note) |- _ => destruct p end; reflexivity)
  | close_goal
  | close_goal
  | cbn [In]; let x := fresh in let He := fresh in intros x He; repeat destruct He as [<-|He]; try contradiction; cbn [about]; rewrite ?Nat.eqb_refl; auto
  | cbn [In]; let He := fresh in intros ? He; repeat destruct He as [He|He]; try contradiction; discriminate
  | cbn [In]; let He := fresh in intros He; repeat destruct He as [He|He]; try discriminate; try contradiction; reflexivity
  | unfold final; cbn [existsb is_return]; rewrite ?Nat.eqb_refl; simp; reflexivity ]).

Lemma moved_block k m stop v c :
  cell_ok m stop v (c_tx c) (c_pipe c) -> usable (c_tx c) = true ->
  exists c' l, request_block (say c (BlockCalled k)) = Ok c' /\ moved k m stop v c c' l.
Proof.
  intros H U. split_cell H.
  unfold usable in U. simp.
  destruct hr, ht; each_case m; tests; try discriminate.
  all: unfold request_block; simp; tests.
  all: finish.
Qed.

Lemma moved_complete k a m stop v c :
  cell_ok m stop v (c_tx c) (c_pipe c) -> usable (c_tx c) = true ->
  exists c' l, request_complete k a (say c (CompleteCalled k a)) = Ok c' /\ moved k m stop v c c' l.
Proof.
  intros H U. split_cell H.
  unfold usable in U. simp.
  destruct hr, ht; each_case m; tests; try discriminate.
  all: unfold request_complete, clear_tx, tx_unref, pipe_write, pipe_close, req_unref_by_tx; simp; tests;
       try (destruct p as [l0|]; [|exfalso; apply H5; [lia|reflexivity]]; simp); tests.
  all: finish.
Qed.

Ltac ops :=
  unfold request_complete, clear_tx, tx_unref, pipe_write, pipe_close, req_unref_by_tx in *; simp; tests;
  try (match goal with p : option (list note), H5 : _ -> ?q <> None |- _ => constr_eq p q;
         destruct p as [l0|]; [|exfalso; apply H5; [lia|reflexivity]]; simp end); tests.

Lemma moved_ref k m stop v c :
  cell_ok m stop v (c_tx c) (c_pipe c) -> usable (c_tx c) = true ->
  exists c' l, request_ref c = Ok c' /\ moved k m stop v c c' l.
Proof.
  intros H U. split_cell H.
  unfold usable in U. simp.
  destruct hr, ht; each_case m; tests; try discriminate.
  all: unfold request_ref; simp; tests.
  all: finish.
Qed.

Lemma moved_unref k m stop v c :
  cell_ok m stop v (c_tx c) (c_pipe c) -> 0 < q_app (c_tx c) ->
  exists c' l, req_unref k (put c (q_set_app (c_tx c) (q_app (c_tx c) - 1))) = Ok c' /\ moved k m stop v c c' l.
Proof.
  intros H U. split_cell H.
  destruct hr, ht; each_case m; tests; try discriminate.
  all: unfold req_unref; simp; tests; ops.
  all: finish.
Qed.

Lemma moved_sent k stop v c :
  cell_ok MSent stop v (c_tx c) (c_pipe c) ->
  exists c' l, req_unref k c = Ok c' /\ moved k MAway stop v c c' l.
Proof.
  intros H. split_cell H.
  unfold state_ok, verdict_ok, wait_ok in *; simp.
  destruct hr, ht, cb, st; simp; try contradiction; pieces; try discriminate.
  all: unfold req_unref; simp; tests; ops.
  all: finish.
Qed.

Lemma moved_begin k m stop v c :
  cell_ok m stop v (c_tx c) (c_pipe c) -> x_cb (c_tx c) = CbPending ->
  exists c' l, handle_begin k c = Ok c' /\ moved k m stop v c c' l.
Proof.
  intros H U. split_cell H. subst cb.
  unfold state_ok, verdict_ok, wait_ok in *; simp.
  destruct hr, ht, st; simp; try contradiction; destruct m as [| | |[]|a0|a0|]; pieces; try discriminate; try (exfalso; tauto).
  all: unfold handle_begin; simp; tests; ops.
  all: finish.
Qed.

Lemma moved_end k a m stop v c :
  cell_ok m stop v (c_tx c) (c_pipe c) -> x_cb (c_tx c) = CbRunning ->
  exists c' l, handle_end k a c = Ok c' /\ moved k m stop v c c' l.
Proof.
  intros H U. split_cell H. subst cb.
  unfold state_ok, verdict_ok, wait_ok in *; simp.
  destruct hr, ht, st; simp; try contradiction; destruct m as [| | |[]|a0|a0|]; pieces; try discriminate.
  all: unfold handle_end; simp; tests; unfold req_unref; ops.
  all: finish.
Qed.

Lemma moved_gone k m stop v c :
  cell_ok m stop v (c_tx c) (c_pipe c) -> x_cb (c_tx c) = CbReturned ->
  exists c' l, callback_gone k c = Ok c' /\ moved k m stop v c c' l.
Proof.
  intros H U. split_cell H. subst cb.
  unfold state_ok, verdict_ok, wait_ok in *; simp.
  destruct hr, ht, st; simp; try contradiction; destruct m as [| | |[]|a0|a0|]; pieces; try discriminate.
  all: unfold callback_gone; ops.
  all: finish.
Qed.

Lemma moved_cancelled k a stop v c :
  cell_ok (MCancel a) stop v (c_tx c) (c_pipe c) -> x_cb (c_tx c) = CbPending ->
  exists c' l, callback_gone k c = Ok c' /\ moved k (MCancel a) stop v c c' l.
Proof.
  intros H U. split_cell H. subst cb.
  unfold state_ok, verdict_ok, wait_ok in *; simp.
  destruct hr, ht, st; simp; try contradiction; pieces; try discriminate.
  all: unfold callback_gone; ops.
  all: finish.
Qed.

Lemma not_cancelled a stop v t p :
  cell_ok (MCancel a) stop v t p -> x_cb t <> CbPending -> cell_ok MSent stop v t p.
Proof.
  intros [H1 H2 H7 H3 H4 H5 H6] U. split; auto.
  - unfold state_ok in *. destruct (x_cb t), (x_state t); try contradiction; auto.
  - exact I.
Qed.

Lemma moved_drop1 k a stop v c :
  cell_ok (MUnref a) stop v (c_tx c) (c_pipe c) ->
  exists c' l, (do (c', _) <- tx_unref k true c; Ok c') = Ok c' /\ moved k (MCancel a) stop v c c' l.
Proof.
  intros H. split_cell H.
  unfold state_ok, verdict_ok, wait_ok in *; simp.
  destruct hr, ht, cb, st; simp; try contradiction; pieces; try discriminate.
  all: ops.
  all: try (exfalso; intuition discriminate).
  all: finish.
Qed.

Lemma drop_pipe k c c' d :
  tx_unref k true c = Ok (c', d) ->
  c_pipe c' = c_pipe c /\ d = (x_refs (c_tx c') =? 0) /\ 0 < x_refs (c_tx c).
Proof.
  destruct c as [[st an xr xp hr qr ht qa cb] p ev]. unfold tx_unref, req_unref_by_tx. simp.
  destruct (Z.leb_spec xr 0); [discriminate|].
  destruct (Z.eqb_spec (xr - 1) 0); [destruct hr; simp; tests; try destruct ht; try discriminate|];
    intros E; injection E as <- <-; simp; repeat split; try lia; tests; auto.
Qed.

Lemma moved_drop k a stop v c :
  cell_ok (MUnref a) stop v (c_tx c) (c_pipe c) ->
  exists c' d l, tx_unref k true c = Ok (c', d) /\ moved k (MCancel a) stop v c c' l /\
    c_pipe c' = c_pipe c /\ d = (x_refs (c_tx c') =? 0) /\ 0 < x_refs (c_tx c) /\
    (stop = false -> c_pipe c = Some []).
Proof.
  intros H.
  destruct (moved_drop1 k a stop v c H) as (c1 & l & E & M).
  destruct (tx_unref k true c) as [| |[c' d]] eqn:U; try discriminate. cbn in E. injection E as ->.
  destruct (drop_pipe _ _ _ _ U) as (P1 & P2 & P3).
  exists c1, d, l. split; [reflexivity|]. split; [exact M|]. split; [exact P1|]. split; [exact P2|]. split; [exact P3|].
  intros ->. destruct H as [_ _ _ _ _ _ [(-> & _)|(E & _)]]; [reflexivity|discriminate].
Qed.

