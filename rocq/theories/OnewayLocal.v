(* Proofs for OnewayModel: one call *)
From Verif Require Import Base OnewayModel OnewaySpec.

Definition late (s : stage) : bool := match s with SCleanup | SOver => true | _ => false end.
Definition early (s : stage) : bool := match s with SWait1 | SWait2 | SDrop => true | _ => false end.
Definition over (s : stage) : bool := match s with SOver => true | _ => false end.
Definition gone (c : cbst) : bool := match c with CbGone => true | _ => false end.

Definition untouched (t : tx) : Prop :=
  t_st t = Scheduled /\ t_pipe t = [] /\ x_req t = false /\ t_wrote t = false /\ t_fwd t = FNone /\ t_app t = 0%nat /\ t_copies t = 0%nat.

Definition lok (t : tx) : Prop :=
  x_looper t = c_app (t_call t) && early (t_stage t) /\
  t_drv t = negb (late (t_stage t)) /\
  t_ctx t = c_data (t_call t) && negb (over (t_stage t)) /\
  x_cb t = negb (gone (t_cb t)) /\
  match t_cb t with
  | CbPending => c_app (t_call t) = true /\ x_has t = true /\ untouched t /\ match t_stage t with SWait1 | SDrop | SCancel => True | _ => False end
  | CbRunning =>
    c_app (t_call t) = true /\ x_has t = true /\ t_stage t <> SWait2 /\ (t_stage t = SWait1 -> t_pipe t = []) /\
    match t_st t with
    | Processing => t_wrote t = false /\ t_fwd t = FNone
    | Blocking => x_req t = true
    | Processed => x_req t = false
    | _ => False
    end
  | CbReturned | CbGone =>
    match t_st t with
    | Blocked =>
      c_app (t_call t) = true /\ x_has t = false /\ (late (t_stage t) = false -> x_req t = true) /\
      (t_stage t = SWait1 -> t_pipe t = [TX_BLOCKED]) /\ (t_stage t = SWait2 -> t_pipe t = [])
    | Completed =>
      c_app (t_call t) = true /\ x_req t = false /\
      (t_stage t = SWait1 -> t_pipe t = [TX_DONE] \/ t_pipe t = [TX_BLOCKED; TX_DONE]) /\
      (t_stage t = SWait2 -> t_pipe t = [TX_DONE])
    | Scheduled => t_cb t = CbGone /\ untouched t /\ match t_stage t with SFinish | SCleanup | SOver => True | _ => False end
    | _ => False
    end
  end /\
  (t_fwd t = FQueued -> t_wrote t = false) /\
  (t_fwd t = FReplied -> x_req t = false).

Ltac clean :=
  repeat match goal with
  | H : _ /\ _ |- _ => destruct H
  | H : False |- _ => destruct H
  | H : Some _ = Some _ |- _ => injection H as <-
  | H : None = Some _ |- _ => discriminate H
  | H : Some _ = None |- _ => discriminate H
  | H : ?x = ?x -> _ |- _ => specialize (H eq_refl)
  | H : true = false -> _ |- _ => clear H
  | H : false = true -> _ |- _ => clear H
  end.

Ltac done_ := repeat match goal with |- _ /\ _ => split end; try reflexivity; try discriminate; try congruence; try tauto; auto.

Lemma act_lok t o t1 : lok t -> act t o = Some t1 -> lok t1.
Proof.
  destruct t as [c sg cb st pipe xl xc xr xh dr ct ap cp fw wr fr]. unfold lok, untouched. cbn [t_call t_stage t_cb t_st t_pipe x_looper x_cb x_req x_has t_drv t_ctx t_app t_copies t_fwd t_wrote t_freed].
  intros (E1 & E2 & E3 & E4 & M & F1 & F2). subst xl dr ct xc.
  destruct o; unfold act, in_hand, complete, returned; cbn;
    [discriminate|..]; destruct cb; try discriminate; cbn in *; clean; subst;
    try (intros [= <-]; cbn; done_; fail).
  all: try (destruct sg; cbn in *; clean; try discriminate; try (intros [= <-]; cbn; done_; fail)).
  all: try (destruct st; cbn in *; clean; subst; try discriminate; try (intros [= <-]; cbn; done_; fail)).
  all: repeat match goal with |- context [if ?x then _ else _] => destruct x; cbn in *; clean; try discriminate; try (intros [= <-]; cbn; done_; fail)
    | |- context [match ?x with _ => _ end = Some _] => destruct x; cbn in *; clean; try discriminate; try (intros [= <-]; cbn; done_; fail) end.
  all: try (intros [= <-]; cbn; repeat match goal with H : _ \/ _ |- _ => destruct H | H : _ :: _ = _ :: _ |- _ => injection H as ? | H : _ :: _ = [] |- _ => discriminate H end; subst; cbn in *; try discriminate; done_; fail).
  all: try (intros [= <-]; cbn; destruct (c_app c), (c_data c); cbn in *; done_; fail).
Qed.
