(* What is expected of one-way calls: they are handled in order, one after another *)
From Verif Require Import Base OnewayModel.

(* l is what is left of m when some elements are removed from it *)
Inductive inside {A : Type} : list A -> list A -> Prop :=
| in_nil : forall m, inside [] m
| in_same : forall x l m, inside l m -> inside (x :: l) (x :: m)
| in_more : forall x l m, inside l m -> inside l (x :: m).

Definition begins {A : Type} (l m : list A) : Prop := exists r, m = l ++ r.

(* The calls made by gbinder_client_transact_sync_oneway, in order *)
Fixpoint calls (h : list move) : list call :=
  match h with
  | [] => []
  | Call c :: r => c :: calls r
  | _ :: r => calls r
  end.

(* No call is empty *)
Definition with_data (h : list move) : Prop := forall c, In (Call c) h \/ In (Async c) h -> c_data c = true.

(* What an object was called for: by the client, or by the one which forwards calls to it *)
Definition given (w : world) (j : nat) : list call :=
  match j with O => wire w | S i => told (nodes w i) end.

(* The application (or the proxy) deals with the call: its handler has not returned yet, or it has a reference to the
   request, or something which was copied from it, or has not finished forwarding it *)
Definition deals (t : tx) : Prop :=
  t_cb t = CbRunning \/ (0 < t_app t)%nat \/ (0 < t_copies t)%nat \/ t_fwd t <> FNone.

(* It has nothing to do with any call, and has not left it blocked *)
Definition content (n : node) : Prop :=
  forall t, In t (txs n) ->
    t_cb t <> CbRunning /\ t_app t = 0%nat /\ t_copies t = 0%nat /\ ~ (t_st t = Blocked /\ t_fwd t = FNone).

(* What the driver and the library do by themselves *)
Definition own (o : op) : bool :=
  match o with
  | Take | Run _ | CbDone _ | Wake _ | Drop _ | Cancel _ | Finish _ | Cleanup _ | Write _ | Replied _ | Destroyed _ => true
  | _ => false
  end.

(* The numbers of the calls which the object number j has forwarded, in order *)
Fixpoint forwarded (j : nat) (h : list move) : list nat :=
  match h with
  | [] => []
  | At i (Forward k) :: r => if Nat.eqb i j then k :: forwarded j r else forwarded j r
  | _ :: r => forwarded j r
  end.

Definition call_number (w : world) (j k : nat) : option call := option_map t_call (nth_error (txs (nodes w j)) k).
