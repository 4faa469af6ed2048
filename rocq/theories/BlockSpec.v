(* What is expected of incoming transactions, in terms of what can be seen from outside:
   the events of BlockModel.v *)
From Verif Require Import Base BlockModel.

Definition about (k : nat) (e : bev) : bool :=
  match e with
  | Arrived j | Handle j | BlockCalled j | CompleteCalled j _ | HandlerReturned j _ | Dropped j
  | Answered j _ | TxFreed j | ReqFreed j => Nat.eqb j k
  | StopCalled | PipeClosed _ => false
  end.
(* What happens to one transaction *)
Definition life_of (k : nat) (t : list bev) : list bev := filter (about k) t.

(* The request was completed, by the application or because it's gone *)
Definition completes (k : nat) (e : bev) : Prop :=
  e = Dropped k \/ exists a, e = CompleteCalled k a.

(* The handler has blocked the request, before doing anything else with it, and the first
   completion after that is [a] *)
Definition completed_with (t : list bev) (k : nat) (a : answer) : Prop :=
  exists t1 t2 t3,
    t = t1 ++ BlockCalled k :: t2 ++ CompleteCalled k a :: t3 /\
    (forall e, In e t1 -> ~ completes k e) /\
    (forall b, ~ In (HandlerReturned k b) t1) /\
    (forall e, In e t2 -> ~ completes k e).

(* The handler has returned that without having blocked the request. (Blocking a request
   which has been completed already doesn't count) *)
Definition returned (t : list bev) (k : nat) (a : answer) : Prop :=
  exists t1 t2,
    t = t1 ++ HandlerReturned k a :: t2 /\
    (forall b, ~ In (HandlerReturned k b) t1) /\
    (forall u1 u2, t1 = u1 ++ BlockCalled k :: u2 -> exists e, In e u1 /\ completes k e).

(* The handler has blocked the request, before doing anything else with it, and nobody
   has completed it so far *)
Definition blocked (t : list bev) (k : nat) : Prop :=
  exists t1 t2,
    t = t1 ++ BlockCalled k :: t2 /\
    (forall e, In e t1 -> ~ completes k e) /\
    (forall b, ~ In (HandlerReturned k b) t1) /\
    (forall e, In e t2 -> ~ completes k e).

(* The thread goes on alone, n steps *)
Definition thread_run (s : bstate) (n : nat) : out bstate := run s (repeat Thread n).

(* How many times it has happened *)
Definition times (e : bev -> bool) (t : list bev) : nat := length (filter e t).
Definition is_answer (k : nat) (e : bev) : bool := match e with Answered j _ => Nat.eqb j k | _ => false end.
Definition is_tx_freed (k : nat) (e : bev) : bool := match e with TxFreed j => Nat.eqb j k | _ => false end.
Definition is_req_freed (k : nat) (e : bev) : bool := match e with ReqFreed j => Nat.eqb j k | _ => false end.
Definition is_close (p : nat) (e : bev) : bool := match e with PipeClosed j => Nat.eqb j p | _ => false end.

(* No transaction is answered by the thread after being told to stop *)
Definition no_stop (l : list move) : Prop := ~ In Stop l.
