(* What is expected of asynchronous transactions, in terms of what can be seen from
   outside: the events of AsyncModel.v *)
From Verif Require Import Base AsyncModel.

Definition about (k : nat) (e : aev) : bool :=
  match e with
  | Started j _ _ | Exec j | ExecEnd j _ | Reply j _ | ReplyEnd j | Gone j | Destroy j | DestroyEnd j => Nat.eqb j k
  | CancelCalled _ | IpcFreed | Exiting => false
  end.
(* What happens to one transaction *)
Definition life_of (k : nat) (t : list aev) : list aev := filter (about k) t.

(* The whole life of a transaction: it's performed or not; its reply callback, if any, gets
   what has come out of it; and then the destroy callback is called if there is one *)
Definition whole_life (k : nat) (l : list aev) : Prop :=
  exists id f performed reply,
    l = Started k id f :: performed ++ reply ++ Gone k :: (if has_destroy f then [Destroy k; DestroyEnd k] else []) /\
    ((performed = [] /\ reply = []) \/
     exists r, performed = [Exec k; ExecEnd k r] /\
       (reply = [] \/ (has_reply f = true /\ reply = [Reply k r; ReplyEnd k]))).

(* Any moment of that life *)
Definition in_life (k : nat) (l : list aev) : Prop := exists rest, whole_life k (l ++ rest).

(* The transaction is in progress: the id refers to it *)
Definition refers (t : list aev) (id : Z) (k : nat) : Prop :=
  (exists f, In (Started k id f) t) /\ ~ In (Gone k) t.

(* It has been cancelled at some moment while in progress *)
Definition was_cancelled (t : list aev) (k : nat) : Prop :=
  exists t1 id t2, t = t1 ++ CancelCalled id :: t2 /\ refers t1 id k.

(* It was made after gbinder_ipc_exit *)
Definition too_late (t : list aev) (k : nat) : Prop :=
  exists t1 t2 id f, t = t1 ++ Started k id f :: t2 /\ In Exiting t1.

(* It was still in progress when gbinder_ipc_exit was called *)
Definition exited_first (t : list aev) (k : nat) : Prop :=
  exists t1 t2, t = t1 ++ Gone k :: t2 /\ In Exiting t1.

(* What is done by worker threads and by the event loop on its own *)
Definition internal (m : move) : Prop :=
  match m with Dispatch _ | Return | Work | Finish _ _ => True | _ => False end.

(* Nothing is waiting to be done by worker threads or by the event loop, and no callback is
   running *)
Definition quiet (s : astate) : Prop :=
  stack s = [] /\
  (forall m s1, step s m = Some s1 ->
   match m with Dispatch _ | Return | Work | Finish _ _ => False | _ => True end).
