(* Model of the list of forwarded transactions which belong to a proxy object (priv->tx in
   src/gbinder_proxy_object.c), which ProxyModel.v leaves out: the structures in memory, their
   links, and the references to the proxy which they have.

   All of this happens on the main thread (src/gbinder_proxy_object.c:284-293
   gbinder_proxy_object_can_handle_transaction, and the callbacks of transactions), except
   for references of others, which are counted atomically. Using memory which has been freed
   is a separate outcome (Crash), and so is a loop which doesn't end (Stuck). *)
From Verif Require Import Base.

Inductive out (A : Type) : Type := Done (a : A) | Disabled | Crash | Stuck.
Arguments Done {A}. Arguments Disabled {A}. Arguments Crash {A}. Arguments Stuck {A}.
Definition obind {A B} (m : out A) (f : A -> out B) : out B :=
  match m with Done a => f a | Disabled => Disabled | Crash => Crash | Stuck => Stuck end.
Notation "'do' x <- m ; f" := (obind m (fun x => f)) (at level 200, x name, m at level 100, f at level 200).

(* src/gbinder_proxy_object.c:51-56 struct gbinder_proxy_tx: tx->next and tx->proxy. tx->req is
   in ProxyModel.v, tx->id is only written. [n_replied] isn't in the code, it records that the
   reply callback has been called. *)
Record node := { n_next : option nat; n_proxy : option nat; n_replied : bool }.

(* A proxy: the number of references, those of them which others have (only to know what others
   may do), and priv->tx *)
Record prox := { x_refs : nat; x_others : nat; x_tx : option nat }.

Record state := {
  nodes : nat -> option node;        (* None if it isn't there *)
  nnodes : nat;
  proxies : nat -> option prox;      (* None if it has been freed, or isn't there *)
  nproxies : nat
}.

Definition start : state :=
  {| nodes := fun _ => None; nnodes := 0; proxies := fun _ => None; nproxies := 0 |}.

Definition put {A} (f : nat -> option A) (k : nat) (v : option A) : nat -> option A :=
  fun j => if Nat.eqb j k then v else f j.
Definition set_node (s : state) (t : nat) (v : option node) : state :=
  {| nodes := put (nodes s) t v; nnodes := nnodes s; proxies := proxies s; nproxies := nproxies s |}.
Definition set_proxy (s : state) (p : nat) (v : option prox) : state :=
  {| nodes := nodes s; nnodes := nnodes s; proxies := put (proxies s) p v; nproxies := nproxies s |}.

(* The loop of src/gbinder_proxy_object.c:170-178. There are at most as many rounds as
   there are structures, unless it goes round in circles *)
Fixpoint unlink (rounds : nat) (s : state) (prev t : nat) : out state :=
  match nodes s prev with
  | None => Crash
  | Some v =>
    match n_next v with
    | None => Done s
    | Some n =>
      if Nat.eqb n t then
        match nodes s t with
        | None => Crash
        | Some w => Done (set_node s prev (Some {| n_next := n_next w; n_proxy := n_proxy v; n_replied := n_replied v |}))
        end
      else match rounds with O => Stuck | S r => unlink r s n t end
    end
  end.

(* g_object_unref; the memory goes with the last reference (src/gbinder_proxy_object.c:359-386
   gbinder_proxy_object_finalize doesn't look at the list) *)
Definition unref (s : state) (p : nat) (by_others : bool) : out state :=
  match proxies s p with
  | None => Crash
  | Some x =>
    Done (set_proxy s p
      (match x_refs x with
       | S (S n) => Some {| x_refs := S n; x_others := if by_others then Nat.pred (x_others x) else x_others x; x_tx := x_tx x |}
       | _ => None
       end))
  end.

(* src/gbinder_proxy_object.c:157-186 gbinder_proxy_tx_dequeue *)
Definition dequeue (s : state) (t : nat) : out state :=
  match nodes s t with
  | None => Crash
  | Some v =>
    match n_proxy v with
    | None => Done s
    | Some p =>
      match proxies s p with
      | None => Crash
      | Some x =>
        do s1 <-
          match x_tx x with
          | None => Done s
          | Some h =>
            if Nat.eqb h t
            then Done (set_proxy s p (Some {| x_refs := x_refs x; x_others := x_others x; x_tx := n_next v |}))
            else unlink (nnodes s) s h t
          end;
        unref (set_node s1 t (Some {| n_next := None; n_proxy := None; n_replied := n_replied v |})) p false
      end
    end
  end.

Inductive event : Set :=
| New                                (* a proxy is created *)
| Ref (p : nat)                      (* others take and drop references *)
| Unref (p : nat)
| Handle (p : nat)                   (* a transaction is forwarded *)
| Reply (t : nat)                    (* the reply callback of a forwarded transaction *)
| Destroy (t : nat).                 (* the destroy callback, with or without the former *)

(* The library calls the reply callback at most once, and nothing after the destroy callback
   (C29). Others have a reference to the proxy when they use it. *)
Definition step (s : state) (e : event) : out state :=
  match e with
  | New =>
    (* src/gbinder_proxy_object.c:328-353 gbinder_proxy_object_new *)
    Done {| nodes := nodes s; nnodes := nnodes s;
            proxies := put (proxies s) (nproxies s) (Some {| x_refs := 1; x_others := 1; x_tx := None |});
            nproxies := S (nproxies s) |}
  | Ref p =>
    match proxies s p with
    | Some x =>
      if Nat.eqb (x_others x) 0 then Disabled
      else Done (set_proxy s p (Some {| x_refs := S (x_refs x); x_others := S (x_others x); x_tx := x_tx x |}))
    | None => Disabled
    end
  | Unref p =>
    match proxies s p with
    | Some x => if Nat.eqb (x_others x) 0 then Disabled else unref s p true
    | None => Disabled
    end
  | Handle p =>
    (* src/gbinder_proxy_object.c:250-258 in gbinder_proxy_object_handle_transaction *)
    match proxies s p with
    | Some x =>
      if Nat.eqb (x_others x) 0 then Disabled
      else
        let t := nnodes s in
        Done {| nodes := put (nodes s) t (Some {| n_next := x_tx x; n_proxy := Some p; n_replied := false |});
                nnodes := S t;
                proxies := put (proxies s) p (Some {| x_refs := S (x_refs x); x_others := x_others x; x_tx := Some t |});
                nproxies := nproxies s |}
    | None => Disabled
    end
  | Reply t =>
    (* src/gbinder_proxy_object.c:188-223 gbinder_proxy_tx_reply uses the proxy, then the
       transaction leaves the list. What may be wrong with the rest of it is in ProxyModel.v *)
    match nodes s t with
    | Some v =>
      if n_replied v then Disabled
      else
        match n_proxy v with
        | None => Crash
        | Some p =>
          match proxies s p with
          | None => Crash
          | Some _ => dequeue (set_node s t (Some {| n_next := n_next v; n_proxy := n_proxy v; n_replied := true |})) t
          end
        end
    | None => Disabled
    end
  | Destroy t =>
    (* src/gbinder_proxy_object.c:225-235 gbinder_proxy_tx_destroy *)
    match nodes s t with
    | Some _ => do s1 <- dequeue s t; Done (set_node s1 t None)
    | None => Disabled
    end
  end.

Fixpoint run (s : state) (l : list event) : out state :=
  match l with
  | [] => Done s
  | e :: r => do s1 <- step s e; run s1 r
  end.

(* What one sees who follows the links from priv->tx. It's a relation because links may go
   anywhere. *)
Inductive follows (s : state) : option nat -> list nat -> Prop :=
| follows_end : follows s None []
| follows_link t v l : nodes s t = Some v -> follows s (n_next v) l -> follows s (Some t) (t :: l).
