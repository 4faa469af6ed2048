(* What is expected of a bridge. *)
From Verif Require Import Base BridgeModel.

(* A history which leads to a state, in whatever order things happen *)
Definition reach (s : state) : Prop := exists l, run init l = Ok s.

(* The bridge publishes a proxy of the object for its i-th interface, under the name for the source *)
Definition offered (s : state) (i o : nat) : Prop :=
  exists p k, (p < nproxies s)%nat /\ proxies s p = Proxy i o false /\
              (k < npnames s)%nat /\ pnames s k = Pname i p (src_name s) false.
(* The object is registered with the destination as the i-th interface, and alive *)
Definition available (s : state) (i o : nat) : Prop := current s (fqname s i) = Some o.
(* There's a bridge with this interface *)
Definition bridged (s : state) (i : nat) : Prop := life_ s = Live /\ (i < length (ifaces s))%nat.
(* The main thread has nothing left to do *)
Definition settled (s : state) : Prop := queue s = [] /\ emitting s = [].

(* Proxies and published names of the interface which are in use *)
Definition proxies_of (s : state) (i : nat) : list nat :=
  filter (fun p => Nat.eqb (px_if (proxies s p)) i && negb (px_dropped (proxies s p))) (seq 0 (nproxies s)).
Definition names_of (s : state) (i : nat) : list nat :=
  filter (fun k => Nat.eqb (pn_if (pnames s k)) i && negb (pn_released (pnames s k))) (seq 0 (npnames s)).

(* What is found is what is registered *)
Definition truthful (s : state) (look : nat -> option nat) (f : nat -> name) : Prop :=
  forall i, look i = current s (f i).
(* Things happen in order: a name is registered only when nothing living has it, and that is always
   notified about; so is each death; notifications are handled in the order in which they were sent
   and not while death handlers are being called; lookups find what is registered and watching
   doesn't fail. *)
Definition orderly (s : state) (m : move) : Prop :=
  match m with
  | MRegister n o notify => notify = true /\ current s n = None
  | MDie o notify => notify = true
  | MDeliver k look => k = O /\ emitting s = [] /\ truthful s look (fqname s)
  | MNew src dest l watch look =>
    (forall i, watch i = true) /\
    (forall i b, (dest = Some b \/ dest = None /\ src = Some b) ->
                 look i = current s (nth i l [] ++ [47] ++ b)%list)
  | _ => True
  end.
Inductive runs : state -> list move -> state -> Prop :=
| runs_none s : runs s [] s
| runs_step s m s' l s'' : orderly s m -> step s m = Ok s' -> runs s' l s'' -> runs s (m :: l) s''.

(* The main thread does what it has to do *)
Definition working (m : move) : Prop := match m with MDeliver _ _ | MEmit => True | _ => False end.
(* Nothing is registered with the destination, and no more notifications about that are coming *)
Definition no_registration (m : move) : Prop := match m with MRegister _ _ _ => False | _ => True end.
