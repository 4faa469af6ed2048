(* What is expected of cleanups, in terms of the history of calls *)
From Verif Require Import Base CleanupModel.

(* What a call registers, and with which message. References to received data are
   treated separately. *)
Definition registered (o : op) : list (nat * item) :=
  match o with
  | OCleanup (Some m) (Some d) p => [(m, ItRun d p)]
  | OWriterCleanup (Some m) (Some d) p => [(m, ItRun d p)]
  | OAlloc m p => [(m, ItFree p)]
  | OAppendFd m _ (Some d) => [(m, ItClose d)]
  | OAppendContents m (Some _) locals => map (fun x => (m, ItLocal x)) locals
  | OSetContents m (Some _) locals => map (fun x => (m, ItLocal x)) locals
  | _ => []
  end.

(* There is no message: the callback is called right away *)
Definition immediate (o : op) : list item :=
  match o with
  | OCleanup None (Some d) p => [ItRun d p]
  | _ => []
  end.

(* How many references to the message the callers have after these calls *)
Definition delta (m : nat) (o : op) : Z :=
  match o with
  | ORef n => if Nat.eqb n m then 1 else 0
  | OUnref n => if Nat.eqb n m then -1 else 0
  | _ => 0
  end.

Definition references (m : nat) (h : list op) : Z :=
  fold_left (fun acc o => acc + delta m o) h 1.

(* Does this call, made after these ones, reset or release the message? *)
Definition ends (h : list op) (o : op) (m : nat) : bool :=
  match o with
  | OSetContents n _ _ => Nat.eqb n m
  | OUnref n => Nat.eqb n m && (references m h =? 1)
  | _ => false
  end.

Fixpoint ended (h later : list op) (m : nat) : bool :=
  match later with
  | [] => false
  | o :: r => ends h o m || ended (h ++ [o]) r m
  end.

Definition item_dec : forall a b : item, {a = b} + {a <> b}.
Proof. repeat decide equality. Defined.

Definition zcount (i : item) (l : list item) : Z := Z.of_nat (count_occ item_dec l i).

Definition b2z (b : bool) : Z := if b then 1 else 0.

Fixpoint zsum (l : list Z) : Z := match l with [] => 0 | x :: r => x + zsum r end.

(* How many times this function is called with this argument: once for each registration
   with a message which was reset or released later *)
Fixpoint expected_runs (i : item) (h later : list op) : Z :=
  match later with
  | [] => 0
  | o :: r =>
    zsum (map (fun mi => if item_dec (snd mi) i then b2z (ended (h ++ [o]) r (fst mi)) else 0) (registered o)) +
    zcount i (immediate o) + expected_runs i (h ++ [o]) r
  end.

Definition ran (tr : list event) : list item :=
  flat_map (fun e => match e with EvRan i => [i] | _ => [] end) tr.

Definition freed (tr : list event) : list nat :=
  flat_map (fun e => match e with EvFreed c => [c] | _ => [] end) tr.

Definition closed (tr : list event) : list (Z * option owner) :=
  flat_map (fun e => match e with EvClosed fd o => [(fd, o)] | _ => [] end) tr.

(* Someone still refers to the received data: a buffer, a list, or a message into which
   it was copied *)
Definition held (c : nat) (s : state) : Prop :=
  (exists b, at_ (bufs s) b = Some c) \/
  (exists l cs, at_ (lists s) l = Some cs /\ In c cs) \/
  (exists m x, at_ (msgs s) m = Some x /\
     (In (ItContents c) (cleanup_free (m_cleanup x)) \/ m_contents x = Some c)).

(* How many times data was received *)
Definition received (h : list op) : nat :=
  length (filter (fun o => match o with OBufNew _ => true | _ => false end) h).

Definition times_freed (c : nat) (tr : list event) : nat := count_occ Nat.eq_dec (freed tr) c.
