(* What is expected of files which are sent: they travel like values. There are no
   duplicates, nothing is closed but what the application closes, and a message is a list
   of files. *)
From Verif Require Import Base CleanupModel FilesModel.

(* The files to which descriptors of the application refer, those in the requests and
   replies of each process, and those in each buffer which it has received *)
Record ideal := {
  has : nat -> Z -> option nat;
  packed : nat -> nat -> list nat;
  got : nat -> list (list nat)
}.

Definition nothing : ideal := {| has := fun _ _ => None; packed := fun _ _ => []; got := fun _ => [] |}.

Definition set1 {A} (f : nat -> A) (p : nat) (x : A) : nat -> A := fun k => if Nat.eqb k p then x else f k.
Definition setz {A} (f : Z -> A) (p : Z) (x : A) : Z -> A := fun k => if k =? p then x else f k.

Definition set_has (i : ideal) p fd x := {| has := set1 (has i) p (setz (has i p) fd x); packed := packed i; got := got i |}.
Definition set_packed (i : ideal) p m x := {| has := has i; packed := set1 (packed i) p (set1 (packed i p) m x); got := got i |}.
Definition add_got (i : ideal) q x := {| has := has i; packed := packed i; got := set1 (got i) q (got i q ++ [x]) |}.

Definition in_buffer (i : ideal) (p b : nat) : list nat := nth b (got i p) [].

Definition meant (i : ideal) (p : nat) (src : source) : list nat :=
  match src with
  | Own fd => match has i p fd with Some f => [f] | None => [] end
  | Received b n => match nth_error (in_buffer i p b) n with Some f => [f] | None => [] end
  end.

Definition in_some (i : ideal) (p : nat) (b : option nat) : list nat :=
  match b with Some n => in_buffer i p n | None => [] end.

Definition ideally (i : ideal) (v : move) : ideal :=
  match v with
  | Does p (Open fd f) => set_has i p fd (Some f)
  | Does p (Close fd) => set_has i p fd None
  | Does p (Append m src _) => set_packed i p m (packed i p m ++ meant i p src)
  | Does p (Copy m b skip _) => set_packed i p m (packed i p m ++ skipn skip (in_some i p b))
  | Does p (Replace m b _) => set_packed i p m (in_some i p b)
  | Does p (ReadDup b n d) => set_has i p d (nth_error (in_buffer i p b) n)
  | Does p (Other (OBufChild b)) => add_got i p (in_buffer i p b)
  | Does p (Other _) => i
  | Sends p m q _ => add_got i q (packed i p m)
  end.

Definition expected (h : list move) : ideal := fold_left ideally h nothing.

(* If fcntl(F_DUPFD_CLOEXEC) fails in gbinder_writer_append_fd (the process has too many descriptors), the descriptor
   itself is in the message. The application doesn't close it while it has the message, and it's not one which
   belongs to received data. *)
Definition careful (w : world) (v : move) : Prop :=
  match v with
  | Does p (Close fd) => forall m, at_ (msgs (pst (w p))) m <> None -> ~ In fd (carries (w p) m)
  | Does _ (Append _ (Received _ _) None) => False
  | _ => True
  end.

Fixpoint carefully (w : world) (h : list move) : Prop :=
  match h with
  | [] => True
  | v :: r => careful w v /\ match moves w v with Fine w1 => carefully w1 r | _ => True end
  end.

(* Descriptors which are open and refer to these files *)
Definition refer (p : proc) (fds : list Z) (files : list nat) : Prop :=
  Forall2 (fun d f => fdt (pst p) d <> None /\ file p d = f) fds files.

(* The process has neither requests nor replies nor anything received *)
Definition idle (p : proc) : Prop :=
  (forall m, at_ (msgs (pst p)) m = None) /\ (forall b, at_ (bufs (pst p)) b = None) /\
  (forall l, at_ (lists (pst p)) l = None).
