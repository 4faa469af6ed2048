(* What is pending: forwarded transactions are numbered in the order in which they have been
   forwarded *)
From Verif Require Import Base PendModel.

Record seen := {
  s_count : nat;                     (* forwarded so far *)
  s_list : list (nat * nat);         (* pending ones and their proxies, the latest first *)
  s_others : nat -> nat;             (* references of others to each proxy *)
  s_made : nat                       (* proxies made so far *)
}.
Definition without (t : nat) (l : list (nat * nat)) : list (nat * nat) := filter (fun x => negb (Nat.eqb (fst x) t)) l.
Definition see (x : seen) (e : event) : seen :=
  match e with
  | New => {| s_count := s_count x; s_list := s_list x; s_others := fun p => if Nat.eqb p (s_made x) then 1%nat else s_others x p; s_made := S (s_made x) |}
  | Ref q => {| s_count := s_count x; s_list := s_list x; s_others := fun p => if Nat.eqb p q then S (s_others x p) else s_others x p; s_made := s_made x |}
  | Unref q => {| s_count := s_count x; s_list := s_list x; s_others := fun p => if Nat.eqb p q then Nat.pred (s_others x p) else s_others x p; s_made := s_made x |}
  | Handle p => {| s_count := S (s_count x); s_list := (s_count x, p) :: s_list x; s_others := s_others x; s_made := s_made x |}
  | Reply t | Destroy t => {| s_count := s_count x; s_list := without t (s_list x); s_others := s_others x; s_made := s_made x |}
  end.
Definition nothing : seen := {| s_count := 0; s_list := []; s_others := fun _ => 0%nat; s_made := 0 |}.
Definition history (l : list event) : seen := fold_left see l nothing.

(* those of one proxy, the latest first *)
Definition pending (l : list event) (p : nat) : list nat :=
  map fst (filter (fun x => Nat.eqb (snd x) p) (s_list (history l))).
Definition others (l : list event) (p : nat) : nat := s_others (history l) p.
