(* What a user of registration handlers relies on with HIDL service managers: the words in which the
   theorems of HwProps are stated. Histories are read from the last event backwards. *)
From Verif Require Import Base.
From Verif Require Export HwModel.
From Coq Require Import String Ascii.

(* Is the object with this number the one which listens for that name? It is since the name was
   watched, until it's unwatched or watched again, or the manager refused the object, or the service
   manager is freed. *)
Fixpoint in_use (tr : list event) (i : nat) (n : bytes) : Prop :=
  match tr with
  | [] => False
  | EvWatch m j ok :: r => j = i /\ m = n /\ ok = true \/ m <> n /\ in_use r i n
  | EvUnwatch m :: r => m <> n /\ in_use r i n
  | EvFail j :: r => j <> i /\ in_use r i n
  | EvGone :: _ => False
  | _ :: r => in_use r i n
  end.
(* Does the application think that the name is watched? *)
Fixpoint watched (tr : list event) (n : bytes) : Prop :=
  match tr with
  | [] => False
  | EvWatch m _ ok :: r => m = n /\ ok = true \/ m <> n /\ watched r n
  | EvUnwatch m :: r => m <> n /\ watched r n
  | EvGone :: _ => False
  | _ :: r => watched r n
  end.
(* IServiceNotification of Android, whose first method is onRegistration *)
Definition notification_interface : bytes :=
  map (fun c => Z.of_nat (nat_of_ascii c)) (list_ascii_of_string "android.hidl.manager@1.0::IServiceNotification"%string).
(* What is seen when the peer makes a request to an object: the registration which is reported and the
   status which is returned, the last one first *)
Definition seen_of_request (tr : list event) (i : nat) (iface : option bytes) (code : Z)
  (text : option bytes) (seen : list event) : Prop :=
  ((exists n, in_use tr i n) /\
   ((iface = Some notification_interface /\ code = 1 /\
     seen = EvAnswered i 0 :: match text with Some t => [EvRegistered t] | None => [] end) \/
    (~ (iface = Some notification_interface /\ code = 1) /\ seen = [EvAnswered i (-1)]))) \/
  ((forall n, ~ in_use tr i n) /\ seen = []).

Fixpoint times_sent (tr : list event) (i : nat) : nat :=
  match tr with
  | [] => 0
  | EvSent j :: r => (if Nat.eqb j i then 1 else 0) + times_sent r i
  | _ :: r => times_sent r i
  end.
Definition accepted (tr : list event) (i : nat) : Prop := exists n, In (EvWatch n i true) tr.
Definition refused (tr : list event) (i : nat) : Prop := exists n, In (EvWatch n i false) tr.
(* Nothing is going on: requests have been sent and answered, or cancelled, and nobody has objects *)
Definition quiet (s : state) : Prop :=
  (forall i, c_phase (calls s i) = Destroyed \/ c_phase (calls s i) = Refused) /\
  (forall i, o_kernel (objs s i) = false) /\ (forall i n, ~ in_use (trace s) i n).
(* The manager has accepted the object *)
Definition agreed (a : answer) : Prop :=
  an_tx_status a = 0 /\ an_status a = Some 0 /\ an_success a = Some true.
