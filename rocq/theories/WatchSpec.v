(* What presence and watches of a service manager mean, in terms of what can be seen from
   outside: the events of the trace (the latest one comes first), the timers of the event loop
   and the connected handlers. *)
From Coq Require Import ZArith List Bool.
From Verif Require Import Base WatchModel.
Import ListNotations.

(* ------------------------------------------------------------------ *)
(* Presence *)

(* How often the manager i has reported its presence, oldest first; the first one is what it
   was in the beginning *)
Fixpoint reports (tr : list event) (i : nat) : list bool :=
  match tr with
  | [] => []
  | EvNew j b :: r | EvPresence j b :: r => reports r i ++ (if Nat.eqb j i then [b] else [])
  | _ :: r => reports r i
  end.

(* Each one differs from the one before *)
Fixpoint alternates (l : list bool) : Prop :=
  match l with
  | a :: ((b :: _) as r) => b = negb a /\ alternates r
  | _ => True
  end.

(* How many scheduled checks have failed since the manager i was found to be absent *)
Fixpoint failed_checks (tr : list event) (i : nat) : Z :=
  match tr with
  | [] => 0
  | EvNew j _ :: r | EvPresence j _ :: r => if Nat.eqb j i then 0 else failed_checks r i
  | EvCheck j false :: r => (if Nat.eqb j i then 1 else 0) + failed_checks r i
  | _ :: r => failed_checks r i
  end.

(* The scheduled checks of the manager i: their delays *)
Definition scheduled (s : state) (i : nat) : list Z :=
  map t_delay (filter (fun t => Nat.eqb (t_man t) i) (timers s)).

(* ------------------------------------------------------------------ *)
(* Watches *)

(* What was last done about watching a name: nothing ever, given up, or tried with this
   result *)
Inductive doing := Nothing | GivenUp | Tried (ok : bool).
Fixpoint last_done (tr : list event) (i : nat) (n : name) : doing :=
  match tr with
  | [] => Nothing
  | EvWatch j m ok :: r => if Nat.eqb j i && name_eqb n m then Tried ok else last_done r i n
  | EvUnwatch j m :: r => if Nat.eqb j i && name_eqb n m then GivenUp else last_done r i n
  | _ :: r => last_done r i n
  end.
Definition watched (s : state) (i : nat) (n : name) : Prop := last_done (trace s) i n = Tried true.

(* The service whose registrations a name stands for: the name itself, or what's before the
   first slash if there is any (HIDL) *)
Definition slash : Z := 0x2f.
Definition plain (n : name) : Prop := ~ In slash n.
(* "./0123456789:@", A-Z and a-z *)
Definition hidl_chars : list Z :=
  [0x2e; 0x2f; 0x30; 0x31; 0x32; 0x33; 0x34; 0x35; 0x36; 0x37; 0x38; 0x39; 0x3a; 0x40;
   0x41; 0x42; 0x43; 0x44; 0x45; 0x46; 0x47; 0x48; 0x49; 0x4a; 0x4b; 0x4c; 0x4d;
   0x4e; 0x4f; 0x50; 0x51; 0x52; 0x53; 0x54; 0x55; 0x56; 0x57; 0x58; 0x59; 0x5a;
   0x61; 0x62; 0x63; 0x64; 0x65; 0x66; 0x67; 0x68; 0x69; 0x6a; 0x6b; 0x6c; 0x6d;
   0x6e; 0x6f; 0x70; 0x71; 0x72; 0x73; 0x74; 0x75; 0x76; 0x77; 0x78; 0x79; 0x7a].
Definition hidl_name (n : name) : Prop := n <> [] /\ forall c, In c n -> In c hidl_chars.
Inductive service : kind -> name -> name -> Prop :=
| service_aidl n : service Aidl n n
| service_hidl_plain n : hidl_name n -> plain n -> service Hidl n n
| service_hidl_instance n inst : hidl_name (n ++ slash :: inst) -> plain n ->
    service Hidl (n ++ slash :: inst) n.

(* The manager i has a handler of registrations of this service *)
Definition handled (s : state) (i : nat) (n : name) : Prop :=
  exists m h, nth_error (mans s) i = Some m /\ In h (m_handlers m) /\ h_detail h = Some n.

(* ------------------------------------------------------------------ *)
(* Histories *)

(* A program in which there's only one manager for this device and protocol *)
Definition is_new (mv : move) : bool := match mv with MNew _ _ => true | _ => false end.
Definition single (l : list move) : Prop :=
  exists k ping r, l = MNew k ping :: r /\ forallb (fun mv => negb (is_new mv)) r = true.

(* How often a handler is called by an emission *)
Definition calls (tr : list event) (em id : Z) : nat :=
  length (filter (fun e => match e with EvCall x y _ => (x =? em) && (y =? id) | _ => false end) tr).

(* Whenever the manager appears, each service which ever had a handler has one *)
Definition covered (s : state) : bool :=
  forallb (fun e =>
    match e with
    | EvAdd i _ n =>
      match nth_error (mans s) i with Some m => has_handler (m_handlers m) n | None => false end
    | _ => true
    end) (trace s).
Definition appears (s : state) (mv : move) : bool :=
  dead s && match mv with MTimer _ ping _ => ping | MWait _ found _ => found | _ => false end.
Fixpoint kept (s : state) (l : list move) : bool :=
  match l with
  | [] => true
  | mv :: r =>
    (negb (appears s mv) || covered s) &&
    match step s mv with Ok s1 => kept s1 r | _ => true end
  end.
