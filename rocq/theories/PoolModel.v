(* Model of the pool of looper threads: which threads read commands, what happens when one gets
   blocked by a pending request, and how they are stopped (src/gbinder_ipc.c).

   The two lists of loopers and the list of those being stopped are linked by the same pointers in
   the loopers, as in the code. Everything which is done with looper_mutex locked is one step.
   Using a looper which is freed is a crash, so is following pointers without end.

   Simplifications: what the loopers read and the contents of transactions are in the models of the
   driver (DriverModel) and of requests (BlockModel); pthread_timedjoin_np and closing of the driver
   if that takes too long are simply waiting for the thread; a thread which calls
   gbinder_ipc_looper_check or blocks waits for the new looper, here it only has a reference to it
   meanwhile. *)
From Verif Require Import Base.

(* What the thread of the looper is doing: it hasn't entered the loop yet; is between two reads;
   reads commands and handles those other than transactions; waits for the main thread to handle a transaction;
   waits for a blocked request to be completed (and has it moved itself to the other list); has
   left the loop; is going to drop its reference; is gone *)
Inductive phase := Starting | Running | Reading | Handling | Waiting (was_blocked : bool) | Leaving | Last | Gone.
(* struct gbinder_ipc_looper: src/gbinder_ipc.c:161-178 *)
Record looper := Looper {
  refs : Z;                      (* refcount *)
  exit_ : bool;                  (* exit *)
  ph : phase;
  next : option nat;             (* next *)
  has_ipc : bool;                (* ipc isn't NULL *)
  freed : bool;
  waits : Z                      (* ghost: references of threads which wait for it to start *)
}.
(* gbinder_ipc_stop_loopers: by the thread of a looper or by another one, the rest of the list and
   the one which is waited for *)
Inductive stopper := NoStop | Stopping (who : option nat) (tmp : option nat) (joining : option nat).
Record state := State {
  lp : nat -> looper;
  cnt : nat;                     (* loopers so far *)
  primary : option nat;          (* priv->primary_loopers *)
  blocked : option nat;          (* priv->blocked_loopers *)
  stop : stopper
}.
Inductive out := Misuse | Crash | Ok (s : state).
Definition bind (m : out) (f : state -> out) : out := match m with Ok s => f s | x => x end.

Definition upd (f : nat -> looper) (i : nat) (x : looper) : nat -> looper :=
  fun j => if Nat.eqb j i then x else f j.
Definition set_refs (x : looper) (n : Z) : looper := Looper n (exit_ x) (ph x) (next x) (has_ipc x) (freed x) (waits x).
Definition set_exit (x : looper) : looper := Looper (refs x) true (ph x) (next x) (has_ipc x) (freed x) (waits x).
Definition set_ph (x : looper) (p : phase) : looper := Looper (refs x) (exit_ x) p (next x) (has_ipc x) (freed x) (waits x).
Definition set_next (x : looper) (n : option nat) : looper := Looper (refs x) (exit_ x) (ph x) n (has_ipc x) (freed x) (waits x).
Definition no_ipc (x : looper) : looper := Looper (refs x) (exit_ x) (ph x) (next x) false (freed x) (waits x).
Definition free (x : looper) : looper := Looper (refs x) (exit_ x) (ph x) (next x) (has_ipc x) true (waits x).
Definition set_waits (x : looper) (n : Z) : looper := Looper (refs x) (exit_ x) (ph x) (next x) (has_ipc x) (freed x) n.
Definition set_lp (s : state) (f : nat -> looper) : state := State f (cnt s) (primary s) (blocked s) (stop s).
Definition set_lists (s : state) (p b : option nat) : state := State (lp s) (cnt s) p b (stop s).
Definition set_stop (s : state) (x : stopper) : state := State (lp s) (cnt s) (primary s) (blocked s) x.
Definition change (s : state) (i : nat) (g : looper -> looper) : state := set_lp s (upd (lp s) i (g (lp s i))).

(* src/gbinder_ipc.c:466-475 gbinder_ipc_looper_unref, 435-454 gbinder_ipc_looper_free *)
Definition unref (s : state) (i : nat) : out :=
  let x := lp s i in
  if freed x then Crash
  else
    let y := set_refs x (refs x - 1) in
    Ok (set_lp s (upd (lp s) i (if refs x - 1 =? 0 then free y else y))).

(* The loopers of a list; None if it doesn't end or there's a freed one in it *)
Fixpoint walk (fuel : nat) (f : nat -> looper) (h : option nat) : option (list nat) :=
  match h with
  | None => Some []
  | Some i =>
    match fuel with
    | O => None
    | S n => if freed (f i) then None
             else match walk n f (next (f i)) with Some l => Some (i :: l) | None => None end
    end
  end.
Definition list_of (s : state) (h : option nat) : option (list nat) := walk (cnt s) (lp s) h.

(* The one before i *)
Fixpoint before (l : list nat) (i : nat) : option nat :=
  match l with
  | a :: r => match r with
              | b :: _ => if Nat.eqb b i then Some a else before r i
              | [] => None
              end
  | [] => None
  end.
(* src/gbinder_ipc.c:581-607 gbinder_ipc_looper_remove_from_list; simplification: the list is
   followed to its end. [Some None] if the looper isn't there. *)
Definition remove_from (s : state) (i : nat) (h : option nat) : option (option (state * option nat)) :=
  match list_of s h with
  | None => None
  | Some l =>
    if match h with Some j => Nat.eqb j i | None => false end
    then Some (Some (change s i (fun x => set_next x None), next (lp s i)))
    else match before l i with
         | Some p =>
           let s1 := change s p (fun x => set_next x (next (lp s i))) in
           Some (Some (change s1 i (fun x => set_next x None), h))
         | None => Some None
         end
  end.

(* src/gbinder_ipc.c:857-900 gbinder_ipc_looper_new: a reference for the list and one for the
   thread, and another one for the caller which waits for it to start *)
Definition fresh : looper := Looper 3 false Starting None true false 1.
Definition add_looper (s : state) : state :=
  State (upd (lp s) (cnt s) fresh) (S (cnt s)) (Some (cnt s)) (blocked s) (stop s).

(* src/gbinder_ipc.c:902-929 gbinder_ipc_looper_check; [ok] tells whether the thread and its pipe can
   be created *)
Definition check (s : state) (ok : bool) : out :=
  match primary s with
  | Some _ => Ok s
  | None => if ok then Ok (add_looper s) else Ok s
  end.
(* The caller has waited: gbinder_ipc_looper_start, gbinder_ipc_looper_unref *)
Definition started (s : state) (i : nat) : out :=
  if (waits (lp s i) <=? 0) then Misuse
  else unref (change s i (fun x => set_waits x (waits x - 1))) i.

(* A thread which is stopping the others does nothing else *)
Definition is_stopper (s : state) (i : nat) : bool :=
  match stop s with Stopping (Some j) _ _ => Nat.eqb j i | _ => false end.
Definition in_phase (s : state) (i : nat) (f : phase -> bool) (k : out) : out :=
  if (Nat.ltb i (cnt s)) && f (ph (lp s i)) && negb (is_stopper s i) then (if freed (lp s i) then Crash else k) else Misuse.
Definition is_starting p := match p with Starting => true | _ => false end.
Definition is_running p := match p with Running => true | _ => false end.
Definition is_reading p := match p with Reading => true | _ => false end.
Definition is_handling p := match p with Handling => true | _ => false end.
Definition is_leaving p := match p with Leaving => true | _ => false end.
Definition is_last p := match p with Last => true | _ => false end.
Definition is_gone p := match p with Gone => true | _ => false end.

(* src/gbinder_ipc.c:769-855 gbinder_ipc_looper_thread, its parts; [ok] is the result of
   gbinder_driver_enter_looper *)
Definition enter (s : state) (i : nat) (ok : bool) : out :=
  in_phase s i is_starting (Ok (change s i (fun x => set_ph x (if ok then Running else Last)))).
(* The start of gbinder_driver_read, unless the looper is asked to exit *)
Definition read (s : state) (i : nat) : out :=
  in_phase s i is_running (
    if exit_ (lp s i) then Misuse
    else if negb (has_ipc (lp s i)) then Crash
    else Ok (change s i (fun x => set_ph x Reading))).
(* ... and its end *)
Definition read_end (s : state) (i : nat) : out :=
  in_phase s i is_reading (Ok (change s i (fun x => set_ph x Running))).
(* src/gbinder_ipc.c:649-767 gbinder_ipc_looper_transact: waiting for the handler *)
Definition transact (s : state) (i : nat) : out :=
  in_phase s i is_reading (if negb (has_ipc (lp s i)) then Crash else Ok (change s i (fun x => set_ph x Handling))).
(* ... until the transaction is done *)
Definition handled (s : state) (i : nat) : out :=
  in_phase s i is_handling (Ok (change s i (fun x => set_ph x Reading))).
(* ... or blocked: the looper is moved to the other list; [ok] tells whether a new one can be
   created if it was the last one *)
Definition block (s : state) (i : nat) (ok : bool) : out :=
  in_phase s i is_handling (
    if negb (has_ipc (lp s i)) then Crash
    else
      match remove_from s i (primary s) with
      | None => Crash
      | Some None => Ok (change s i (fun x => set_ph x (Waiting false)))
      | Some (Some (s1, p)) =>
        let s2 := set_lists (change s1 i (fun x => set_ph (set_next x (blocked s)) (Waiting true))) p (Some i) in
        match p with
        | None => if ok then Ok (add_looper s2) else Ok s2
        | Some _ => Ok s2
        end
      end).
(* ... and then completed: the looper returns, unless there are enough of them *)
Definition MAX_PRIMARY_LOOPERS : nat := 5.
Definition unblock (s : state) (i : nat) : out :=
  match ph (lp s i) with
  | Waiting b =>
    in_phase s i (fun _ => true) (
      if negb b then Ok (change s i (fun x => set_ph x Reading))
      else
        match list_of s (primary s) with
        | None => Crash
        | Some l =>
          if Nat.leb MAX_PRIMARY_LOOPERS (length l)
          then Ok (change s i (fun x => set_exit (set_ph x Reading)))
          else
            match remove_from s i (blocked s) with
            | None => Crash
            | Some r =>
              let (s1, b1) := match r with Some (s1, b1) => (s1, b1) | None => (s, blocked s) end in
              Ok (set_lists (change s1 i (fun x => set_ph (set_next x (primary s)) Reading)) (Some i) b1)
            end
        end)
  | _ => Misuse
  end.
(* The loop ends: because of the flag, of the pipe, or an error *)
Definition loop_end (s : state) (i : nat) : out :=
  in_phase s i is_running (Ok (change s i (fun x => set_ph x Leaving))).
(* The looper removes itself *)
Definition leave (s : state) (i : nat) : out :=
  in_phase s i is_leaving (
    let gone (s1 : state) := unref (change s1 i (fun x => set_ph x Last)) i in
    if has_ipc (lp s i) then
      match remove_from s i (blocked s) with
      | None => Crash
      | Some (Some (s1, b)) => gone (set_lists s1 (primary s) b)
      | Some None =>
        match remove_from s i (primary s) with
        | None => Crash
        | Some (Some (s1, p)) => gone (set_lists s1 p (blocked s))
        | Some None => Ok (change s i (fun x => set_ph x Last))
        end
      end
    else Ok (change s i (fun x => set_ph x Last))).
(* The end of the thread, gbinder_ipc_looper_unref *)
Definition thread_end (s : state) (i : nat) : out :=
  in_phase s i is_last (unref (change s i (fun x => set_ph x Gone)) i).

(* src/gbinder_ipc.c:950-966 gbinder_ipc_looper_stop_all, 931-948 gbinder_ipc_looper_stop *)
Definition stop_one (a : (nat -> looper) * option nat) (i : nat) : (nat -> looper) * option nat :=
  (upd (fst a) i (set_next (set_exit (fst a i)) (snd a)), Some i).
(* src/gbinder_ipc.c:2070-2100 gbinder_ipc_stop_loopers: the start of a round *)
Definition stop_round (s : state) (who : option nat) : out :=
  match list_of s (primary s), list_of s (blocked s) with
  | Some p, Some b =>
    let r := fold_left stop_one b (fold_left stop_one p (lp s, None)) in
    let st := match snd r with None => NoStop | Some i => Stopping who (Some i) None end in
    Ok (State (fst r) (cnt s) None None st)
  | _, _ => Crash
  end.
(* It's called by the main thread, or by a looper when it drops the last reference to its ipc *)
Definition stop_begin (s : state) (who : option nat) : out :=
  match stop s with
  | NoStop =>
    match who with
    | None => stop_round s None
    | Some i => in_phase s i is_running (stop_round s (Some i))
    end
  | _ => Misuse
  end.
(* The next looper of the list *)
Definition stop_next (s : state) : out :=
  match stop s with
  | Stopping who (Some i) None =>
    if freed (lp s i) then Crash
    else Ok (set_stop (change s i (fun x => set_next x None)) (Stopping who (next (lp s i)) (Some i)))
  | _ => Misuse
  end.
(* src/gbinder_ipc.c:968-1006 gbinder_ipc_looper_join, and gbinder_ipc_looper_unref *)
Definition stop_join (s : state) : out :=
  match stop s with
  | Stopping who tmp (Some i) =>
    if freed (lp s i) then Crash
    else if match who with Some j => Nat.eqb i j | None => false end || is_gone (ph (lp s i))
    then unref (set_stop (change s i no_ipc) (Stopping who tmp None)) i
    else Misuse
  | _ => Misuse
  end.
(* The list is done: another round *)
Definition stop_again (s : state) : out :=
  match stop s with
  | Stopping who None None => stop_round s who
  | _ => Misuse
  end.

Inductive move :=
| MCheck (ok : bool) | MStarted (i : nat) | MEnter (i : nat) (ok : bool)
| MRead (i : nat) | MReadEnd (i : nat) | MTransact (i : nat) | MHandled (i : nat) | MBlock (i : nat) (ok : bool) | MUnblock (i : nat)
| MLoopEnd (i : nat) | MLeave (i : nat) | MThreadEnd (i : nat)
| MStop (who : option nat) | MStopNext | MStopJoin | MStopAgain.
Definition step (s : state) (mv : move) : out :=
  match mv with
  | MCheck ok => check s ok
  | MStarted i => started s i
  | MEnter i ok => enter s i ok
  | MRead i => read s i
  | MReadEnd i => read_end s i
  | MTransact i => transact s i
  | MHandled i => handled s i
  | MBlock i ok => block s i ok
  | MUnblock i => unblock s i
  | MLoopEnd i => loop_end s i
  | MLeave i => leave s i
  | MThreadEnd i => thread_end s i
  | MStop who => stop_begin s who
  | MStopNext => stop_next s
  | MStopJoin => stop_join s
  | MStopAgain => stop_again s
  end.
Fixpoint run (s : state) (l : list move) : out :=
  match l with
  | [] => Ok s
  | mv :: r => bind (step s mv) (fun s1 => run s1 r)
  end.
Definition nobody : looper := Looper 0 false Gone None false true 0.
Definition init : state := State (fun _ => nobody) 0 None None NoStop.
