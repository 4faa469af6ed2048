(* Model of the loop of a looper thread: how it waits for something to read and for the request to exit
   (src/gbinder_ipc.c, src/gbinder_driver.c).

   Any number of loopers wait for the same device. What a looper does with a command which it has read is in the
   models of the driver (DriverModel), of requests (BlockModel) and of the pool (PoolModel).

   Simplifications: reading takes one command; commands are for any looper; a failure of poll other than an
   interruption looks the same. *)
From Verif Require Import Base.

(* <poll.h>, not in /repo *)
Definition POLLIN : Z := 1.
Definition POLLERR : Z := 8.

(* Where the thread is: in poll; about to decide about the loop with the result of poll and the events of the pipe; in
   ioctl(BINDER_WRITE_READ), or behind it; out of the loop *)
Inductive phase := Polling | Polled (res revents : Z) | Reading (revents : Z) | HasRead (revents : Z) | Out.
(* struct gbinder_ipc_looper: src/gbinder_ipc.c:161-178. The flag, and whether something was written to the pipe *)
Record looper := Looper { ph : phase; exit_ : bool; pipe : bool }.
Record state := State {
  lps : nat -> looper;
  work : Z               (* commands which wait in the driver *)
}.

Definition put (s : state) (i : nat) (x : looper) : state :=
  State (fun j => if Nat.eqb j i then x else lps s j) (work s).
Definition goto (s : state) (i : nat) (p : phase) : state :=
  put s i (Looper p (exit_ (lps s i)) (pipe (lps s i))).
Definition set_work (s : state) (n : Z) : state := State (lps s) n.

(* poll of Linux, not in /repo: it returns when there is something to read or an error; the result is that of the
   device and that of the pipe *)
Definition k_poll (s : state) (i : nat) (err : bool) : option (Z * Z) :=
  let dev := (if 0 <? work s then POLLIN else 0) + (if err then POLLERR else 0) in
  let pip := if pipe (lps s i) then POLLIN else 0 in
  if (dev =? 0) && (pip =? 0) then None else Some (dev, pip).
(* src/gbinder_driver.c:970-1001 gbinder_driver_poll: the result, and the events of the pipe; None if poll has failed *)
Definition driver_poll (r : option (Z * Z)) : Z * Z :=
  match r with Some (dev, pip) => (dev, pip) | None => (-1, 0) end.

(* src/gbinder_ipc.c:769-855 gbinder_ipc_looper_thread. The condition of the loop *)
Definition goes_on (x : looper) (res : Z) : bool :=
  negb (exit_ x) && (negb (Z.land res POLLIN =? 0) || (res =? 0)).
(* ... gbinder_driver_poll has returned; None: it doesn't return *)
Definition poll_end (s : state) (i : nat) (err : bool) : option state :=
  match ph (lps s i) with
  | Polling =>
    match k_poll s i err with
    | Some r => let (res, rev) := driver_poll (Some r) in Some (goto s i (Polled res rev))
    | None => None
    end
  | _ => None
  end.
(* ... because of a signal *)
Definition poll_interrupted (s : state) (i : nat) : option state :=
  match ph (lps s i) with
  | Polling => let (res, rev) := driver_poll None in Some (goto s i (Polled res rev))
  | _ => None
  end.
(* ... while, if *)
Definition test (s : state) (i : nat) : option state :=
  match ph (lps s i) with
  | Polled res rev =>
    Some (goto s i (if goes_on (lps s i) res
                    then if negb (Z.land res POLLIN =? 0) then Reading rev else HasRead rev
                    else Out))
  | _ => None
  end.
(* ... gbinder_driver_read. The ioctl returns when there is a command, or when it fails *)
Definition read_end (s : state) (i : nat) (ok : bool) : option state :=
  match ph (lps s i) with
  | Reading rev =>
    if ok then if 0 <? work s then Some (set_work (goto s i (HasRead rev)) (work s - 1)) else None
    else Some (goto s i Out)
  | _ => None
  end.
(* ... any event from the pipe terminates the loop *)
Definition after (s : state) (i : nat) : option state :=
  match ph (lps s i) with
  | HasRead rev => Some (goto s i (if negb (rev =? 0) || exit_ (lps s i) then Out else Polling))
  | _ => None
  end.

(* src/gbinder_ipc.c:931-948 gbinder_ipc_looper_stop, by another thread: the flag... *)
Definition stop_flag (s : state) (i : nat) : option state :=
  Some (put s i (Looper (ph (lps s i)) true (pipe (lps s i)))).
(* ... and then the pipe. Nothing is read from it *)
Definition stop_pipe (s : state) (i : nat) : option state :=
  if exit_ (lps s i) then Some (put s i (Looper (ph (lps s i)) true true)) else None.

Inductive move :=
| MArrive                          (* a command for this process *)
| MPoll (i : nat) (err : bool) | MSignal (i : nat) | MTest (i : nat) | MRead (i : nat) (ok : bool) | MAfter (i : nat)
| MFlag (i : nat) | MPipe (i : nat).
Definition step (s : state) (m : move) : option state :=
  match m with
  | MArrive => Some (set_work s (work s + 1))
  | MPoll i err => poll_end s i err
  | MSignal i => poll_interrupted s i
  | MTest i => test s i
  | MRead i ok => read_end s i ok
  | MAfter i => after s i
  | MFlag i => stop_flag s i
  | MPipe i => stop_pipe s i
  end.
Fixpoint run (s : state) (l : list move) : option state :=
  match l with
  | [] => Some s
  | m :: r => match step s m with Some s1 => run s1 r | None => None end
  end.
(* Loopers which have entered the loop *)
Definition init : state := State (fun _ => Looper Polling false false) 0.
