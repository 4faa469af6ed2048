(* Model of the event flag of a message queue (src/gbinder_fmq.c), and of the futex which
   it's based on. *)
From Verif Require Import Base.

Definition ETIMEDOUT : Z := 110.
Definition ENOSYS : Z := 38.
Definition EINVAL : Z := 22.
Definition EAGAIN : Z := 11.
Definition EINTR : Z := 4.

(* A function which works with the event flag, as a sequence of atomic actions. The
   result is the return value, and what has been stored in *state (None if nothing). *)
Inductive eprog :=
| ERet (ret : Z) (state : option Z)
| FetchAnd (v : Z) (k : Z -> eprog)
| FetchOr (v : Z) (k : Z -> eprog)
| FutexWait (value mask : Z) (timed : bool) (k : option Z -> eprog)  (* None, or errno *)
| FutexWake (count mask : Z) (k : Z -> eprog).

(* ~v for guint32 *)
Definition not32 (v : Z) : Z := Z.lxor v (2 ^ 32 - 1).

(* src/gbinder_fmq.c:596-653 gbinder_fmq_wait_timeout
   Where [flag] tells whether there is an event flag. errno is never zero when the
   system call fails. The time which passes is not modelled: a timed wait may time out
   at any moment after it began. *)
Definition wait_timeout (flag : bool) (bit_mask : Z) (has_state : bool) (timeout_ms : Z) : eprog :=
  if negb has_state then ERet (- EINVAL) None
  else if negb flag then ERet (- ENOSYS) None
  else if bit_mask =? 0 then ERet (- EINVAL) None
  else
    FetchAnd (not32 bit_mask) (fun old_value =>
      let set_bits := Z.land old_value bit_mask in
      if negb (set_bits =? 0) then ERet 0 (Some set_bits)
      else if timeout_ms =? 0 then ERet (- ETIMEDOUT) None
      else
        FutexWait old_value bit_mask (0 <? timeout_ms) (fun result =>
          match result with
          | Some errno => ERet (- errno) None
          | None =>
            FetchAnd (not32 bit_mask) (fun old_value =>
              let state := Z.land old_value bit_mask in
              ERet (if negb (state =? 0) then 0 else - EAGAIN) (Some state))
          end)).

(* src/gbinder_fmq.c:655-687 gbinder_fmq_wake
   FUTEX_WAKE_BITSET doesn't fail with a valid address and a non-zero mask *)
Definition wake (flag : bool) (bit_mask : Z) : eprog :=
  if negb flag then ERet (- ENOSYS) None
  else if bit_mask =? 0 then ERet 0 None
  else
    FetchOr bit_mask (fun old_value =>
      if negb (Z.land (not32 old_value) bit_mask =? 0) then
        FutexWake (2 ^ 32 - 1) bit_mask (fun woken => ERet woken None)
      else ERet 0 None).

(* ------------------------------------------------------------------ *)
(* The calls which threads make, and the system *)
Inductive ecall :=
| Wait (bit_mask timeout_ms : Z)
| Wake (bit_mask : Z).
Definition eprog_of (c : ecall) : eprog :=
  match c with Wait m t => wait_timeout true m true t | Wake m => wake true m end.

Inductive ethread :=
| Idle
| Running (c : ecall) (p : eprog)
| Asleep (c : ecall) (mask : Z) (timed : bool) (k : option Z -> eprog).

(* The kernel has a queue of those who wait. Two lists are kept for the sake of the
   specification: the calls which have begun and those which have returned. *)
Record esystem := {
  word : Z;
  queue_of : list nat;
  eth : nat -> ethread;
  calls_of : nat -> list ecall;
  begun : list (nat * ecall);
  returned : list (nat * ecall * Z * option Z)
}.

Definition upd {A} (f : nat -> A) (i : nat) (v : A) : nat -> A := fun j => if Nat.eqb j i then v else f j.

(* The thread goes on with [p]; it's back in the application if that's the end *)
Definition proceed (y : esystem) (i : nat) (c : ecall) (p : eprog) : esystem :=
  match p with
  | ERet ret state =>
    {| word := word y; queue_of := queue_of y; eth := upd (eth y) i Idle; calls_of := calls_of y;
       begun := begun y; returned := returned y ++ [(i, c, ret, state)] |}
  | _ =>
    {| word := word y; queue_of := queue_of y; eth := upd (eth y) i (Running c p); calls_of := calls_of y;
       begun := begun y; returned := returned y |}
  end.
Definition set_word (y : esystem) (w : Z) : esystem :=
  {| word := w; queue_of := queue_of y; eth := eth y; calls_of := calls_of y; begun := begun y; returned := returned y |}.
Definition set_queue (y : esystem) (q : list nat) : esystem :=
  {| word := word y; queue_of := q; eth := eth y; calls_of := calls_of y; begun := begun y; returned := returned y |}.
Definition set_thread (y : esystem) (i : nat) (t : ethread) : esystem :=
  {| word := word y; queue_of := queue_of y; eth := upd (eth y) i t; calls_of := calls_of y; begun := begun y; returned := returned y |}.

Definition leave_queue (i : nat) (q : list nat) : list nat := filter (fun j => negb (Nat.eqb j i)) q.

(* A sleeper returns from the system call *)
Definition resume (y : esystem) (i : nat) (result : option Z) : esystem :=
  match eth y i with
  | Asleep c mask timed k => proceed (set_queue y (leave_queue i (queue_of y))) i c (k result)
  | _ => y
  end.

(* FUTEX_WAKE_BITSET: those who wait are woken up in the order of arrival (for threads
   of the same priority), until the number of those woken up reaches [nr]. The kernel
   compares after it has counted one, and its nr_wake is an int:
     int futex_wake(u32 __user *uaddr, unsigned int flags, int nr_wake, u32 bitset)
     ... if (!(this->bitset & bitset)) continue; ... if (++ret >= nr_wake) break;
   so that 0xffffffff, which is -1, wakes up one. *)
Fixpoint futex_wake (nr mask : Z) (q : list nat) (ret : Z) (y : esystem) : Z * esystem :=
  match q with
  | [] => (ret, y)
  | i :: r =>
    match eth y i with
    | Asleep _ m _ _ =>
      if Z.land m mask =? 0 then futex_wake nr mask r ret y
      else
        let y1 := resume y i None in
        if nr <=? ret + 1 then (ret + 1, y1) else futex_wake nr mask r (ret + 1) y1
    | _ => futex_wake nr mask r ret y
    end
  end.

(* One atomic action of a thread, and the computations which follow *)
Definition act (y : esystem) (i : nat) (c : ecall) (p : eprog) : esystem :=
  match p with
  | ERet ret state => proceed y i c (ERet ret state)
  | FetchAnd v k => proceed (set_word y (Z.land (word y) v)) i c (k (word y))
  | FetchOr v k => proceed (set_word y (Z.lor (word y) v)) i c (k (word y))
  | FutexWait value mask timed k =>
    if word y =? value then
      set_thread (set_queue y (queue_of y ++ [i])) i (Asleep c mask timed k)
    else proceed y i c (k (Some EAGAIN))
  | FutexWake count mask k =>
    let (ret, y1) := futex_wake (sgn 32 count) mask (queue_of y) 0 y in
    proceed y1 i c (k ret)
  end.

Inductive eevent := Turn (i : nat) | Timeout (i : nat) | Signal (i : nat).

Definition estep (y : esystem) (e : eevent) : esystem :=
  match e with
  | Turn i =>
    match eth y i with
    | Idle =>
      match calls_of y i with
      | [] => y
      | c :: r =>
        act {| word := word y; queue_of := queue_of y; eth := eth y; calls_of := upd (calls_of y) i r;
               begun := begun y ++ [(i, c)]; returned := returned y |} i c (eprog_of c)
      end
    | Running c p => act y i c p
    | Asleep _ _ _ _ => y
    end
  | Timeout i =>
    match eth y i with
    | Asleep _ _ true _ => resume y i (Some ETIMEDOUT)
    | _ => y
    end
  | Signal i => resume y i (Some EINTR)
  end.

Definition erun (schedule : list eevent) (y : esystem) : esystem := fold_left estep schedule y.

Definition estart (calls : nat -> list ecall) : esystem :=
  {| word := 0; queue_of := []; eth := fun _ => Idle; calls_of := calls; begun := []; returned := [] |}.
