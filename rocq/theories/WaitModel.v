(* Model of gbinder_servicemanager_wait: src/gbinder_servicemanager.c. Time is what the
   thread has slept, in milliseconds; checks take no time. *)
From Verif Require Import Base.

(* src/gbinder_servicemanager.c:96-98 *)
Definition PRESENSE_WAIT_MS_MIN : Z := 100.
Definition PRESENSE_WAIT_MS_MAX : Z := 1000.
Definition PRESENSE_WAIT_MS_STEP : Z := 100.

(* What is done, in order: the presence is checked (gbinder_remote_object_reanimate) with
   this result, or the thread sleeps *)
Inductive act := Check (alive : bool) | Sleep (ms : Z).

(* src/gbinder_servicemanager.c:429-440 gbinder_servicemanager_sleep_ms: how long it sleeps
   in total, in nanoseconds. nanosleep is interrupted after a part of the time and stores
   the rest; [parts] tells what part of the remaining time each interrupted call has slept
   (it's not interrupted after the last one). The value of EINTR and of the remaining time
   decide whether to go on. *)
Fixpoint sleep_ns (rest : Z) (parts : list Z) : Z :=
  match parts with
  | [] => rest
  | p :: r =>
    (* interrupted: what's left is stored in wait *)
    let left := rest - p in
    let sec := left / 1000000000 in
    let nsec := left mod 1000000000 in
    if (0 <? sec) || (0 <? nsec) then p + sleep_ns (sec * 1000000000 + nsec) r else p
  end.
Definition sleep_ms (ms : Z) (parts : list Z) : Z :=
  sleep_ns ((ms / 1000) * 1000000000 + (ms mod 1000) * 1000000) parts.

(* src/gbinder_servicemanager.c:753-773, the loop of gbinder_servicemanager_wait.
   [alive n] is the result of the check number n, counting from zero. None if the loop
   takes more than [fuel] rounds: it may be endless. *)
Fixpoint wait_loop (alive : nat -> bool) (fuel n : nat) (max_wait_ms delay_ms : Z)
  : option (bool * list act) :=
  if max_wait_ms =? 0 then Some (false, [])
  else
    match fuel with
    | O => None
    | S f =>
      let '(max1, delay1) :=
        if 0 <? max_wait_ms then
          if max_wait_ms <? delay_ms then (0, max_wait_ms)
          else (max_wait_ms - delay_ms, delay_ms)
        else (max_wait_ms, delay_ms) in
      if alive n then Some (true, [Sleep delay1; Check true])
      else
        let delay2 :=
          if delay1 <? PRESENSE_WAIT_MS_MAX then
            if PRESENSE_WAIT_MS_MAX <? delay1 + PRESENSE_WAIT_MS_STEP then PRESENSE_WAIT_MS_MAX
            else delay1 + PRESENSE_WAIT_MS_STEP
          else delay1 in
        match wait_loop alive f (S n) max1 delay2 with
        | Some (r, l) => Some (r, Sleep delay1 :: Check false :: l)
        | None => None
        end
    end.

(* src/gbinder_servicemanager.c:739-782 gbinder_servicemanager_wait. [dead]: the remote
   object is known to be dead. *)
Definition wait (alive : nat -> bool) (dead : bool) (fuel : nat) (max_wait_ms : Z)
  : option (bool * list act) :=
  if negb dead then Some (true, [])
  else if alive 0%nat then Some (true, [Check true])
  else if max_wait_ms =? 0 then Some (false, [Check false])
  else
    match wait_loop alive fuel 1 max_wait_ms PRESENSE_WAIT_MS_MIN with
    | Some (r, l) => Some (r, Check false :: l)
    | None => None
    end.
