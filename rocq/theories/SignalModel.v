(* Model of signals which interrupt threads waiting for handlers (or for the completion of
   blocked requests): BlockModel.v plus one more thing which may happen to such a thread,
   poll failing with EINTR. The kernel only does that if there's nothing to read from either
   descriptor: otherwise poll returns without waiting.

   It can only happen if the application (or some other library in the process) has a
   handler for a signal, and the kernel has picked that thread for delivering it. *)
From Verif Require Import Base BlockModel.

(* src/gbinder_ipc.c:238-266 gbinder_ipc_wait when poll returns -1: that's FALSE, as if
   the thread was told to stop. What its caller does next is in
   src/gbinder_ipc.c:649-767 gbinder_ipc_looper_transact and
   src/gbinder_ipc.c:1062-1117 gbinder_ipc_tx_handler_transact *)
Definition wait_interrupted (s : bstate) : out bstate :=
  match th s with
  | TWait1 k | TWait2 k =>
    let c := get_cell s k in
    if x_refs (c_tx c) <=? 0 then Crash
    else
      match c_pipe c with
      | None => Crash
      | Some [] => if stopped s then Disabled else Ok (go s (TTake k false) (txfd s))
      | Some (_ :: _) => Disabled
      end
  | _ => Disabled
  end.

(* Everything that BlockModel.v knows about, and signals *)
Inductive smove := Usual (m : move) | Signal.
Definition sstep (s : bstate) (m : smove) : out bstate :=
  match m with
  | Usual m => step s m
  | Signal => wait_interrupted s
  end.
Fixpoint srun (s : bstate) (l : list smove) : out bstate :=
  match l with
  | [] => Ok s
  | m :: r => do s1 <- sstep s m; srun s1 r
  end.
