(* C61: the device is open and mapped while anybody uses it, closed and unmapped once nobody does. *)
From Verif Require Import Base ObjModel DevModel DevSpec DevProofs.

(* Unless a looper is given up on, nothing which was freed or unmapped is accessed *)
Theorem C61_no_crash_partial : forall l, in_time l -> run init l <> Crash.
Proof. intros l T. apply (run_calm l init inv_init calm_init T). Qed.
Print Assumptions C61_no_crash_partial.
(* Every command goes to the device which it was meant for *)
Theorem C61_right_file_partial : forall l s f g, in_time l -> run init l = Ok s -> In (EvCommand f g) (trace s) -> g = Some f.
Proof. exact right_file. Qed.
Print Assumptions C61_right_file_partial.
(* The device is open and mapped while it's in use *)
Theorem C61_held_partial : forall l s f, in_time l -> run init l = Ok s -> in_use s f ->
  opens (trace s) f = 1%nat /\ closes (trace s) f = 0%nat /\ maps (trace s) f = 1%nat /\ unmaps (trace s) f = 0%nat /\
  exists n, fds s n = Some f.
Proof. exact held. Qed.
Print Assumptions C61_held_partial.
(* Nobody else's file is ever closed, nothing is closed or unmapped twice *)
Theorem C61_right_close : forall l s f, run init l = Ok s ->
  (closes (trace s) f <= opens (trace s) f <= 1)%nat /\ (unmaps (trace s) f <= maps (trace s) f <= opens (trace s) f)%nat.
Proof. exact right_close. Qed.
Print Assumptions C61_right_close.
(* Once nobody uses it, and if it couldn't be used, it's closed and unmapped *)
Theorem C61_released : forall l s f, run init l = Ok s -> (0 < opens (trace s) f)%nat -> ~ in_use s f ->
  closes (trace s) f = 1%nat /\ unmaps (trace s) f = maps (trace s) f /\ (forall n, fds s n <> Some f) /\ mapped s f = false.
Proof. exact released. Qed.
Print Assumptions C61_released.
(* Only two versions of the interface are accepted, each with its own format; a failure leaves no trace *)
Theorem C61_accepted : forall l s a t, run init l = Ok s -> step s (MOpen a) = Ok t ->
  (exists f v i, trace t = EvNew f v i :: EvMap f :: EvOpen f :: trace s /\ in_use t f /\
     a_version a = Some v /\ a_map a = true /\ (v = 7 /\ i = Io32 \/ v = 8 /\ i = Io64)) \/
  (hd (EvOpen 0) (trace t) = EvFail /\ (a_fd a = None \/ a_map a = false \/ forall v, a_version a = Some v -> v <> 7 /\ v <> 8) /\
   (forall n, fds t n = fds s n) /\ (forall f, mapped t f = mapped s f)).
Proof. exact accepted. Qed.
Print Assumptions C61_accepted.
(* A looper which doesn't finish in time: data which was received from the same device is gone although it's held,
   reading it is an access to unmapped memory, and so is giving it up if there are objects in it *)
Theorem C61_stuck_refuted : forall l s u w o, run init l = Ok s ->
  u_live (users s u) = true -> u_kind (users s u) = Looper ->
  u_live (users s w) = true -> u_kind (users s w) = Data o -> u_driver (users s w) = u_driver (users s u) ->
  run init (l ++ [MStuck u; MRead w]) = Crash /\
  (o = true -> u_loaded (users s w) = None -> run init (l ++ [MStuck u; MDone w]) = Crash).
Proof. exact stuck_reads. Qed.
Print Assumptions C61_stuck_refuted.
(* ... and a command which was about to be sent goes to whatever was opened under the same number *)
Theorem C61_foreign_refuted : forall l s u w n, run init l = Ok s ->
  u_live (users s u) = true -> u_kind (users s u) = Looper ->
  u_live (users s w) = true -> u_driver (users s w) = u_driver (users s u) ->
  d_fd (drivers s (u_driver (users s w))) = Some n -> u_loaded (users s w) = Some (Some n) ->
  exists t g, run init (l ++ [MStuck u; MOtherOpen n; MCommand w]) = Ok t /\
    hd EvFail (trace t) = EvCommand (d_file (drivers s (u_driver (users s w)))) (Some g) /\
    g <> d_file (drivers s (u_driver (users s w))) /\ opens (trace t) g = 0%nat.
Proof. exact stuck_foreign. Qed.
Print Assumptions C61_foreign_refuted.

(* A day at work: the rest of the process has a file, one device is opened under the next number, another one is
   too old, a looper receives something, the looper and the connection are done before the data is,
   then the same number is used for something else *)
Definition work : list move :=
  [MOtherOpen 0; MOpen (Answers (Some 1%nat) (Some 8) true); MOpen (Answers (Some 2%nat) (Some 6) true);
   MUse 0 Looper; MLoad 1; MCommand 1; MUse 1 (Data true); MRead 2; MLoad 1; MCommand 1; MDone 1; MDone 0; MRead 2].
Example C61_work : in_time work /\ exists s, run init work = Ok s /\ in_use s 1 /\ fds s 1%nat = Some 1%nat /\
  opens (trace s) 2 = 1%nat /\ closes (trace s) 2 = 1%nat.
Proof.
  split; [repeat (apply Forall_cons; [exact I|]); apply Forall_nil|]. eexists. split; [vm_compute; reflexivity|].
  split; [exists 2%nat; vm_compute; auto|]. vm_compute. auto.
Qed.
Example C61_over : exists s, run init (work ++ [MDone 2; MOtherOpen 1]) = Ok s /\ ~ in_use s 1 /\
  trace s = [EvClose 1; EvUnmap 1; EvCommand 1 (Some 1%nat); EvCommand 1 (Some 1%nat); EvCommand 1 (Some 1%nat);
             EvFail; EvClose 2; EvOpen 2; EvNew 1 8 Io64; EvMap 1; EvOpen 1].
Proof.
  eexists. split; [vm_compute; reflexivity|]. split; [|reflexivity].
  intros (u & L & _). destruct u as [|[|[|u]]]; vm_compute in L; discriminate.
Qed.
Definition trouble : list move :=
  [MOpen (Answers (Some 0%nat) (Some 7) true); MUse 0 Looper; MUse 1 (Data true); MLoad 0].
Example C61_trouble : exists s, run init trouble = Ok s /\
  u_live (users s 1%nat) = true /\ u_kind (users s 1%nat) = Looper /\
  u_live (users s 2%nat) = true /\ u_kind (users s 2%nat) = Data true /\ u_driver (users s 2%nat) = u_driver (users s 1%nat) /\
  u_loaded (users s 2%nat) = None /\
  u_live (users s 0%nat) = true /\ u_driver (users s 0%nat) = u_driver (users s 1%nat) /\
  d_fd (drivers s (u_driver (users s 0%nat))) = Some 0%nat /\ u_loaded (users s 0%nat) = Some (Some 0%nat).
Proof. eexists. split; [vm_compute; reflexivity|]. vm_compute. repeat split. Qed.
