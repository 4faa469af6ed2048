(* C60: commands reach the binder driver once, whole, and with their meaning *)
From Verif Require Import Base ObjModel TxModel CmdModel CmdSpec CmdProofs.

(* A thread which serves a request, with system calls which are interrupted: the transaction is taken in three
   pieces, one of them before an interruption *)
Definition work : list (call * list answer) :=
  [(CEnterLooper, [Took 4 false]);
   (CGotIncrefs [1; 2; 3; 4; 5; 6; 7; 8; 9; 10; 11; 12; 13; 14; 15; 16], [Error 4 0; Error 11 0; Took 100 false]);
   (CAcquire 7, [Took 8 false]);
   (CRequestDeath 7, [Error 4 5; Took 100 true]);
   (CTransact 7 1234567 true 4096 64 [0; 24] 8192 100, [Error 4 10; Took 10 true; Took 100 true; Took 0 false]);
   (CFreeBuffer 65536, [Took 100 false]);
   (CReply 4096 8 [] 0 0, [Took 100 false]);
   (CDeadDone 7, [Took 100 false]);
   (CExitLooper, [Took 4 false])].
Definition small (i : io) (x : call * list answer) : call * list answer :=
  match fst x with CGotIncrefs p => (CGotIncrefs (firstn (2 * word i) p), snd x) | _ => x end.

(* Whatever the arguments are, the arrays in which commands are made are large enough *)
Theorem C60_no_overflow :
  forall i l, Forall (fun x => args_ok i (fst x)) l -> exists rets got, thread i l [] = Ok (rets, got).
Proof. exact (fun i l => no_overflow i l []). Qed.
Print Assumptions C60_no_overflow.

(* If the driver neither asks to repeat what it has taken nor reports success before it has taken everything,
   then after any number of calls which were successful it has got exactly the commands which were meant, in
   the same order *)
Theorem C60_understood_partial :
  forall i l rets got,
  Forall (fun x => args_ok i (fst x)) l ->
  Forall (fun x => no_repeat false (snd x) /\
    forall data, command i (fst x) = Ok data -> takes_all (is_transaction (fst x)) (length data) (snd x)) l ->
  thread i l [] = Ok (rets, got) -> length rets = length l -> Forall (fun r => 0 <= r) rets ->
  understood i got (map (fun x => meaning i (fst x)) l).
Proof.
  intros i l rets got H1 H2 H3 H4 H5. destruct (all_understood i l [] rets got H1 H2 H3 H4 H5) as (b & -> & H). exact H.
Qed.
Print Assumptions C60_understood_partial.
Ltac in_range := unfold is_u32, is_word, message_ok, all_bytes, is_byte; cbn -[Z.pow];
  repeat split; repeat constructor; cbn; try lia; try discriminate.
Example C60_work : forall i,
  let l := map (small i) work in
  Forall (fun x => args_ok i (fst x)) l /\
  Forall (fun x => no_repeat false (snd x) /\
    forall data, command i (fst x) = Ok data -> takes_all (is_transaction (fst x)) (length data) (snd x)) l /\
  exists got, thread i l [] = Ok ([0; 0; 0; 0; 0; 0; 0; 0; 0], got) /\ length got = (match i with Io32 => 148 | Io64 => 220 end)%nat.
Proof.
  intros i l. split; [|split].
  - subst l. destruct i; cbn; repeat constructor; in_range.
  - subst l. unfold work. destruct i; cbn [map]; unfold small; cbn [fst snd];
      repeat (apply Forall_cons; [split; [cbn; repeat split; intros; discriminate || auto|
        intros data E; vm_compute in E; injection E as <-; cbn; repeat split; intros; try discriminate; lia]|]); apply Forall_nil.
  - subst l. destruct i; eexists; (split; [vm_compute; reflexivity|]); vm_compute; reflexivity.
Qed.
Example C60_meaning_case :
  map (fun x => meaning Io64 (fst x)) (map (small Io64) work) =
  [KEnterLooper; KIncrefsDone 0x0807060504030201 0x100f0e0d0c0b0a09; KAcquire 7; KRequestDeath 7 7;
   KTransactionSg {| tr_target := 7; tr_cookie := 0; tr_code := 1234567; tr_flags := 16; tr_pid := 0; tr_euid := 0;
     tr_data_size := 64; tr_offsets_size := 16; tr_buffer := 4096; tr_offsets := 8192 |} 104;
   KFreeBuffer 65536;
   KReply {| tr_target := 0; tr_cookie := 0; tr_code := 0; tr_flags := 0; tr_pid := 0; tr_euid := 0;
     tr_data_size := 8; tr_offsets_size := 0; tr_buffer := 4096; tr_offsets := 0 |};
   KDeadDone 7; KExitLooper].
Proof. vm_compute. reflexivity. Qed.

(* ... and whatever happens to a call (it may fail or never return), the driver has got the beginning of the
   command: nothing is skipped, nothing is repeated *)
Theorem C60_in_order_partial :
  forall c data l, no_repeat false l ->
  exists r, data = match perform c data l with Waits got => got ++ r | Returns _ got => got ++ r end.
Proof.
  intros c data l H. destruct (in_order c data l H) as [r E]. exists r. rewrite E at 1. destruct (perform c data l); reflexivity.
Qed.
Print Assumptions C60_in_order_partial.
Example C60_in_order_case :
  perform CEnterLooper [1; 2; 3; 4] [Error 4 1; Error 4 2; Error 22 0] = Returns (-22) [1; 2; 3] /\
  no_repeat false [Error 4 1; Error 4 2; Error 22 0].
Proof. split; [vm_compute; reflexivity|]. cbn. repeat split; discriminate. Qed.

(* If the driver reports success but has taken less than it was offered, any command except for a transaction
   is cut short although it's reported as written *)
Theorem C60_short_refuted :
  forall c data n again, is_transaction c = false -> (n < length data)%nat ->
  perform c data [Took n again] = Returns 0 (firstn n data) /\ firstn n data <> data.
Proof. intros c data n again H1 H2. exact (short c data n H1 H2 again). Qed.
Print Assumptions C60_short_refuted.
(* If the driver asks to try again after it has taken something, that's written twice; if it was a whole
   command, the driver gets two of them, e.g. a transaction is made twice *)
Theorem C60_repeated_refuted :
  forall i c, args_ok i c -> exists data, command i c = Ok data /\
  exists got, perform c data [Error 11 (length data); Took (length data) false] = Returns 0 got /\
  understood i got [meaning i c; meaning i c].
Proof.
  intros i c H. destruct (command_says i c H) as (data & E & P). exists data. split; [exact E|].
  assert (L : (0 < length data)%nat).
  { destruct data; [|cbn; lia]. specialize (P []). vm_compute in P. discriminate. }
  exists (data ++ data)%list. split.
  - rewrite (repeated c data (length data)) by lia. rewrite firstn_all. reflexivity.
  - econstructor; [apply P|]. econstructor; [|constructor]. rewrite <- (app_nil_r data). apply P.
Qed.
Print Assumptions C60_repeated_refuted.
