(* C57: registration notifications of HIDL managers get through exactly while they are asked for *)
From Verif Require Import Base BaseLemmas WriterModel ReaderModel CodecSpec CodecProofs ObjModel ObjReader
  KernelModel ObjSpec HidlSpec SafeSpec HwModel HwSpec HwProofs HwTrip.
From Verif Require HidlProps SafeProps.

Definition name_a : bytes := [97].
Definition name_b : bytes := [98].
Definition agreement : answer := Answer 0 (Some 0) (Some true).
Definition refusal : answer := Answer 0 (Some 0) (Some false).
(* A name is watched, registered and notified; another one is unwatched before its request is sent *)
Definition moves : list move :=
  [MWatch name_a true; MPerform 0; MReply 0 agreement; MDestroy 0;
   MNotify 0 (Some NOTIFICATION_IFACE) ON_REGISTRATION (Some name_a);
   MWatch name_b true; MUnwatch name_b; MPerform 1; MDestroy 1].
Definition rest_moves : list move :=
  [MNotify 1 (Some NOTIFICATION_IFACE) ON_REGISTRATION (Some name_b); MLetGo 1; MUnwatch name_a; MLetGo 0].
Definition story : list event :=
  [EvSent 1; EvUnwatch name_b; EvWatch name_b 1 true; EvAnswered 0 0; EvRegistered name_a; EvSent 0;
   EvWatch name_a 0 true].
Lemma told l (P : state -> Prop) : match run init l with Ok s => P s | _ => False end -> exists s, run init l = Ok s /\ P s.
Proof. destruct (run init l) as [| |s]; try tauto. eauto. Qed.
Lemma story_told : exists s, run init moves = Ok s /\ trace s = story /\ o_kernel (objs s 0) = true /\
  o_kernel (objs s 1) = true /\ w_alive (watches s 1) = false.
Proof. apply told. vm_compute. repeat split. Qed.

(* Nothing which is freed is ever used *)
Theorem C57_no_crash l : run init l <> Crash.
Proof. exact (no_crash l). Qed.
Print Assumptions C57_no_crash.
(* ... and there are histories *)
Example C57_no_crash_case : exists s, run init (moves ++ rest_moves) = Ok s /\ length (trace s) = 8%nat.
Proof. apply told. vm_compute. reflexivity. Qed.

(* A request of the peer is reported as a registration if and only if the object is in use, and it's
   onRegistration of the right interface with data which can be understood. *)
Theorem C57_reported_while_in_use l s i iface code text :
  run init l = Ok s -> o_kernel (objs s i) = true ->
  exists s' seen, step s (MNotify i iface code text) = Ok s' /\ trace s' = seen ++ trace s /\
    seen_of_request (trace s) i iface code text seen.
Proof. exact (request_seen l s i iface code text). Qed.
Print Assumptions C57_reported_while_in_use.
Example C57_reported_case : exists s, run init moves = Ok s /\ o_kernel (objs s 0) = true /\ in_use (trace s) 0 name_a.
Proof.
  destruct story_told as (s & E & T & K & _). exists s. split; [exact E|]. split; [exact K|]. rewrite T.
  cbn. split; [discriminate|]. right. split; [discriminate|auto].
Qed.
(* ... and the object of the other name isn't in use although its request has been sent *)
Example C57_reported_not_case :
  exists s, run init moves = Ok s /\ o_kernel (objs s 1) = true /\ (forall n, ~ in_use (trace s) 1 n) /\
  In (EvSent 1) (trace s).
Proof.
  destruct story_told as (s & E & T & _ & K & _). exists s. split; [exact E|]. split; [exact K|]. rewrite T.
  split; [|left; reflexivity]. intros n. cbn. unfold name_a, name_b. intros (N & [(_ & X & _)|(_ & [(X & _)|(_ & [])])]); congruence.
Qed.

(* What is understood: the text which is reported is the full name that the manager has sent *)
Theorem C57_name_understood cm pr al e header a fq b nm pre :
  let i := k_io e in
  let message := [OpPlain (VRaw header); OpHidlString (Some (a, fq)); OpHidlString (Some (b, nm)); OpPlain (VBool pre)] in
  all_bytes header -> header <> [] -> blen header mod 4 = 0 ->
  (forall j, is_addr i (al j)) ->
  string_ok i (k_mem e) (Some (a, fq)) -> string_ok i (k_mem e) (Some (b, nm)) ->
  exists d, w_ops i pr al wd_empty message = Base.Ok d /\
    (blen (wd_bytes d) < 2 ^ 31 ->
     Forall (fun x => holds (k_mem e) (fst x) (snd x)) (wd_heap d) ->
     0 < k_sgbase e -> k_sgbase e + align8 (wd_bufsize d) < 2 ^ (8 * psz i) ->
     exists g p, k_send e (wd_bytes d) (wd_offsets d) (wd_bufsize d) = Some g /\
       read_item cm i pr g (reader_init 0 (blen (m_data g)) (wd_offsets d)) (RKPlain (KRaw (length header))) =
         Base.Ok (IPlain (RBytes header), p) /\
       handle_registration i g p = Base.Ok (Some (fq ++ [47] ++ nm))).
Proof. exact (registration_understood cm pr al e header a fq b nm pre). Qed.
Print Assumptions C57_name_understood.
Definition sender_blocks : list (Z * bytes) := [(1100, [65; 66; 0]); (1200, [67; 0])].
Definition sent_message : list op :=
  [OpPlain (VRaw [1; 2; 3; 4]); OpHidlString (Some (1100, [65; 66])); OpHidlString (Some (1200, [67])); OpPlain (VBool true)].
Definition sender_heap : list (Z * bytes) :=
  match w_ops Io64 Hidl HidlProps.heap_at wd_empty sent_message with
  | Base.Ok d => wd_heap d
  | Fault _ => []
  end.
Definition sender_env : kenv :=
  {| k_io := Io64; k_sgbase := 65536; k_mem := HidlProps.block_mem (sender_blocks ++ sender_heap);
     k_node := fun n => n; k_ref := fun h => Some h; k_own := fun _ => 0; k_fd := fun f => f |}.
Example C57_name_case :
  all_bytes [1; 2; 3; 4] /\ (forall j, is_addr Io64 (HidlProps.heap_at j)) /\
  string_ok Io64 (k_mem sender_env) (Some (1100, [65; 66])) /\ string_ok Io64 (k_mem sender_env) (Some (1200, [67])) /\
  exists d, w_ops Io64 Hidl HidlProps.heap_at wd_empty sent_message = Base.Ok d /\
    blen (wd_bytes d) < 2 ^ 31 /\ Forall (fun x => holds (k_mem sender_env) (fst x) (snd x)) (wd_heap d) /\
    0 < k_sgbase sender_env /\ k_sgbase sender_env + align8 (wd_bufsize d) < 2 ^ 64.
Proof.
  split; [repeat constructor; unfold is_byte; lia|]. split; [exact HidlProps.trip_addrs|].
  split. { cbn [string_ok]. split; [vm_compute; split; reflexivity|]. split; [repeat constructor; unfold is_byte; lia|].
    split; [cbn; lia|]. split; [vm_compute; reflexivity|vm_compute; reflexivity]. }
  split. { cbn [string_ok]. split; [vm_compute; split; reflexivity|]. split; [repeat constructor; unfold is_byte; lia|].
    split; [cbn; lia|]. split; [vm_compute; reflexivity|vm_compute; reflexivity]. }
  eexists. split; [vm_compute; reflexivity|]. cbn [wd_bytes wd_heap wd_bufsize].
  split; [vm_compute; reflexivity|].
  split; [repeat (apply Forall_cons; [vm_compute; reflexivity|]); apply Forall_nil|].
  split; [reflexivity|]. vm_compute. reflexivity.
Qed.

(* Whatever else the peer sends, reading it doesn't go out of bounds. Excluded are strings which claim
   2^32 - 1 bytes (see C51). *)
Theorem C57_any_data_partial cm pr e data offs bufsize g n x p :
  0 < k_sgbase e -> k_sgbase e + align8 bufsize < 2 ^ (8 * psz (k_io e)) -> 0 <= bufsize ->
  byte_memory (k_mem e) -> Forall (fun o => 0 <= o) offs -> all_bytes data -> blen data < 2 ^ 31 ->
  k_send e data offs bufsize = Some g -> no_huge_string g ->
  read_item cm (k_io e) pr g (reader_init 0 (blen data) offs) (RKPlain (KRaw n)) = Base.Ok (x, p) ->
  exists t, handle_registration (k_io e) g p = Base.Ok t.
Proof. exact (registration_any_data cm pr e data offs bufsize g n x p). Qed.
Print Assumptions C57_any_data_partial.
Example C57_any_data_case :
  k_send SafeProps.peer_env SafeProps.peer_data SafeProps.peer_offs 64 = Some SafeProps.peer_message /\
  no_huge_string SafeProps.peer_message /\ byte_memory (k_mem SafeProps.peer_env) /\
  exists p, read_item Strict Io64 Hidl SafeProps.peer_message (reader_init 0 (blen SafeProps.peer_data) SafeProps.peer_offs)
              (RKPlain (KRaw 4)) = Base.Ok (IPlain (RBytes [0; 0; 0; 0]), p) /\
    handle_registration Io64 SafeProps.peer_message p = Base.Ok None.
Proof.
  split; [vm_compute; reflexivity|]. split; [exact SafeProps.peer_no_huge|]. split; [exact SafeProps.peer_bytes|].
  eexists. split; [vm_compute; reflexivity|]. vm_compute. reflexivity.
Qed.
(* ... with such a string the manager makes the process read outside of the message *)
Theorem C57_any_data_refuted : forall i cm pr, exists g p,
  let data := le 4 0 ++ ptr_image i 0 1024 16 0 0 ++ ptr_image i 1 2048 0 0 0 in
  let offs := [4; 4 + ptr_size i] in
  k_send (SafeProps.huge_env i) data offs 16 = Some g /\
  read_item cm i pr g (reader_init 0 (blen data) offs) (RKPlain (KRaw 4)) = Base.Ok (IPlain (RBytes [0; 0; 0; 0]), p) /\
  handle_registration i g p = Fault OutOfBounds.
Proof. intros i cm pr. destruct i, cm; eexists _, _; (split; [vm_compute; reflexivity|]); (split; [vm_compute; reflexivity|]); vm_compute; reflexivity. Qed.
Print Assumptions C57_any_data_refuted.

(* There's at most one object which is in use for a name *)
Theorem C57_one_object l s i j n :
  run init l = Ok s -> in_use (trace s) i n -> in_use (trace s) j n -> i = j.
Proof. exact (one_in_use l s i j n). Qed.
Print Assumptions C57_one_object.

(* A name which is watched has one if no registration has failed. Missing: that it's so even if one of
   them has failed. *)
Theorem C57_listening_partial l s n :
  run init l = Ok s -> watched (trace s) n -> (forall i, ~ In (EvFail i) (trace s)) -> exists i, in_use (trace s) i n.
Proof. exact (listened l s n). Qed.
Print Assumptions C57_listening_partial.
Example C57_listening_case :
  exists s, run init moves = Ok s /\ watched (trace s) name_a /\ (forall i, ~ In (EvFail i) (trace s)) /\ in_use (trace s) 0 name_a.
Proof.
  destruct story_told as (s & E & T & _). exists s. split; [exact E|]. rewrite T.
  split; [cbn; split; [discriminate|]; right; split; [discriminate|auto]|].
  split; [intros i; cbn; intuition discriminate|cbn; split; [discriminate|]; right; split; [discriminate|auto]].
Qed.
(* A reply which says that the object was registered leaves it in use *)
Theorem C57_agreed_kept l s i a s1 : run init l = Ok s -> step s (MReply i a) = Ok s1 -> agreed a -> trace s1 = trace s.
Proof.
  intros _ Es (A1 & A2 & A3). cbn [step] in Es. destruct (c_phase (calls s i)); try discriminate.
  destruct (c_cancelled _); try discriminate.
  unfold call_reply in Es. cbn [set_call watches] in Es. destruct (w_alive (watches s i)); [|discriminate].
  rewrite A1, A2, A3 in Es. cbn in Es. injection Es as <-. reflexivity.
Qed.
Print Assumptions C57_agreed_kept.
Example C57_agreed_kept_case :
  match run init [MWatch [97] true; MPerform 0] with
  | Ok s => exists s1, step s (MReply 0 (Answer 0 (Some 0) (Some true))) = Ok s1 /\ in_use (trace s1) 0 [97]
  | _ => False
  end.
Proof. vm_compute. eexists. split; [reflexivity|]. vm_compute. left. auto. Qed.

(* ... refuted: when the manager refuses, the name is still considered to be watched, and nobody
   listens for it, whatever happens, until it's watched again *)
Theorem C57_listening_refuted l s i a s1 n :
  run init l = Ok s -> step s (MReply i a) = Ok s1 -> ~ agreed a -> in_use (trace s) i n ->
  watched (trace s1) n /\
  forall r s2, run s1 r = Ok s2 -> Forall (fun m => ~ watches_name n m) r -> forall j, ~ in_use (trace s2) j n.
Proof.
  intros E Es N U. destruct (reply_fails l s i a s1 n E Es N U) as (W & X). split; [exact W|].
  intros r s2 R F. pose proof (all_step s (MReply i a) (reach l s E)) as A. rewrite Es in A.
  exact (run_use r s1 s2 n A R F X).
Qed.
Print Assumptions C57_listening_refuted.
Example C57_listening_refuted_case :
  exists s s1, run init [MWatch name_a true; MPerform 0] = Ok s /\ step s (MReply 0 refusal) = Ok s1 /\
  ~ agreed refusal /\ in_use (trace s) 0 name_a.
Proof.
  destruct (told [MWatch name_a true; MPerform 0] (fun s => trace s = [EvSent 0; EvWatch name_a 0 true] /\
    exists s1, step s (MReply 0 refusal) = Ok s1)) as (s & E & T & s1 & X).
  { split; [vm_compute; reflexivity|]. eexists. vm_compute. reflexivity. }
  exists s, s1. split; [exact E|]. split; [exact X|]. split; [intros (_ & _ & ?); discriminate|]. rewrite T. cbn. auto.
Qed.

(* The manager gets an object once, only if its call was accepted, and the object is alive then *)
Theorem C57_sent_once l s i :
  run init l = Ok s ->
  (times_sent (trace s) i <= 1)%nat /\ (times_sent (trace s) i = 1%nat -> accepted (trace s) i).
Proof. exact (sent_once l s i). Qed.
Print Assumptions C57_sent_once.
Theorem C57_sent_alive l s i s' :
  run init l = Ok s -> step s (MPerform i) = Ok s' -> o_freed (objs s i) = 0%nat /\ o_freed (objs s' i) = 0%nat.
Proof.
  intros E X. assert (P : c_phase (calls s i) = Queued).
  { cbn [step] in X. destruct (c_phase (calls s i)); try discriminate. reflexivity. }
  split; [apply (not_freed l s i E); right; right; congruence|].
  assert (E2 : run init (l ++ [MPerform i]) = Ok s').
  { assert (G : forall l0 s0, run s0 l0 = Ok s -> run s0 (l0 ++ [MPerform i]) = Ok s').
    { clear E. induction l0 as [|m r IH]; intros s0 E; cbn [run Datatypes.app] in *; [injection E as ->; rewrite X; reflexivity|].
      destruct (step s0 m); try discriminate. cbn [HwModel.bind] in *. auto. }
    exact (G l init E). }
  apply (not_freed _ s' i E2). right. left.
  cbn [step] in X. rewrite P in X. destruct (o_alive (objs s i)); [|discriminate]. injection X as <-.
  cbn -[upd]. rewrite upd_same. reflexivity.
Qed.
Print Assumptions C57_sent_alive.
(* ... even if it's sent when the watch is gone *)
Example C57_sent_case : exists s, run init moves = Ok s /\ times_sent (trace s) 1 = 1%nat /\ w_freed (watches s 1) = 1%nat /\
  o_freed (objs s 1) = 0%nat.
Proof. apply told. vm_compute. auto. Qed.

(* Nothing is freed twice, and an object isn't freed while it's in use, or the call or the peer has it *)
Theorem C57_freed_at_most_once l s i :
  run init l = Ok s ->
  ((o_freed (objs s i) <= 1)%nat /\ (c_freed (calls s i) <= 1)%nat /\ (w_freed (watches s i) <= 1)%nat) /\
  ((exists n, in_use (trace s) i n) \/ o_kernel (objs s i) = true \/ c_phase (calls s i) <> Destroyed ->
   o_freed (objs s i) = 0%nat).
Proof. intros E. split; [exact (freed_once l s i E)|exact (not_freed l s i E)]. Qed.
Print Assumptions C57_freed_at_most_once.
(* Everything is freed in the end, if the call was accepted. Missing: calls which weren't. *)
Theorem C57_all_freed_partial l s i :
  run init l = Ok s -> quiet s -> (forall n, ~ watched (trace s) n) -> accepted (trace s) i ->
  o_freed (objs s i) = 1%nat /\ c_freed (calls s i) = 1%nat /\ w_freed (watches s i) = 1%nat.
Proof. exact (all_freed l s i). Qed.
Print Assumptions C57_all_freed_partial.
Example C57_all_freed_case : exists s, run init (moves ++ rest_moves) = Ok s /\ quiet s /\
  (forall n, ~ watched (trace s) n) /\ accepted (trace s) 0 /\ accepted (trace s) 1.
Proof.
  destruct (told (moves ++ rest_moves) (fun s => count s = 2%nat /\ trace s = EvUnwatch name_a :: story /\
     c_phase (calls s 0) = Destroyed /\ c_phase (calls s 1) = Destroyed /\ o_kernel (objs s 0) = false /\ o_kernel (objs s 1) = false))
    as (s & E & C & T & P0 & P1 & K0 & K1).
  { vm_compute. repeat split. }
  destruct (reach _ s E) as (H & Hh).
  assert (Far : forall i, i <> 0%nat -> i <> 1%nat -> fresh (watches s i) (objs s i) (calls s i)).
  { intros i N0 N1. apply (i_fresh s H). lia. }
  exists s. split; [exact E|]. split; [|split].
  - split; [|split].
    + intros i. destruct (Nat.eq_dec i 0) as [->|N0]; [auto|]. destruct (Nat.eq_dec i 1) as [->|N1]; [auto|].
      destruct (Far i N0 N1) as (_&_&_&_&->). auto.
    + intros i. destruct (Nat.eq_dec i 0) as [->|N0]; [auto|]. destruct (Nat.eq_dec i 1) as [->|N1]; [auto|].
      destruct (Far i N0 N1) as (_&_&_&->&_). auto.
    + intros i n. rewrite T. cbn. intuition congruence.
  - intros n. rewrite T. cbn. intuition congruence.
  - rewrite T. split; [exists name_a|exists name_b]; cbn; tauto.
Qed.
(* ... refuted: the object and the arguments of a call which isn't accepted, e.g. because the manager
   has died, are never freed; and it may be refused at any time *)
Theorem C57_all_freed_refuted l s i :
  run init l = Ok s ->
  (refused (trace s) i -> o_freed (objs s i) = 0%nat /\ c_freed (calls s i) = 0%nat) /\
  (present s = true -> forall n, exists s', step s (MWatch n false) = Ok s' /\ refused (trace s') (count s)).
Proof.
  intros E. split; [exact (refused_kept l s i E)|]. intros P n. exact (refused_happens l s n E P).
Qed.
Print Assumptions C57_all_freed_refuted.
(* ... even when the service manager is gone *)
Example C57_all_freed_refuted_case :
  exists s, run init [MWatch name_a false; MFinalize []] = Ok s /\ present s = false /\ refused (trace s) 0 /\
  o_freed (objs s 0) = 0%nat.
Proof. apply told. split; [vm_compute; reflexivity|]. split; [exists name_a; vm_compute; auto|vm_compute; reflexivity]. Qed.
