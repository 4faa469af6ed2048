(* C67: the configuration while the program runs *)
From Coq Require Import String Lia.
From Verif Require Import Base ObjModel ConfModel ConfSpec ConfProofs CfgModel CfgSpec CfgProofs.
Open Scope string_scope.

(* As long as the main thread is the first to ask, answers to all threads are right and
   consistent: all answers of one kind come from the same version of the files *)
Theorem C67_right_answers_partial :
  forall (to_int : string -> Z) (d : files) (l : list op) (s : state),
  careful to_int (init d) l ->
  run to_int (init d) l = Some (Next s) ->
  exists f : what -> files, forall w, In (f w) (versions d l) /\
    forall t dev v, In (t, w, dev, v) (returned s) -> answer to_int w (f w) dev v.
Proof. exact right_answers. Qed.
Print Assumptions C67_right_answers_partial.

(* ... and if the event loop doesn't get to run in between, then both kinds come from
   the same version *)
Theorem C67_same_version_partial :
  forall (to_int : string -> Z) (d : files) (l : list op) (s : state),
  careful to_int (init d) l ->
  run to_int (init d) l = Some (Next s) ->
  no_release l ->
  (forall x, In x (versions d l) -> load_files to_int (fst x) (snd x) <> None) ->
  exists x, In x (versions d l) /\
    forall t w dev v, In (t, w, dev, v) (returned s) -> answer to_int w x dev v.
Proof. exact same_version. Qed.
Print Assumptions C67_same_version_partial.

Theorem C67_no_crash_partial :
  forall (to_int : string -> Z) (d : files) (l : list op),
  careful to_int (init d) l -> run to_int (init d) l <> Some Crash.
Proof. exact no_crash. Qed.
Print Assumptions C67_no_crash_partial.

(* The files are loaded at most twice, each table is made once, everything that was
   loaded is released; but all callbacks except for the last one are lost *)
Theorem C67_released_partial :
  forall (to_int : string -> Z) (d : files) (l : list op) (s : state),
  careful to_int (init d) l ->
  run to_int (init d) l = Some (Next s) ->
  quiet s ->
  (forall k, ~ in_memory s k) /\ (List.length (keyfiles s) <= 2)%nat /\
  (forall w, (tables_made s w <= 1)%nat) /\
  (forall i, lost_callback s i <-> (S i < List.length (keyfiles s))%nat).
Proof. exact released. Qed.
Print Assumptions C67_released_partial.

Definition sample_files : files :=
  (Some [("Protocol", "Default", "hidl"); ("Protocol", "/dev/x", "aidl3"); ("ServiceManager", "/dev/x", "aidl2")], []).
Definition other_files : files :=
  (Some [("Protocol", "/dev/x", "aidl"); ("ServiceManager", "/dev/x", "aidl4")], []).
Definition no_int (s : string) : Z := 0%Z.
(* The main thread asks about /dev/y, the files are edited, two threads ask about
   /dev/x and /dev/z at once, the event loop releases the files, the main thread asks
   for the service manager of /dev/x *)
Definition sample_history : list op :=
  ([Call 0 Protocols "/dev/y"] ++ go 0 13 ++ [Change other_files] ++
   [Call 1 Protocols "/dev/x"; Call 2 Protocols "/dev/z"; Step 1; Step 2; Step 2; Step 1; Fire 0; Step 2] ++
   [Call 0 Managers "/dev/x"] ++ go 0 11 ++ [Fire 1])%list.

Definition returned_by (r : option outcome) : option (list (nat * what * string * value)) :=
  match r with Some (Next s) => Some (returned s) | _ => None end.
Definition lost_by (r : option outcome) : option (nat * list (nat * bool)) :=
  match r with Some (Next s) => Some (List.length (keyfiles s), callbacks s) | _ => None end.

Example C67_history_ex :
  returned_by (run no_int (init sample_files) sample_history) =
    Some [(0%nat, Managers, "/dev/x", VManager SmAidl4); (2%nat, Protocols, "/dev/z", VProtocol Hidl);
          (1%nat, Protocols, "/dev/x", VProtocol Aidl3); (0%nat, Protocols, "/dev/y", VProtocol Hidl)] /\
  lost_by (run no_int (init sample_files) sample_history) = Some (2%nat, [(0%nat, false); (1%nat, false)]).
Proof. vm_compute. split; reflexivity. Qed.

(* A check of the guard, for examples *)
Fixpoint carefulb (to_int : string -> Z) (s : state) (l : list op) : bool :=
  match l with
  | [] => true
  | o :: r =>
    match o with
    | Call t w _ => Nat.eqb t 0 || existsb (fun e => what_eqb (snd (fst (fst e))) w) (returned s)
    | _ => true
    end &&
    match step to_int s o with
    | Some (Next s1) => carefulb to_int s1 r
    | _ => true
    end
  end.
Lemma carefulb_careful to_int l : forall s, carefulb to_int s l = true -> careful to_int s l.
Proof.
  induction l as [|o l IH]; intros s H; cbn [carefulb careful] in *; [exact Logic.I|].
  apply andb_prop in H. destruct H as (H1 & H2). split.
  - destruct o; try exact Logic.I. apply Bool.orb_prop in H1. destruct H1 as [H1|H1].
    + left. apply Nat.eqb_eq. exact H1.
    + right. apply existsb_exists in H1. destruct H1 as ([[[a b] c] e] & X & Y). cbn in Y.
      destruct (what_eqb_spec b w) as [->|]; [|discriminate]. exists a, c, e. exact X.
  - destruct (step to_int s o) as [[s1|]|]; try exact Logic.I. apply IH. exact H2.
Qed.
Example C67_careful_ex : careful no_int (init sample_files) sample_history.
Proof. apply carefulb_careful. vm_compute. reflexivity. Qed.

(* The same without releases: one version *)
Definition sample_history2 : list op :=
  ([Call 0 Protocols "/dev/y"] ++ go 0 13 ++ [Change other_files] ++
   [Call 0 Managers "/dev/x"] ++ go 0 9)%list.
Example C67_same_version_ex :
  careful no_int (init sample_files) sample_history2 /\ no_release sample_history2 /\
  (forall x, In x (versions sample_files sample_history2) -> load_files no_int (fst x) (snd x) <> None) /\
  returned_by (run no_int (init sample_files) sample_history2) =
    Some [(0%nat, Managers, "/dev/x", VManager SmAidl2); (0%nat, Protocols, "/dev/y", VProtocol Hidl)].
Proof.
  split; [apply carefulb_careful; vm_compute; reflexivity|]. split; [|split].
  - intros i. vm_compute. intuition discriminate.
  - vm_compute. intros x [<-|[<-|[]]]; discriminate.
  - vm_compute. reflexivity.
Qed.

(* The full claims are false. Each of the following holds for any contents of the files. *)

(* The main thread is the only one which asks, but the event loop runs between its
   questions and the files are edited: the protocol is taken from one version and the
   service manager from the other *)
Theorem C67_same_version_refuted :
  forall (to_int : string -> Z) (d1 d2 : files) (dev : string),
  load_files to_int (fst d1) (snd d1) <> None -> load_files to_int (fst d2) (snd d2) <> None ->
  exists l s v1 v2,
    careful to_int (init d1) l /\ run to_int (init d1) l = Some (Next s) /\
    versions d1 l = [d1; d2] /\
    returned s = [(0%nat, Managers, dev, v2); (0%nat, Protocols, dev, v1)] /\
    answer to_int Protocols d1 dev v1 /\ answer to_int Managers d2 dev v2.
Proof. exact two_versions. Qed.
Print Assumptions C67_same_version_refuted.

(* Two threads ask at the same time, the first question: if the configuration has a
   default which isn't aidl, then the thread which finds the table before the default is
   set gets the wrong protocol for a device which is not configured *)
Theorem C67_right_answers_refuted :
  forall (to_int : string -> Z) (d : files) (dev def : string) (p : protocol),
  let kf := load_files to_int (fst d) (snd d) in
  config_value kf "Protocol" "Default" = Some def -> protocol_known def p -> p <> Aidl ->
  config_value kf "Protocol" dev = None -> dev <> "/dev/binder" -> dev <> "/dev/hwbinder" ->
  exists l s,
    run to_int (init d) l = Some (Next s) /\
    versions d l = [d] /\ In (2%nat, Protocols, dev, VProtocol Aidl) (returned s) /\
    answer to_int Protocols d dev (VProtocol p) /\ ~ answer to_int Protocols d dev (VProtocol Aidl).
Proof. exact wrong_default. Qed.
Print Assumptions C67_right_answers_refuted.

(* A thread asks while the main thread runs the event loop: what it is reading is freed *)
Theorem C67_no_crash_refuted :
  forall (to_int : string -> Z) (d : files) (w : what) (dev : string),
  load_files to_int (fst d) (snd d) <> None ->
  run to_int (init d) ([Call 1 w dev] ++ go 1 5 ++ [Fire 0; Step 1])%list = Some Crash.
Proof. exact freed_in_use. Qed.
Print Assumptions C67_no_crash_refuted.

(* Two threads ask at the same time, with each other only: one set of files is released
   twice and the other one is never released *)
Theorem C67_released_refuted :
  forall (to_int : string -> Z) (d : files) (dev : string),
  load_files to_int (fst d) (snd d) <> None ->
  let l := [Call 1 Protocols dev; Call 2 Managers dev; Step 1; Step 2; Step 1; Step 2; Step 1; Step 2; Step 1; Step 2;
            Fire 0]%list in
  exists s, run to_int (init d) l = Some (Next s) /\ in_memory s 0 /\
    (forall i k, nth_error (callbacks s) i = Some (k, true) -> k <> 0%nat) /\
    run to_int (init d) (l ++ [Fire 1])%list = Some Crash.
Proof. exact released_twice. Qed.
Print Assumptions C67_released_refuted.

(* The hypotheses are met *)
Example C67_refuted_ex :
  load_files no_int (fst sample_files) (snd sample_files) <> None /\
  load_files no_int (fst other_files) (snd other_files) <> None /\
  let kf := load_files no_int (fst sample_files) (snd sample_files) in
  config_value kf "Protocol" "Default" = Some "hidl" /\ protocol_known "hidl" Hidl /\ Hidl <> Aidl /\
  config_value kf "Protocol" "/dev/y" = None.
Proof.
  repeat split; try (vm_compute; congruence). repeat constructor; now left.
Qed.
