(* What is expected of the configuration while the program runs *)
From Coq Require Import String.
From Verif Require Import Base ObjModel ConfModel ConfSpec CfgModel.
Open Scope string_scope.

Section Spec.
  Variable to_int : string -> Z.

  (* The right answer, if the files are such *)
  Definition answer (w : what) (d : files) (dev : string) (v : value) : Prop :=
    let kf := load_files to_int (fst d) (snd d) in
    match w, v with
    | Protocols, VProtocol p =>
      chosen protocol_known (config_value kf "Protocol")
        [("/dev/binder", Aidl); ("/dev/hwbinder", Hidl)] Aidl dev p
    | Managers, VManager k =>
      chosen sm_known (config_value kf "ServiceManager")
        [("/dev/binder", SmAidl); ("/dev/hwbinder", SmHidl)] SmAidl dev k
    | _, _ => False
    end.

  (* The versions of the files in the course of a history *)
  Fixpoint versions (d : files) (l : list op) : list files :=
    match l with
    | [] => [d]
    | Change d' :: r => d :: versions d' r
    | _ :: r => versions d r
    end.

  (* Somebody has got an answer of this kind *)
  Definition answered (s : state) (w : what) : Prop :=
    exists t dev v, In (t, w, dev, v) (returned s).

  (* Until the first question of its kind is answered, only the main thread asks *)
  Fixpoint careful (s : state) (l : list op) : Prop :=
    match l with
    | [] => True
    | o :: r =>
      match o with
      | Call t w _ => t = 0%nat \/ answered s w
      | _ => True
      end /\
      match step to_int s o with
      | Some (Next s1) => careful s1 r
      | _ => True
      end
    end.
End Spec.

(* Loaded files which are in memory *)
Definition in_memory (s : state) (k : nat) : Prop :=
  exists kf, nth_error (keyfiles s) k = Some (kf, true).
(* A callback which will never be invoked (again) and which nobody will release *)
Definition lost_callback (s : state) (i : nat) : Prop :=
  (exists k, nth_error (callbacks s) i = Some (k, false)) /\ autorelease s <> Some i.
(* Nobody is looking anything up, and the event loop has nothing to do *)
Definition quiet (s : state) : Prop :=
  (forall t, threads s t = Idle) /\ (forall i k, nth_error (callbacks s) i <> Some (k, true)).
Definition no_release (l : list op) : Prop := forall i, ~ In (Fire i) l.
(* A thread makes some steps *)
Definition go (t : nat) (n : nat) : list op := repeat (Step t) n.
