(* Property theorems about the configuration. The vocabulary is in ConfSpec.v, the
   modelled functions are in ConfModel.v. *)
From Coq Require Import String.
From Verif Require Import Base ObjModel ConfModel ConfSpec ConfProofs.
Open Scope string_scope.

(* C18: the value of a key is what [effective] says: the last override file which
   has it, else the main file, else what the API level implies. [to_int] is how GLib
   converts text to a number, any function will do. *)
Theorem C18_config_precedence :
  forall (to_int : string -> Z) (file : option (list assignment)) (dir : list dirent),
  NoDup (map (fun e => fst (fst e)) dir) ->
  forall g k v,
  config_value (load_files to_int file dir) g k = Some v <-> effective to_int file dir g k v.
Proof. exact precedence. Qed.
Print Assumptions C18_config_precedence.

(* C17: the protocol for a device, after any history of lookups *)
Theorem C17_protocol_choice :
  forall (to_int : string -> Z) (file : option (list assignment)) (dir : list dirent)
    (devs : list (option string)) (n : nat) (dev : string),
  nth_error devs n = Some (Some dev) ->
  let kf := load_files to_int file dir in
  exists p, nth_error (protocol_lookups kf protocol_init devs) n = Some p /\
    chosen protocol_known (config_value kf "Protocol")
      [("/dev/binder", Aidl); ("/dev/hwbinder", Hidl)] Aidl dev p.
Proof. exact protocol_choice. Qed.
Print Assumptions C17_protocol_choice.

(* C17: the kind of service manager, chosen by name or by device *)
Theorem C17_servicemanager_choice :
  forall (to_int : string -> Z) (file : option (list assignment)) (dir : list dirent)
    (qs : list (string * option string)) (n : nat) (dev : string) (name : option string),
  nth_error qs n = Some (dev, name) ->
  let kf := load_files to_int file dir in
  exists t, nth_error (sm_lookups kf sm_init qs) n = Some t /\
    match name with
    | Some s => forall k, t = Some k <-> s = sm_name k
    | None => exists k, t = Some k /\
        chosen sm_known (config_value kf "ServiceManager")
          [("/dev/binder", SmAidl); ("/dev/hwbinder", SmHidl)] SmAidl dev k
    end.
Proof. exact sm_choice. Qed.
Print Assumptions C17_servicemanager_choice.

(* Examples: two override files, a main file and a preset *)
Definition sample_main : list assignment :=
  [("General", "ApiLevel", "30"); ("Protocol", "Default", "hidl"); ("Protocol", "/dev/x", "aidl")].
Definition sample_dir : list dirent :=
  [("b.conf", true, Some [("Protocol", "/dev/x", "AIDL2"); ("Protocol", "/dev/x", "HIDL")]);
   ("readme", true, Some [("Protocol", "/dev/x", "nonsense")]);
   ("a.conf", true, Some [("Protocol", "/dev/x", "aidl3"); ("Protocol", "/dev/binder", "bad")]);
   ("c.conf", true, None); ("d.conf", false, Some [("Protocol", "/dev/x", "dir")])].
Definition sample_int (s : string) : Z := if s =? "30" then 30%Z else 0%Z.
Definition sample_kf : option keyfile := load_files sample_int (Some sample_main) sample_dir.

Example C18_example :
  NoDup (map (fun e : dirent => fst (fst e)) sample_dir) /\
  config_value sample_kf "Protocol" "/dev/x" = Some "HIDL" /\
  config_value sample_kf "Protocol" "/dev/binder" = Some "bad" /\
  config_value sample_kf "Protocol" "/dev/vndbinder" = Some "aidl3" /\
  config_value sample_kf "ServiceManager" "/dev/binder" = Some "aidl3" /\
  config_value sample_kf "Protocol" "/dev/y" = None.
Proof. split; [repeat constructor; cbn; intuition discriminate|vm_compute; auto]. Qed.

Example C17_example :
  protocol_lookups sample_kf protocol_init
    [Some "/dev/x"; Some "/dev/binder"; Some "/dev/vndbinder"; Some "/dev/y"; Some "/dev/hwbinder"; Some "/dev/x"] =
  [Hidl; Aidl; Aidl3; Hidl; Hidl; Hidl].
Proof. vm_compute. reflexivity. Qed.

Example C17_example_sm :
  sm_lookups sample_kf sm_init [("/dev/binder", None); ("/dev/binder", Some "hidl"); ("/dev/z", Some "HIDL"); ("/dev/z", None)] =
  [Some SmAidl3; Some SmHidl; None; Some SmAidl].
Proof. vm_compute. reflexivity. Qed.

(* A lookup without a device does not load the configuration, so its answer depends
   on what has been looked up before *)
Example C17_no_device_depends_on_history :
  protocol_lookups sample_kf protocol_init [None; Some "/dev/y"; None] = [Aidl; Hidl; Hidl].
Proof. vm_compute. reflexivity. Qed.
