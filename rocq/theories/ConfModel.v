(* Model of src/gbinder_config.c and of the functions which choose the RPC protocol
   and the kind of service manager for a device.
   Simplifications: the contents of the files don't change while they're being
   loaded; a GKeyFile is a list of (group, key, value) in which a key occurs once;
   the order of the keys is not kept by merging (nothing depends on it). The autorelease of
   the loaded GKeyFile is not modelled. *)
From Coq Require Import String Ascii.
From Verif Require Import Base ObjModel.
Open Scope string_scope.

Definition assignment : Set := (string * string * string)%type.
Definition keyfile := list assignment.

Definition same_key (g k g' k' : string) : bool := (g =? g') && (k =? k').

(* g_key_file_set_value: replaces the value or adds the key *)
Fixpoint kf_set (kf : keyfile) (g k v : string) : keyfile :=
  match kf with
  | [] => [(g, k, v)]
  | (g', k', v') :: r =>
    if same_key g k g' k' then (g, k, v) :: r else (g', k', v') :: kf_set r g k v
  end.

(* g_key_file_get_value *)
Fixpoint kf_get (kf : keyfile) (g k : string) : option string :=
  match kf with
  | [] => None
  | (g', k', v') :: r => if same_key g k g' k' then Some v' else kf_get r g k
  end.

(* g_key_file_load_from_file: the lines of the file, in order. If the file has the
   key twice then the last one counts. *)
Definition kf_assign (kf : keyfile) (l : list assignment) : keyfile :=
  fold_left (fun kf '(g, k, v) => kf_set kf g k v) l kf.
Definition kf_load (l : list assignment) : keyfile := kf_assign [] l.

(* src/gbinder_config.c:207-234 gbinder_config_merge_keyfiles *)
Definition merge_keyfiles (dest src : keyfile) : keyfile := kf_assign dest src.

(* An entry of the directory: the name, is it a regular file, and its contents
   (None if it can't be loaded) *)
Definition dirent : Set := (string * bool * option (list assignment))%type.

(* g_str_has_suffix *)
Definition has_suffix (s suf : string) : bool :=
  (String.length suf <=? String.length s)%nat &&
  (substring (String.length s - String.length suf) (String.length suf) s =? suf).

(* gutil_strv_sort, ascending *)
Fixpoint insert_sorted (e : dirent) (l : list dirent) : list dirent :=
  match l with
  | [] => [e]
  | x :: r =>
    if String.leb (fst (fst e)) (fst (fst x)) then e :: l else x :: insert_sorted e r
  end.
Fixpoint sort_files (l : list dirent) : list dirent :=
  match l with
  | [] => []
  | e :: r => insert_sorted e (sort_files r)
  end.

(* src/gbinder_config.c:159-205 gbinder_config_collect_files *)
Definition collect_files (dir : list dirent) (suffix : string) : list dirent :=
  sort_files (filter (fun '(name, regular, _) => has_suffix name suffix && regular) dir).

(* src/gbinder_config.c:87-157 the presets, in descending order *)
Definition preset : Set := (Z * list assignment)%type.
Definition config_28 : list assignment :=
  [("ServiceManager", "/dev/binder", "aidl2"); ("ServiceManager", "/dev/vndbinder", "aidl2")].
Definition config_29 : list assignment :=
  [("Protocol", "/dev/binder", "aidl2"); ("Protocol", "/dev/vndbinder", "aidl2");
   ("ServiceManager", "/dev/binder", "aidl2"); ("ServiceManager", "/dev/vndbinder", "aidl2")].
Definition config_30 : list assignment :=
  [("Protocol", "/dev/binder", "aidl3"); ("Protocol", "/dev/vndbinder", "aidl3");
   ("ServiceManager", "/dev/binder", "aidl3"); ("ServiceManager", "/dev/vndbinder", "aidl3")].
Definition config_31 : list assignment :=
  [("Protocol", "/dev/binder", "aidl3"); ("Protocol", "/dev/vndbinder", "aidl3");
   ("ServiceManager", "/dev/binder", "aidl4"); ("ServiceManager", "/dev/vndbinder", "aidl4")].
Definition config_presets : list preset :=
  [(31%Z, config_31); (30%Z, config_30); (29%Z, config_29); (28%Z, config_28)].

(* src/gbinder_config.c:236-254 gbinder_config_apply_presets *)
Definition apply_preset (kf : keyfile) (l : list assignment) : keyfile :=
  fold_left (fun kf '(g, k, v) =>
    match kf_get kf g k with Some _ => kf | None => kf_set kf g k v end) l kf.

(* the loop which looks for the preset, src/gbinder_config.c:323-330 *)
Fixpoint find_preset (level : Z) (l : list preset) : option (list assignment) :=
  match l with
  | [] => None
  | (n, p) :: r => if (n <=? level)%Z then Some p else find_preset level r
  end.

Section Load.
  (* g_key_file_get_integer of a value (0 if it's not a number) *)
  Variable to_int : string -> Z.

  (* src/gbinder_config.c:281-311 the files in the directory *)
  Fixpoint load_overrides (out : option keyfile) (files : list dirent) : option keyfile :=
    match files with
    | [] => out
    | (_, _, None) :: r => load_overrides out r
    | (_, _, Some a) :: r =>
      let override := kf_load a in
      load_overrides (Some (match out with None => override | Some o => merge_keyfiles o override end)) r
    end.

  (* src/gbinder_config.c:314-333 *)
  Definition with_presets (out : keyfile) : keyfile :=
    let api_level :=
      match kf_get out "General" "ApiLevel" with Some v => to_int v | None => 0%Z end in
    if (0 <? api_level)%Z then
      match find_preset api_level config_presets with
      | Some p => apply_preset out p
      | None => out
      end
    else out.

  (* src/gbinder_config.c:256-335 gbinder_config_load_files. [file] is the main file,
     None if it doesn't exist or can't be loaded. *)
  Definition load_files (file : option (list assignment)) (dir : list dirent) : option keyfile :=
    let out := match file with Some a => Some (kf_load a) | None => None end in
    match load_overrides out (collect_files dir ".conf") with
    | Some out => Some (with_presets out)
    | None => None
    end.
End Load.

(* Hash tables *)
Definition table (A : Type) := list (string * A).
Fixpoint ht_lookup {A} (t : table A) (k : string) : option A :=
  match t with
  | [] => None
  | (k', a) :: r => if k =? k' then Some a else ht_lookup r k
  end.
Definition ht_remove {A} (t : table A) (k : string) : table A :=
  filter (fun e => negb (k =? fst e)) t.
(* g_hash_table_insert, g_hash_table_replace *)
Definition ht_insert {A} (t : table A) (k : string) (a : A) : table A := (k, a) :: ht_remove t k.

(* src/gbinder_config.c:363-399 gbinder_config_load *)
Definition config_load {A} (kf : option keyfile) (group : string) (mapper : string -> option A)
  : table A :=
  match kf with
  | None => []
  | Some k =>
    fold_left (fun t '(g, dev, sval) =>
      if g =? group then
        match mapper sval with Some val => ht_insert t dev val | None => t end
      else t) k []
  end.

(* g_ascii_strcasecmp *)
Definition ascii_lower (c : ascii) : ascii :=
  let n := nat_of_ascii c in
  if ((65 <=? n) && (n <=? 90))%nat then ascii_of_nat (n + 32) else c.
Fixpoint lower (s : string) : string :=
  match s with
  | EmptyString => EmptyString
  | String c r => String (ascii_lower c) (lower r)
  end.

(* src/gbinder_rpc_protocol.c:287-308 gbinder_rpc_protocol_list, gbinder_rpc_protocol_find *)
Definition protocol_list : list (string * protocol) :=
  [("aidl", Aidl); ("aidl2", Aidl2); ("aidl3", Aidl3); ("hidl", Hidl)].
Fixpoint protocol_find_in (l : list (string * protocol)) (name : string) : option protocol :=
  match l with
  | [] => None
  | (n, p) :: r => if lower n =? lower name then Some p else protocol_find_in r name
  end.
Definition protocol_find (name : string) : option protocol := protocol_find_in protocol_list name.

(* src/gbinder_rpc_protocol.c:310-320 gbinder_rpc_protocol_map_add_default and
   src/gbinder_servicemanager.c:456-466 gbinder_servicemanager_map_add_default *)
Definition map_add_default {A} (t : table A) (dev : string) (a : A) : table A :=
  match ht_lookup t dev with Some _ => t | None => ht_insert t dev a end.

(* src/gbinder_rpc_protocol.c:330-344 gbinder_rpc_protocol_load_config *)
Definition protocol_load_config (kf : option keyfile) : table protocol :=
  let map := config_load kf "Protocol" protocol_find in
  let map := map_add_default map "/dev/binder" Aidl in
  map_add_default map "/dev/hwbinder" Hidl.

(* gbinder_rpc_protocol_map and gbinder_rpc_protocol_default *)
Definition choice (A : Type) : Type := (option (table A) * A)%type.

(* src/gbinder_rpc_protocol.c:362-396 gbinder_rpc_protocol_for_device. Returns the
   protocol and the new state. [kf] is the configuration at the time of the call. *)
Definition protocol_for_device (kf : option keyfile) (st : choice protocol) (dev : option string)
  : protocol * choice protocol :=
  match dev with
  | None => (snd st, st)
  | Some dev =>
    let st1 :=
      match fst st with
      | Some _ => st
      | None =>
        let map := protocol_load_config kf in
        match ht_lookup map "Default" with
        | Some p => (Some (ht_remove map "Default"), p)
        | None => (Some map, Aidl)
        end
      end in
    (match fst st1 with
     | Some map => match ht_lookup map dev with Some p => p | None => snd st1 end
     | None => snd st1
     end, st1)
  end.
Definition protocol_init : choice protocol := (None, Aidl).

(* src/gbinder_servicemanager.c:80-90 *)
Inductive sm_kind : Set := SmAidl | SmAidl2 | SmAidl3 | SmAidl4 | SmHidl.
Definition sm_types : list (string * sm_kind) :=
  [("aidl", SmAidl); ("aidl2", SmAidl2); ("aidl3", SmAidl3); ("aidl4", SmAidl4); ("hidl", SmHidl)].

(* src/gbinder_servicemanager.c:468-483 gbinder_servicemanager_value_map *)
Definition sm_value_map (name : string) : option sm_kind := ht_lookup sm_types name.

(* src/gbinder_servicemanager.c:485-499 gbinder_servicemanager_load_config *)
Definition sm_load_config (kf : option keyfile) : table sm_kind :=
  let map := config_load kf "ServiceManager" sm_value_map in
  let map := map_add_default map "/dev/binder" SmAidl in
  map_add_default map "/dev/hwbinder" SmHidl.

(* src/gbinder_servicemanager.c:626-675 gbinder_servicemanager_new2: which type of
   service manager it asks for. None if there's no such type. *)
Definition sm_choose (kf : option keyfile) (st : choice sm_kind) (dev : string)
  (sm_protocol : option string) : option sm_kind * choice sm_kind :=
  match sm_protocol with
  | Some name => (sm_value_map name, st)
  | None =>
    let st1 :=
      match fst st with
      | Some _ => st
      | None =>
        let map := sm_load_config kf in
        match ht_lookup map "Default" with
        | Some t => (Some (ht_remove map "Default"), t)
        | None => (Some map, SmAidl)
        end
      end in
    (Some (match fst st1 with
     | Some map => match ht_lookup map dev with Some t => t | None => snd st1 end
     | None => snd st1
     end), st1)
  end.
Definition sm_init : choice sm_kind := (None, SmAidl).
