(* The configuration while the program runs: loading it when something is looked up for
   the first time, keeping it until the event loop is idle, and the two tables which are
   made of it, with lookups from any number of threads. What the files mean is in
   ConfModel.v. *)
From Coq Require Import String.
From Verif Require Import Base ObjModel ConfModel.
Open Scope string_scope.

(* The two tables: src/gbinder_rpc_protocol.c:68 gbinder_rpc_protocol_map and
   src/gbinder_servicemanager.c:92 gbinder_servicemanager_map *)
Inductive what : Set := Protocols | Managers.
Definition what_eqb (a b : what) : bool :=
  match a, b with Protocols, Protocols | Managers, Managers => true | _, _ => false end.

(* Values in the tables *)
Inductive value : Set := VProtocol (p : protocol) | VManager (k : sm_kind).
Definition tmap {A B} (f : A -> B) (t : table A) : table B :=
  map (fun e => (fst e, f (snd e))) t.

(* src/gbinder_rpc_protocol.c:330-344 gbinder_rpc_protocol_load_config and
   src/gbinder_servicemanager.c:485-499 gbinder_servicemanager_load_config, given the
   contents of the configuration *)
Definition load_table (w : what) (kf : option keyfile) : table value :=
  match w with
  | Protocols => tmap VProtocol (protocol_load_config kf)
  | Managers => tmap VManager (sm_load_config kf)
  end.
(* src/gbinder_rpc_protocol.c:74 DEFAULT_PROTOCOL and src/gbinder_servicemanager.c:90
   SERVICEMANAGER_TYPE_DEFAULT *)
Definition builtin_default (w : what) : value :=
  match w with Protocols => VProtocol Aidl | Managers => VManager SmAidl end.

(* The main file and the directory, as they are on disk *)
Definition files : Set := (option (list assignment) * list dirent)%type.

(* Where a thread is in gbinder_rpc_protocol_for_device
   (src/gbinder_rpc_protocol.c:362-396) or in the same part of
   gbinder_servicemanager_new2 (src/gbinder_servicemanager.c:626-660). The device is
   never NULL (src/gbinder_ipc.c:1860, src/gbinder_servicemanager.c:632). *)
Inductive pc : Type :=
| Idle
| AtCheck (w : what) (dev : string)      (* if (!map) *)
| AtGet (w : what) (dev : string)        (* gbinder_config_get: if (!keyfile) load *)
| AtStore (w : what) (dev : string) (k : option nat)  (* keyfile = what was loaded *)
| AtSchedule (w : what) (dev : string)   (* if (keyfile) schedule its release *)
| AtReturn (w : what) (dev : string)     (* return keyfile *)
| AtKeys (w : what) (dev : string) (k : option nat)   (* g_key_file_get_keys *)
| AtValues (w : what) (dev : string) (k : nat)        (* g_key_file_get_value *)
| AtMap (w : what) (dev : string) (t : table value)   (* map = the new table *)
| AtDefault (w : what) (dev : string)    (* look up CONF_DEFAULT *)
| AtRemove (w : what) (dev : string) (v : value)      (* remove it from the table *)
| AtSetDefault (w : what) (dev : string) (v : value)  (* default = v *)
| AtFind (w : what) (dev : string)       (* look up the device *)
| AtFallback (w : what) (dev : string).  (* return the default *)

Record state : Type := {
  disk : files;
  keyfiles : list (keyfile * bool);     (* every GKeyFile which was loaded; is it alive *)
  current : option nat;                 (* gbinder_config_keyfile *)
  callbacks : list (nat * bool);        (* every callback: its data; is it scheduled *)
  autorelease : option nat;             (* gbinder_config_autorelease, which has a reference *)
  tables : what -> option (table value);
  tables_made : what -> nat;
  default : what -> value;
  threads : nat -> pc;
  returned : list (nat * what * string * value)  (* results so far, the last one first *)
}.

Definition init (d : files) : state := {|
  disk := d; keyfiles := []; current := None; callbacks := []; autorelease := None;
  tables := fun _ => None; tables_made := fun _ => 0%nat; default := builtin_default;
  threads := fun _ => Idle; returned := [] |}.

Definition upd_w {A} (f : what -> A) (w : what) (a : A) : what -> A :=
  fun w' => if what_eqb w' w then a else f w'.
Definition upd_t (f : nat -> pc) (t : nat) (p : pc) : nat -> pc :=
  fun t' => if Nat.eqb t' t then p else f t'.

Definition goto (s : state) (t : nat) (p : pc) : state := {|
  disk := disk s; keyfiles := keyfiles s; current := current s; callbacks := callbacks s;
  autorelease := autorelease s; tables := tables s; tables_made := tables_made s;
  default := default s; threads := upd_t (threads s) t p; returned := returned s |}.
Definition set_disk (s : state) (d : files) : state := {|
  disk := d; keyfiles := keyfiles s; current := current s; callbacks := callbacks s;
  autorelease := autorelease s; tables := tables s; tables_made := tables_made s;
  default := default s; threads := threads s; returned := returned s |}.
Definition set_keyfiles (s : state) (l : list (keyfile * bool)) : state := {|
  disk := disk s; keyfiles := l; current := current s; callbacks := callbacks s;
  autorelease := autorelease s; tables := tables s; tables_made := tables_made s;
  default := default s; threads := threads s; returned := returned s |}.
Definition set_current (s : state) (k : option nat) : state := {|
  disk := disk s; keyfiles := keyfiles s; current := k; callbacks := callbacks s;
  autorelease := autorelease s; tables := tables s; tables_made := tables_made s;
  default := default s; threads := threads s; returned := returned s |}.
Definition set_callbacks (s : state) (l : list (nat * bool)) (a : option nat) : state := {|
  disk := disk s; keyfiles := keyfiles s; current := current s; callbacks := l;
  autorelease := a; tables := tables s; tables_made := tables_made s;
  default := default s; threads := threads s; returned := returned s |}.
Definition set_table (s : state) (w : what) (t : table value) (made : nat) : state := {|
  disk := disk s; keyfiles := keyfiles s; current := current s; callbacks := callbacks s;
  autorelease := autorelease s; tables := upd_w (tables s) w (Some t);
  tables_made := upd_w (tables_made s) w made;
  default := default s; threads := threads s; returned := returned s |}.
Definition set_default (s : state) (w : what) (v : value) : state := {|
  disk := disk s; keyfiles := keyfiles s; current := current s; callbacks := callbacks s;
  autorelease := autorelease s; tables := tables s; tables_made := tables_made s;
  default := upd_w (default s) w v; threads := threads s; returned := returned s |}.
Definition give (s : state) (t : nat) (w : what) (dev : string) (v : value) : state := {|
  disk := disk s; keyfiles := keyfiles s; current := current s; callbacks := callbacks s;
  autorelease := autorelease s; tables := tables s; tables_made := tables_made s;
  default := default s; threads := upd_t (threads s) t Idle;
  returned := (t, w, dev, v) :: returned s |}.

Fixpoint set_nth {A} (l : list A) (n : nat) (a : A) : list A :=
  match l, n with
  | [], _ => []
  | _ :: r, O => a :: r
  | x :: r, S k => x :: set_nth r k a
  end.

Inductive outcome : Type := Next (s : state) | Crash.

Inductive op : Type :=
| Call (t : nat) (w : what) (dev : string)  (* thread t asks *)
| Step (t : nat)                            (* thread t goes on *)
| Fire (i : nat)                            (* the event loop invokes a callback *)
| Change (d : files).                       (* somebody edits the files *)

Section Run.
  Variable to_int : string -> Z.
  Definition contents (d : files) : option keyfile := load_files to_int (fst d) (snd d).

  (* One step of a thread. Accesses to the variables are atomic and in the order of the
     program, hash tables are not damaged by concurrent changes. *)
  Definition thread_step (s : state) (t : nat) : option outcome :=
    match threads s t with
    | Idle => None
    (* src/gbinder_rpc_protocol.c:369, src/gbinder_servicemanager.c:638 *)
    | AtCheck w dev =>
      Some (Next (goto s t (match tables s w with None => AtGet w dev | Some _ => AtFind w dev end)))
    (* src/gbinder_config.c:347-360 gbinder_config_get *)
    | AtGet w dev =>
      match current s with
      | Some _ => Some (Next (goto s t (AtReturn w dev)))
      | None =>
        match contents (disk s) with
        | Some kf =>
          let k := List.length (keyfiles s) in
          Some (Next (goto (set_keyfiles s (keyfiles s ++ [(kf, true)])%list) t (AtStore w dev (Some k))))
        | None => Some (Next (goto s t (AtStore w dev None)))
        end
      end
    | AtStore w dev k => Some (Next (goto (set_current s k) t (AtSchedule w dev)))
    | AtSchedule w dev =>
      match current s with
      | Some k =>
        Some (Next (goto (set_callbacks s (callbacks s ++ [(k, true)])%list
                            (Some (List.length (callbacks s)))) t (AtReturn w dev)))
      | None => Some (Next (goto s t (AtReturn w dev)))
      end
    | AtReturn w dev => Some (Next (goto s t (AtKeys w dev (current s))))
    (* src/gbinder_config.c:363-399 gbinder_config_load *)
    | AtKeys w dev None => Some (Next (goto s t (AtMap w dev (load_table w None))))
    | AtKeys w dev (Some k) =>
      match nth_error (keyfiles s) k with
      | Some (_, true) => Some (Next (goto s t (AtValues w dev k)))
      | _ => Some Crash
      end
    | AtValues w dev k =>
      match nth_error (keyfiles s) k with
      | Some (kf, true) => Some (Next (goto s t (AtMap w dev (load_table w (Some kf)))))
      | _ => Some Crash
      end
    (* src/gbinder_rpc_protocol.c:373-383, src/gbinder_servicemanager.c:639-650 *)
    | AtMap w dev m =>
      Some (Next (goto (set_table s w m (S (tables_made s w))) t (AtDefault w dev)))
    | AtDefault w dev =>
      match tables s w with
      | Some m =>
        Some (Next (goto s t
          (match ht_lookup m "Default" with
           | Some v => AtRemove w dev v
           | None => AtSetDefault w dev (builtin_default w)
           end)))
      | None => Some Crash
      end
    | AtRemove w dev v =>
      match tables s w with
      | Some m =>
        Some (Next (goto (set_table s w (ht_remove m "Default") (tables_made s w)) t (AtSetDefault w dev v)))
      | None => Some Crash
      end
    | AtSetDefault w dev v => Some (Next (goto (set_default s w v) t (AtFind w dev)))
    (* src/gbinder_rpc_protocol.c:384-395, src/gbinder_servicemanager.c:653-659 *)
    | AtFind w dev =>
      match tables s w with
      | Some m =>
        match ht_lookup m dev with
        | Some v => Some (Next (give s t w dev v))
        | None => Some (Next (goto s t (AtFallback w dev)))
        end
      | None => Some Crash
      end
    | AtFallback w dev => Some (Next (give s t w dev (default s w)))
    end.

  (* Callbacks are invoked by the main thread, which is thread 0, when it is not doing
     anything else. src/gbinder_config.c:337-345 gbinder_config_autorelease_cb; the
     source is removed from the loop after that (src/gbinder_eventloop.c:147-156) but
     the reference in gbinder_config_autorelease remains. *)
  Definition step (s : state) (o : op) : option outcome :=
    match o with
    | Call t w dev =>
      match threads s t with
      | Idle => Some (Next (goto s t (AtCheck w dev)))
      | _ => None
      end
    | Step t => thread_step s t
    | Fire i =>
      match threads s 0%nat, nth_error (callbacks s) i with
      | Idle, Some (k, true) =>
        match nth_error (keyfiles s) k with
        | Some (kf, true) =>
          Some (Next (set_callbacks (set_keyfiles (set_current s None) (set_nth (keyfiles s) k (kf, false)))
                        (set_nth (callbacks s) i (k, false)) (autorelease s)))
        | _ => Some Crash
        end
      | _, _ => None
      end
    | Change d => Some (Next (set_disk s d))
    end.

  (* A history. None if it is not possible *)
  Fixpoint run (s : state) (l : list op) : option outcome :=
    match l with
    | [] => Some (Next s)
    | o :: r =>
      match step s o with
      | Some (Next s1) => run s1 r
      | Some Crash => Some Crash
      | None => None
      end
    end.
End Run.
