(* Model of what the library does with the device: the descriptor, the mapping where the kernel puts incoming
   data, and the GBinderDriver which owns both; src/gbinder_driver.c, src/gbinder_buffer.c and
   gbinder_ipc_looper_join of src/gbinder_ipc.c.

   Everyone who has a reference to a GBinderDriver is a user: the connection, its loopers, and the received
   data (GBinderBufferContents). Threads alternate in any order; a system call which uses the descriptor is
   preceded by a separate step which loads it from the structure. The rest of the process opens and closes
   files too; numbers of descriptors are reused.

   Simplifications: users release only the references which they own, connections and loopers don't do so in
   the middle of a system call; new users are made by those who have a reference; the data and what is in
   it is in other models, here it matters where it is. *)
From Verif Require Import Base ObjModel.

Inductive event :=
| EvOpen (f : nat)                          (* the device is opened *)
| EvClose (f : nat)                         (* the library closes that file *)
| EvMap (f : nat) | EvUnmap (f : nat)
| EvNew (f : nat) (version : Z) (i : io)    (* gbinder_driver_new has returned something *)
| EvFail                                    (* ... or NULL *)
| EvCommand (f : nat) (g : option nat).     (* a command which was meant for f was passed to g *)

(* GBinderDriver *)
Record driver := Driver {
  d_fd : option nat;                        (* -1 is None *)
  d_vm : option nat;                        (* which file is mapped there *)
  d_refs : Z;
  d_freed : bool;
  d_file : nat                              (* not in the code: which file was opened for it *)
}.
Inductive kind := Connection | Looper | Data (objects : bool).
Record user := User {
  u_driver : nat;
  u_kind : kind;
  u_live : bool;
  u_loaded : option (option nat)            (* it's about to make a system call with that descriptor *)
}.
Record state := State {
  fds : nat -> option nat;                  (* which file a descriptor refers to *)
  files : nat;                              (* how many files have been opened *)
  mapped : nat -> bool;                     (* is the file mapped? *)
  drivers : nat -> driver;
  dcount : nat;
  users : nat -> user;
  ucount : nat;
  trace : list event                        (* the last one is the first *)
}.
Inductive out := Disabled | Crash | Ok (s : state).
Definition obind (r : out) (f : state -> out) : out := match r with Ok s => f s | x => x end.

Definition upd {A} (f : nat -> A) (i : nat) (x : A) : nat -> A := fun j => if Nat.eqb j i then x else f j.
Definition say (s : state) (e : event) : state :=
  State (fds s) (files s) (mapped s) (drivers s) (dcount s) (users s) (ucount s) (e :: trace s).
Definition set_fd (s : state) (n : nat) (f : option nat) : state :=
  State (upd (fds s) n f) (files s) (mapped s) (drivers s) (dcount s) (users s) (ucount s) (trace s).
Definition set_mapped (s : state) (f : nat) (b : bool) : state :=
  State (fds s) (files s) (upd (mapped s) f b) (drivers s) (dcount s) (users s) (ucount s) (trace s).
Definition set_driver (s : state) (d : nat) (x : driver) : state :=
  State (fds s) (files s) (mapped s) (upd (drivers s) d x) (dcount s) (users s) (ucount s) (trace s).
Definition set_user (s : state) (u : nat) (x : user) : state :=
  State (fds s) (files s) (mapped s) (drivers s) (dcount s) (upd (users s) u x) (ucount s) (trace s).
Definition set_refs (x : driver) (n : Z) : driver := Driver (d_fd x) (d_vm x) n (d_freed x) (d_file x).

(* ------------------------------------------------------------------ *)
(* System calls: src/gbinder_system.c *)

(* open(2): the number is one which isn't in use *)
Definition sys_open (s : state) (n : nat) : out :=
  match fds s n with
  | Some _ => Disabled
  | None =>
    let f := files s in
    Ok (State (upd (fds s) n (Some f)) (S f) (mapped s) (drivers s) (dcount s) (users s) (ucount s) (trace s))
  end.
(* src/gbinder_system.c:49-54 gbinder_system_close; closing what isn't open does nothing *)
Definition sys_close (s : state) (n : option nat) : state :=
  match n with
  | None => s
  | Some n => match fds s n with None => s | Some f => say (set_fd s n None) (EvClose f) end
  end.
(* src/gbinder_system.c:78-84 gbinder_system_munmap *)
Definition sys_munmap (s : state) (f : nat) : state := say (set_mapped s f false) (EvUnmap f).
(* src/gbinder_system.c:56-66 gbinder_system_ioctl *)
Definition sys_ioctl (s : state) (f : nat) (n : option nat) : state :=
  say s (EvCommand f (match n with Some n => fds s n | None => None end)).

(* ------------------------------------------------------------------ *)
(* src/gbinder_driver.c *)

(* What system calls return: the descriptor, the version of the interface, whether mmap succeeds *)
Record answers := Answers { a_fd : option nat; a_version : option Z; a_map : bool }.
Definition new_user (s : state) (x : user) : state :=
  State (fds s) (files s) (mapped s) (drivers s) (dcount s) (upd (users s) (ucount s) x) (S (ucount s)) (trace s).
(* src/gbinder_driver.c:863-925 gbinder_driver_new. The reference is that of the connection,
   src/gbinder_ipc.c:1850-1899 gbinder_ipc_new *)
Definition driver_new (s : state) (a : answers) : out :=
  match a_fd a with
  | None => Ok (say s EvFail)
  | Some n =>
    let f := files s in
    obind (sys_open s n) (fun s =>
    let s := say s (EvOpen f) in
    let failed := say (sys_close s (Some n)) EvFail in
    match a_version a with
    | None => Ok failed
    | Some v =>
      match (if v =? 7 then Some Io32 else if v =? 8 then Some Io64 else None) with
      | None => Ok failed
      | Some i =>
        if a_map a then
          let s := say (set_mapped s f true) (EvMap f) in
          let d := dcount s in
          let s := State (fds s) (files s) (mapped s) (upd (drivers s) d (Driver (Some n) (Some f) 1 false f)) (S d)
                     (users s) (ucount s) (trace s) in
          Ok (new_user (say s (EvNew f v i)) (User d Connection true None))
        else Ok failed
      end
    end)
  end.
(* src/gbinder_driver.c:927-934 gbinder_driver_ref *)
Definition driver_ref (s : state) (d : nat) : out :=
  let x := drivers s d in
  if d_freed x then Crash else Ok (set_driver s d (set_refs x (d_refs x + 1))).
(* src/gbinder_driver.c:948-960 gbinder_driver_close *)
Definition driver_close (s : state) (d : nat) : out :=
  let x := drivers s d in
  if d_freed x then Crash
  else
    match d_vm x with
    | None => Ok s
    | Some f =>
      let s := sys_munmap s f in
      let s := sys_close s (d_fd x) in
      Ok (set_driver s d (Driver None None (d_refs x) false (d_file x)))
    end.
(* src/gbinder_driver.c:936-946 gbinder_driver_unref *)
Definition driver_unref (s : state) (d : nat) : out :=
  let x := drivers s d in
  if d_freed x then Crash
  else
    let s := set_driver s d (set_refs x (d_refs x - 1)) in
    if d_refs x =? 1 then
      obind (driver_close s d) (fun s =>
      let x := drivers s d in
      Ok (set_driver s d (Driver (d_fd x) (d_vm x) (d_refs x) true (d_file x))))
    else Ok s.

(* Received data is read *)
Definition read_data (s : state) (d : nat) : out :=
  if mapped s (d_file (drivers s d)) then Ok s else Crash.
(* src/gbinder_buffer.c:77-90 gbinder_buffer_contents_free: objects are looked up in the data
   (src/gbinder_driver.c:1130-1154 gbinder_driver_close_fds), then it's given back
   (src/gbinder_driver.c:1156-1178 gbinder_driver_free_buffer) *)
Definition contents_free (s : state) (d : nat) (objects : bool) : out :=
  if d_freed (drivers s d) then Crash
  else
    obind (if objects then read_data s d else Ok s) (fun s =>
    driver_unref (sys_ioctl s (d_file (drivers s d)) (d_fd (drivers s d))) d).

Inductive move :=
| MOpen (a : answers)
| MUse (u : nat) (k : kind)       (* a user makes another one *)
| MDone (u : nat)                 (* a user is done *)
| MRead (u : nat)                 (* data is read by the application *)
| MLoad (u : nat)                 (* the descriptor is loaded from GBinderDriver ... *)
| MCommand (u : nat)              (* ... and used *)
| MStuck (u : nat)                (* a looper doesn't finish in time *)
| MOtherOpen (n : nat)            (* what the rest of the process does *)
| MOtherClose (n : nat).
Definition loaded (x : user) : bool := match u_loaded x with Some _ => true | None => false end.
Definition set_loaded (x : user) (v : option (option nat)) : user := User (u_driver x) (u_kind x) (u_live x) v.
Definition is_data (k : kind) : bool := match k with Data _ => true | _ => false end.
Definition is_looper (k : kind) : bool := match k with Looper => true | _ => false end.
(* Was the device opened by the library? *)
Definition is_device (tr : list event) (f : nat) : bool :=
  existsb (fun e => match e with EvOpen g => Nat.eqb g f | _ => false end) tr.
Definition step (s : state) (m : move) : out :=
  match m with
  | MOpen a => driver_new s a
  | MUse u k =>
    let x := users s u in
    (* src/gbinder_ipc.c:857-900 gbinder_ipc_looper_new, src/gbinder_buffer.c:59-75 gbinder_buffer_contents_new *)
    if u_live x && (match k with
                    | Connection => false
                    | Looper => match u_kind x with Connection => true | _ => false end
                    | Data _ => match d_vm (drivers s (u_driver x)) with Some _ => true | None => false end
                    end)
    then obind (driver_ref s (u_driver x)) (fun s => Ok (new_user s (User (u_driver x) k true None)))
    else Disabled
  | MDone u =>
    let x := users s u in
    if u_live x && negb (loaded x) then
      let s := set_user s u (User (u_driver x) (u_kind x) false None) in
      match u_kind x with
      | Data o => contents_free s (u_driver x) o
      | _ => driver_unref s (u_driver x)
      end
    else Disabled
  | MRead u =>
    let x := users s u in
    if u_live x && is_data (u_kind x) then read_data s (u_driver x) else Disabled
  | MLoad u =>
    let x := users s u in
    if u_live x then
      if d_freed (drivers s (u_driver x)) then Crash
      else Ok (set_user s u (set_loaded x (Some (d_fd (drivers s (u_driver x))))))
    else Disabled
  | MCommand u =>
    let x := users s u in
    if u_live x then
      match u_loaded x with
      | None => Disabled
      | Some n =>
        if d_freed (drivers s (u_driver x)) then Crash
        else Ok (set_user (sys_ioctl s (d_file (drivers s (u_driver x))) n) u (set_loaded x None))
      end
    else Disabled
  | MStuck u =>
    (* src/gbinder_ipc.c:968-1006 gbinder_ipc_looper_join *)
    let x := users s u in
    if u_live x && is_looper (u_kind x) then driver_close s (u_driver x) else Disabled
  | MOtherOpen n => sys_open s n
  | MOtherClose n =>
    match fds s n with
    | Some f => if is_device (trace s) f then Disabled else Ok (set_fd s n None)
    | None => Disabled
    end
  end.
Fixpoint run (s : state) (l : list move) : out :=
  match l with
  | [] => Ok s
  | m :: r => match step s m with Ok s1 => run s1 r | x => x end
  end.
Definition init : state :=
  State (fun _ => None) 0 (fun _ => false) (fun _ => Driver None None 0 true 0) 0
    (fun _ => User 0 Connection false None) 0 [].
