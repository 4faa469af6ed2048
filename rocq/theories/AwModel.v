(* Model of how registrations are noticed with AIDL service managers: the watches of
   src/gbinder_servicemanager_aidl.c, and the life of the object which polls the manager for them
   (src/gbinder_servicepoll.c; how two lists are compared is also in PollModel).

   Everything happens on the main thread. Handlers of the application are called when a service is
   reported, and may do anything: watch, unwatch, and run the main loop. An answer of the manager is
   therefore processed in steps, and other moves may come between them; since a nested main loop
   returns before its caller goes on, the answers being processed form a stack.

   Using a poll object, a watch or a list of names which is freed is a separate outcome (Crash).

   Simplifications: there's one manager; what happens when a service is reported, and when the manager
   asks for names to be watched, is in WatchModel. An emission of a GLib signal calls the handlers which
   were connected when it started, in the order of connection, except for those which have been
   disconnected meanwhile. Requests are answered once unless they are cancelled (C29). *)
From Verif Require Import Base.
From Verif Require Export PollModel.

(* GBinderServiceManagerAidlWatch: src/gbinder_servicemanager_aidl.c:42-47. The poll object and the
   handler id are those of the watch, see [poll] *)
Record watch := Watch {
  w_name : bytes;
  w_notify : bool;               (* the idle callback is scheduled *)
  w_alive : bool
}.
(* struct gbinder_servicepoll: src/gbinder_servicepoll.c:45-51. Lists of names are numbered. *)
Record pollobj := Poll {
  p_refs : Z;
  p_list : option (nat * list bytes);
  p_call : bool;                 (* list_id isn't zero *)
  p_timer : bool;
  p_handlers : list nat          (* the watches whose handlers are connected *)
}.
(* gbinder_servicepoll_list while it's executed: ptr_new, ptr_old (and the list it points into), the
   handlers which are going to be called about the first one of the new names, and the new list *)
Record frame := Frame {
  f_new : list bytes;
  f_old : option (nat * list bytes);
  f_todo : option (list nat);
  f_services : list bytes
}.
(* What can be seen *)
Inductive event :=
| EvWatch (n : bytes) | EvUnwatch (n : bytes)      (* calls by the manager *)
| EvStart                                          (* a poll object is created *)
| EvRequest                                        (* a list is requested *)
| EvCancel                                         (* and that is cancelled *)
| EvAnswer (l : option (list bytes))               (* the answer *)
| EvReport (n : bytes).                            (* gbinder_servicemanager_service_registered *)

Record state := State {
  watches : nat -> watch;
  nwatches : nat;
  table : bytes -> option nat;   (* priv->watch_table *)
  poll_ : option pollobj;        (* priv->poll, or NULL *)
  frames : list frame;           (* the innermost one is the first *)
  nlists : nat;
  trace : list event             (* the last one is the first *)
}.
Inductive out := Disabled | Crash | Ok (s : state).
Definition bind (m : out) (f : state -> out) : out := match m with Ok s => f s | x => x end.

Definition upd {A} (f : nat -> A) (i : nat) (x : A) : nat -> A := fun j => if Nat.eqb j i then x else f j.
Definition updn {A} (f : bytes -> A) (i : bytes) (x : A) : bytes -> A := fun j => if str_eqb j i then x else f j.
Definition set_watch (s : state) (i : nat) (w : watch) : state :=
  State (upd (watches s) i w) (nwatches s) (table s) (poll_ s) (frames s) (nlists s) (trace s).
Definition add_watch (s : state) (w : watch) : state :=
  State (upd (watches s) (nwatches s) w) (S (nwatches s)) (table s) (poll_ s) (frames s) (nlists s) (trace s).
Definition set_table (s : state) (n : bytes) (w : option nat) : state :=
  State (watches s) (nwatches s) (updn (table s) n w) (poll_ s) (frames s) (nlists s) (trace s).
Definition set_poll (s : state) (p : option pollobj) : state :=
  State (watches s) (nwatches s) (table s) p (frames s) (nlists s) (trace s).
Definition set_frames (s : state) (f : list frame) : state :=
  State (watches s) (nwatches s) (table s) (poll_ s) f (nlists s) (trace s).
Definition next_list (s : state) : state :=
  State (watches s) (nwatches s) (table s) (poll_ s) (frames s) (S (nlists s)) (trace s).
Definition say (s : state) (e : event) : state :=
  State (watches s) (nwatches s) (table s) (poll_ s) (frames s) (nlists s) (e :: trace s).
Definition with_poll (s : state) (f : pollobj -> out) : out :=
  match poll_ s with None => Crash | Some p => f p end.

(* src/gbinder_servicepoll.c:153-169 gbinder_servicepoll_new with the weak pointer of the manager,
   136-147 gbinder_servicepoll_create, 231-238 gbinder_servicepoll_init; the caller gets a reference *)
Definition poll_new (s : state) : state :=
  match poll_ s with
  | Some p => set_poll s (Some (Poll (p_refs p + 1) (p_list p) (p_call p) (p_timer p) (p_handlers p)))
  | None => say (say (set_poll s (Some (Poll 1 None true true []))) EvStart) EvRequest
  end.
(* src/gbinder_servicepoll.c:183-190 gbinder_servicepoll_unref, 240-252 gbinder_servicepoll_finalize;
   the weak pointer is cleared *)
Definition poll_unref (s : state) : out :=
  with_poll s (fun p =>
    if p_refs p <=? 1
    then Ok (if p_call p then say (set_poll s None) EvCancel else set_poll s None)
    else Ok (set_poll s (Some (Poll (p_refs p - 1) (p_list p) (p_call p) (p_timer p) (p_handlers p))))).
(* src/gbinder_servicepoll.c:207-215 gbinder_servicepoll_add_handler, 217-225
   gbinder_servicepoll_remove_handler *)
Definition add_handler (s : state) (w : nat) : out :=
  with_poll s (fun p =>
    Ok (set_poll s (Some (Poll (p_refs p) (p_list p) (p_call p) (p_timer p) (p_handlers p ++ [w])%list)))).
Definition remove_handler (s : state) (w : nat) : out :=
  with_poll s (fun p =>
    Ok (set_poll s (Some (Poll (p_refs p) (p_list p) (p_call p) (p_timer p)
                               (filter (fun x => negb (Nat.eqb x w)) (p_handlers p)))))).
(* src/gbinder_servicepoll.c:199-205 gbinder_servicepoll_is_known_name *)
Definition known_name (s : state) (n : bytes) : bool :=
  match poll_ s with
  | Some p =>
    match p_list p with
    | Some (_, l) => match strv_find l n with Some _ => true | None => false end
    | None => false
    end
  | None => false
  end.

(* src/gbinder_servicemanager_aidl.c:102-114 gbinder_servicemanager_aidl_watch_free *)
Definition watch_free (s : state) (i : nat) : out :=
  let w := watches s i in
  if w_alive w then
    bind (remove_handler s i) (fun s =>
    bind (poll_unref s) (fun s => Ok (set_watch s i (Watch (w_name w) false false))))
  else Crash.
(* src/gbinder_servicemanager_aidl.c:116-131 gbinder_servicemanager_aidl_watch_new *)
Definition watch_new (s : state) (n : bytes) : out :=
  let i := nwatches s in
  add_handler (add_watch (poll_new s) (Watch n false true)) i.
(* src/gbinder_servicemanager_aidl.c:243-260 gbinder_servicemanager_aidl_watch;
   g_hash_table_replace frees the previous watch of the same name *)
Definition aidl_watch (s : state) (n : bytes) : out :=
  let i := nwatches s in
  bind (watch_new (say s (EvWatch n)) n) (fun s =>
  let old := table s n in
  let s := set_table s n (Some i) in
  bind (match old with Some j => watch_free s j | None => Ok s end) (fun s =>
  if known_name s n then Ok (set_watch s i (Watch n true true)) else Ok s)).
(* src/gbinder_servicemanager_aidl.c:262-272 gbinder_servicemanager_aidl_unwatch *)
Definition aidl_unwatch (s : state) (n : bytes) : out :=
  let s := say s (EvUnwatch n) in
  match table s n with
  | Some i => watch_free (set_table s n None) i
  | None => Ok s
  end.
(* src/gbinder_servicemanager_aidl.c:86-100 gbinder_servicemanager_aidl_watch_notify *)
Definition watch_notify (s : state) (i : nat) : out :=
  let w := watches s i in
  if w_notify w then
    if w_alive w then with_poll s (fun _ => Ok (say (set_watch s i (Watch (w_name w) false true)) (EvReport (w_name w))))
    else Crash
  else Disabled.
(* src/gbinder_servicemanager_aidl.c:65-84 gbinder_servicemanager_aidl_watch_proc *)
Definition watch_proc (s : state) (i : nat) (added : bytes) : out :=
  let w := watches s i in
  if w_alive w then
    if str_eqb added (w_name w)
    then Ok (say (set_watch s i (Watch (w_name w) false true)) (EvReport added))
    else Ok s
  else Crash.

(* src/gbinder_servicepoll.c:122-134 gbinder_servicepoll_timer *)
Definition poll_timer (s : state) : out :=
  match poll_ s with
  | Some p =>
    if p_timer p then
      if p_call p then Ok s
      else Ok (say (set_poll s (Some (Poll (p_refs p) (p_list p) true (p_timer p) (p_handlers p)))) EvRequest)
    else Disabled
  | None => Disabled
  end.

(* src/gbinder_servicepoll.c:115-119: the end of gbinder_servicepoll_list; [v] is the number of the list *)
Definition list_done (s : state) (services : option (nat * list bytes)) : out :=
  with_poll s (fun p => poll_unref (set_poll s (Some (Poll (p_refs p) services (p_call p) (p_timer p) (p_handlers p))))).
(* src/gbinder_servicepoll.c:75-120 gbinder_servicepoll_list: its beginning *)
Definition list_begin (sort : list bytes -> list bytes) (s : state) (services : option (list bytes)) : out :=
  match poll_ s with
  | Some p =>
    if p_call p then
      let s := say (set_poll s (Some (Poll (p_refs p + 1) (p_list p) false (p_timer p) (p_handlers p)))) (EvAnswer services) in
      match services with
      | None => list_done s None
      | Some l => Ok (set_frames s (Frame (sort l) (p_list p) None (sort l) :: frames s))
      end
    else Disabled
  | None => Disabled
  end.
(* ... and what it does next: the first loop (lines 92-108), in which the previous list is used, then
   the second one (lines 110-114). An emission calls one handler after another. *)
Definition list_next (s : state) : out :=
  match frames s with
  | [] => Disabled
  | f :: r =>
    with_poll s (fun p =>
      let go (new : list bytes) (old : option (nat * list bytes)) (todo : option (list nat)) :=
        set_frames s (Frame new old todo (f_services f) :: r) in
      match f_todo f, f_new f with
      | Some (i :: t), x :: _ =>
        let s := go (f_new f) (f_old f) (Some t) in
        if existsb (Nat.eqb i) (p_handlers p) then watch_proc s i x else Ok s
      | Some [], x :: new => Ok (go new (f_old f) None)
      | Some _, [] => Crash
      | None, [] => list_done (next_list (set_frames s r)) (Some (nlists s, f_services f))
      | None, x :: new =>
        match f_old f with
        | Some (v, o) =>
          if match p_list p with Some (v1, _) => Nat.eqb v v1 | None => false end then
            match o with
            | [] => Ok (go (x :: new) None None)
            | _ :: _ =>
              match strv_find o x with
              | None => Ok (go (x :: new) (Some (v, o)) (Some (p_handlers p)))
              | Some k => Ok (go new (Some (v, skipn (S k) o)) None)
              end
            end
          else Crash
        | None => Ok (go (x :: new) None (Some (p_handlers p)))
        end
      end)
  end.

Inductive move :=
| MWatch (n : bytes) | MUnwatch (n : bytes)
| MNotify (i : nat)                    (* the idle callback of a watch *)
| MTimer                               (* the timer of the poll object *)
| MAnswer (services : option (list bytes))
| MNext.                               (* the answer which is being processed *)
Definition step (sort : list bytes -> list bytes) (s : state) (m : move) : out :=
  match m with
  | MWatch n => aidl_watch s n
  | MUnwatch n => aidl_unwatch s n
  | MNotify i => watch_notify s i
  | MTimer => poll_timer s
  | MAnswer services => list_begin sort s services
  | MNext => list_next s
  end.
Fixpoint run (sort : list bytes -> list bytes) (s : state) (l : list move) : out :=
  match l with
  | [] => Ok s
  | m :: r => bind (step sort s m) (fun s => run sort s r)
  end.
Definition init : state :=
  State (fun _ => Watch [] false false) 0 (fun _ => None) None [] 0 [].
