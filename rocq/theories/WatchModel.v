(* Model of the presence and of the watches of service managers:
   src/gbinder_servicemanager.c, with the names of src/gbinder_servicemanager_aidl.c and
   src/gbinder_servicemanager_hidl.c.

   Everything runs on the main thread. Service managers of different kinds which use the same
   device and protocol share the remote object with the handle zero, so a state has any number
   of managers and one flag which tells whether the object is dead. The timers are those of
   the event loop; handlers are the connected signal handlers.

   Simplifications: the quark for a name (its MD5 digest) is the name itself; handlers of the
   presence signal, and everything else that the application does, are separate moves; when
   several managers share the object, they all get the death notification in one move.
   Reading the table of watches depends on the order of its entries, which is arbitrary: MSwap
   changes it at any time. What klass->watch returns is decided by the environment. *)
From Verif Require Import Base WaitModel.

Definition name := list Z.
Fixpoint name_eqb (a b : name) : bool :=
  match a, b with
  | [], [] => true
  | x :: r, y :: t => (x =? y) && name_eqb r t
  | _, _ => false
  end.

Inductive kind := Aidl | Hidl.

(* GBINDER_SERVICEMANAGER_NAME_CHECK: src/gbinder_servicemanager_p.h *)
Inductive name_check := NameOk | NameNormalize | NameInvalid.

(* src/gbinder_servicemanager_hidl.c:331-333 allowed_chars: "./0123456789:@", A-Z, a-z *)
Definition SLASH : Z := 47.
Definition allowed (c : Z) : bool :=
  ((46 <=? c) && (c <=? 58)) || ((64 <=? c) && (c <=? 90)) || ((97 <=? c) && (c <=? 122)).

(* src/gbinder_servicemanager_aidl.c:234-241 gbinder_servicemanager_aidl_check_name,
   src/gbinder_servicemanager_hidl.c:325-344 gbinder_servicemanager_hidl_check_name *)
Definition check_name (k : kind) (n : name) : name_check :=
  match k with
  | Aidl => NameOk
  | Hidl =>
    if (0 <? blen n) && forallb allowed n then
      if existsb (Z.eqb SLASH) n then NameNormalize else NameOk
    else NameInvalid
  end.

(* src/gbinder_servicemanager_hidl.c:346-354 gbinder_servicemanager_hidl_normalize_name: up to
   the first slash *)
Fixpoint normalize_name (n : name) : name :=
  match n with
  | [] => []
  | c :: r => if c =? SLASH then [] else c :: normalize_name r
  end.

(* The switch in src/gbinder_servicemanager.c:595-605 and 942-952 *)
Definition watch_name (k : kind) (n : name) : option name :=
  match check_name k n with
  | NameOk => Some n
  | NameNormalize => Some (normalize_name n)
  | NameInvalid => None
  end.

(* GBinderServiceManagerWatch: src/gbinder_servicemanager.c:100-105 *)
Record watch := Watch { w_name : name; w_on : bool }.

(* A connected handler: of the registration signal with a detail, or of the presence signal *)
Record handler := Handler { h_id : Z; h_detail : option name }.

(* GBinderServiceManager and GBinderServiceManagerPriv; m_live is false when it's finalized *)
Record man := Man {
  m_kind : kind;
  m_live : bool;
  m_table : list watch;          (* priv->watch_table *)
  m_handlers : list handler;
  m_check : option Z;            (* priv->presence_check *)
  m_delay : Z                    (* priv->presence_check_delay_ms *)
}.

Record timer := Timer { t_id : Z; t_man : nat; t_delay : Z }.

(* An emission of the registration signal which is not over yet, with those handlers which
   are still to be called *)
Record emission := Emission { e_id : Z; e_man : nat; e_name : name; e_left : list Z }.

(* What can be seen from outside: the presence when it's first known, what klass->watch has
   returned, the end of a watch, new handlers for a service, the results of scheduled checks, presence signals with the
   presence at that time, and calls of registration handlers *)
Inductive event :=
| EvNew (i : nat) (present : bool)
| EvWatch (i : nat) (n : name) (ok : bool)
| EvUnwatch (i : nat) (n : name)
| EvAdd (i : nat) (id : Z) (n : name)
| EvCheck (i : nat) (ok : bool)
| EvPresence (i : nat) (present : bool)
| EvCall (em : Z) (id : Z) (n : name).

(* The trace starts with the latest event *)
Record state := State {
  mans : list man;
  dead : bool;                   (* remote->dead *)
  timers : list timer;
  next : Z;                      (* for new ids *)
  emits : list emission;         (* the innermost one first *)
  trace : list event
}.

Inductive out := Misuse | Crash | Ok (s : state).
Definition bind (m : out) (f : state -> out) : out := match m with Ok s => f s | x => x end.

Definition init : state := State [] true [] 1 [] [].

Fixpoint replace_nth {A} (l : list A) (i : nat) (x : A) : list A :=
  match l, i with
  | [], _ => []
  | _ :: r, O => x :: r
  | y :: r, S j => y :: replace_nth r j x
  end.

Definition set_man (s : state) (i : nat) (m : man) : state :=
  State (replace_nth (mans s) i m) (dead s) (timers s) (next s) (emits s) (trace s).
Definition set_dead (s : state) (d : bool) : state :=
  State (mans s) d (timers s) (next s) (emits s) (trace s).
Definition set_timers (s : state) (l : list timer) : state :=
  State (mans s) (dead s) l (next s) (emits s) (trace s).
Definition set_emits (s : state) (l : list emission) : state :=
  State (mans s) (dead s) (timers s) (next s) l (trace s).
Definition fresh (s : state) : state :=
  State (mans s) (dead s) (timers s) (next s + 1) (emits s) (trace s).
Definition say (s : state) (l : list event) : state :=
  State (mans s) (dead s) (timers s) (next s) (emits s) (l ++ trace s).

Definition with_table (m : man) (t : list watch) : man :=
  Man (m_kind m) (m_live m) t (m_handlers m) (m_check m) (m_delay m).
Definition with_handlers (m : man) (l : list handler) : man :=
  Man (m_kind m) (m_live m) (m_table m) l (m_check m) (m_delay m).
Definition with_check (m : man) (c : option Z) (d : Z) : man :=
  Man (m_kind m) (m_live m) (m_table m) (m_handlers m) c d.

(* A manager which the application has; anything else is an error of the caller *)
Definition with_man (s : state) (i : nat) (f : man -> out) : out :=
  match nth_error (mans s) i with
  | Some m => if m_live m then f m else Misuse
  | None => Misuse
  end.

Definition timer_is (id : Z) (t : timer) : bool := t_id t =? id.
(* gbinder_timeout_add, gbinder_timeout_remove: removing what doesn't exist touches freed
   memory *)
Definition add_timer (s : state) (i : nat) (d : Z) : state :=
  fresh (set_timers s (timers s ++ [Timer (next s) i d])).
Definition remove_timer (s : state) (c : option Z) : out :=
  match c with
  | None => Ok s
  | Some id =>
    if existsb (timer_is id) (timers s) then
      Ok (set_timers s (filter (fun t => negb (timer_is id t)) (timers s)))
    else Crash
  end.

(* src/gbinder_servicemanager.c:318-351 gbinder_servicemanager_reanimated. [res] is what
   klass->watch returns for each name. *)
Definition rearm (res : name -> bool) (w : watch) : watch := Watch (w_name w) (res (w_name w)).
Definition rearm_events (i : nat) (res : name -> bool) (t : list watch) : list event :=
  rev (map (fun w => EvWatch i (w_name w) (res (w_name w))) t).
Definition reanimated (s : state) (i : nat) (res : name -> bool) : out :=
  match nth_error (mans s) i with
  | None => Crash
  | Some m =>
    match remove_timer s (m_check m) with
    | Ok s1 =>
      Ok (say (set_man s1 i (with_table (with_check m None (m_delay m)) (map (rearm res) (m_table m))))
            (EvPresence i (negb (dead s1)) :: rearm_events i res (m_table m)))
    | x => x
    end
  end.

(* src/gbinder_servicemanager.c:383-394 gbinder_servicemanager_presence_check_start. The
   assertion is for debug builds only. *)
Definition check_start (s : state) (i : nat) : out :=
  match nth_error (mans s) i with
  | None => Crash
  | Some m =>
    Ok (add_timer (set_man s i (with_check m (Some (next s)) PRESENSE_WAIT_MS_MIN))
          i PRESENSE_WAIT_MS_MIN)
  end.

(* src/gbinder_servicemanager.c:396-427 gbinder_servicemanager_died *)
Definition unwatch_events (i : nat) (t : list watch) : list event :=
  rev (map (fun w => EvUnwatch i (w_name w)) (filter w_on t)).
Definition died (s : state) (i : nat) : out :=
  match check_start s i with
  | Ok s1 =>
    match nth_error (mans s1) i with
    | None => Crash
    | Some m =>
      Ok (say (set_man s1 i (with_table m (map (fun w => Watch (w_name w) false) (m_table m))))
            (EvPresence i (negb (dead s1)) :: unwatch_events i (m_table m)))
    end
  | x => x
  end.

(* gbinder_remote_object_handle_death_on_main_thread (src/gbinder_remote_object.c:65-90): the
   signal is emitted if the object was alive; managers are connected to it until finalized *)
Fixpoint all_died (s : state) (l : list nat) : out :=
  match l with
  | [] => Ok s
  | i :: r =>
    match nth_error (mans s) i with
    | Some m => if m_live m then bind (died s i) (fun s1 => all_died s1 r) else all_died s r
    | None => all_died s r
    end
  end.
Definition death (s : state) : out :=
  if dead s then Ok s else all_died (set_dead s true) (seq 0 (length (mans s))).

(* src/gbinder_remote_object.c:96-124 gbinder_remote_object_reanimate; [ping] is the result of
   the ping, which is made only if the object is dead *)
Definition reanimate (s : state) (ping : bool) : state * bool :=
  if dead s then (set_dead s (negb ping), ping) else (s, true).

(* src/gbinder_servicemanager.c:353-381 gbinder_servicemanager_presense_check_timer, called by
   the event loop for the timer with this id *)
Definition check_timer (s : state) (id : Z) (ping : bool) (res : name -> bool) : out :=
  match find (timer_is id) (timers s) with
  | None => Misuse
  | Some t =>
    let i := t_man t in
    match nth_error (mans s) i with
    | None => Crash
    | Some m =>
      if negb (m_live m) then Crash
      else
        let without l := filter (fun t => negb (timer_is id t)) l in
        let '(s1, ok) := reanimate s ping in
        let s2 := say s1 [EvCheck i ok] in
        if ok then
          match reanimated (set_man s2 i (with_check m None (m_delay m))) i res with
          | Ok s3 => Ok (set_timers s3 (without (timers s3)))
          | x => x
          end
        else if m_delay m <? PRESENSE_WAIT_MS_MAX then
          let d := m_delay m + PRESENSE_WAIT_MS_STEP in
          let s3 := add_timer (set_man s2 i (with_check m (Some (next s2)) d)) i d in
          Ok (set_timers s3 (without (timers s3)))
        else Ok s2
    end
  end.

(* src/gbinder_servicemanager.c:518-583 gbinder_servicemanager_new_with_type, when there's no
   such manager yet *)
Definition new_manager (s : state) (k : kind) (ping : bool) : out :=
  let i := length (mans s) in
  let s1 := State (mans s ++ [Man k true [] [] None 0]) (dead s) (timers s) (next s) (emits s) (trace s) in
  let '(s2, ok) := reanimate s1 ping in
  let s3 := say s2 [EvNew i ok] in
  if dead s3 then check_start s3 i else Ok s3.

(* src/gbinder_servicemanager.c:1112-1127 gbinder_servicemanager_finalize; an emission of a
   signal keeps the manager *)
Definition finalize (s : state) (i : nat) : out :=
  with_man s i (fun m =>
    if existsb (fun e => Nat.eqb (e_man e) i) (emits s) then Misuse
    else
      match remove_timer s (m_check m) with
      | Ok s1 => Ok (set_man s1 i (Man (m_kind m) false [] [] None (m_delay m)))
      | x => x
      end).

(* src/gbinder_servicemanager.c:732-737 gbinder_servicemanager_is_present *)
Definition is_present (s : state) : bool := negb (dead s).

(* src/gbinder_servicemanager.c:739-782 gbinder_servicemanager_wait: see WaitModel. [found]
   tells whether a check succeeds. *)
Definition wait_move (s : state) (i : nat) (found : bool) (res : name -> bool) : out :=
  with_man s i (fun m =>
    if negb (dead s) then Ok s
    else if found then reanimated (set_dead s false) i res else Ok s).

(* src/gbinder_servicemanager.c:919-927 gbinder_servicemanager_add_presence_handler *)
Definition add_presence_handler (s : state) (i : nat) : out :=
  with_man s i (fun m =>
    Ok (fresh (set_man s i (with_handlers m (m_handlers m ++ [Handler (next s) None]))))).

(* src/gbinder_servicemanager.c:929-979 gbinder_servicemanager_add_registration_handler. The
   new id is the current value of [next]. *)
Definition watch_is (n : name) (w : watch) : bool := name_eqb n (w_name w).
Definition set_on (n : name) (b : bool) (w : watch) : watch :=
  if watch_is n w then Watch (w_name w) b else w.
Definition add_handler (s : state) (i : nat) (n0 : name) (ok : bool) : out :=
  with_man s i (fun m =>
    match watch_name (m_kind m) n0 with
    | None => Ok s
    | Some n =>
      let t := if existsb (watch_is n) (m_table m) then m_table m else m_table m ++ [Watch n false] in
      let on := existsb (fun w => watch_is n w && w_on w) t in
      let attempt := negb on && negb (dead s) in
      let t2 := if attempt then map (set_on n ok) t else t in
      let hs := m_handlers m ++ [Handler (next s) (Some n)] in
      Ok (fresh (say (set_man s i (with_handlers (with_table m t2) hs))
                   (EvAdd i (next s) n :: if attempt then [EvWatch i n ok] else [])))
    end).

(* src/gbinder_servicemanager.c:989-1029 gbinder_servicemanager_remove_handlers. The caller
   must give ids of connected handlers, each of them once; zeros are skipped. *)
Definition handler_is (id : Z) (h : handler) : bool := h_id h =? id.
Definition detail_is (n : name) (h : handler) : bool :=
  match h_detail h with Some d => name_eqb n d | None => false end.
Definition has_handler (l : list handler) (n : name) : bool := existsb (detail_is n) l.

Fixpoint disconnect (l : list handler) (ids : list Z) (count : nat) : option (list handler * nat) :=
  match ids with
  | [] => Some (l, count)
  | id :: r =>
    if id =? 0 then disconnect l r count
    else if existsb (handler_is id) l then
      disconnect (filter (fun h => negb (handler_is id h)) l) r (S count)
    else None
  end.

Fixpoint unwatch_loop (hs : list handler) (t : list watch) (count : nat) : list watch * list name :=
  match count, t with
  | O, _ | _, [] => (t, [])
  | S c, w :: r =>
    if w_on w && negb (has_handler hs (w_name w)) then
      let '(t2, l) := unwatch_loop hs r c in (Watch (w_name w) false :: t2, w_name w :: l)
    else
      let '(t2, l) := unwatch_loop hs r count in (w :: t2, l)
  end.

Definition remove_handlers (s : state) (i : nat) (ids : list Z) : out :=
  with_man s i (fun m =>
    match disconnect (m_handlers m) ids 0 with
    | None => Misuse
    | Some (hs, count) =>
      let '(t, l) := unwatch_loop hs (m_table m) count in
      Ok (say (set_man s i (with_handlers (with_table m t) hs))
            (rev (map (EvUnwatch i) l)))
    end).

(* src/gbinder_servicemanager.c:585-613 gbinder_servicemanager_service_registered: the
   handlers with the matching detail will be called, and no others (none of them has no
   detail) *)
Definition service_registered (s : state) (i : nat) (n0 : name) : out :=
  with_man s i (fun m =>
    let w := match watch_name (m_kind m) n0 with
             | Some n => find (watch_is n) (m_table m)
             | None => None
             end in
    let ids := match w with
               | Some w => map h_id (filter (detail_is (w_name w)) (m_handlers m))
               | None => []
               end in
    Ok (fresh (set_emits s (Emission (next s) i n0 ids :: emits s)))).

(* g_signal_emit: the next handler is called, unless it's been disconnected; in the end the
   emission is over *)
Definition deliver (s : state) : out :=
  match emits s with
  | [] => Misuse
  | e :: r =>
    match e_left e with
    | [] => Ok (set_emits s r)
    | id :: l =>
      let s1 := set_emits s (Emission (e_id e) (e_man e) (e_name e) l :: r) in
      match nth_error (mans s) (e_man e) with
      | Some m =>
        if existsb (handler_is id) (m_handlers m) then Ok (say s1 [EvCall (e_id e) id (e_name e)])
        else Ok s1
      | None => Crash
      end
    end
  end.

(* Another order of the entries of the table *)
Fixpoint swap_at {A} (l : list A) (k : nat) : list A :=
  match l, k with
  | x :: y :: r, O => y :: x :: r
  | x :: r, S j => x :: swap_at r j
  | _, _ => l
  end.

Inductive move :=
| MNew (k : kind) (ping : bool)
| MFree (i : nat)
| MDeath
| MTimer (id : Z) (ping : bool) (res : name -> bool)
| MWait (i : nat) (found : bool) (res : name -> bool)
| MAddPresence (i : nat)
| MAdd (i : nat) (n : name) (ok : bool)
| MRemove (i : nat) (ids : list Z)
| MRegistered (i : nat) (n : name)
| MDeliver
| MSwap (i : nat) (k : nat).

Definition step (s : state) (mv : move) : out :=
  match mv with
  | MNew k ping => new_manager s k ping
  | MFree i => finalize s i
  | MDeath => death s
  | MTimer id ping res => check_timer s id ping res
  | MWait i found res => wait_move s i found res
  | MAddPresence i => add_presence_handler s i
  | MAdd i n ok => add_handler s i n ok
  | MRemove i ids => remove_handlers s i ids
  | MRegistered i n => service_registered s i n
  | MDeliver => deliver s
  | MSwap i k => with_man s i (fun m => Ok (set_man s i (with_table m (swap_at (m_table m) k))))
  end.

Fixpoint run (s : state) (l : list move) : out :=
  match l with
  | [] => Ok s
  | mv :: r => bind (step s mv) (fun s1 => run s1 r)
  end.
