(* Model of the bridge, which publishes services of one service manager (the destination) with
   another one (the source) (src/gbinder_bridge.c).

   The state of the library is what the main thread sees of it: the interfaces of one bridge, the
   proxies and published names it has created, the handlers it has connected and the references it
   holds. The rest is the environment: objects which get registered with the destination under a
   name and die, notifications about that which wait for the main thread, and calls which register
   a published name with the source, executed by worker threads.

   The handlers of one remote object are called one after another; the ones of the application may
   come between those of the bridge and run the main loop, so that everything else may happen there.

   Simplifications: forwarding of requests is in the models of proxies (ProxyModel); how published
   names are registered and registered again is in NameModel, here a name which isn't released may be
   registered at any time; how notifications about registrations come about is in WatchModel and
   PollModel, those about deaths in RemoteModel, here each is queued once or not at all, as the
   environment decides; objects found are kept alive by the reference of the bridge, the other
   reference (autorelease) isn't modelled; there's one name at the source for each interface. *)
From Verif Require Import Base.

Definition name := list Z.
Fixpoint name_eqb (a b : name) : bool :=
  match a, b with
  | [], [] => true
  | x :: a, y :: b => (x =? y) && name_eqb a b
  | _, _ => false
  end.

(* struct gbinder_bridge_interface: src/gbinder_bridge.c:51-62. Objects, handlers, proxies and
   published names are numbered. *)
Record biface := Bi {
  bi_watch : bool;               (* dest_watch_id isn't zero *)
  bi_death : option nat;         (* dest_death_id *)
  bi_obj : option nat;           (* dest_obj *)
  bi_name : option nat;          (* src_service *)
  bi_proxy : option nat          (* proxy *)
}.
(* A handler connected to an object, and the interface it is called with *)
Record handler := Handler { h_id : nat; h_obj : nat; h_if : nat }.
(* A proxy: of which interface, what it forwards to, and has it been dropped *)
Record proxy := Proxy { px_if : nat; px_obj : nat; px_dropped : bool }.
(* A published name: of which interface, for which proxy, under which name, and is it released *)
Record pname := Pname { pn_if : nat; pn_proxy : nat; pn_name : name; pn_released : bool }.
(* What waits for the main thread *)
Inductive note := NReg (n : name) | NDeath (o : nat).
(* There's no bridge yet; there's one; it has been freed *)
Inductive life := Before | Live | Freed.

Record state := State {
  life_ : life;
  ifaces : list name;            (* what was given to gbinder_bridge_new2 *)
  src_name : name;
  dest_name : name;
  ifs : nat -> biface;           (* bridge->ifaces *)
  handlers : list handler;       (* in the order in which they are called *)
  nexth : nat;
  refs : nat -> Z;               (* references to remote objects held by the bridge *)
  dead : nat -> bool;            (* obj->dead *)
  emitting : list nat;           (* handlers which are going to be called about a death *)
  proxies : nat -> proxy;
  nproxies : nat;
  pnames : nat -> pname;
  npnames : nat;
  (* environment *)
  nobjs : nat;                   (* objects so far *)
  gone : nat -> bool;            (* it has died *)
  current : name -> option nat;  (* the living object which is registered under the name *)
  queue : list note;
  running : list nat;            (* names whose registration calls are being executed *)
  entry : nat -> option nat      (* the proxy which is registered with the source *)
}.
Inductive out := Disabled | Crash | Ok (s : state).
Definition bind (m : out) (f : state -> out) : out := match m with Ok s => f s | x => x end.

Definition upd {A} (f : nat -> A) (i : nat) (x : A) : nat -> A := fun j => if Nat.eqb j i then x else f j.
Definition updn {A} (f : name -> A) (i : name) (x : A) : name -> A := fun j => if name_eqb j i then x else f j.

Definition set_ifs (s : state) (f : nat -> biface) : state :=
  State (life_ s) (ifaces s) (src_name s) (dest_name s) f (handlers s) (nexth s) (refs s) (dead s) (emitting s)
    (proxies s) (nproxies s) (pnames s) (npnames s) (nobjs s) (gone s) (current s) (queue s) (running s) (entry s).
Definition set_bi (s : state) (i : nat) (b : biface) : state := set_ifs s (upd (ifs s) i b).
Definition set_handlers (s : state) (h : list handler) (n : nat) : state :=
  State (life_ s) (ifaces s) (src_name s) (dest_name s) (ifs s) h n (refs s) (dead s) (emitting s)
    (proxies s) (nproxies s) (pnames s) (npnames s) (nobjs s) (gone s) (current s) (queue s) (running s) (entry s).
Definition set_refs (s : state) (f : nat -> Z) : state :=
  State (life_ s) (ifaces s) (src_name s) (dest_name s) (ifs s) (handlers s) (nexth s) f (dead s) (emitting s)
    (proxies s) (nproxies s) (pnames s) (npnames s) (nobjs s) (gone s) (current s) (queue s) (running s) (entry s).
Definition set_dying (s : state) (d : nat -> bool) (e : list nat) : state :=
  State (life_ s) (ifaces s) (src_name s) (dest_name s) (ifs s) (handlers s) (nexth s) (refs s) d e
    (proxies s) (nproxies s) (pnames s) (npnames s) (nobjs s) (gone s) (current s) (queue s) (running s) (entry s).
Definition set_proxies (s : state) (f : nat -> proxy) (n : nat) : state :=
  State (life_ s) (ifaces s) (src_name s) (dest_name s) (ifs s) (handlers s) (nexth s) (refs s) (dead s) (emitting s)
    f n (pnames s) (npnames s) (nobjs s) (gone s) (current s) (queue s) (running s) (entry s).
Definition set_pnames (s : state) (f : nat -> pname) (n : nat) : state :=
  State (life_ s) (ifaces s) (src_name s) (dest_name s) (ifs s) (handlers s) (nexth s) (refs s) (dead s) (emitting s)
    (proxies s) (nproxies s) f n (nobjs s) (gone s) (current s) (queue s) (running s) (entry s).
Definition set_world (s : state) (n : nat) (g : nat -> bool) (c : name -> option nat) (q : list note) : state :=
  State (life_ s) (ifaces s) (src_name s) (dest_name s) (ifs s) (handlers s) (nexth s) (refs s) (dead s) (emitting s)
    (proxies s) (nproxies s) (pnames s) (npnames s) n g c q (running s) (entry s).
Definition set_source (s : state) (r : list nat) (e : nat -> option nat) : state :=
  State (life_ s) (ifaces s) (src_name s) (dest_name s) (ifs s) (handlers s) (nexth s) (refs s) (dead s) (emitting s)
    (proxies s) (nproxies s) (pnames s) (npnames s) (nobjs s) (gone s) (current s) (queue s) r e.
Definition set_life (s : state) (l : life) : state :=
  State l (ifaces s) (src_name s) (dest_name s) (ifs s) (handlers s) (nexth s) (refs s) (dead s) (emitting s)
    (proxies s) (nproxies s) (pnames s) (npnames s) (nobjs s) (gone s) (current s) (queue s) (running s) (entry s).
Definition set_given (s : state) (l : list name) (a b : name) : state :=
  State (life_ s) l a b (ifs s) (handlers s) (nexth s) (refs s) (dead s) (emitting s)
    (proxies s) (nproxies s) (pnames s) (npnames s) (nobjs s) (gone s) (current s) (queue s) (running s) (entry s).

(* bi->fqname: src/gbinder_bridge.c:189, the name of the i-th interface at the destination *)
Definition fqname (s : state) (i : nat) : name := (nth i (ifaces s) [] ++ [47] ++ dest_name s)%list.

Definition has_handler (s : state) (id : nat) : bool := existsb (fun h => Nat.eqb (h_id h) id) (handlers s).

(* src/gbinder_bridge.c:74-86 gbinder_bridge_dest_drop_remote_object *)
Definition drop_remote_object (s : state) (i : nat) : out :=
  let b := ifs s i in
  match bi_obj b with
  | None => Ok s
  | Some o =>
    match bi_death b with
    | None => Crash
    | Some id =>
      if has_handler s id && (0 <? refs s o) then
        let s := set_handlers s (filter (fun h => negb (Nat.eqb (h_id h) id)) (handlers s)) (nexth s) in
        let s := set_refs s (upd (refs s) o (refs s o - 1)) in
        Ok (set_bi s i (Bi (bi_watch b) None None (bi_name b) (bi_proxy b)))
      else Crash
    end
  end.
(* src/gbinder_bridge.c:93-96: gbinder_local_object_drop of the proxy *)
Definition drop_proxy (s : state) (i : nat) : out :=
  let b := ifs s i in
  match bi_proxy b with
  | None => Ok s
  | Some p =>
    let x := proxies s p in
    if px_dropped x then Crash
    else
      let s := set_proxies s (upd (proxies s) p (Proxy (px_if x) (px_obj x) true)) (nproxies s) in
      Ok (set_bi s i (Bi (bi_watch b) (bi_death b) (bi_obj b) (bi_name b) None))
  end.
(* src/gbinder_bridge.c:97-100: gbinder_servicename_unref *)
Definition release_name (s : state) (i : nat) : out :=
  let b := ifs s i in
  match bi_name b with
  | None => Ok s
  | Some k =>
    let x := pnames s k in
    if pn_released x then Crash
    else
      let s := set_pnames s (upd (pnames s) k (Pname (pn_if x) (pn_proxy x) (pn_name x) true)) (npnames s) in
      Ok (set_bi s i (Bi (bi_watch b) (bi_death b) (bi_obj b) None (bi_proxy b)))
  end.
(* src/gbinder_bridge.c:88-102 gbinder_bridge_interface_deactivate *)
Definition deactivate (s : state) (i : nat) : out :=
  bind (drop_remote_object s i) (fun s => bind (drop_proxy s i) (fun s => release_name s i)).

(* src/gbinder_bridge.c:144-153: [found] is what gbinder_servicemanager_get_service_sync returns. An
   object which is known to be dead isn't found (gbinder_ipc_get_remote, RemoteModel). *)
Definition attach (s : state) (i : nat) (found : option nat) : out :=
  let b := ifs s i in
  match bi_obj b with
  | Some _ => Ok s
  | None =>
    match found with
    | None => Ok s
    | Some o =>
      if Nat.ltb o (nobjs s) && negb (dead s o) then
        let s := set_refs s (upd (refs s) o (refs s o + 1)) in
        let s := set_handlers s (handlers s ++ [Handler (nexth s) o i])%list (S (nexth s)) in
        Ok (set_bi s i (Bi (bi_watch b) (Some (pred (nexth s))) (Some o) (bi_name b) (bi_proxy b)))
      else Disabled
    end
  end.
(* src/gbinder_bridge.c:154-157 *)
Definition make_proxy (s : state) (i : nat) : state :=
  let b := ifs s i in
  match bi_obj b, bi_proxy b with
  | Some o, None =>
    let p := nproxies s in
    let s := set_proxies s (upd (proxies s) p (Proxy i o false)) (S p) in
    set_bi s i (Bi (bi_watch b) (bi_death b) (bi_obj b) (bi_name b) (Some p))
  | _, _ => s
  end.
(* src/gbinder_bridge.c:158-161 *)
Definition publish (s : state) (i : nat) : state :=
  let b := ifs s i in
  match bi_proxy b, bi_name b with
  | Some p, None =>
    let k := npnames s in
    let s := set_pnames s (upd (pnames s) k (Pname i p (src_name s) false)) (S k) in
    set_bi s i (Bi (bi_watch b) (bi_death b) (bi_obj b) (Some k) (bi_proxy b))
  | _, _ => s
  end.
(* src/gbinder_bridge.c:132-162 gbinder_bridge_interface_activate *)
Definition activate (s : state) (i : nat) (found : option nat) : out :=
  let is_dead := match bi_obj (ifs s i) with Some o => dead s o | None => false end in
  bind (if is_dead then drop_remote_object s i else Ok s) (fun s =>
  bind (attach s i found) (fun s => Ok (publish (make_proxy s i) i))).

Fixpoint for_all (l : list nat) (f : state -> nat -> out) (s : state) : out :=
  match l with
  | [] => Ok s
  | i :: r => bind (f s i) (for_all r f)
  end.
Definition count (s : state) : nat := length (ifaces s).

(* src/gbinder_bridge.c:164-177 gbinder_bridge_dest_registration_proc, called for each interface
   which has the handler; [look] is what is found for each of them *)
Definition registered (s : state) (n : name) (look : nat -> option nat) : out :=
  match life_ s with
  | Live =>
    for_all (seq 0 (count s))
      (fun s i => if bi_watch (ifs s i) && name_eqb n (fqname s i) then activate s i (look i) else Ok s) s
  | _ => Ok s
  end.
(* src/gbinder_remote_object.c:68-91 gbinder_remote_object_handle_death_on_main_thread, 139-161
   gbinder_remote_object_commit_suicide: the object is dead and the signal is emitted, once *)
Definition died (s : state) (o : nat) : state :=
  if dead s o then s
  else set_dying s (upd (dead s) o true)
         (map h_id (filter (fun h => Nat.eqb (h_obj h) o) (handlers s)) ++ emitting s)%list.
(* The next handler is called unless it has been removed in the meantime:
   src/gbinder_bridge.c:120-130 gbinder_bridge_dest_death_proc *)
Definition emit (s : state) : out :=
  match emitting s with
  | [] => Disabled
  | id :: r =>
    let s := set_dying s (dead s) r in
    match find (fun h => Nat.eqb (h_id h) id) (handlers s) with
    | None => Ok s
    | Some h => match life_ s with Live => deactivate s (h_if h) | _ => Crash end
    end
  end.
(* src/gbinder_bridge.c:179-200 gbinder_bridge_interface_new; [watch]: does
   gbinder_servicemanager_add_registration_handler accept the name *)
Definition interface_new (s : state) (i : nat) (watch : bool) (found : option nat) : out :=
  activate (set_bi s i (Bi watch None None None None)) i found.
(* src/gbinder_bridge.c:216-246 gbinder_bridge_new2 (with NULL for dest_name it is
   206-214 gbinder_bridge_new); both managers are given *)
Definition bridge_new2 (s : state) (src dest : option name) (l : list name) (watch : nat -> bool)
                       (look : nat -> option nat) : out :=
  match life_ s with
  | Before =>
    let src := match src with None => dest | x => x end in
    let dest := match dest with None => src | x => x end in
    match src, dest, l with
    | Some a, Some b, _ :: _ =>
      for_all (seq 0 (length l)) (fun s i => interface_new s i (watch i) (look i))
        (set_life (set_given s l a b) Live)
    | _, _, _ => Ok s
    end
  | _ => Disabled
  end.
(* src/gbinder_bridge.c:104-118 gbinder_bridge_interface_free *)
Definition interface_free (s : state) (i : nat) : out :=
  bind (deactivate s i) (fun s => Ok (set_bi s i (Bi false None None None None))).
(* src/gbinder_bridge.c:248-264 gbinder_bridge_free *)
Definition bridge_free (s : state) : out :=
  match life_ s with
  | Live => bind (for_all (seq 0 (count s)) interface_free s) (fun s => Ok (set_life s Freed))
  | _ => Disabled
  end.

Inductive move :=
| MRegister (n : name) (o : nat) (notify : bool)     (* o, or a new object, is registered with the destination *)
| MDie (o : nat) (notify : bool)                     (* it dies *)
| MDeliver (k : nat) (look : nat -> option nat)      (* the main thread handles the k-th of what waits for it *)
| MSuicide (o : nat)                                 (* a request has failed because the object is dead *)
| MEmit                                              (* the next death handler *)
| MNew (src dest : option name) (l : list name) (watch : nat -> bool) (look : nat -> option nat)
| MFree
| MStart (k : nat)                                   (* a call which registers a name is being executed *)
| MFinish (k : nat).                                 (* and has been *)

Definition remove_nth {A} (k : nat) (l : list A) : list A := (firstn k l ++ skipn (S k) l)%list.

Definition step (s : state) (m : move) : out :=
  match m with
  | MRegister n o notify =>
    if Nat.leb o (nobjs s) && negb (gone s o) then
      Ok (set_world s (Nat.max (nobjs s) (S o)) (gone s) (updn (current s) n (Some o))
            (if notify then queue s ++ [NReg n] else queue s)%list)
    else Disabled
  | MDie o notify =>
    if Nat.ltb o (nobjs s) && negb (gone s o) then
      Ok (set_world s (nobjs s) (upd (gone s) o true)
            (fun n => match current s n with
                      | Some x => if Nat.eqb x o then None else Some x
                      | None => None
                      end)
            (if notify then queue s ++ [NDeath o] else queue s)%list)
    else Disabled
  | MDeliver k look =>
    match nth_error (queue s) k with
    | None => Disabled
    | Some x =>
      let s := set_world s (nobjs s) (gone s) (current s) (remove_nth k (queue s)) in
      match x with
      | NReg n => registered s n look
      | NDeath o => Ok (died s o)
      end
    end
  | MSuicide o => if gone s o then Ok (died s o) else Disabled
  | MEmit => emit s
  | MNew src dest l watch look => bridge_new2 s src dest l watch look
  | MFree => bridge_free s
  | MStart k =>
    if Nat.ltb k (npnames s) && negb (pn_released (pnames s k)) then Ok (set_source s (k :: running s) (entry s))
    else Disabled
  | MFinish k =>
    if existsb (Nat.eqb k) (running s) then
      let x := pnames s k in
      Ok (set_source s (remove Nat.eq_dec k (running s)) (upd (entry s) (pn_if x) (Some (pn_proxy x))))
    else Disabled
  end.

Fixpoint run (s : state) (l : list move) : out :=
  match l with
  | [] => Ok s
  | m :: r => bind (step s m) (fun s => run s r)
  end.
Definition init : state :=
  State Before [] [] [] (fun _ => Bi false None None None None) [] 0 (fun _ => 0) (fun _ => false) []
    (fun _ => Proxy 0 0 false) 0 (fun _ => Pname 0 0 [] false) 0
    0 (fun _ => false) (fun _ => None) [] [] (fun _ => None).
