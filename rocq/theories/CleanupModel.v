(* Model of cleanups and of the life of received data: src/gbinder_cleanup.c, the
   reference counts of src/gbinder_local_request.c and src/gbinder_local_reply.c,
   src/gbinder_buffer.c, and those functions of src/gbinder_writer.c which register
   cleanups. Destroy callbacks don't call back into the same request or reply.
   Requests and replies (messages), received data (contents), buffers and lists of
   contents are numbered in the order of creation, and are None after they are freed. *)
From Verif Require Import Base.

(* GBinderCleanupItem, src/gbinder_cleanup.c:35-38: a function with its argument. These
   are the functions which get there: the one given by the caller, close (of a
   duplicated descriptor), gbinder_buffer_contents_unref, gbinder_local_object_unref and
   g_free *)
Inductive item :=
| ItRun (destroy pointer : Z)
| ItClose (fd : Z)
| ItContents (c : nat)
| ItLocal (obj : Z)
| ItFree (p : Z).

(* GBinderCleanup*: NULL or an array *)
Definition cleanup := option (list item).

(* src/gbinder_cleanup.c:89-106 gbinder_cleanup_add *)
Definition cleanup_add (self : cleanup) (i : option item) : cleanup :=
  match i with
  | Some x => match self with Some l => Some (l ++ [x]) | None => Some [x] end
  | None => self
  end.

(* src/gbinder_cleanup.c:71-78 gbinder_cleanup_reset: what is left, and the items which
   g_array_set_size destroys *)
Definition cleanup_reset (self : cleanup) : cleanup * list item :=
  match self with Some l => (Some [], l) | None => (None, []) end.

(* src/gbinder_cleanup.c:80-87 gbinder_cleanup_free *)
Definition cleanup_free (self : cleanup) : list item :=
  match self with Some l => l | None => [] end.

(* GBinderLocalRequest and GBinderLocalReply, src/gbinder_local_request.c:44-48 and
   src/gbinder_local_reply.c:42-47 *)
Record msg := { m_refs : Z; m_cleanup : cleanup; m_contents : option nat }.

(* GBinderBufferContents, src/gbinder_buffer.c:39-45, with the descriptors in its
   objects *)
Record cont := { c_refs : Z; c_fds : list Z }.

(* Who opened a descriptor *)
Inductive owner := OwApp | OwMsg (m : nat) | OwCont (c : nat).

Record state := {
  msgs : list (option msg);
  conts : list (option cont);
  bufs : list (option nat);                 (* GBinderBuffer: its contents *)
  lists : list (option (list nat));         (* GBinderBufferContentsList *)
  fdt : Z -> option owner                   (* open descriptors of the process *)
}.

Definition init_state : state :=
  {| msgs := []; conts := []; bufs := []; lists := []; fdt := fun _ => None |}.

Definition set_msgs s x := {| msgs := x; conts := conts s; bufs := bufs s; lists := lists s; fdt := fdt s |}.
Definition set_conts s x := {| msgs := msgs s; conts := x; bufs := bufs s; lists := lists s; fdt := fdt s |}.
Definition set_bufs s x := {| msgs := msgs s; conts := conts s; bufs := x; lists := lists s; fdt := fdt s |}.
Definition set_lists s x := {| msgs := msgs s; conts := conts s; bufs := bufs s; lists := x; fdt := fdt s |}.
Definition set_fdt s x := {| msgs := msgs s; conts := conts s; bufs := bufs s; lists := lists s; fdt := x |}.

Fixpoint set_at {A} (l : list A) (n : nat) (x : A) : list A :=
  match l, n with
  | [], _ => []
  | _ :: r, O => x :: r
  | y :: r, S k => y :: set_at r k x
  end.

Definition at_ {A} (l : list (option A)) (n : nat) : option A :=
  match nth_error l n with Some (Some x) => Some x | _ => None end.

Inductive event :=
| EvRan (i : item)                            (* destroy(pointer) was called *)
| EvClosed (fd : Z) (o : option owner)        (* close(fd), and what it hit *)
| EvFreed (c : nat).                          (* gbinder_driver_free_buffer *)

(* Misuse: the caller uses what it has released. Crash: the library does. *)
Inductive out := Done (s : state) (tr : list event) | Misuse | Crash.

Definition fd_set (t : Z -> option owner) (fd : Z) (o : option owner) : Z -> option owner :=
  fun x => if x =? fd then o else t x.

(* close *)
Definition do_close (s : state) (fd : Z) : state * list event :=
  (set_fdt s (fd_set (fdt s) fd None), [EvClosed fd (fdt s fd)]).

Fixpoint close_all (s : state) (fds : list Z) : state * list event :=
  match fds with
  | [] => (s, [])
  | fd :: r =>
    let '(s1, t1) := do_close s fd in
    let '(s2, t2) := close_all s1 r in (s2, t1 ++ t2)
  end.

(* src/gbinder_buffer.c:92-101 gbinder_buffer_contents_ref *)
Definition contents_ref (s : state) (c : nat) : option state :=
  match at_ (conts s) c with
  | Some k => Some (set_conts s (set_at (conts s) c (Some {| c_refs := c_refs k + 1; c_fds := c_fds k |})))
  | None => None
  end.

(* src/gbinder_buffer.c:103-113 gbinder_buffer_contents_unref and 77-90
   gbinder_buffer_contents_free, with gbinder_driver_close_fds at
   src/gbinder_driver.c:1130-1154 *)
Definition contents_unref (s : state) (c : nat) : option (state * list event) :=
  match at_ (conts s) c with
  | Some k =>
    if c_refs k - 1 =? 0 then
      let '(s1, t) := close_all s (c_fds k) in
      Some (set_conts s1 (set_at (conts s1) c None), t ++ [EvFreed c])
    else Some (set_conts s (set_at (conts s) c (Some {| c_refs := c_refs k - 1; c_fds := c_fds k |})), [])
  | None => None
  end.

(* src/gbinder_cleanup.c:52-59 gbinder_cleanup_destroy_func;
   src/gbinder_writer.c:638-648 gbinder_writer_data_close_fd *)
Definition run_item (s : state) (i : item) : option (state * list event) :=
  match i with
  | ItContents c =>
    match contents_unref s c with
    | Some (s1, t) => Some (s1, EvRan i :: t)
    | None => None
    end
  | ItClose fd => let '(s1, t) := do_close s fd in Some (s1, EvRan i :: t)
  | _ => Some (s, [EvRan i])
  end.

Fixpoint run_items (s : state) (l : list item) : option (state * list event) :=
  match l with
  | [] => Some (s, [])
  | i :: r =>
    match run_item s i with
    | Some (s1, t1) =>
      match run_items s1 r with
      | Some (s2, t2) => Some (s2, t1 ++ t2)
      | None => None
      end
    | None => None
    end
  end.

Fixpoint unref_all (s : state) (l : list nat) : option (state * list event) :=
  match l with
  | [] => Some (s, [])
  | c :: r =>
    match contents_unref s c with
    | Some (s1, t1) =>
      match unref_all s1 r with
      | Some (s2, t2) => Some (s2, t1 ++ t2)
      | None => None
      end
    | None => None
    end
  end.

Fixpoint ref_all (s : state) (l : list nat) : option state :=
  match l with
  | [] => Some s
  | c :: r => match contents_ref s c with Some s1 => ref_all s1 r | None => None end
  end.

(* What applications (and the library itself) do with requests, replies and received
   data. Buffers without contents are None. locals: the objects made by the converter. *)
Inductive op :=
| ONew
| ORef (m : nat)
| OUnref (m : nat)
| OCleanup (m : option nat) (destroy : option Z) (pointer : Z)
| OWriterCleanup (m : option nat) (destroy : option Z) (pointer : Z)
| OAlloc (m : nat) (p : Z)
| OAppendFd (m : nat) (fd : Z) (dup : option Z)
| OAppendContents (m : nat) (b : option nat) (locals : list Z)
| OSetContents (m : nat) (b : option nat) (locals : list Z)
| OBufNew (fds : list Z)
| OBufChild (b : nat)
| OBufFree (b : nat)
| OListAdd (l : option nat) (b : nat)
| OListDup (l : nat)
| OListFree (l : nat)
| OAppOpen (fd : Z)
| OAppClose (fd : Z).

Fixpoint all_different (l : list Z) : bool :=
  match l with [] => true | x :: r => negb (existsb (Z.eqb x) r) && all_different r end.

Definition put_msg (s : state) (m : nat) (x : option msg) : state := set_msgs s (set_at (msgs s) m x).

Definition with_cleanup (x : msg) (c : cleanup) : msg :=
  {| m_refs := m_refs x; m_cleanup := c; m_contents := m_contents x |}.

(* Registers an item with a message *)
Definition add_item (s : state) (m : nat) (i : option item) : out :=
  match at_ (msgs s) m with
  | Some x => Done (put_msg s m (Some (with_cleanup x (cleanup_add (m_cleanup x) i)))) []
  | None => Misuse
  end.

(* src/gbinder_writer.c:89-161 gbinder_writer_data_append_contents: the references which
   it takes *)
Definition append_contents (s : state) (x : msg) (b : option nat) (locals : list Z)
  : option (state * msg) :=
  match b with
  | Some c =>
    match contents_ref s c with
    | Some s1 =>
      Some (s1, with_cleanup x
        (fold_left (fun cl o => cleanup_add cl (Some (ItLocal o))) locals
           (cleanup_add (m_cleanup x) (Some (ItContents c)))))
    | None => None
    end
  | None => Some (s, x)
  end.

(* The contents of a live buffer; None for buffers which have been freed *)
Definition buf_arg (s : state) (b : option nat) : option (option nat) :=
  match b with
  | None => Some None
  | Some n => match at_ (bufs s) n with Some c => Some (Some c) | None => None end
  end.

Definition step (s : state) (o : op) : out :=
  match o with
  (* src/gbinder_local_request.c:74-109 gbinder_local_request_new,
     src/gbinder_local_reply.c:73-98 gbinder_local_reply_new *)
  | ONew => Done (set_msgs s (msgs s ++ [Some {| m_refs := 1; m_cleanup := None; m_contents := None |}])) []
  (* src/gbinder_local_request.c:168-177, src/gbinder_local_reply.c:129-138 *)
  | ORef m =>
    match at_ (msgs s) m with
    | Some x => Done (put_msg s m (Some {| m_refs := m_refs x + 1; m_cleanup := m_cleanup x; m_contents := m_contents x |})) []
    | None => Misuse
    end
  (* src/gbinder_local_request.c:179-189 and 155-166, src/gbinder_local_reply.c:140-150
     and 115-127 *)
  | OUnref m =>
    match at_ (msgs s) m with
    | Some x =>
      if m_refs x - 1 =? 0 then
        match run_items (put_msg s m None) (cleanup_free (m_cleanup x)) with
        | Some (s1, t1) =>
          match m_contents x with
          | Some c =>
            match contents_unref s1 c with
            | Some (s2, t2) => Done s2 (t1 ++ t2)
            | None => Crash
            end
          | None => Done s1 t1
          end
        | None => Crash
        end
      else Done (put_msg s m (Some {| m_refs := m_refs x - 1; m_cleanup := m_cleanup x; m_contents := m_contents x |})) []
    | None => Misuse
    end
  (* src/gbinder_local_request.c:198-211 gbinder_local_request_cleanup,
     src/gbinder_local_reply.c:166-179 gbinder_local_reply_cleanup *)
  | OCleanup None d p => Done s (match d with Some f => [EvRan (ItRun f p)] | None => [] end)
  | OCleanup (Some m) d p => add_item s m (match d with Some f => Some (ItRun f p) | None => None end)
  (* src/gbinder_writer.c:1381-1394 gbinder_writer_add_cleanup *)
  | OWriterCleanup None d p => Done s []
  | OWriterCleanup (Some m) d p => add_item s m (match d with Some f => Some (ItRun f p) | None => None end)
  (* src/gbinder_writer.c:1321-1338 gbinder_writer_alloc, and the copies which the writer
     makes *)
  | OAlloc m p => add_item s m (Some (ItFree p))
  (* src/gbinder_writer.c:650-677 gbinder_writer_data_append_fd: dup is the result of
     fcntl, None if it failed. The kernel returns a descriptor which isn't open. *)
  | OAppendFd m fd dup =>
    match dup with
    | None => add_item s m None
    | Some d =>
      match fdt s d with
      | None => add_item (set_fdt s (fd_set (fdt s) d (Some (OwMsg m)))) m (Some (ItClose d))
      | Some _ => Misuse
      end
    end
  | OAppendContents m b locals =>
    match at_ (msgs s) m, buf_arg s b with
    | Some x, Some c =>
      match append_contents s x c locals with
      | Some (s1, x1) => Done (put_msg s1 m (Some x1)) []
      | None => Crash
      end
    | _, _ => Misuse
    end
  (* src/gbinder_local_reply.c:100-113 gbinder_local_reply_set_contents,
     src/gbinder_writer.c:76-87 gbinder_writer_data_set_contents *)
  | OSetContents m b locals =>
    match at_ (msgs s) m, buf_arg s b with
    | Some x, Some c =>
      let '(cl, todo) := cleanup_reset (m_cleanup x) in
      match run_items (put_msg s m (Some (with_cleanup x cl))) todo with
      | Some (s1, t1) =>
        match append_contents s1 (with_cleanup x cl) c locals with
        | Some (s2, x2) =>
          match (match m_contents x with Some old => contents_unref s2 old | None => Some (s2, []) end) with
          | Some (s3, t3) =>
            match (match c with Some k => contents_ref s3 k | None => Some s3 end) with
            | Some s4 =>
              Done (put_msg s4 m (Some {| m_refs := m_refs x2; m_cleanup := m_cleanup x2; m_contents := c |}))
                (t1 ++ t3)
            | None => Crash
            end
          | None => Crash
          end
        | None => Crash
        end
      | None => Crash
      end
    | _, _ => Misuse
    end
  (* src/gbinder_buffer.c:188-198 gbinder_buffer_new, 59-75 gbinder_buffer_contents_new:
     the kernel has opened the descriptors in the data *)
  | OBufNew fds =>
    if forallb (fun fd => match fdt s fd with None => true | Some _ => false end) fds &&
       all_different fds then
      Done {| msgs := msgs s; conts := conts s ++ [Some {| c_refs := 1; c_fds := fds |}];
              bufs := bufs s ++ [Some (length (conts s))]; lists := lists s;
              fdt := fold_left (fun t fd => fd_set t fd (Some (OwCont (length (conts s))))) fds (fdt s) |} []
    else Misuse
  (* src/gbinder_buffer.c:200-209 gbinder_buffer_new_with_parent *)
  | OBufChild b =>
    match at_ (bufs s) b with
    | Some c =>
      match contents_ref s c with
      | Some s1 => Done (set_bufs s1 (bufs s1 ++ [Some c])) []
      | None => Crash
      end
    | None => Misuse
    end
  (* src/gbinder_buffer.c:176-186 gbinder_buffer_free *)
  | OBufFree b =>
    match at_ (bufs s) b with
    | Some c =>
      match contents_unref (set_bufs s (set_at (bufs s) b None)) c with
      | Some (s1, t) => Done s1 t
      | None => Crash
      end
    | None => Misuse
    end
  (* src/gbinder_buffer.c:120-128 gbinder_buffer_contents_list_add *)
  | OListAdd l b =>
    match at_ (bufs s) b with
    | Some c =>
      match contents_ref s c with
      | Some s1 =>
        match l with
        | None => Done (set_lists s1 (lists s1 ++ [Some [c]])) []
        | Some n =>
          match at_ (lists s1) n with
          | Some cs => Done (set_lists s1 (set_at (lists s1) n (Some (c :: cs)))) []
          | None => Misuse
          end
        end
      | None => Crash
      end
    | None => Misuse
    end
  (* src/gbinder_buffer.c:130-146 gbinder_buffer_contents_list_dup *)
  | OListDup l =>
    match at_ (lists s) l with
    | Some cs =>
      match ref_all s cs with
      | Some s1 => Done (set_lists s1 (lists s1 ++ [Some (rev cs)])) []
      | None => Crash
      end
    | None => Misuse
    end
  (* src/gbinder_buffer.c:148-154 gbinder_buffer_contents_list_free *)
  | OListFree l =>
    match at_ (lists s) l with
    | Some cs =>
      match unref_all (set_lists s (set_at (lists s) l None)) cs with
      | Some (s1, t) => Done s1 t
      | None => Crash
      end
    | None => Misuse
    end
  (* The application opens and closes its own descriptors *)
  | OAppOpen fd =>
    match fdt s fd with
    | None => Done (set_fdt s (fd_set (fdt s) fd (Some OwApp))) []
    | Some _ => Misuse
    end
  | OAppClose fd =>
    match fdt s fd with
    | Some OwApp => Done (fst (do_close s fd)) (snd (do_close s fd))
    | _ => Misuse
    end
  end.

Fixpoint run (s : state) (os : list op) : out :=
  match os with
  | [] => Done s []
  | o :: r =>
    match step s o with
    | Done s1 t1 => match run s1 r with Done s2 t2 => Done s2 (t1 ++ t2) | x => x end
    | x => x
    end
  end.
