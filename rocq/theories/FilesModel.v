(* Model of what happens to open files which are sent from process to process:
   src/gbinder_writer.c (descriptors), src/gbinder_reader.c (gbinder_reader_read_fd and
   gbinder_reader_read_dup_fd), src/gbinder_buffer.c and the binder driver. It consists of
   any number of processes, each of which is the one of CleanupModel together with the
   files to which its descriptors refer and the descriptors in the data of its requests
   and replies. Arrays of descriptors (those of fast message queues) aren't included,
   they are opened and closed by the driver. *)
From Verif Require Import Base CleanupModel.

(* A process: what the library has (pst, including the table of descriptors), the open
   file to which each descriptor refers, and the descriptors written to each request or
   reply *)
Record proc := { pst : state; file : Z -> nat; carries : nat -> list Z }.

Definition new_proc : proc := {| pst := init_state; file := fun _ => 0%nat; carries := fun _ => [] |}.

(* Where the application has a descriptor from: it has opened it, or gbinder_reader_read_fd
   has returned it (the i-th descriptor in the data of a buffer) *)
Inductive source := Own (fd : Z) | Received (b i : nat).

(* What a process does. Descriptors fd, dup and d are those which the kernel has chosen.
   skip: how many descriptors are in the part of the data which isn't copied. *)
Inductive deed :=
| Open (fd : Z) (f : nat)
| Close (fd : Z)
| Append (m : nat) (src : source) (dup : option Z)
| Copy (m : nat) (b : option nat) (skip : nat) (locals : list Z)
| Replace (m : nat) (b : option nat) (locals : list Z)
| ReadDup (b i : nat) (d : Z)
| Other (o : op).

Definition neutral (o : op) : bool :=
  match o with
  | OAppendFd _ _ _ | OAppendContents _ _ _ | OSetContents _ _ _ | OBufNew _ | OAppOpen _ | OAppClose _ => false
  | _ => true
  end.

(* Wrong: the application uses what it doesn't have. Broken: the library does. *)
Inductive res (A : Type) := Fine (a : A) | Wrong | Broken.
Arguments Fine {A}. Arguments Wrong {A}. Arguments Broken {A}.

(* src/gbinder_buffer.c:188-198 gbinder_buffer_new: the descriptors in the data of a live
   buffer, in the order of objects *)
Definition buffer_fds (s : state) (b : nat) : option (list Z) :=
  match at_ (bufs s) b with
  | Some c => match at_ (conts s) c with Some k => Some (c_fds k) | None => None end
  | None => None
  end.

(* src/gbinder_reader.c:311-330 gbinder_reader_read_fd *)
Definition read_fd (s : state) (b i : nat) : option Z :=
  match buffer_fds s b with Some l => nth_error l i | None => None end.

Definition descriptor (s : state) (src : source) : option Z :=
  match src with
  | Own fd => match fdt s fd with Some OwApp => Some fd | _ => None end
  | Received b i => read_fd s b i
  end.

Definition fset (f : Z -> nat) (d : Z) (x : nat) : Z -> nat := fun k => if k =? d then x else f k.
Definition cset (f : nat -> list Z) (m : nat) (x : list Z) : nat -> list Z := fun k => if Nat.eqb k m then x else f k.

Definition after (r : out) (file : Z -> nat) (carries : nat -> list Z) : res proc :=
  match r with
  | Done s _ => Fine {| pst := s; file := file; carries := carries |}
  | Misuse => Wrong
  | Crash => Broken
  end.

Definition copied (s : state) (b : option nat) : list Z :=
  match b with Some n => match buffer_fds s n with Some l => l | None => [] end | None => [] end.

Definition does (p : proc) (d : deed) : res proc :=
  let s := pst p in
  match d with
  | Open fd f => after (step s (OAppOpen fd)) (fset (file p) fd f) (carries p)
  | Close fd => after (step s (OAppClose fd)) (file p) (carries p)
  (* src/gbinder_writer.c:650-677 gbinder_writer_data_append_fd: the duplicate is written,
     or the descriptor itself if it couldn't be duplicated *)
  | Append m src dup =>
    match descriptor s src with
    | Some fd =>
      match dup with
      | Some d => after (step s (OAppendFd m fd (Some d))) (fset (file p) d (file p fd)) (cset (carries p) m (carries p m ++ [d]))
      | None => after (step s (OAppendFd m fd None)) (file p) (cset (carries p) m (carries p m ++ [fd]))
      end
    | None => Wrong
    end
  (* src/gbinder_writer.c:89-161 gbinder_writer_data_append_contents: objects are copied
     as they are, from some position on *)
  | Copy m b skip locals =>
    after (step s (OAppendContents m b locals)) (file p) (cset (carries p) m (carries p m ++ skipn skip (copied s b)))
  (* src/gbinder_writer.c:76-87 gbinder_writer_data_set_contents *)
  | Replace m b locals =>
    after (step s (OSetContents m b locals)) (file p) (cset (carries p) m (copied s b))
  (* src/gbinder_reader.c:332-348 gbinder_reader_read_dup_fd, which returns d *)
  | ReadDup b i d =>
    match read_fd s b i with
    | Some fd => after (step s (OAppOpen d)) (fset (file p) d (file p fd)) (carries p)
    | None => Wrong
    end
  | Other o => if neutral o then after (step s o) (file p) (carries p) else Wrong
  end.

Definition world := nat -> proc.
Definition start : world := fun _ => new_proc.
Definition wset (w : world) (p : nat) (x : proc) : world := fun k => if Nat.eqb k p then x else w k.

Inductive move :=
| Does (p : nat) (d : deed)
| Sends (p m q : nat) (fds : list Z).

Definition open_in (s : state) (fd : Z) : bool := match fdt s fd with Some _ => true | None => false end.

Fixpoint install (f : Z -> nat) (fds : list Z) (files : list nat) : Z -> nat :=
  match fds, files with
  | fd :: r, x :: y => install (fset f fd x) r y
  | _, _ => f
  end.

(* The driver (drivers/android/binder.c of Linux) copies a request or reply of process p
   to process q, where it opens new descriptors (fds) for the same files. It refuses a
   request with a descriptor which isn't open: nothing arrives then. *)
Definition sends (w : world) (p m q : nat) (fds : list Z) : res world :=
  match at_ (msgs (pst (w p))) m with
  | Some _ =>
    if forallb (open_in (pst (w p))) (carries (w p) m) then
      if Nat.eqb (length fds) (length (carries (w p) m)) then
        match after (step (pst (w q)) (OBufNew fds))
                (install (file (w q)) fds (map (file (w p)) (carries (w p) m))) (carries (w q)) with
        | Fine x => Fine (wset w q x)
        | Wrong => Wrong
        | Broken => Broken
        end
      else Wrong
    else Fine w
  | None => Wrong
  end.

Definition moves (w : world) (v : move) : res world :=
  match v with
  | Does p d => match does (w p) d with Fine x => Fine (wset w p x) | Wrong => Wrong | Broken => Broken end
  | Sends p m q fds => sends w p m q fds
  end.

Fixpoint happens (w : world) (h : list move) : res world :=
  match h with
  | [] => Fine w
  | v :: r => match moves w v with Fine w1 => happens w1 r | x => x end
  end.
