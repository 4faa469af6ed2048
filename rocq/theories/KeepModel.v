(* A local object and those who use it in other processes: LocalModel for the process of the object
   (src/gbinder_local_object.c, src/gbinder_driver.c, src/gbinder_ipc.c), RemoteModel for each of
   the others (src/gbinder_remote_object.c, src/gbinder_ipc.c), and between them the binder
   driver, which counts the references to the object.

   The driver (drivers/android/binder.c): a process which gets the object in a message gets a handle
   for it (binder_translate_binder, binder_translate_handle). The object has a strong reference as
   long as some process has acquired its handle (BC_ACQUIRE, BC_RELEASE), some message with the
   object or with its handle has not been freed by its receiver (BC_FREE_BUFFER), or a call of the
   object has not been freed. A handle which has no strong references can't be sent, called or
   acquired (binder_get_ref_olocked with need_strong_ref, "invalid inc strong node"). The
   process of the object learns about all that when some of its threads reads the work for the node.

   Simplifications: one object and one address of its process (as in LocalModel); the processes
   don't exit; what the messages are besides that is not here (it's in WholeModel and SystemModel).
   A handle is a number and the generation of its use, since numbers are used again (kr_node of
   RemoteModel). *)
From Verif Require Import Base.
From Verif Require LocalModel RemoteModel.

Record sys := Sys {
  owner : LocalModel.state;               (* the process of the object *)
  proc : nat -> RemoteModel.state;        (* other processes *)
  bound : nat -> option (Z * nat);        (* the last handle of the object in each of them *)
  bufs : nat -> Z;                        (* messages with the object which are to be freed there *)
  own_bufs : Z                            (* calls of the object, and messages which bring it back *)
}.
Inductive out := Disabled | Crash | Ok (s : sys).

Definition set_owner (s : sys) (x : LocalModel.state) : sys := Sys x (proc s) (bound s) (bufs s) (own_bufs s).
Definition set_proc (s : sys) (p : nat) (x : RemoteModel.state) : sys :=
  Sys (owner s) (RemoteModel.upd (proc s) p x) (bound s) (bufs s) (own_bufs s).
Definition set_bound (s : sys) (p : nat) (x : option (Z * nat)) : sys :=
  Sys (owner s) (proc s) (RemoteModel.upd (bound s) p x) (bufs s) (own_bufs s).
Definition set_bufs (s : sys) (p : nat) (n : Z) : sys :=
  Sys (owner s) (proc s) (bound s) (RemoteModel.upd (bufs s) p n) (own_bufs s).
Definition set_own_bufs (s : sys) (n : Z) : sys := Sys (owner s) (proc s) (bound s) (bufs s) n.

(* The handle by which a process refers to the object now *)
Definition handle_of (s : sys) (p : nat) : option Z :=
  match bound s p with
  | Some (h, g) => if Nat.eqb (RemoteModel.kr_node (RemoteModel.kern (proc s p) h)) g then Some h else None
  | None => None
  end.
(* The driver's references to the object: those of a process, all strong ones, any *)
Definition strong_in (s : sys) (p : nat) : bool :=
  match handle_of s p with
  | Some h => (0 <? bufs s p) || (0 <? RemoteModel.kr_strong (RemoteModel.kern (proc s p) h))
  | None => false
  end.
Definition node_strong (n : nat) (s : sys) : bool := existsb (strong_in s) (seq 0 n) || (0 <? own_bufs s).
Definition node_weak (n : nat) (s : sys) : bool :=
  existsb (fun p => match handle_of s p with Some _ => true | None => false end) (seq 0 n) || node_strong n s.

(* The message is for process p: the handle there is the one it has, or [h] which is free *)
Definition deliver (s : sys) (p : nat) (h : Z) : out :=
  let got s1 := Ok (set_bufs s1 p (bufs s1 p + 1)) in
  match handle_of s p with
  | Some _ => got s
  | None =>
    if h =? RemoteModel.SM_HANDLE then Disabled
    else match RemoteModel.step (proc s p) (RemoteModel.Reuse h) with
         | RemoteModel.Ok x => got (set_bound (set_proc s p x) p (Some (h, RemoteModel.kr_node (RemoteModel.kern x h))))
         | RemoteModel.Disabled => Disabled
         | RemoteModel.Crash => Crash
         end
  end.

Definition by_app (s : sys) : Z :=
  match LocalModel.obj (owner s) with Some o => LocalModel.by_app o | None => 0 end.

Inductive move :=
| Own (mv : LocalModel.move)        (* the process of the object, but for the following one *)
| Work (i : nat)                    (* its thread i reads the work for the object *)
| Send (p : nat) (h : Z)            (* its application sends the object to process p *)
| Pass (p q : nat) (h : Z)          (* process p sends it on to process q *)
| Call (p : nat)                    (* process p calls the object, or sends it back *)
| FreeOwn                           (* such a message is freed by the process of the object *)
| Free (p : nat)                    (* process p frees a message with the object *)
| Other (p : nat) (mv : RemoteModel.move).  (* anything which another process does *)

(* What the driver rules out: a handle isn't given to others while there are messages with the
   object; and objects for a handle are made when it's there (src/gbinder_reader.c:373-381
   gbinder_reader_read_object has the message). Notifications of its death may come at any time. *)
Definition possible (s : sys) (p : nat) (mv : RemoteModel.move) : bool :=
  match handle_of s p with
  | None => true
  | Some h =>
    match mv with
    | RemoteModel.Reuse x => negb (x =? h) || (bufs s p <=? 0)
    | RemoteModel.Get x _ =>
      negb (x =? h) || strong_in s p ||
      match RemoteModel.table (proc s p) h with Some _ => true | None => false end
    | _ => true
    end
  end.

Definition lift (s : sys) (x : LocalModel.out) : out :=
  match x with
  | LocalModel.Ok o => Ok (set_owner s o)
  | LocalModel.Misuse => Disabled
  | LocalModel.Crash => Crash
  end.
(* n is the number of other processes *)
Definition step (n : nat) (s : sys) (mv : move) : out :=
  match mv with
  | Own (LocalModel.MWork _ _ _) => Disabled
  | Own m => lift s (LocalModel.step (owner s) m)
  | Work i =>
    let st := node_strong n s || LocalModel.k_pstrong (owner s) in
    let w := node_weak n s || LocalModel.k_pweak (owner s) || st in
    lift s (LocalModel.step (owner s) (LocalModel.MWork i w st))
  | Send p h => if Nat.ltb p n && (0 <? by_app s) then deliver s p h else Disabled
  | Pass p q h => if Nat.ltb p n && Nat.ltb q n && strong_in s p then deliver s q h else Disabled
  | Call p => if Nat.ltb p n && strong_in s p then Ok (set_own_bufs s (own_bufs s + 1)) else Disabled
  | FreeOwn => if 0 <? own_bufs s then Ok (set_own_bufs s (own_bufs s - 1)) else Disabled
  | Free p => if Nat.ltb p n && (0 <? bufs s p) then Ok (set_bufs s p (bufs s p - 1)) else Disabled
  | Other p m =>
    if Nat.ltb p n && possible s p m
    then match RemoteModel.step (proc s p) m with
         | RemoteModel.Ok x => Ok (set_proc s p x)
         | RemoteModel.Disabled => Disabled
         | RemoteModel.Crash => Crash
         end
    else Disabled
  end.
Fixpoint run (n : nat) (s : sys) (l : list move) : out :=
  match l with
  | [] => Ok s
  | mv :: r => match step n s mv with Ok s1 => run n s1 r | x => x end
  end.
(* k threads read commands in the process of the object *)
Definition init (k : nat) : sys :=
  Sys (LocalModel.init k) (fun _ => RemoteModel.initial) (fun _ => None) (fun _ => 0) 0.
