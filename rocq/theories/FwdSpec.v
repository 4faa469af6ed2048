(* Vocabulary of the properties about messages which are sent on by a process which has received them *)
From Verif Require Import Base UtfModel WriterModel ReaderModel CodecSpec ObjModel ObjReader KernelModel ObjSpec HidlSpec TxModel.
From Verif Require ProxyConv.

(* The local object with which the process in the middle replaces this handle, if it does *)
Definition replaced (c : converter) (h : Z) : option local := match c with Some f => f h | None => None end.

(* What an object is to the process which has received it: a handle, or one of its own objects (the address) if it comes home *)
Inductive place : Set := Handle (h : Z) | Home (addr : Z).

(* What the driver makes of a handle [h] of the sender *)
Definition sent_handle (e : kenv) (h : Z) : place :=
  match k_ref e h with
  | Some h2 => Handle (u32 h2)
  | None => Home (usz (k_io e) (k_own e h))
  end.
(* ... and of a local object *)
Definition sent_local (e : kenv) (addr : Z) : place := Handle (u32 (k_node e addr)).

(* What becomes of an object when a process in the middle sends it on: handles may be replaced with local objects.
   [e] is the driver between the process in the middle and the next one *)
Definition onward (e : kenv) (c : converter) (p : place) : place :=
  match p with
  | Handle h => match replaced c h with Some l => sent_local e (lo_ptr l) | None => sent_handle e h end
  | Home addr => sent_local e addr
  end.

(* What the first receiver gets in place of the object which was appended *)
Definition first_place (e1 : kenv) (o : op) : option place :=
  match o with
  | OpLocal (Some x) => Some (sent_local e1 (lo_ptr x))
  | OpRemote (Some h) => Some (sent_handle e1 h)
  | _ => None
  end.

(* The processes in the middle, in the order in which the message gets to them: each is given by the driver between it and
   the next one, and by the replacements which it makes *)
Definition hops : Set := list (kenv * converter).

(* What becomes of an object of the first process in the middle *)
Fixpoint along (r : hops) (p : place) : place :=
  match r with
  | [] => p
  | (e, c) :: r1 => along r1 (onward e c p)
  end.
(* ... and of a descriptor *)
Fixpoint fd_along (r : hops) (fd : Z) : Z :=
  match r with
  | [] => fd
  | (e, _) :: r1 => fd_along r1 (sgn 32 (k_fd e fd))
  end.

(* No object belongs to the last receiver: those can't be read, see C11 *)
Definition foreign_at_end (e1 : kenv) (r : hops) (o : op) : Prop :=
  forall p, first_place e1 o = Some p -> exists h, along r p = Handle h.

(* What the last receiver reads: objects by the handles which are theirs, descriptors which are copies of copies; the rest is
   what was appended by the first sender *)
Definition passed (i : io) (e1 : kenv) (r : hops) (g : message) (o : op) (x : ritem) : Prop :=
  match o with
  | OpLocal _ | OpRemote _ =>
    exists p h, first_place e1 o = Some p /\ along r p = Handle h /\ x = IObject (Some h)
  | OpFd fd dupfd => x = IFd (fd_along r (sgn 32 (k_fd e1 (if dupfd <? 0 then fd else dupfd))))
  | _ => got i e1 g o x
  end.

(* Local objects have addresses *)
Definition converter_ok (i : io) (c : converter) : Prop :=
  forall h l, replaced c h = Some l -> is_addr i (lo_ptr l).

(* ------------------------------------------------------------------ *)
(* What the processes in the middle do. They send on requests as proxy objects do, or replies *)
Inductive sending : Set :=
| Request (code : Z) (other : protocol)
| Reply.

(* src/gbinder_proxy_object.c: the copy which is made of a received message ([offs] are the places of its objects) *)
Definition sent_on (i : io) (cm : cmode) (pr : protocol) (k : sending) (c : converter) (g : message) (offs : list Z)
  : res (option wdata) :=
  match k with
  | Request code other => ProxyConv.forward_request i cm pr other c code (Some (m_data g, offs))
  | Reply => ProxyConv.reply_to_local i pr c (Some (Some (m_data g, offs)))
  end.

(* One process in the middle and the driver: None if the message is lost *)
Definition one_hop (i : io) (cm : cmode) (pr : protocol) (k : sending) (h : kenv * converter) (g : message) (offs : list Z)
  : option (message * list Z) :=
  match sent_on i cm pr k (snd h) g offs with
  | Ok (Some d) =>
    match k_send (fst h) (wd_bytes d) (wd_offsets d) (wd_bufsize d) with
    | Some g2 => Some (g2, wd_offsets d)
    | None => None
    end
  | _ => None
  end.

(* All of them *)
Fixpoint relay (i : io) (cm : cmode) (pr : protocol) (k : sending) (r : hops) (g : message) (offs : list Z)
  : option (message * list Z) :=
  match r with
  | [] => Some (g, offs)
  | h :: r1 =>
    match one_hop i cm pr k h g offs with
    | Some (g2, offs2) => relay i cm pr k r1 g2 offs2
    | None => None
    end
  end.

(* The received buffers are in the memory of the process which has received them while it sends them on *)
Fixpoint mapped (i : io) (cm : cmode) (pr : protocol) (k : sending) (r : hops) (g : message) (offs : list Z) : Prop :=
  match r with
  | [] => True
  | h :: r1 =>
    holds (k_mem (fst h)) (m_sgbase g) (m_sg g) /\
    match one_hop i cm pr k h g offs with
    | Some (g2, offs2) => mapped i cm pr k r1 g2 offs2
    | None => True
    end
  end.

(* The driver has a place for the buffers of the message, [size] bytes *)
Definition hop_ok (i : io) (size : Z) (h : kenv * converter) : Prop :=
  k_io (fst h) = i /\ 0 < k_sgbase (fst h) /\ k_sgbase (fst h) + align8 size < 2 ^ (8 * psz i) /\ converter_ok i (snd h).
