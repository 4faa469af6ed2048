(* What is expected of proxies, in terms of the events of ProxyModel.v and BlockModel.v *)
From Verif Require Import Base ReaderModel CodecSpec ObjModel ObjReader KernelModel ObjSpec HidlSpec TxModel TxSpec
  ProxyConv BlockModel ProxyModel.

(* What happens to one request *)
Definition concerns (q : key) (e : pev) : bool :=
  match e with
  | EArrive j _ | EForward j _ _ _ _ | ERefuse j _ | ESent j _ _ _ _ _ | EReplied j _ _ => key_eqb j q
  | _ => false
  end.
Definition story (q : key) (t : list pev) : list pev := filter (concerns q) t.

(* Message [d] is a copy of [data], where the handles which belong to [ri] are replaced with
   proxies which belong to [li]: each with one which was made for that handle, and the same
   one whenever the handle is the same. Other bytes are the same *)
Definition translated (i : io) (pr : protocol) (t : list pev) (ri li : nat) (data : bytes) (objs : list Z) (d : wdata) : Prop :=
  exists c : Z -> option nat,
    (forall o, In o objs -> k_type data o = TYPE_HANDLE ->
       let h := kfield data (o + 8) 4 in
       match c h with
       | Some p => (exists r, In (EConvert ri h li r p) t) /\
                   slice (wd_bytes d) o (flat_size i + flat_extra pr) = converted_image i pr (as_local p)
       | None => In (EKept ri h li) t
       end) /\
    (forall j, 0 <= j < blen data ->
       ~ (exists o p, In o objs /\ k_type data o = TYPE_HANDLE /\ c (kfield data (o + 8) 4) = Some p /\
                      o <= j < o + flat_size i + flat_extra pr) ->
       byte_at (wd_bytes d) j = byte_at data j) /\
    blen (wd_bytes d) = blen data /\ wd_offsets d = objs.

(* A message without data becomes nothing *)
Definition carried (i : io) (pr : protocol) (t : list pev) (ri li : nat) (msg : message) (fwd : option wdata) : Prop :=
  match msg with
  | None => fwd = None
  | Some (data, objs) => exists d, fwd = Some d /\ (contents_ok i pr data objs 0 -> translated i pr t ri li data objs d)
  end.
Definition carried_reply (i : io) (pr : protocol) (t : list pev) (ri li : nat) (reply : option message) (fwd : option wdata) : Prop :=
  match reply with
  | None => fwd = None
  | Some msg => carried i pr t ri li msg fwd
  end.

(* The reply of an answer is this one *)
Definition delivers (replies : list wdata) (token : option Z) (fwd : option wdata) : Prop :=
  match token, fwd with
  | None, None => True
  | Some n, Some d => 0 <= n /\ nth_error replies (Z.to_nat n) = Some d
  | _, _ => False
  end.

Definition mapped_status (status : Z) : Z := if 0 <? status then - EFAULT else status.

(* The message is well-formed *)
Definition good (e : env) (ipc : nat) (msg : message) : Prop :=
  match msg with
  | Some (data, objs) => contents_ok (e_io e) (e_proto e ipc) data objs 0
  | None => True
  end.

(* A new proxy isn't made by the application for an object which already has one *)
Fixpoint no_second (e : env) (s : pstate) (l : list pmove) : Prop :=
  match l with
  | [] => True
  | m :: r =>
    match m with
    | PNew ipc o => forall p, palive s p = true -> ~ (p_ipc (prx s p) = ipc /\ p_remote (prx s p) = o)
    | _ => True
    end /\
    match pstep e s m with Ok s1 => no_second e s1 r | _ => True end
  end.

Definition counts (f : pev -> bool) (t : list pev) : nat := length (filter f t).

(* The remote object which a proxy stands for *)
Definition stands_for (s : pstate) (p : nat) : remote := rem s (p_remote (prx s p)).

(* The whole story of a request which was passed on and answered: the remote object got what
   was received, and the answer is what the remote object has replied *)
Definition forwarded_reply (e : env) (s : pstate) (q : key) (p : nat) (a : answer) : Prop :=
  let pi := p_ipc (prx s p) in
  let r := stands_for s p in
  exists code flags msg d status reply back,
    story q (ptrace s) =
      [EArrive q p; EForward q p code flags msg; ESent q (r_ipc r) (r_handle r) code (forwarded_flags flags) d; EReplied q status reply] /\
    carried (e_io e) (e_proto e pi) (ptrace s) pi (r_ipc r) msg (Some d) /\
    carried_reply (e_io e) (e_proto e (r_ipc r)) (ptrace s) (r_ipc r) pi reply back /\
    delivers (outs s) (fst a) back /\ snd a = mapped_status status.

(* Handles of objects which may be dead are never asked for. (Only the service manager is) *)
Definition no_maybe_dead (l : list pmove) : Prop := forall ipc h, ~ In (PGetRemote ipc h true) l.
