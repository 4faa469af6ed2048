(* What is expected from creation and destruction of message queues *)
From Verif Require Import Base FmqModel FmqSendModel FmqLifeModel.

(* Pointers of a queue and the regions to which they point *)
Definition pointer (f : fmq) (sl : slot) : qptr :=
  match sl with SRead => f_read f | SWrite => f_write f | SRing => f_ring f | SEvent => f_event f end.
Definition index (sl : slot) : nat :=
  match sl with SRead => 0 | SWrite => 1 | SRing => 2 | SEvent => 3 end.

(* [extent] bytes at the address are those at this offset of the file *)
Definition visible (page : Z) (s : state) (a fd off extent : Z) : Prop :=
  forall k, 0 <= k < extent ->
  exists m, pages s ((a + k) / page) = Some m /\ m_fd m = fd /\
    m_file m * page + (a + k) mod page = off + k.

(* All regions of the queue are where its pointers are. A queue with several readers
   has the read position in its own memory. *)
Definition usable (page : Z) (s : state) (f : fmq) : Prop :=
  exists d, f_desc f = Some d /\
  forall sl g, nth_error (mq_grantors (d_mq d)) (index sl) = Some g ->
  match pointer f sl with
  | Mapped a =>
    visible page s a (nth (Z.to_nat (fd_index g)) (mq_fds (d_mq d)) 0) (g_offset g) (g_extent g)
  | Heap b => sl = SRead /\ mq_flags (d_mq d) = fmq_type Unsync /\ In b (heap s)
  | Null => False
  end.

(* Requests for queues which are smaller than 4 gigabytes *)
Definition small (page : Z) (m : move) : Prop :=
  match m with
  | New rq _ => r_num_items rq * r_item_size rq + 27 + page <= 2 ^ 32
  | _ => True
  end.

(* The kernel doesn't fail to map memory *)
Definition granted (m : move) : Prop :=
  match m with
  | New rq an => a_read an <> None /\ a_write an <> None /\ a_ring an <> None /\ a_event an <> None
  | _ => True
  end.

(* Arguments which make sense *)
Definition accepted (bits page : Z) (rq : request) : Prop :=
  fmq_new bits page (r_item_size rq) (r_num_items rq) (r_kind rq) (r_event_flag rq)
    (is_some (r_fd rq)) (r_buffer_size rq) <> None.

(* The address space without pages of this queue *)
Definition without (q : nat) (o : option mapping) : option mapping :=
  match o with
  | Some m => match m_owner m with
              | OfQueue q1 _ => if Nat.eqb q1 q then None else Some m
              | App => Some m
              end
  | None => None
  end.
