(* What a message queue is supposed to do *)
From Verif Require Import Base FmqModel.
Open Scope prog_scope.

(* What an application does with a queue. The data of [items] items is passed as
   bytes. The zero-copy operations follow the documented protocol: they ask for the
   contiguous space first, access the memory themselves, then finish. *)
Inductive op :=
| Write (items : Z) (data : bytes)
| ZeroCopyWrite (items : Z) (data : bytes)
| Read (items : Z)
| ZeroCopyRead (items : Z)
| AvailableToRead | AvailableToWrite
| AvailableToReadContiguous | AvailableToWriteContiguous.

Inductive answer :=
| Written (ok : bool)
| Got (data : option bytes)
| Count (n : Z).

Definition run_op (q : queue) (o : op) : prog answer :=
  match o with
  | Write items data => ok <- fmq_write q data items ;; Ret (Written ok)
  | ZeroCopyWrite items data =>
    n <- available_to_write_contiguous q ;;
    if items <=? n then
      (ptr <- begin_write q items ;;
       match ptr with
       | Some off =>
         _ <- put_bytes off data ;;
         _ <- end_write q items ;;
         Ret (Written true)
       | None => Ret (Written false)
       end)
    else Ret (Written false)
  | Read items => d <- fmq_read q items ;; Ret (Got d)
  | ZeroCopyRead items =>
    n <- available_to_read_contiguous q ;;
    if items <=? n then
      (ptr <- begin_read q items ;;
       match ptr with
       | Some off =>
         d <- get_bytes off (Z.to_nat (items * quantum q)) ;;
         _ <- end_read q items ;;
         Ret (Got (Some d))
       | None => Ret (Got None)
       end)
    else Ret (Got None)
  | AvailableToRead => n <- available_to_read q ;; Ret (Count n)
  | AvailableToWrite => n <- available_to_write q ;; Ret (Count n)
  | AvailableToReadContiguous => n <- available_to_read_contiguous q ;; Ret (Count n)
  | AvailableToWriteContiguous => n <- available_to_write_contiguous q ;; Ret (Count n)
  end.

(* A queue with space for less than 2^32 bytes *)
Definition queue_ok (q : queue) (k : qkind) : Prop :=
  (gbits q = 32 \/ gbits q = 64) /\ kind q = k /\
  0 < quantum q /\ 0 < extent q < 2 ^ 32 /\ extent q mod quantum q = 0.

(* The caller's part: the buffers have the size of the items *)
Definition op_ok (q : queue) (o : op) : Prop :=
  match o with
  | Write items data | ZeroCopyWrite items data => 0 <= items /\ blen data = items * quantum q
  | Read items | ZeroCopyRead items => 0 <= items /\ items * quantum q < 2 ^ gbits q
  | _ => True
  end.
Definition op_data (o : op) : bytes :=
  match o with Write _ d | ZeroCopyWrite _ d => d | _ => [] end.

Definition writer_op (o : op) : Prop :=
  match o with Read _ | ZeroCopyRead _ => False | _ => True end.
Definition reader_op (o : op) : Prop :=
  match o with Write _ _ | ZeroCopyWrite _ _ => False | _ => True end.

(* ------------------------------------------------------------------ *)
(* A FIFO. The operations and answers which are correct when the queue holds the
   bytes [l] and [r] bytes have been read so far, and what it holds afterwards.
   Contiguous means up to the end of the ring. *)
Definition fifo_step (q : queue) (r : Z) (l : bytes) (o : op) (a : answer) (r' : Z) (l' : bytes) : Prop :=
  let room := extent q - blen l in
  let contiguous_room := Z.min room (extent q - (r + blen l) mod extent q) in
  let contiguous_data := Z.min (blen l) (extent q - r mod extent q) in
  match o, a with
  | Write items data, Written ok =>
    ok = ((0 <? items) && (blen data <=? room)) /\ r' = r /\ l' = if ok then l ++ data else l
  | ZeroCopyWrite items data, Written ok =>
    ok = ((0 <? items) && (blen data <=? contiguous_room)) /\ r' = r /\ l' = if ok then l ++ data else l
  | Read items, Got (Some d) => 0 < items /\ blen d = items * quantum q /\ r' = r + blen d /\ l = d ++ l'
  | Read items, Got None => (items = 0 \/ blen l < items * quantum q) /\ r' = r /\ l' = l
  | ZeroCopyRead items, Got (Some d) =>
    0 < items /\ blen d = items * quantum q /\ r' = r + blen d /\ l = d ++ l'
  | ZeroCopyRead items, Got None =>
    (items = 0 \/ contiguous_data < items * quantum q) /\ r' = r /\ l' = l
  | AvailableToRead, Count n => n * quantum q = blen l /\ r' = r /\ l' = l
  | AvailableToWrite, Count n => n * quantum q = room /\ r' = r /\ l' = l
  | AvailableToReadContiguous, Count n => n * quantum q = contiguous_data /\ r' = r /\ l' = l
  | AvailableToWriteContiguous, Count n => n * quantum q = contiguous_room /\ r' = r /\ l' = l
  | _, _ => False
  end.

Inductive fifo_history (q : queue) : Z -> bytes -> list (op * answer) -> bytes -> Prop :=
| fh_nil r l : fifo_history q r l [] l
| fh_cons r l o a r' l' h l'' :
    fifo_step q r l o a r' l' -> fifo_history q r' l' h l'' -> fifo_history q r l ((o, a) :: h) l''.

(* The answers of the code, one operation after the other *)
Fixpoint run_ops (q : queue) (ops : list op) (s : shared) : res (list (op * answer) * shared) :=
  match ops with
  | [] => Ok ([], s)
  | o :: r =>
    let* (a, s1) := prun (run_op q o) s in
    let* (h, s2) := run_ops q r s1 in
    Ok ((o, a) :: h, s2)
  end.

Definition volume (ops : list op) : Z := blen (concat (map op_data ops)).

(* ------------------------------------------------------------------ *)
(* Two threads. A schedule says whose turn it is; a turn is one atomic action. The
   counters at the beginning and at the end of each operation are recorded for the
   sake of the specification. *)
Record record := {
  e_op : op; e_answer : answer;
  e_rp0 : Z; e_wp0 : Z;       (* when the operation began *)
  e_rp1 : Z; e_wp1 : Z        (* when it was over *)
}.
Record thread := {
  todo : list op;
  current : option (op * Z * Z * prog answer);
  done : list record
}.
Definition thread_init (ops : list op) : thread := {| todo := ops; current := None; done := [] |}.

Definition thread_step (q : queue) (t : thread) (s : shared) : thread * shared :=
  match current t with
  | None =>
    match todo t with
    | [] => (t, s)
    | o :: r => ({| todo := r; current := Some (o, rp s, wp s, run_op q o); done := done t |}, s)
    end
  | Some (o, r0, w0, Ret a) =>
    ({| todo := todo t; current := None;
        done := done t ++ [{| e_op := o; e_answer := a; e_rp0 := r0; e_wp0 := w0;
                              e_rp1 := rp s; e_wp1 := wp s |}] |}, s)
  | Some (o, r0, w0, p) =>
    let (p1, s1) := pstep p s in
    ({| todo := todo t; current := Some (o, r0, w0, p1); done := done t |}, s1)
  end.

Record system := { writer : thread; reader : thread; memory : shared }.

Definition system_step (q : queue) (turn : bool) (y : system) : system :=
  if turn then
    let (t, s) := thread_step q (writer y) (memory y) in
    {| writer := t; reader := reader y; memory := s |}
  else
    let (t, s) := thread_step q (reader y) (memory y) in
    {| writer := writer y; reader := t; memory := s |}.

Definition run_system (q : queue) (schedule : list bool) (y : system) : system :=
  fold_left (fun y turn => system_step q turn y) schedule y.

Definition faulty (t : thread) : Prop :=
  exists o r0 w0 f, current t = Some (o, r0, w0, Bad f).

(* The bytes which have been accepted, and the bytes which have been returned *)
Definition accepted (e : record) : bytes :=
  match e_answer e with Written true => op_data (e_op e) | _ => [] end.
Definition returned (e : record) : bytes :=
  match e_answer e with Got (Some d) => d | _ => [] end.
Definition accepted_by (t : thread) : bytes := concat (map accepted (done t)).
Definition returned_by (t : thread) : bytes := concat (map returned (done t)).
(* The data of the operation which is being executed *)
Definition current_data (t : thread) : bytes :=
  match current t with Some (o, _, _, _) => op_data o | None => [] end.

(* A write fails only if there was no room when it began, and succeeds only if there
   is room when it's over. Numbers of items are between what was true at the
   beginning and at the end. *)
Definition writer_record_ok (q : queue) (e : record) : Prop :=
  let room0 := extent q - (e_wp0 e - e_rp0 e) in
  let room1 d := extent q - (e_wp0 e + d - e_rp1 e) in
  let to_end := extent q - e_wp0 e mod extent q in
  match e_op e, e_answer e with
  | Write items data, Written true =>
    0 < items /\ e_wp1 e = e_wp0 e + blen data /\ 0 <= room1 (blen data)
  | Write items data, Written false => e_wp1 e = e_wp0 e /\ (items = 0 \/ room0 < blen data)
  | ZeroCopyWrite items data, Written true =>
    0 < items /\ e_wp1 e = e_wp0 e + blen data /\ 0 <= room1 (blen data) /\ blen data <= to_end
  | ZeroCopyWrite items data, Written false =>
    e_wp1 e = e_wp0 e /\ (items = 0 \/ room0 < blen data \/ to_end < blen data)
  | AvailableToWrite, Count n => e_wp1 e = e_wp0 e /\ room0 <= n * quantum q <= room1 0
  | AvailableToWriteContiguous, Count n =>
    e_wp1 e = e_wp0 e /\ Z.min room0 to_end <= n * quantum q <= Z.min (room1 0) to_end
  | AvailableToRead, Count n =>
    e_wp1 e = e_wp0 e /\ e_wp0 e - e_rp1 e <= n * quantum q <= e_wp0 e - e_rp0 e
  | AvailableToReadContiguous, Count n =>
    e_wp1 e = e_wp0 e /\ exists r, e_rp0 e <= r <= e_rp1 e /\
    n * quantum q = Z.min (e_wp0 e - r) (extent q - r mod extent q)
  | _, _ => False
  end.

(* A read fails only if there wasn't enough data when it began *)
Definition reader_record_ok (q : queue) (e : record) : Prop :=
  let to_end := extent q - e_rp0 e mod extent q in
  match e_op e, e_answer e with
  | Read items, Got (Some d) =>
    0 < items /\ blen d = items * quantum q /\ e_rp1 e = e_rp0 e + blen d
  | Read items, Got None =>
    e_rp1 e = e_rp0 e /\ (items = 0 \/ e_wp0 e - e_rp0 e < items * quantum q)
  | ZeroCopyRead items, Got (Some d) =>
    0 < items /\ blen d = items * quantum q /\ e_rp1 e = e_rp0 e + blen d /\ blen d <= to_end
  | ZeroCopyRead items, Got None =>
    e_rp1 e = e_rp0 e /\
    (items = 0 \/ e_wp0 e - e_rp0 e < items * quantum q \/ to_end < items * quantum q)
  | AvailableToRead, Count n =>
    e_rp1 e = e_rp0 e /\ e_wp0 e - e_rp0 e <= n * quantum q <= e_wp1 e - e_rp0 e
  | AvailableToReadContiguous, Count n =>
    e_rp1 e = e_rp0 e /\
    Z.min (e_wp0 e - e_rp0 e) to_end <= n * quantum q <= Z.min (e_wp1 e - e_rp0 e) to_end
  | AvailableToWrite, Count n =>
    e_rp1 e = e_rp0 e /\
    extent q - (e_wp1 e - e_rp0 e) <= n * quantum q <= extent q - (e_wp0 e - e_rp0 e)
  | AvailableToWriteContiguous, Count n =>
    e_rp1 e = e_rp0 e /\ 0 <= n * quantum q <= extent q - (e_wp0 e - e_rp0 e)
  | _, _ => False
  end.

(* The unread bytes are in the ring *)
Definition unread_intact (q : queue) (s : shared) (log : bytes) : Prop :=
  forall i, rp s <= i < wp s ->
    nth (Z.to_nat (i mod extent q)) (ring s) 0 = nth (Z.to_nat i) log 0.

(* ------------------------------------------------------------------ *)
(* Unsynchronized queues. Everybody has a read counter of their own, the rest is
   shared. A schedule says whose turn it is. *)
Record usystem := { parties : nat -> thread * Z; u_wp : Z; u_ring : bytes }.

Definition ustep (q : queue) (y : usystem) (i : nat) : usystem :=
  let (t, r) := parties y i in
  let (t1, s1) := thread_step q t {| rp := r; wp := u_wp y; ring := u_ring y |} in
  {| parties := fun j => if Nat.eqb j i then (t1, rp s1) else parties y j;
     u_wp := wp s1; u_ring := ring s1 |}.
Definition run_parties (q : queue) (schedule : list nat) (y : usystem) : usystem :=
  fold_left (ustep q) schedule y.
Definition uinit (ops : nat -> list op) (mem : bytes) : usystem :=
  {| parties := fun i => (thread_init (ops i), 0); u_wp := 0; u_ring := mem |}.

Definition only_writes (o : op) : Prop := match o with Write _ _ => True | _ => False end.
Definition only_reads (o : op) : Prop := match o with Read _ => True | _ => False end.

(* Every write of up to the capacity succeeds *)
Definition unsync_write_ok (q : queue) (e : record) : Prop :=
  match e_op e, e_answer e with
  | Write items data, Written ok =>
    ok = ((0 <? items) && (blen data <=? extent q)) /\
    e_wp1 e = e_wp0 e + (if ok then blen data else 0)
  | _, _ => False
  end.

(* [b] is the byte number [i] of the stream, or one of those which replace it in the ring *)
Definition byte_at (q : queue) (stream : bytes) (i b : Z) : Prop :=
  exists j, (0 <= i <= j /\ j < blen stream) /\ (j - i) mod extent q = 0 /\ nth (Z.to_nat j) stream 0 = b.

(* A read which succeeds returns the next bytes of the stream, unless the writer is so
   close to the data being read that the next write (of [m] bytes or less) can reach
   it. Even then each byte comes from the right place in the ring. A reader which has
   been left behind continues from where the writer is. *)
Definition unsync_read_ok (q : queue) (m : Z) (stream : bytes) (e : record) : Prop :=
  let behind := e_rp0 e + extent q < e_wp1 e /\ e_wp0 e <= e_rp1 e <= e_wp1 e in
  match e_op e, e_answer e with
  | Read items, Got (Some d) =>
    0 < items /\ blen d = items * quantum q /\
    (forall k, 0 <= k < blen d -> byte_at q stream (e_rp0 e + k) (nth (Z.to_nat k) d 0)) /\
    (e_wp1 e + m <= e_rp0 e + extent q -> d = slice stream (e_rp0 e) (blen d)) /\
    (e_rp1 e = e_rp0 e + blen d \/ behind)
  | Read items, Got None =>
    (items = 0 \/ e_wp0 e - e_rp0 e < items * quantum q) /\ e_rp1 e = e_rp0 e \/ behind
  | _, _ => False
  end.
