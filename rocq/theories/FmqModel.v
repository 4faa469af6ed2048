(* Model of src/gbinder_fmq.c: fast message queues in shared memory.

   The functions are programs made of atomic actions on the shared memory, so that
   the same transcription serves for a single thread and for any interleaving of
   several threads. Memory is sequentially consistent: the acquire/release
   annotations of the C code are not modelled. memcpy is a sequence of byte copies
   in ascending order. The NULL checks of [self] and [data] are left out. *)
From Verif Require Import Base.

(* ------------------------------------------------------------------ *)
(* Programs *)

Inductive prog (A : Type) : Type :=
| Ret (a : A)
| Bad (f : fault)
| GetR (k : Z -> prog A)                  (* __atomic_load_n(self->read_ptr) *)
| GetW (k : Z -> prog A)                  (* __atomic_load_n(self->write_ptr) *)
| SetR (v : Z) (p : prog A)               (* __atomic_store_n(self->read_ptr) *)
| SetW (v : Z) (p : prog A)               (* __atomic_store_n(self->write_ptr) *)
| Get (off : Z) (k : Z -> prog A)         (* a byte of self->ring *)
| Put (off b : Z) (p : prog A).
Arguments Ret {A} a.
Arguments Bad {A} f.
Arguments GetR {A} k.
Arguments GetW {A} k.
Arguments SetR {A} v p.
Arguments SetW {A} v p.
Arguments Get {A} off k.
Arguments Put {A} off b p.

Fixpoint pbind {A B} (p : prog A) (f : A -> prog B) : prog B :=
  match p with
  | Ret a => f a
  | Bad e => Bad e
  | GetR k => GetR (fun v => pbind (k v) f)
  | GetW k => GetW (fun v => pbind (k v) f)
  | SetR v p => SetR v (pbind p f)
  | SetW v p => SetW v (pbind p f)
  | Get off k => Get off (fun b => pbind (k b) f)
  | Put off b p => Put off b (pbind p f)
  end.

Declare Scope prog_scope.
Notation "x <- a ;; b" := (pbind a (fun x => b))
  (at level 100, a at next level, right associativity) : prog_scope.
Open Scope prog_scope.

(* ------------------------------------------------------------------ *)
(* The queue: what the descriptor says *)

Inductive qkind := Sync | Unsync.
Record queue := {
  gbits : Z;          (* number of bits in gsize, 32 or 64 *)
  kind : qkind;       (* desc->flags *)
  quantum : Z;        (* desc->quantum, guint32 *)
  extent : Z          (* extent of the data grantor, guint64 *)
}.
Definition gs (q : queue) (v : Z) : Z := v mod 2 ^ gbits q.

(* a % b and a / b *)
Definition pmod (a b : Z) : prog Z := if b =? 0 then Bad DivByZero else Ret (a mod b).
Definition pdiv (a b : Z) : prog Z := if b =? 0 then Bad DivByZero else Ret (a / b).

(* src/gbinder_fmq.c:73-97 gbinder_fmq_available_to_read_bytes *)
Definition available_to_read_bytes (q : queue) (contiguous : bool) : prog Z :=
  GetR (fun read_ptr =>
  GetW (fun write_ptr =>
    let available_total := gs q (u64 (write_ptr - read_ptr)) in
    if contiguous then
      let size := gs q (extent q) in
      m <- pmod read_ptr size ;;
      let available_contiguous := gs q (u64 (size - m)) in
      Ret (if available_contiguous <? available_total then available_contiguous
           else available_total)
    else Ret available_total)).

(* src/gbinder_fmq.c:99-124 gbinder_fmq_available_to_write_bytes
   The size is truncated to 32 bits *)
Definition available_to_write_bytes (q : queue) (contiguous : bool) : prog Z :=
  let size := u32 (extent q) in
  n <- available_to_read_bytes q false ;;
  let available_total := gs q (size - n) in
  if contiguous then
    GetW (fun write_ptr =>
      m <- pmod write_ptr size ;;
      let available_contiguous := gs q (u64 (size - m)) in
      Ret (if available_contiguous <? available_total then available_contiguous
           else available_total))
  else Ret available_total.

(* src/gbinder_fmq.c:397-403 gbinder_fmq_available_to_read *)
Definition available_to_read (q : queue) : prog Z :=
  n <- available_to_read_bytes q false ;; pdiv n (quantum q).
(* src/gbinder_fmq.c:405-411 gbinder_fmq_available_to_write *)
Definition available_to_write (q : queue) : prog Z :=
  n <- available_to_write_bytes q false ;; pdiv n (quantum q).
(* src/gbinder_fmq.c:413-419 gbinder_fmq_available_to_read_contiguous *)
Definition available_to_read_contiguous (q : queue) : prog Z :=
  n <- available_to_read_bytes q true ;; pdiv n (quantum q).
(* src/gbinder_fmq.c:421-427 gbinder_fmq_available_to_write_contiguous *)
Definition available_to_write_contiguous (q : queue) : prog Z :=
  n <- available_to_write_bytes q true ;; pdiv n (quantum q).

(* src/gbinder_fmq.c:429-456 gbinder_fmq_begin_read
   The pointer is an offset in the ring *)
Definition begin_read (q : queue) (items : Z) : prog (option Z) :=
  if 0 <? items then
    let size := gs q (extent q) in
    let item_size := quantum q in
    let bytes_desired := gs q (items * item_size) in
    GetW (fun write_ptr =>
    GetR (fun read_ptr =>
      mw <- pmod write_ptr item_size ;;
      mr <- pmod read_ptr item_size ;;
      if negb (mw =? 0) || negb (mr =? 0) then Ret None
      else if size <? u64 (write_ptr - read_ptr) then SetR write_ptr (Ret None)
      else if u64 (write_ptr - read_ptr) <? bytes_desired then Ret None
      else (off <- pmod read_ptr size ;; Ret (Some off))))
  else Ret None.

(* src/gbinder_fmq.c:458-486 gbinder_fmq_begin_write *)
Definition begin_write (q : queue) (items : Z) : prog (option Z) :=
  if 0 <? items then
    let item_size := quantum q in
    let size := gs q (extent q) in
    full <- match kind q with
            | Sync => (n <- available_to_write q ;; Ret (n <? items))
            | Unsync => Ret false
            end ;;
    if (full : bool) then Ret None
    else
      (max <- pdiv size item_size ;;
       if max <? items then Ret None
       else
         GetW (fun write_ptr =>
           m <- pmod write_ptr item_size ;;
           if negb (m =? 0) then Ret None
           else (off <- pmod write_ptr size ;; Ret (Some off))))
  else Ret None.

(* src/gbinder_fmq.c:488-510 gbinder_fmq_end_read *)
Definition end_read (q : queue) (items : Z) : prog unit :=
  if 0 <? items then
    let size := gs q (extent q) in
    GetR (fun read_ptr =>
    GetW (fun write_ptr =>
      if size <? u64 (write_ptr - read_ptr) then SetR write_ptr (Ret tt)
      else SetR (u64 (read_ptr + gs q (items * quantum q))) (Ret tt)))
  else Ret tt.

(* src/gbinder_fmq.c:512-523 gbinder_fmq_end_write *)
Definition end_write (q : queue) (items : Z) : prog unit :=
  if 0 <? items then
    GetW (fun write_ptr => SetW (u64 (write_ptr + gs q (items * quantum q))) (Ret tt))
  else Ret tt.

(* memcpy from the ring *)
Fixpoint get_bytes (off : Z) (n : nat) : prog bytes :=
  match n with
  | O => Ret []
  | S k => Get off (fun b => r <- get_bytes (off + 1) k ;; Ret (b :: r))
  end.
(* memcpy to the ring *)
Fixpoint put_bytes (off : Z) (data : bytes) : prog unit :=
  match data with
  | [] => Ret tt
  | b :: r => Put off b (put_bytes (off + 1) r)
  end.
(* n bytes at offset off of the caller's buffer *)
Definition caller_bytes (data : bytes) (off n : Z) : prog bytes :=
  match load data off n with Ok d => Ret d | Fault f => Bad f end.

(* src/gbinder_fmq.c:525-558 gbinder_fmq_read
   Returns what has been copied to the caller's buffer, None for FALSE *)
Definition fmq_read (q : queue) (items : Z) : prog (option bytes) :=
  if 0 <? items then
    ptr <- begin_read q items ;;
    match ptr with
    | Some in_data =>
      contiguous_messages <- available_to_read_contiguous q ;;
      let item_size := quantum q in
      d <- (if contiguous_messages <? items then
              (d1 <- get_bytes in_data (Z.to_nat (gs q (contiguous_messages * item_size))) ;;
               d2 <- get_bytes 0 (Z.to_nat (gs q ((items - contiguous_messages) * item_size))) ;;
               Ret (d1 ++ d2))
            else get_bytes in_data (Z.to_nat (gs q (items * item_size)))) ;;
      _ <- end_read q items ;;
      Ret (Some d)
    | None => Ret None
    end
  else Ret None.

(* src/gbinder_fmq.c:560-594 gbinder_fmq_write *)
Definition fmq_write (q : queue) (data : bytes) (items : Z) : prog bool :=
  if 0 <? items then
    ptr <- begin_write q items ;;
    match ptr with
    | Some out_data =>
      contiguous_messages <- available_to_write_contiguous q ;;
      let item_size := quantum q in
      _ <- (if contiguous_messages <? items then
              (let n := gs q (contiguous_messages * item_size) in
               d1 <- caller_bytes data 0 n ;;
               d2 <- caller_bytes data n (gs q ((items - contiguous_messages) * item_size)) ;;
               _ <- put_bytes out_data d1 ;;
               put_bytes 0 d2)
            else
              (d <- caller_bytes data 0 (gs q (items * item_size)) ;;
               put_bytes out_data d)) ;;
      _ <- end_write q items ;;
      Ret true
    | None => Ret false
    end
  else Ret false.

(* ------------------------------------------------------------------ *)
(* Shared memory *)

Record shared := { rp : Z; wp : Z; ring : bytes }.

(* One atomic action *)
Definition pstep {A} (p : prog A) (s : shared) : prog A * shared :=
  match p with
  | Ret a => (Ret a, s)
  | Bad f => (Bad f, s)
  | GetR k => (k (rp s), s)
  | GetW k => (k (wp s), s)
  | SetR v p => (p, {| rp := v; wp := wp s; ring := ring s |})
  | SetW v p => (p, {| rp := rp s; wp := v; ring := ring s |})
  | Get off k =>
    if (0 <=? off) && (off <? blen (ring s)) then (k (nth (Z.to_nat off) (ring s) 0), s)
    else (Bad OutOfBounds, s)
  | Put off b p =>
    if (0 <=? off) && (off <? blen (ring s)) then
      (p, {| rp := rp s; wp := wp s; ring := poke (ring s) off [b] |})
    else (Bad OutOfBounds, s)
  end.

(* All actions, without interference *)
Fixpoint prun {A} (p : prog A) (s : shared) : res (A * shared) :=
  match p with
  | Ret a => Ok (a, s)
  | Bad f => Fault f
  | GetR k => prun (k (rp s)) s
  | GetW k => prun (k (wp s)) s
  | SetR v p => prun p {| rp := v; wp := wp s; ring := ring s |}
  | SetW v p => prun p {| rp := rp s; wp := v; ring := ring s |}
  | Get off k =>
    if (0 <=? off) && (off <? blen (ring s)) then prun (k (nth (Z.to_nat off) (ring s) 0)) s
    else Fault OutOfBounds
  | Put off b p =>
    if (0 <=? off) && (off <? blen (ring s)) then
      prun p {| rp := rp s; wp := wp s; ring := poke (ring s) off [b] |}
    else Fault OutOfBounds
  end.

(* ------------------------------------------------------------------ *)
(* Creation *)

Record grantor := { fd_index : Z; g_offset : Z; g_extent : Z }.

(* src/gbinder_fmq.c:126-163 gbinder_fmq_create_grantors
   The loop, with pos and offset. mem_sizes is the rest of the array. *)
Fixpoint create_grantors_loop (bits num_fds pos offset : Z) (mem_sizes : list Z) : list grantor :=
  match mem_sizes with
  | [] => []
  | size :: r =>
    let external := (pos =? 2) && (num_fds =? 2) in
    let fdi := if external then 1 else 0 in
    let off := if external then 0 else offset in
    let offset1 := if external then offset else (offset + size) mod 2 ^ bits in
    {| fd_index := fdi; g_offset := u32 (align8 off mod 2 ^ bits); g_extent := size |}
      :: create_grantors_loop bits num_fds (pos + 1) offset1 r
  end.
Definition create_grantors (bits queue_size num_fds : Z) (event_flag : bool) : list grantor :=
  create_grantors_loop bits num_fds 0 0
    ([8; 8; queue_size] ++ if event_flag then [4] else []).

(* src/gbinder_fmq.c:165-188 gbinder_fmq_map_grantor_descriptor
   What is passed to mmap: the offset and the length *)
Definition map_range (page : Z) (g : grantor) : Z * Z :=
  let map_offset := g_offset g / page * page in
  (map_offset, u32 (g_offset g - map_offset + g_extent g)).

(* A new queue: the descriptor, its grantors and the size of the shared memory *)
Record created := { c_queue : queue; c_grantors : list grantor; c_shmem : Z }.

(* src/gbinder_fmq.c:244-372 gbinder_fmq_new
   Where memfd_create, ftruncate and mmap succeed. [page] is getpagesize() and
   [fd] is false for -1. *)
Definition fmq_new (bits page item_size num_items : Z) (k : qkind) (event_flag fd : bool)
  (buffer_size : Z) : option created :=
  if item_size <=? 0 then None
  else if num_items <=? 0 then None
  else if (2 ^ bits - 1) / item_size <? num_items then None
  else if fd && (buffer_size <? num_items * item_size) then None
  else
    let queue_size_bytes := num_items * item_size in
    let meta_data_size := if event_flag then 20 else 16 in
    let shmem_size :=
      if fd then (meta_data_size + page - 1) mod 2 ^ bits / page * page
      else (align8 queue_size_bytes mod 2 ^ bits + meta_data_size + page - 1) mod 2 ^ bits
             / page * page in
    let num_fds := if fd then 2 else 1 in
    Some {| c_queue := {| gbits := bits; kind := k; quantum := u32 item_size;
                          extent := queue_size_bytes |};
            c_grantors := create_grantors bits queue_size_bytes num_fds event_flag;
            c_shmem := shmem_size |}.

(* The memory right after the creation: both counters are zero in a fresh memfd and
   are reset anyway. The initial contents of the ring are those of the memory. *)
Definition fmq_initial (initial_ring : bytes) : shared :=
  {| rp := 0; wp := 0; ring := initial_ring |}.
