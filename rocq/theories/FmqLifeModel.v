(* Creation and destruction of message queues *)
From Verif Require Import Base FmqModel FmqSendModel.

(* Pages of the address space. The owner is a ghost: it says who has mapped the page,
   and for queues with which pointer. *)
Inductive slot := SRead | SWrite | SRing | SEvent.
Inductive owner := App | OfQueue (q : nat) (s : slot).
Record mapping := { m_owner : owner; m_fd : Z; m_file : Z (* the page of the file *) }.

(* The pointers of a queue: NULL, somewhere in mapped memory, or a block of memory *)
Inductive qptr := Null | Mapped (a : Z) | Heap (b : nat).

(* src/gbinder_fmq_p.h:70-78, the blocks of memory with the descriptor, its grantors
   and the native handle, and what is there *)
Record qdesc := { d_block : nat; d_grantors : nat; d_fds : nat; d_mq : mqdesc }.

(* src/gbinder_fmq.c:54-61 struct gbinder_fmq, f_block is where it is *)
Record fmq := {
  f_block : nat;
  f_refs : Z;
  f_desc : option qdesc;
  f_read : qptr;
  f_write : qptr;
  f_ring : qptr;
  f_event : qptr
}.

(* The process: its address space, the descriptors which the library has open, blocks
   of memory and queues. Blocks and queues are numbered in the order of creation. *)
Record state := {
  pages : Z -> option mapping;
  fds : list Z;
  heap : list nat;
  next_block : nat;
  queues : nat -> option fmq;
  next_queue : nat
}.
Definition with_pages (s : state) (p : Z -> option mapping) : state :=
  {| pages := p; fds := fds s; heap := heap s; next_block := next_block s; queues := queues s;
     next_queue := next_queue s |}.
Definition with_fds (s : state) (l : list Z) : state :=
  {| pages := pages s; fds := l; heap := heap s; next_block := next_block s; queues := queues s;
     next_queue := next_queue s |}.
Definition with_heap (s : state) (l : list nat) : state :=
  {| pages := pages s; fds := fds s; heap := l; next_block := next_block s; queues := queues s;
     next_queue := next_queue s |}.
Definition with_queue (s : state) (q : nat) (f : option fmq) : state :=
  {| pages := pages s; fds := fds s; heap := heap s; next_block := next_block s;
     queues := fun x => if Nat.eqb x q then f else queues s x; next_queue := next_queue s |}.

(* What happens: the next state, a crash, or something which can't happen: the caller
   or the kernel would have to break the rules *)
Inductive death := NullStore | BadFree.
Inductive outcome (A : Type) := Ok (a : A) | Died (d : death) | Never.
Arguments Ok {A}. Arguments Died {A}. Arguments Never {A}.
Definition bind {A B} (r : outcome A) (f : A -> outcome B) : outcome B :=
  match r with Ok a => f a | Died d => Died d | Never => Never end.
Local Notation "'let*' x := a 'in' b" := (bind a (fun x => b))
  (at level 200, x pattern, a at level 100, b at level 200).

(* g_malloc, g_new, g_slice_new: they don't fail. g_free, g_slice_free of something
   which isn't allocated is undefined. *)
Definition alloc (s : state) : nat * state :=
  (next_block s,
   {| pages := pages s; fds := fds s; heap := next_block s :: heap s;
      next_block := S (next_block s); queues := queues s; next_queue := next_queue s |}).
Definition free (s : state) (b : nat) : outcome state :=
  if existsb (Nat.eqb b) (heap s)
  then Ok (with_heap s (filter (fun x => negb (Nat.eqb x b)) (heap s)))
  else Died BadFree.

Section Process.
  Variables bits page : Z.

  (* Number of pages in which len bytes fit *)
  Definition npages (len : Z) : Z := (len + page - 1) / page.

  Definition range_free (p : Z -> option mapping) (at_ n : Z) : bool :=
    forallb (fun k => match p (at_ + Z.of_nat k) with Some _ => false | None => true end)
      (seq 0 (Z.to_nat n)).
  Definition in_pages (x at_ n : Z) : bool := (at_ <=? x) && (x <? at_ + n).

  (* mmap(0, len, ..., MAP_SHARED, fd, off). [answer] is the page which the kernel has
     chosen, None if it has failed; it always fails if len is zero. Pages which the
     kernel chooses are unused, and page zero is never chosen. The result is the
     address. *)
  Definition sys_mmap (s : state) (answer : option Z) (w : owner) (fd off len : Z)
    : outcome (state * option Z) :=
    match answer with
    | None => Ok (s, None)
    | Some p =>
      if len =? 0 then Ok (s, None)
      else if (0 <? p) && range_free (pages s) p (npages len) then
        Ok (with_pages s (fun x =>
              if in_pages x p (npages len)
              then Some {| m_owner := w; m_fd := fd; m_file := off / page + (x - p) |}
              else pages s x),
            Some (p * page))
      else Never
    end.

  (* munmap(addr, len): fails if the address isn't that of a page or if len is zero. All
     pages of the range become unused, those which already are don't matter. *)
  Definition sys_munmap (s : state) (addr len : Z) : state :=
    if (addr mod page =? 0) && negb (len =? 0)
    then with_pages s (fun x => if in_pages x (addr / page) (npages len) then None else pages s x)
    else s.

  (* src/gbinder_fmq.c:165-188 gbinder_fmq_map_grantor_descriptor *)
  Definition map_grantor (s : state) (answer : option Z) (w : owner) (q : mqdesc) (index : nat)
    : outcome (state * qptr) :=
    match nth_error (mq_grantors q) index with
    | Some g =>
      let (off, len) := map_range page g in
      let* (s1, a) := sys_mmap s answer w (nth (Z.to_nat (fd_index g)) (mq_fds q) 0) off len in
      Ok (s1, match a with Some a => Mapped (a + (g_offset g - off)) | None => Null end)
    | None => Ok (s, Null)
    end.

  (* src/gbinder_fmq.c:190-204 gbinder_fmq_unmap_grantor_descriptor *)
  Definition unmap_grantor (s : state) (p : qptr) (q : mqdesc) (index : nat) : state :=
    match nth_error (mq_grantors q) index, p with
    | Some g, Mapped a =>
      let remainder := g_offset g mod page in
      sys_munmap s (a - remainder) (remainder + g_extent g)
    | _, _ => s
    end.

  (* src/gbinder_fmq.c:206-231 gbinder_fmq_free *)
  Definition fmq_free (s : state) (f : fmq) : outcome state :=
    let* s1 :=
      match f_desc f with
      | Some d =>
        let* s1 :=
          if mq_flags (d_mq d) =? fmq_type Unsync
          then match f_read f with Heap b => free s b | Mapped _ => Died BadFree | Null => Ok s end
          else Ok (unmap_grantor s (f_read f) (d_mq d) 0) in
        let s2 := unmap_grantor s1 (f_write f) (d_mq d) 1 in
        let s3 := unmap_grantor s2 (f_ring f) (d_mq d) 2 in
        let s4 := unmap_grantor s3 (f_event f) (d_mq d) 3 in
        let* s5 := free s4 (d_grantors d) in
        let* s6 := free s5 (d_fds d) in
        free s6 (d_block d)
      | None => Ok s
      end in
    free s1 (f_block f).

  (* Arguments of gbinder_fmq_new, fd is None for -1 *)
  Record request := {
    r_item_size : Z; r_num_items : Z; r_kind : qkind; r_event_flag : bool; r_no_reset : bool;
    r_fd : option Z; r_buffer_size : Z
  }.
  (* What the kernel does meanwhile: the descriptor which it gives, whether the memory can
     have the size, and pages for four pointers *)
  Record answers := {
    a_memfd : option Z; a_ftruncate : bool;
    a_read : option Z; a_write : option Z; a_ring : option Z; a_event : option Z
  }.

  Definition store (p : qptr) : outcome unit := match p with Null => Died NullStore | _ => Ok tt end.
  Definition is_some {A} (o : option A) : bool := match o with Some _ => true | None => false end.

  (* src/gbinder_fmq.c:244-372 gbinder_fmq_new
     The system calls of other threads which come in between don't matter, because memory
     which the kernel gives isn't in use. The result is NULL or the number of a queue. *)
  Definition fmq_create (s : state) (rq : request) (an : answers)
    : outcome (state * option nat) :=
    match fmq_new bits page (r_item_size rq) (r_num_items rq) (r_kind rq) (r_event_flag rq)
            (is_some (r_fd rq)) (r_buffer_size rq) with
    | None => Ok (s, None)
    | Some c =>
      let (self, s1) := alloc s in
      let q := next_queue s in
      let failed (s2 : state) :=
        let* s3 := fmq_free s2 {| f_block := self; f_refs := 0; f_desc := None; f_read := Null;
                     f_write := Null; f_ring := Null; f_event := Null |} in
        Ok (s3, None) in
      match a_memfd an with
      | None => failed s1
      | Some shmem_fd =>
        if existsb (Z.eqb shmem_fd) (fds s) then Never
        else
          let s2 := with_fds s1 (shmem_fd :: fds s1) in
          if negb (a_ftruncate an) then failed s2
          else
            let mq := fmq_desc c (fmq_type (r_kind rq)) shmem_fd (r_fd rq) in
            let (b_fds, s3) := alloc s2 in
            let (b_grantors, s4) := alloc s3 in
            let (b_desc, s5) := alloc s4 in
            let* (s6, rptr) :=
              match r_kind rq with
              | Sync => map_grantor s5 (a_read an) (OfQueue q SRead) mq 0
              | Unsync => let (b, s6) := alloc s5 in Ok (s6, Heap b)
              end in
            let* (s7, wptr) := map_grantor s6 (a_write an) (OfQueue q SWrite) mq 1 in
            let* _ :=
              if negb (r_no_reset rq)
              then let* _ := store rptr in store wptr
              else match r_kind rq with Sync => Ok tt | Unsync => store rptr end in
            let* (s8, ring) := map_grantor s7 (a_ring an) (OfQueue q SRing) mq 2 in
            let* (s9, event) :=
              if Z.ltb 3 (blen (mq_grantors mq))
              then map_grantor s8 (a_event an) (OfQueue q SEvent) mq 3
              else Ok (s8, Null) in
            let f := {| f_block := self; f_refs := 1;
                        f_desc := Some {| d_block := b_desc; d_grantors := b_grantors;
                                          d_fds := b_fds; d_mq := mq |};
                        f_read := rptr; f_write := wptr; f_ring := ring; f_event := event |} in
            Ok ({| pages := pages s9; fds := fds s9; heap := heap s9; next_block := next_block s9;
                   queues := fun x => if Nat.eqb x q then Some f else queues s9 x;
                   next_queue := S q |}, Some q)
      end
    end.

  Definition set_refs (f : fmq) (n : Z) : fmq :=
    {| f_block := f_block f; f_refs := n; f_desc := f_desc f; f_read := f_read f;
       f_write := f_write f; f_ring := f_ring f; f_event := f_event f |}.

  (* What the application does, on any thread. A queue may only be used by who has a
     reference. gbinder_fmq_unref is two moves: the reference is given up, and if it was
     the last one then the same thread frees the queue, some time later. The application
     also maps and unmaps memory of its own. *)
  Inductive move :=
  | New (rq : request) (an : answers)
  | Ref (q : nat)
  | Unref (q : nat)
  | Free (q : nat)
  | AppMap (at_ n : Z)
  | AppUnmap (at_ n : Z).

  Definition all_app (p : Z -> option mapping) (at_ n : Z) : bool :=
    forallb (fun k => match p (at_ + Z.of_nat k) with
                      | Some m => match m_owner m with App => true | _ => false end
                      | None => false
                      end) (seq 0 (Z.to_nat n)).

  (* src/gbinder_fmq.c:374-383 gbinder_fmq_ref
     src/gbinder_fmq.c:385-395 gbinder_fmq_unref *)
  Definition step (s : state) (m : move) : outcome state :=
    match m with
    | New rq an => let* (s1, _) := fmq_create s rq an in Ok s1
    | Ref q =>
      match queues s q with
      | Some f => if 0 <? f_refs f then Ok (with_queue s q (Some (set_refs f (f_refs f + 1)))) else Never
      | None => Never
      end
    | Unref q =>
      match queues s q with
      | Some f => if 0 <? f_refs f then Ok (with_queue s q (Some (set_refs f (f_refs f - 1)))) else Never
      | None => Never
      end
    | Free q =>
      match queues s q with
      | Some f => if f_refs f =? 0
                  then let* s1 := fmq_free s f in Ok (with_queue s1 q None)
                  else Never
      | None => Never
      end
    | AppMap at_ n =>
      if (0 <? at_) && range_free (pages s) at_ n
      then Ok (with_pages s (fun x => if in_pages x at_ n
             then Some {| m_owner := App; m_fd := 0; m_file := 0 |} else pages s x))
      else Never
    | AppUnmap at_ n =>
      if all_app (pages s) at_ n
      then Ok (with_pages s (fun x => if in_pages x at_ n then None else pages s x))
      else Never
    end.

  Fixpoint run (s : state) (l : list move) : outcome state :=
    match l with
    | [] => Ok s
    | m :: r => let* s1 := step s m in run s1 r
    end.
End Process.

(* In the beginning *)
Definition start : state :=
  {| pages := fun _ => None; fds := []; heap := []; next_block := 0; queues := fun _ => None;
     next_queue := 0 |}.
