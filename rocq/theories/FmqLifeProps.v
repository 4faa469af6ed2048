(* C63: creation and destruction of message queues *)
From Verif Require Import Base FmqModel FmqSendModel FmqLifeModel FmqLifeSpec FmqLifeProofs.

(* Nothing is freed twice and nothing which wasn't allocated is freed, whatever the
   application and the kernel do *)
Theorem C63_freed_once : forall bits page l,
  0 < page -> bits = 32 \/ bits = 64 -> run bits page start l <> Died BadFree.
Proof.
  intros bits page l Hp Hb H. apply run_dies in H; [|exact Hp|exact Hb|apply inv_start].
  destruct H as [H _]. discriminate H.
Qed.
Print Assumptions C63_freed_once.

(* There's no crash as long as memory can be mapped *)
Theorem C63_no_crash_partial : forall bits page l d,
  0 < page -> bits = 32 \/ bits = 64 -> Forall granted l -> run bits page start l <> Died d.
Proof.
  intros bits page l d Hp Hb Hg H. apply run_dies in H; [|exact Hp|exact Hb|apply inv_start].
  destruct H as [_ H]. contradiction.
Qed.
Print Assumptions C63_no_crash_partial.

(* Queues which exist have all of their memory, and it's the memory which their
   descriptors promise *)
Theorem C63_memory_partial : forall bits page l s q f,
  0 < page -> bits = 32 \/ bits = 64 -> Forall (small page) l -> Forall granted l ->
  run bits page start l = Ok s -> queues s q = Some f -> usable page s f.
Proof. intros bits page l s q f Hp Hb. exact (all_usable bits page Hp Hb l s q f). Qed.
Print Assumptions C63_memory_partial.

(* Destruction unmaps all memory of this queue, and nothing else *)
Theorem C63_only_own_pages_partial : forall bits page l s q s1 x,
  0 < page -> bits = 32 \/ bits = 64 -> Forall (small page) l ->
  run bits page start l = Ok s -> step bits page s (Free q) = Ok s1 ->
  pages s1 x = without q (pages s x).
Proof. intros bits page l s q s1 x Hp Hb. exact (free_own bits page Hp Hb l s q s1 x). Qed.
Print Assumptions C63_only_own_pages_partial.

(* When there are no queues any more, they have left nothing in memory *)
Theorem C63_released : forall bits page l s,
  0 < page -> bits = 32 \/ bits = 64 -> run bits page start l = Ok s -> (forall q, queues s q = None) ->
  heap s = [] /\ (Forall (small page) l -> forall x m, pages s x = Some m -> m_owner m = App).
Proof.
  intros bits page l s Hp Hb H Hn. split; [exact (heap_released bits page Hp Hb l s H Hn)|].
  intros Hs x m. exact (pages_released bits page Hp Hb l s x m Hs H Hn).
Qed.
Print Assumptions C63_released.

(* A queue which couldn't be created leaves nothing in memory either *)
Theorem C63_failed_new : forall bits page l s rq an s1,
  0 < page -> bits = 32 \/ bits = 64 -> run bits page start l = Ok s ->
  fmq_create bits page s rq an = Ok (s1, None) ->
  pages s1 = pages s /\ heap s1 = heap s /\ queues s1 = queues s.
Proof. intros bits page l s rq an s1 Hp Hb. exact (failed_new bits page Hp Hb l s rq an s1). Qed.
Print Assumptions C63_failed_new.

(* ... but the descriptor of the memory is never closed: neither when the queue is gone nor
   when its creation has failed *)
Theorem C63_descriptor_refuted : forall bits page l1 rq an l2 s fd,
  0 < page -> bits = 32 \/ bits = 64 -> accepted bits page rq -> a_memfd an = Some fd ->
  run bits page start (l1 ++ New rq an :: l2) = Ok s -> In fd (fds s).
Proof. intros bits page l1 rq an l2 s fd Hp Hb. exact (fd_leaks bits page Hp Hb l1 rq an l2 s fd). Qed.
Print Assumptions C63_descriptor_refuted.

(* If positions in the queue can't be mapped, then creation doesn't fail but crashes. (Never:
   the kernel gives memory or a descriptor which is already used.) *)
Theorem C63_null_refuted : forall bits page l s rq an,
  0 < page -> bits = 32 \/ bits = 64 -> run bits page start l = Ok s ->
  accepted bits page rq -> a_memfd an <> None -> a_ftruncate an = true -> r_no_reset rq = false ->
  a_write an = None \/ (r_kind rq = Sync /\ a_read an = None) ->
  step bits page s (New rq an) = Never \/ step bits page s (New rq an) = Died NullStore.
Proof. intros bits page l s rq an _ _. exact (null_store bits page l s rq an). Qed.
Print Assumptions C63_null_refuted.

(* If the ring can't be mapped, then it's NULL in the queue which the application gets *)
Theorem C63_no_ring_refuted : forall bits page l s rq an s1 q,
  0 < page -> bits = 32 \/ bits = 64 -> run bits page start l = Ok s ->
  fmq_create bits page s rq an = Ok (s1, Some q) -> a_ring an = None ->
  exists f, queues s1 q = Some f /\ f_refs f = 1 /\ pointer f SRing = Null.
Proof. intros bits page l s rq an s1 q Hp Hb. exact (null_ring bits page Hp Hb l s rq an s1 q). Qed.
Print Assumptions C63_no_ring_refuted.

(* Large queues: the memory of the application which happens to be right after the ring
   disappears together with the queue *)
Theorem C63_foreign_unmapped_refuted : forall l s rq an s1 at_,
  let n := 16 + r_num_items rq * r_item_size rq in
  let q := next_queue s in
  run 64 4096 start l = Ok s -> accepted 64 4096 rq -> r_fd rq = None ->
  a_memfd an <> None -> a_ftruncate an = true ->
  2 ^ 32 <= n -> n mod 2 ^ 32 <> 0 -> a_ring an = Some at_ ->
  let x := at_ + npages 4096 (n mod 2 ^ 32) in
  run 64 4096 s [New rq an; AppMap x 1; Unref q; Free q] = Ok s1 -> pages s1 x = None.
Proof. exact foreign_unmapped. Qed.
Print Assumptions C63_foreign_unmapped_refuted.

(* ------------------------------------------------------------------ *)
(* A queue in one piece of memory, with an event flag, and one with several readers
   whose ring is in memory of the application *)
Definition rq_sync : request :=
  {| r_item_size := 4; r_num_items := 2000; r_kind := Sync; r_event_flag := true; r_no_reset := false;
     r_fd := None; r_buffer_size := 0 |}.
Definition rq_unsync : request :=
  {| r_item_size := 8; r_num_items := 16; r_kind := Unsync; r_event_flag := false; r_no_reset := false;
     r_fd := Some 50; r_buffer_size := 128 |}.
Definition an1 : answers :=
  {| a_memfd := Some 40; a_ftruncate := true; a_read := Some 10; a_write := Some 11; a_ring := Some 12;
     a_event := Some 15 |}.
Definition an2 : answers :=
  {| a_memfd := Some 41; a_ftruncate := true; a_read := Some 20; a_write := Some 21; a_ring := Some 22;
     a_event := Some 23 |}.
Definition life : list move :=
  [New rq_sync an1; AppMap 16 2; New rq_unsync an2; Ref 0; Unref 0; Unref 0].

Example C63_life :
  Forall (small 4096) life /\ Forall granted life /\
  match run 64 4096 start life with
  | Ok s =>
    (* the ring of the first queue takes two pages, the flag is at the end of the second one *)
    map (pages s) [12; 13; 14; 15] =
      [Some {| m_owner := OfQueue 0 SRing; m_fd := 40; m_file := 0 |};
       Some {| m_owner := OfQueue 0 SRing; m_fd := 40; m_file := 1 |}; None;
       Some {| m_owner := OfQueue 0 SEvent; m_fd := 40; m_file := 1 |}] /\
    option_map f_event (queues s 0%nat) = Some (Mapped (15 * 4096 + (8016 - 4096))) /\
    map (pages s) [16; 20; 21; 22] =
      [Some {| m_owner := App; m_fd := 0; m_file := 0 |}; None;
       Some {| m_owner := OfQueue 1 SWrite; m_fd := 41; m_file := 0 |};
       Some {| m_owner := OfQueue 1 SRing; m_fd := 50; m_file := 0 |}] /\
    option_map f_read (queues s 1%nat) = Some (Heap 8) /\
    match step 64 4096 s (Free 0) with
    | Ok s1 => map (pages s1) [10; 11; 12; 13; 15; 16; 17; 21] =
        [None; None; None; None; None; Some {| m_owner := App; m_fd := 0; m_file := 0 |};
         Some {| m_owner := App; m_fd := 0; m_file := 0 |};
         Some {| m_owner := OfQueue 1 SWrite; m_fd := 41; m_file := 0 |}]
    | _ => False
    end
  | _ => False
  end.
Proof.
  split; [|split].
  - repeat (apply Forall_cons; [cbn; lia || exact I|]). apply Forall_nil.
  - repeat (apply Forall_cons; [cbn; repeat split; discriminate|]). apply Forall_nil.
  - vm_compute. repeat split.
Qed.

Example C63_all_gone :
  match run 64 4096 start (life ++ [Free 0; Unref 1; Free 1; AppUnmap 16 2]) with
  | Ok s => map (queues s) (seq 0 4) = [None; None; None; None] /\ heap s = [] /\ fds s = [41; 40]
  | _ => False
  end.
Proof. vm_compute. repeat split. Qed.

Definition an_full : answers :=
  {| a_memfd := Some 42; a_ftruncate := false; a_read := None; a_write := None; a_ring := None; a_event := None |}.
Example C63_no_space :
  accepted 64 4096 rq_sync /\
  match run 64 4096 start life with
  | Ok s => match fmq_create 64 4096 s rq_sync an_full with
            | Ok (s1, None) => heap s1 = heap s /\ fds s1 = [42; 41; 40]
            | _ => False
            end
  | _ => False
  end.
Proof. split; [discriminate|]. vm_compute. split; reflexivity. Qed.

Definition an_nomem (r w g : option Z) : answers :=
  {| a_memfd := Some 43; a_ftruncate := true; a_read := r; a_write := w; a_ring := g; a_event := Some 33 |}.
Example C63_not_mapped :
  match run 64 4096 start life with
  | Ok s =>
    step 64 4096 s (New rq_sync (an_nomem None (Some 31) (Some 32))) = Died NullStore /\
    step 64 4096 s (New rq_unsync (an_nomem None None (Some 32))) = Died NullStore /\
    match fmq_create 64 4096 s rq_sync (an_nomem (Some 30) (Some 31) None) with
    | Ok (s1, Some 2%nat) => option_map f_ring (queues s1 2%nat) = Some Null
    | _ => False
    end
  | _ => False
  end.
Proof. vm_compute. repeat split. Qed.

(* Room for 2^32 - 15 bytes *)
Definition rq_large : request :=
  {| r_item_size := 1; r_num_items := 4294967281; r_kind := Sync; r_event_flag := false; r_no_reset := false;
     r_fd := None; r_buffer_size := 0 |}.
Example C63_large :
  accepted 64 4096 rq_large /\ (16 + r_num_items rq_large * r_item_size rq_large) mod 2 ^ 32 = 1 /\
  match run 64 4096 start [New rq_large an1; AppMap 13 1] with
  | Ok s => pages s 13 = Some {| m_owner := App; m_fd := 0; m_file := 0 |}
  | _ => False
  end /\
  match run 64 4096 start [New rq_large an1; AppMap 13 1; Unref 0; Free 0] with
  | Ok s => pages s 13 = None
  | _ => False
  end.
Proof. split; [discriminate|]. split; [reflexivity|]. split; vm_compute; reflexivity. Qed.
