(* Proofs about creation and destruction of message queues *)
From Verif Require Import Base BaseLemmas FmqModel FmqLayout FmqSendModel FmqLifeModel FmqLifeSpec.
Local Notation "'let*' x := a 'in' b" := (bind a (fun x => b))
  (at level 200, x pattern, a at level 100, b at level 200).

(* ------------------------------------------------------------------ *)
(* Memory blocks *)

Definition blocks (f : fmq) : list nat :=
  f_block f ::
  match f_desc f with Some d => [d_grantors d; d_fds d; d_block d] | None => [] end ++
  match f_read f with Heap b => [b] | _ => [] end.

Definition drop (l : list nat) (h : list nat) : list nat :=
  filter (fun x => negb (existsb (Nat.eqb x) l)) h.

Lemma existsb_eqb b l : existsb (Nat.eqb b) l = true <-> In b l.
Proof.
  rewrite existsb_exists. split.
  - intros (x & H & E). apply Nat.eqb_eq in E. subst x. exact H.
  - intros H. exists b. split; [exact H|apply Nat.eqb_refl].
Qed.
Lemma in_drop l h b : In b (drop l h) <-> In b h /\ ~ In b l.
Proof.
  unfold drop. rewrite filter_In, negb_true_iff. split; intros [H1 H2]; (split; [exact H1|]).
  - rewrite <- existsb_eqb. congruence.
  - rewrite <- existsb_eqb in H2. destruct (existsb _ _); [exfalso; auto|reflexivity].
Qed.
Lemma NoDup_drop l h : NoDup h -> NoDup (drop l h).
Proof. apply NoDup_filter. Qed.
Lemma drop_drop l1 l2 h : drop l2 (drop l1 h) = drop (l1 ++ l2) h.
Proof.
  induction h as [|x h IH]; [reflexivity|]. cbn [drop filter].
  fold (drop l1 h). fold (drop (l1 ++ l2) h). rewrite existsb_app.
  destruct (existsb (Nat.eqb x) l1) eqn:E; cbn [negb orb].
  - exact IH.
  - cbn [drop filter]. fold (drop l2 (drop l1 h)). rewrite IH. reflexivity.
Qed.
Lemma drop_none l h : (forall b, In b l -> ~ In b h) -> drop l h = h.
Proof.
  intros H. unfold drop. induction h as [|x h IH]; [reflexivity|]. cbn [filter].
  destruct (existsb (Nat.eqb x) l) eqn:E.
  - apply existsb_eqb in E. exfalso. apply (H x E). left; reflexivity.
  - cbn [negb]. f_equal. apply IH. intros b Hb Hi. apply (H b Hb). right; exact Hi.
Qed.

Lemma free_ok s b : In b (heap s) -> free s b = Ok (with_heap s (drop [b] (heap s))).
Proof.
  intros H. unfold free. rewrite (proj2 (existsb_eqb _ _) H). do 2 f_equal.
  unfold drop. apply filter_ext. intros x. cbn [existsb]. rewrite orb_false_r. reflexivity.
Qed.

Definition fields_but_pages (s s1 : state) : Prop :=
  fds s1 = fds s /\ heap s1 = heap s /\ next_block s1 = next_block s /\ queues s1 = queues s /\
  next_queue s1 = next_queue s.

Section Life.
  Variables bits page : Z.
  Hypothesis Hpage : 0 < page.
  Hypothesis Hbits : bits = 32 \/ bits = 64.
  Notation npages := (npages page).
  Notation sys_munmap := (sys_munmap page).
  Notation unmap_grantor := (unmap_grantor page).
  Notation map_grantor := (map_grantor page).
  Notation fmq_free := (fmq_free page).
  Notation fmq_create := (fmq_create bits page).
  Notation step := (step bits page).
  Notation run := (run bits page).

  Lemma unmap_fields s p q n : unmap_grantor s p q n = with_pages s (pages (unmap_grantor s p q n)).
  Proof.
    unfold unmap_grantor. assert (E : s = with_pages s (pages s)) by (destruct s; reflexivity).
    destruct (nth_error _ _); [|exact E]. destruct p; try exact E.
    unfold sys_munmap. destruct (_ && _); [reflexivity|exact E].
  Qed.
  Lemma unmap_pages s s1 p q n : pages s1 = pages s ->
    pages (unmap_grantor s1 p q n) = pages (unmap_grantor s p q n).
  Proof.
    intros E. unfold unmap_grantor. destruct (nth_error _ _); [|exact E]. destruct p; try exact E.
    unfold sys_munmap. destruct (_ && _); [|exact E]. cbn [with_pages pages]. rewrite E. reflexivity.
  Qed.

  (* The pages after all pointers have been unmapped *)
  Definition unmap_all (s : state) (f : fmq) (q : mqdesc) : state :=
    let s1 := match f_read f with Mapped _ => unmap_grantor s (f_read f) q 0 | _ => s end in
    unmap_grantor (unmap_grantor (unmap_grantor s1 (f_write f) q 1) (f_ring f) q 2) (f_event f) q 3.

  (* What gbinder_fmq_new makes *)
  Definition shape (f : fmq) (d : qdesc) : Prop :=
    f_desc f = Some d /\
    match f_read f with
    | Heap _ => mq_flags (d_mq d) = fmq_type Unsync
    | _ => mq_flags (d_mq d) = fmq_type Sync
    end.

  Lemma free_queue s f d : shape f d -> NoDup (blocks f) -> incl (blocks f) (heap s) ->
    exists s1, fmq_free s f = Ok s1 /\ heap s1 = drop (blocks f) (heap s) /\
      pages s1 = pages (unmap_all s f (d_mq d)) /\ fds s1 = fds s /\
      next_block s1 = next_block s /\ queues s1 = queues s /\ next_queue s1 = next_queue s.
  Proof.
    intros [Hd Hr] ND Hin. unfold blocks in ND, Hin. rewrite Hd in ND, Hin.
    unfold FmqLifeModel.fmq_free. rewrite Hd.
    assert (HS : exists s1, (if mq_flags (d_mq d) =? fmq_type Unsync
        then match f_read f with Heap b => free s b | Mapped _ => Died BadFree | Null => Ok s end
        else Ok (unmap_grantor s (f_read f) (d_mq d) 0)) = Ok s1 /\
      heap s1 = drop (match f_read f with Heap b => [b] | _ => [] end) (heap s) /\
      pages s1 = pages (match f_read f with Mapped _ => unmap_grantor s (f_read f) (d_mq d) 0 | _ => s end) /\
      fds s1 = fds s /\ next_block s1 = next_block s /\ queues s1 = queues s /\ next_queue s1 = next_queue s).
    { destruct (f_read f) as [|a|b]; rewrite Hr; cbn [fmq_type Z.eqb Pos.eqb].
      - exists s. rewrite drop_none by (intros b []). split; [|repeat split].
        unfold FmqLifeModel.unmap_grantor. destruct (nth_error _ _); reflexivity.
      - exists (unmap_grantor s (Mapped a) (d_mq d) 0). rewrite drop_none by (intros b []).
        rewrite unmap_fields. repeat split.
      - eexists. split; [apply free_ok, Hin; cbn [app]; right; right; right; right; left; reflexivity|].
        repeat split. }
    destruct HS as (s1 & E1 & H1 & P1 & F1 & N1 & Q1 & X1). rewrite E1. cbn [bind].
    set (s4 := unmap_grantor _ (f_event f) _ 3).
    assert (E4 : heap s4 = heap s1 /\ fds s4 = fds s1 /\ next_block s4 = next_block s1 /\
                 queues s4 = queues s1 /\ next_queue s4 = next_queue s1 /\
                 pages s4 = pages (unmap_all s f (d_mq d))).
    { unfold s4. rewrite unmap_fields. cbn [with_pages heap fds next_block queues next_queue pages].
      rewrite unmap_fields. cbn [with_pages heap fds next_block queues next_queue].
      rewrite (unmap_fields s1). cbn [with_pages heap fds next_block queues next_queue].
      repeat (split; [reflexivity|]). unfold unmap_all. apply unmap_pages.
      rewrite <- unmap_fields. apply unmap_pages. rewrite <- unmap_fields. apply unmap_pages. exact P1. }
    destruct E4 as (H4 & F4 & N4 & Q4 & X4 & P4). clearbody s4.
    set (rb := match f_read f with Heap b => [b] | _ => [] end) in *.
    inversion ND as [|x l Nf ND1]; subst x l. cbn [app] in ND1, Nf.
    inversion ND1 as [|x l Ng ND2]; subst x l. inversion ND2 as [|x l Nd ND3]; subst x l.
    inversion ND3 as [|x l Nb ND4]; subst x l. cbn [In] in *.
    assert (In0 : forall b, In b (f_block f :: d_grantors d :: d_fds d :: d_block d :: rb) -> In b (heap s))
      by (intros b Hb; apply Hin; exact Hb). cbn [In] in In0.
    rewrite (free_ok s4) by (rewrite H4, H1, in_drop; split; [apply In0; auto 8|tauto]). cbn [bind].
    rewrite free_ok by (cbn [with_heap heap]; rewrite in_drop, H4, H1, in_drop; cbn [In];
      split; [split; [apply In0; auto 8|tauto]|intuition congruence]). cbn [bind].
    rewrite free_ok by (cbn [with_heap heap]; rewrite !in_drop, H4, H1, in_drop; cbn [In];
      split; [split; [split; [apply In0; auto 8|tauto]|intuition congruence]|intuition congruence]).
    cbn [bind].
    rewrite free_ok by (cbn [with_heap heap]; rewrite !in_drop, H4, H1, in_drop; cbn [In];
      split; [split; [split; [split; [apply In0; auto 8|tauto]|intuition congruence]|intuition congruence]
             |intuition congruence]).
    eexists. split; [reflexivity|]. cbn [with_heap heap pages fds next_block queues next_queue].
    split; [|split; [exact P4|]; repeat split; congruence].
    rewrite H4, H1, !drop_drop. unfold blocks. rewrite Hd. fold rb.
    unfold drop. apply filter_ext. intros x. f_equal.
    apply Bool.eq_iff_eq_true. rewrite !existsb_eqb. cbn [app In]. rewrite in_app_iff. cbn [In]. tauto.
  Qed.

  (* ------------------------------------------------------------------ *)
  (* Mapping *)

  Lemma free_range p at_ n x : range_free p at_ n = true -> in_pages x at_ n = true -> p x = None.
  Proof.
    unfold range_free, in_pages. rewrite forallb_forall, andb_true_iff. intros H [H1 H2].
    specialize (H (Z.to_nat (x - at_))). replace (at_ + Z.of_nat (Z.to_nat (x - at_))) with x in H by lia.
    destruct (p x); [|reflexivity]. assert (false = true); [|congruence]. apply H. apply in_seq. lia.
  Qed.

  Definition region_len (g : grantor) : Z := g_offset g mod page + g_extent g.

  (* A pointer has been mapped, or not *)
  Definition mapped_as (an : option Z) (p0 : Z -> option mapping) (w : owner) (q : mqdesc) (n : nat)
    (p1 : Z -> option mapping) (p : qptr) : Prop :=
    (p = Null /\ p1 = p0 /\
     (an = None \/ forall g, nth_error (mq_grantors q) n = Some g -> u32 (region_len g) = 0)) \/
    exists g at_, nth_error (mq_grantors q) n = Some g /\ 0 < at_ /\
      p = Mapped (at_ * page + g_offset g mod page) /\ u32 (region_len g) <> 0 /\
      (forall x, in_pages x at_ (npages (u32 (region_len g))) = true -> p0 x = None) /\
      p1 = (fun x => if in_pages x at_ (npages (u32 (region_len g)))
            then Some {| m_owner := w; m_fd := nth (Z.to_nat (fd_index g)) (mq_fds q) 0;
                         m_file := g_offset g / page + (x - at_) |}
            else p0 x) /\
      an = Some at_.

  Lemma same_fields s : fields_but_pages s s.
  Proof. repeat split. Qed.

  Lemma map_as s an w q n s1 p : map_grantor s an w q n = Ok (s1, p) ->
    fields_but_pages s s1 /\ mapped_as an (pages s) w q n (pages s1) p.
  Proof.
    unfold FmqLifeModel.map_grantor. destruct (nth_error (mq_grantors q) n) as [g|] eqn:Eg.
    2:{ intros H. injection H as <- <-. split; [apply same_fields|]. left.
        repeat (split; [reflexivity|]). right. congruence. }
    unfold map_range.
    assert (Er : g_offset g - g_offset g / page * page = g_offset g mod page)
      by (pose proof (Z.div_mod (g_offset g) page ltac:(lia)); lia).
    rewrite Er. fold (region_len g). unfold sys_mmap.
    destruct an as [at_|]; [|intros H; injection H as <- <-; split; [apply same_fields|left; auto]].
    destruct (Z.eqb_spec (u32 (region_len g)) 0) as [E0|E0].
    { intros H. injection H as <- <-. split; [apply same_fields|left].
      repeat (split; [reflexivity|]). right. intros h Eh. rewrite Eg in Eh. injection Eh as <-. exact E0. }
    destruct (Z.ltb_spec 0 at_) as [Ha|]; [|discriminate]. cbn [andb].
    destruct (range_free _ _ _) eqn:Ef; [|discriminate].
    cbn [bind]. intros H. injection H as <- <-. split; [repeat split|]. right.
    exists g, at_. split; [exact Eg|]. split; [exact Ha|]. split; [reflexivity|]. split; [exact E0|].
    split; [intros x Hx; eapply free_range; eauto|].
    cbn [with_pages pages]. rewrite Z.div_mul by lia. split; reflexivity.
  Qed.

  Lemma map_dies s an w q n d : map_grantor s an w q n <> Died d.
  Proof.
    unfold FmqLifeModel.map_grantor. destruct (nth_error (mq_grantors q) n) as [g|]; [|discriminate].
    destruct (map_range page g) as [off len]. unfold sys_mmap. destruct an; [|discriminate].
    destruct (_ =? _); [discriminate|]. destruct (_ && _); discriminate.
  Qed.

  (* ------------------------------------------------------------------ *)
  (* Creation *)

  Definition new_fmq (nb q : nat) (c : created) (rq : request) (fd0 : Z) (r w g e : qptr) : fmq :=
    {| f_block := nb; f_refs := 1;
       f_desc := Some {| d_block := nb + 3; d_grantors := nb + 2; d_fds := nb + 1;
                         d_mq := fmq_desc c (fmq_type (r_kind rq)) fd0 (r_fd rq) |};
       f_read := r; f_write := w; f_ring := g; f_event := e |}.

  Definition request_new (rq : request) : option created :=
    fmq_new bits page (r_item_size rq) (r_num_items rq) (r_kind rq) (r_event_flag rq)
      (is_some (r_fd rq)) (r_buffer_size rq).

  (* A new queue *)
  Definition made (s : state) (rq : request) (an : answers) (s1 : state) (q : nat) : Prop :=
    exists c fd0 r w g e p1 p2 p3,
      let nb := next_block s in
      let mq := fmq_desc c (fmq_type (r_kind rq)) fd0 (r_fd rq) in
      let f := new_fmq nb q c rq fd0 r w g e in
      q = next_queue s /\ request_new rq = Some c /\ a_memfd an = Some fd0 /\
      match r_kind rq with
      | Sync => mapped_as (a_read an) (pages s) (OfQueue q SRead) mq 0 p1 r
      | Unsync => r = Heap (nb + 4) /\ p1 = pages s
      end /\
      mapped_as (a_write an) p1 (OfQueue q SWrite) mq 1 p2 w /\
      mapped_as (a_ring an) p2 (OfQueue q SRing) mq 2 p3 g /\
      mapped_as (a_event an) p3 (OfQueue q SEvent) mq 3 (pages s1) e /\
      heap s1 = (match r_kind rq with Sync => [] | Unsync => [nb + 4]%nat end) ++
                [nb + 3; nb + 2; nb + 1; nb]%nat ++ heap s /\
      next_block s1 = (match r_kind rq with Sync => nb + 4 | Unsync => nb + 5 end)%nat /\
      fds s1 = fd0 :: fds s /\
      queues s1 = (fun x => if Nat.eqb x q then Some f else queues s x) /\ next_queue s1 = S q.

  (* Creation fails *)
  Definition not_made (s : state) (rq : request) (an : answers) (s1 : state) : Prop :=
    pages s1 = pages s /\ heap s1 = drop [next_block s] (heap s) /\ queues s1 = queues s /\
    next_queue s1 = next_queue s /\ (next_block s <= next_block s1)%nat /\
    (request_new rq = None /\ s1 = s \/
     request_new rq <> None /\
     fds s1 = match a_memfd an with Some f => f :: fds s | None => fds s end).

  Lemma create_cases s rq an s1 r : ~ In (next_block s) (heap s) ->
    fmq_create s rq an = Ok (s1, r) ->
    match r with
    | Some q => made s rq an s1 q
    | None => not_made s rq an s1
    end.
  Proof.
    intros Hfresh. unfold FmqLifeModel.fmq_create. fold (request_new rq).
    destruct (request_new rq) as [c|] eqn:Ec.
    2:{ intros H. injection H as <- <-. unfold not_made. rewrite drop_none by (intros b [<-|[]]; exact Hfresh).
        repeat (split; [reflexivity|]). left. split; [exact Ec|reflexivity]. }
    unfold alloc at 1. cbv beta iota zeta.
    assert (Hfail : forall l s1 r,
      (let* s3 := fmq_free (with_fds {| pages := pages s; fds := fds s; heap := next_block s :: heap s;
           next_block := S (next_block s); queues := queues s; next_queue := next_queue s |} l)
           {| f_block := next_block s; f_refs := 0; f_desc := None; f_read := Null;
              f_write := Null; f_ring := Null; f_event := Null |} in Ok (s3, @None nat)) = Ok (s1, r) ->
      r = None /\ pages s1 = pages s /\ heap s1 = drop [next_block s] (heap s) /\ queues s1 = queues s /\
      next_queue s1 = next_queue s /\ next_block s1 = S (next_block s) /\ fds s1 = l).
    { intros l s1' r'. unfold FmqLifeModel.fmq_free. cbn [f_desc f_block bind].
      rewrite free_ok by (left; reflexivity). cbn [bind]. intros H. injection H as <- <-.
      cbn [with_heap with_fds pages heap queues next_queue next_block fds].
      repeat (split; [reflexivity || (cbn [drop filter existsb]; rewrite Nat.eqb_refl; reflexivity)|]).
      reflexivity. }
    destruct (a_memfd an) as [fd0|] eqn:Em.
    2:{ intros H. apply (Hfail (fds s)) in H. destruct H as (-> & H1 & H2 & H3 & H4 & H5 & H6).
        unfold not_made. repeat (split; [assumption|]). split; [lia|]. right. rewrite Ec, Em.
        split; [discriminate|assumption]. }
    destruct (existsb (Z.eqb fd0) (fds s)); [discriminate|].
    destruct (a_ftruncate an); cbn [negb].
    2:{ intros H. apply Hfail in H. destruct H as (-> & H1 & H2 & H3 & H4 & H5 & H6).
        unfold not_made. repeat (split; [assumption|]). split; [lia|]. right. rewrite Ec, Em.
        split; [discriminate|exact H6]. }
    clear Hfail. unfold alloc, with_fds. cbv beta iota zeta. cbn [next_block heap pages fds queues next_queue].
    set (mq := fmq_desc c (fmq_type (r_kind rq)) fd0 (r_fd rq)).
    set (q := next_queue s). set (nb := next_block s) in *.
    match goal with |- context [map_grantor ?x (a_read an)] => set (s5 := x) end.
    (* the read pointer *)
    match goal with |- bind ?x _ = _ -> _ => destruct x as [[s6 rp]| |] eqn:E6; try discriminate end.
    assert (R6 : fds s6 = fd0 :: fds s /\ queues s6 = queues s /\ next_queue s6 = q /\
      heap s6 = (match r_kind rq with Sync => [] | Unsync => [nb + 4]%nat end) ++
                [nb + 3; nb + 2; nb + 1; nb]%nat ++ heap s /\
      next_block s6 = (match r_kind rq with Sync => nb + 4 | Unsync => nb + 5 end)%nat /\
      match r_kind rq with
      | Sync => mapped_as (a_read an) (pages s) (OfQueue q SRead) mq 0 (pages s6) rp
      | Unsync => rp = Heap (nb + 4) /\ pages s6 = pages s
      end).
    { replace (nb + 5)%nat with (S (S (S (S (S nb))))) by lia.
      replace (nb + 4)%nat with (S (S (S (S nb)))) by lia.
      replace (nb + 3)%nat with (S (S (S nb))) by lia. replace (nb + 2)%nat with (S (S nb)) by lia.
      replace (nb + 1)%nat with (S nb) by lia.
      destruct (r_kind rq).
      - apply map_as in E6. destruct E6 as ((F1 & F2 & F3 & F4 & F5) & M).
        rewrite F1, F2, F3, F4, F5. repeat (split; [reflexivity|]). exact M.
      - injection E6 as <- <-. repeat (split; [reflexivity|]). split; reflexivity. }
    clear E6. cbn [bind].
    destruct (map_grantor s6 (a_write an) (OfQueue q SWrite) mq 1) as [[s7 wp]| |] eqn:E7; try discriminate.
    cbn [bind].
    match goal with |- bind ?x _ = _ -> _ => destruct x as [[]| |]; try discriminate end.
    cbn [bind].
    destruct (map_grantor s7 (a_ring an) (OfQueue q SRing) mq 2) as [[s8 gp]| |] eqn:E8; try discriminate.
    cbn [bind].
    match goal with |- bind ?x _ = _ -> _ => destruct x as [[s9 ep]| |] eqn:E9; try discriminate end.
    cbn [bind]. intros H. injection H as <- <-.
    apply map_as in E7. destruct E7 as ((F1 & F2 & F3 & F4 & F5) & M7).
    apply map_as in E8. destruct E8 as ((G1 & G2 & G3 & G4 & G5) & M8).
    assert (E9' : fields_but_pages s8 s9 /\ mapped_as (a_event an) (pages s8) (OfQueue q SEvent) mq 3 (pages s9) ep).
    { destruct (3 <? blen (mq_grantors mq)) eqn:El; [apply map_as in E9; exact E9|].
      injection E9 as <- <-. split; [apply same_fields|]. left. repeat (split; [reflexivity|]). right.
      intros g Hg. assert (Hl : nth_error (mq_grantors mq) 3 <> None) by congruence.
      apply nth_error_Some in Hl. unfold blen in El. lia. }
    clear E9. destruct E9' as ((K1 & K2 & K3 & K4 & K5) & M9).
    destruct R6 as (R1 & R2 & R3 & R4 & R5 & R7).
    exists c, fd0, rp, wp, gp, ep, (pages s6), (pages s7), (pages s8). cbv zeta. fold nb. fold q. fold mq.
    split; [reflexivity|]. split; [exact Ec|]. split; [exact Em|]. split; [exact R7|].
    split; [exact M7|]. split; [exact M8|]. split; [exact M9|].
    cbn [heap next_block fds queues next_queue].
    split; [congruence|]. split; [congruence|]. split; [congruence|]. split; [|reflexivity].
    rewrite K4, G4, F4, R2. unfold new_fmq. fold mq.
    replace (nb + 3)%nat with (S (S (S nb))) by lia. replace (nb + 2)%nat with (S (S nb)) by lia.
    replace (nb + 1)%nat with (S nb) by lia. reflexivity.
  Qed.

  (* ------------------------------------------------------------------ *)
  (* Blocks of memory and queues *)

  Record inv (s : state) : Prop := {
    i_nodup : NoDup (heap s);
    i_fresh : forall b, In b (heap s) -> (b < next_block s)%nat;
    i_next : forall q, (next_queue s <= q)%nat -> queues s q = None;
    i_shape : forall q f, queues s q = Some f -> exists d, shape f d;
    i_refs : forall q f, queues s q = Some f -> 0 <= f_refs f;
    i_blocks : forall q f, queues s q = Some f -> NoDup (blocks f) /\ incl (blocks f) (heap s);
    i_apart : forall q q1 f f1 b, queues s q = Some f -> queues s q1 = Some f1 ->
      In b (blocks f) -> In b (blocks f1) -> q = q1;
    i_owned : forall b, In b (heap s) -> exists q f, queues s q = Some f /\ In b (blocks f)
  }.

  Lemma inv_start : inv start.
  Proof. split; cbn; try (intros; contradiction || discriminate || reflexivity). constructor. Qed.

  (* Nothing but pages, references, descriptors *)
  Lemma inv_refs s s1 : inv s ->
    heap s1 = heap s -> next_block s1 = next_block s -> next_queue s1 = next_queue s ->
    (forall q, match queues s1 q, queues s q with
               | Some f1, Some f => blocks f1 = blocks f /\ 0 <= f_refs f1 /\ f_desc f1 = f_desc f /\
                                    f_read f1 = f_read f
               | None, None => True
               | _, _ => False
               end) -> inv s1.
  Proof.
    intros I H1 H2 H3 H4.
    assert (K : forall q f1, queues s1 q = Some f1 -> exists f, queues s q = Some f /\
      blocks f1 = blocks f /\ 0 <= f_refs f1 /\ f_desc f1 = f_desc f /\ f_read f1 = f_read f).
    { intros q f1 E. specialize (H4 q). rewrite E in H4. destruct (queues s q) as [f|]; [|contradiction].
      exists f. tauto. }
    split; rewrite ?H1, ?H2, ?H3.
    - apply I.
    - apply I.
    - intros q Hq. specialize (H4 q). rewrite (i_next _ I q Hq) in H4. destruct (queues s1 q); [contradiction|reflexivity].
    - intros q f1 E. apply K in E. destruct E as (f & E & _ & _ & E1 & E2).
      destruct (i_shape _ I _ _ E) as (d & S1 & S2). exists d. split; [congruence|]. rewrite E2. exact S2.
    - intros q f1 E. apply K in E. destruct E as (f & _ & _ & E & _). exact E.
    - intros q f1 E. apply K in E. destruct E as (f & E & E1 & _). rewrite E1. apply (i_blocks _ I _ _ E).
    - intros q q1 f f1 b E1 E2 B1 B2. apply K in E1. apply K in E2.
      destruct E1 as (g1 & E1 & X1 & _). destruct E2 as (g2 & E2 & X2 & _). rewrite X1 in B1. rewrite X2 in B2.
      eapply (i_apart _ I); eauto.
    - intros b Hb. destruct (i_owned _ I _ Hb) as (q & f & E & B). specialize (H4 q). rewrite E in H4.
      destruct (queues s1 q) as [f1|] eqn:E1; [|contradiction]. exists q, f1. split; [exact E1|].
      destruct H4 as (-> & _). exact B.
  Qed.

  Lemma fresh_not s : inv s -> forall k, ~ In (next_block s + k)%nat (heap s).
  Proof. intros I k H. apply (i_fresh _ I) in H. lia. Qed.
  Lemma fresh_not0 s : inv s -> ~ In (next_block s) (heap s).
  Proof. intros I H. apply (i_fresh _ I) in H. lia. Qed.

  Lemma mapped_not_heap an p0 w q n p1 p : mapped_as an p0 w q n p1 p -> forall b, p <> Heap b.
  Proof. intros [(-> & _)|(g & a & _ & _ & -> & _)] b; discriminate. Qed.

  Lemma inv_made s rq an s1 q : inv s -> made s rq an s1 q -> inv s1.
  Proof.
    intros I (c & fd0 & r & w & g & e & p1 & p2 & p3 & M).
    cbv zeta in M. destruct M as (Hq & _ & _ & Mr & _ & _ & _ & Hh & Hn & _ & Hqs & Hnq).
    set (nb := next_block s) in *. set (f := new_fmq nb q c rq fd0 r w g e) in *.
    assert (Bl : exists l, blocks f = nb :: [nb + 2; nb + 1; nb + 3]%nat ++ l /\
      (l = [] /\ r_kind rq = Sync /\ (forall b, r <> Heap b) \/
       l = [nb + 4]%nat /\ r_kind rq = Unsync /\ r = Heap (nb + 4)%nat)).
    { unfold blocks, f, new_fmq. cbn [f_block f_desc f_read d_grantors d_fds d_block].
      destruct (r_kind rq).
      - pose proof (mapped_not_heap _ _ _ _ _ _ _ Mr) as Nh. exists []. split; [|left; auto].
        destruct r; [reflexivity|reflexivity|]. exfalso. eapply Nh; reflexivity.
      - destruct Mr as [-> _]. exists [nb + 4]%nat. split; [reflexivity|right; auto]. }
    destruct Bl as (l & Bl & Hl).
    assert (Hin : forall b, In b (heap s1) <-> In b (blocks f) \/ In b (heap s)).
    { intros b. rewrite Hh, Bl. destruct Hl as [(-> & -> & _)|(-> & -> & _)]; cbn [app In]; tauto. }
    assert (Hge : forall b, In b (blocks f) -> (nb <= b)%nat /\ (b < next_block s1)%nat).
    { intros b. rewrite Bl, Hn. destruct Hl as [(-> & -> & _)|(-> & -> & _)]; cbn [app In]; lia. }
    assert (Hlt : forall b, In b (heap s) -> (b < nb)%nat) by apply (i_fresh _ I).
    assert (NDb : NoDup (blocks f)).
    { rewrite Bl. destruct Hl as [(-> & _)|(-> & _)]; cbn [app];
        repeat (apply NoDup_cons; [cbn [In]; lia|]); apply NoDup_nil. }
    assert (Hold : forall x f0, queues s x = Some f0 -> (x < q)%nat).
    { intros x f0 E. destruct (Nat.lt_ge_cases x q) as [|Hx]; [assumption|].
      rewrite (i_next _ I x) in E by lia. discriminate. }
    assert (Hqs' : forall x f0, queues s1 x = Some f0 -> (x = q /\ f0 = f) \/ (x <> q /\ queues s x = Some f0)).
    { intros x f0. rewrite Hqs. destruct (Nat.eqb_spec x q); intros E; [left|right]; split; auto; congruence. }
    assert (Hqsq : queues s1 q = Some f) by (rewrite Hqs, Nat.eqb_refl; reflexivity).
    split.
    - rewrite Hh. assert (NoDup ([nb + 3; nb + 2; nb + 1; nb]%nat ++ heap s)).
      { cbn [app]. repeat (apply NoDup_cons;
          [cbn [In]; intros Hx; repeat (destruct Hx as [Hx|Hx]; [lia|]); apply Hlt in Hx; lia|]).
        apply (i_nodup _ I). }
      destruct (r_kind rq); [assumption|]. cbn [app] in *. apply NoDup_cons; [|assumption].
      cbn [In]. intros Hx; repeat (destruct Hx as [Hx|Hx]; [lia|]); apply Hlt in Hx; lia.
    - intros b Hb. apply Hin in Hb. destruct Hb as [Hb|Hb]; [apply Hge in Hb; lia|].
      apply Hlt in Hb. rewrite Hn. destruct (r_kind rq); lia.
    - intros x Hx. rewrite Hqs, Hnq in *. destruct (Nat.eqb_spec x q); [lia|]. apply (i_next _ I). lia.
    - intros x f0 E. apply Hqs' in E. destruct E as [[-> ->]|[_ E]]; [|apply (i_shape _ I _ _ E)].
      eexists. split; [reflexivity|]. unfold f, new_fmq. cbn [f_read d_mq fmq_desc mq_flags].
      destruct Hl as [(_ & -> & Nh)|(_ & -> & ->)]; [|reflexivity].
      destruct r; try reflexivity. exfalso. eapply Nh. reflexivity.
    - intros x f0 E. apply Hqs' in E. destruct E as [[-> ->]|[_ E]]; [unfold f; cbn; lia|apply (i_refs _ I _ _ E)].
    - intros x f0 E. apply Hqs' in E. destruct E as [[-> ->]|[_ E]].
      + split; [exact NDb|]. intros b Hb. apply Hin. left; exact Hb.
      + destruct (i_blocks _ I _ _ E) as [B1 B2]. split; [exact B1|]. intros b Hb. apply Hin. right. auto.
    - intros x y f0 f1 b E1 E2 B1 B2. apply Hqs' in E1. apply Hqs' in E2.
      destruct E1 as [[-> ->]|[_ E1]]; destruct E2 as [[-> ->]|[_ E2]].
      + reflexivity.
      + exfalso. apply Hge in B1. apply (proj2 (i_blocks _ I _ _ E2)), Hlt in B2. lia.
      + exfalso. apply Hge in B2. apply (proj2 (i_blocks _ I _ _ E1)), Hlt in B1. lia.
      + eapply (i_apart _ I); eauto.
    - intros b Hb. apply Hin in Hb. destruct Hb as [Hb|Hb]; [eauto|].
      destruct (i_owned _ I _ Hb) as (x & f0 & E & B). exists x, f0. split; [|exact B].
      rewrite Hqs. destruct (Nat.eqb_spec x q) as [K0|N]; [|exact E]. pose proof (Hold _ _ E). lia.
  Qed.

  Lemma inv_not_made s rq an s1 : inv s -> not_made s rq an s1 -> inv s1.
  Proof.
    intros I (_ & Hh & Hq & Hn & Hb & _). rewrite drop_none in Hh by (intros b [<-|[]]; apply fresh_not0, I).
    split; rewrite ?Hh, ?Hq, ?Hn; try apply I.
    intros b H. apply (i_fresh _ I) in H. lia.
  Qed.

  (* After a queue is freed *)
  Lemma inv_freed s q f s1 : inv s -> queues s q = Some f ->
    heap s1 = drop (blocks f) (heap s) -> next_block s1 = next_block s -> next_queue s1 = next_queue s ->
    queues s1 = (fun x => if Nat.eqb x q then None else queues s x) -> inv s1.
  Proof.
    intros I Ef Hh Hb Hn Hq.
    assert (K : forall x f0, queues s1 x = Some f0 -> x <> q /\ queues s x = Some f0).
    { intros x f0. rewrite Hq. destruct (Nat.eqb_spec x q); [discriminate|]. auto. }
    split; rewrite ?Hh, ?Hb, ?Hn.
    - apply NoDup_drop, I.
    - intros b H. apply in_drop in H. apply (i_fresh _ I), H.
    - intros x Hx. rewrite Hq. destruct (Nat.eqb x q); [reflexivity|]. apply (i_next _ I), Hx.
    - intros x f0 E. apply K in E. apply (i_shape _ I x), E.
    - intros x f0 E. apply K in E. apply (i_refs _ I x), E.
    - intros x f0 E. apply K in E. destruct E as [N E]. destruct (i_blocks _ I _ _ E) as [B1 B2].
      split; [exact B1|]. intros b Hb'. apply in_drop. split; [auto|]. intros Hc.
      apply N. eapply (i_apart _ I); eauto.
    - intros x y f0 f1 b E1 E2. apply K in E1. apply K in E2. apply (i_apart _ I); tauto.
    - intros b H. apply in_drop in H. destruct H as [H1 H2]. destruct (i_owned _ I _ H1) as (x & f0 & E & B).
      exists x, f0. split; [|exact B]. rewrite Hq. destruct (Nat.eqb_spec x q) as [K0|]; [|exact E].
      rewrite K0, Ef in E. injection E as <-. contradiction.
  Qed.

  Lemma step_inv s m s1 : inv s -> step s m = Ok s1 -> inv s1.
  Proof.
    intros I. destruct m as [rq an|q|q|q|a n|a n]; cbn [FmqLifeModel.step].
    - destruct (fmq_create s rq an) as [[s2 r]| |] eqn:E; try discriminate. cbn [bind]. intros H. injection H as <-.
      apply create_cases in E; [|apply fresh_not0, I]. destruct r as [q|]; [eapply inv_made|eapply inv_not_made]; eauto.
    - destruct (queues s q) as [f|] eqn:E; [|discriminate]. destruct (Z.ltb_spec 0 (f_refs f)); [|discriminate].
      intros H0. injection H0 as <-. apply (inv_refs s); auto; cbn [with_queue queues].
      intros x. destruct (Nat.eqb_spec x q) as [->|].
      + rewrite E. cbn [set_refs f_refs]. repeat split. lia.
      + pose proof (i_refs _ I x). destruct (queues s x); [repeat split; auto|exact Logic.I].
    - destruct (queues s q) as [f|] eqn:E; [|discriminate]. destruct (Z.ltb_spec 0 (f_refs f)); [|discriminate].
      intros H0. injection H0 as <-. apply (inv_refs s); auto; cbn [with_queue queues].
      intros x. destruct (Nat.eqb_spec x q) as [->|].
      + rewrite E. cbn [set_refs f_refs]. repeat split. lia.
      + pose proof (i_refs _ I x). destruct (queues s x); [repeat split; auto|exact Logic.I].
    - destruct (queues s q) as [f|] eqn:E; [|discriminate]. destruct (f_refs f =? 0); [|discriminate].
      destruct (i_shape _ I _ _ E) as (d & Sd). destruct (i_blocks _ I _ _ E) as [B1 B2].
      destruct (free_queue s f d Sd B1 B2) as (s2 & E2 & H1 & H2 & H3 & H4 & H5 & H6).
      rewrite E2. cbn [bind]. intros H. injection H as <-.
      eapply inv_freed; eauto; cbn [with_queue heap next_block next_queue queues]; try assumption.
      rewrite H5. reflexivity.
    - destruct (_ && _); [|discriminate]. intros H. injection H as <-. apply (inv_refs s); auto.
      intros x. cbn [with_pages queues]. pose proof (i_refs _ I x). destruct (queues s x); [repeat split; auto|exact Logic.I].
    - destruct (all_app _ _ _); [|discriminate]. intros H. injection H as <-. apply (inv_refs s); auto.
      intros x. cbn [with_pages queues]. pose proof (i_refs _ I x). destruct (queues s x); [repeat split; auto|exact Logic.I].
  Qed.

  Lemma run_snoc l : forall s m, run s (l ++ [m]) = (let* s1 := run s l in step s1 m).
  Proof.
    induction l as [|x l IH]; intros s m; cbn [app FmqLifeModel.run bind].
    - destruct (step s m); reflexivity.
    - destruct (step s x); cbn [bind]; [apply IH|reflexivity|reflexivity].
  Qed.

  Lemma run_inv l : forall s s1, inv s -> run s l = Ok s1 -> inv s1.
  Proof.
    induction l as [|m l IH]; intros s s1 I; cbn [FmqLifeModel.run].
    - intros H. injection H as <-. exact I.
    - destruct (step s m) eqn:E; try discriminate. cbn [bind]. apply IH. eapply step_inv; eauto.
  Qed.

  (* ------------------------------------------------------------------ *)
  (* Crashes *)

  Lemma pointers_len c rq g n : request_new rq = Some c -> (n < 2)%nat ->
    nth_error (c_grantors c) n = Some g -> u32 (region_len g) <> 0.
  Proof.
    intros Hc Hn. unfold request_new, fmq_new in Hc.
    repeat match type of Hc with (if ?b then _ else _) = _ => destruct b; [discriminate|] end.
    injection Hc as <-. cbn [c_grantors]. unfold create_grantors.
    intros Hg. assert (Hg' : (g_offset g = 0 \/ g_offset g = 8) /\ g_extent g = 8).
    { destruct n as [|[|n]]; [| |lia]; cbn in Hg; injection Hg as <-; cbn [g_offset g_extent];
        (split; [|reflexivity]); [left|right]; destruct Hbits as [-> | ->]; reflexivity. }
    destruct Hg' as [Ho He]. unfold region_len. rewrite He.
    assert (0 <= g_offset g mod page < 9).
    { destruct Ho as [-> | ->]; [rewrite Z.mod_0_l by lia; lia|].
      pose proof (Z.mod_pos_bound 8 page ltac:(lia)). pose proof (Z.mod_le 8 page ltac:(lia) ltac:(lia)). lia. }
    unfold u32. rewrite Z.mod_small by lia. lia.
  Qed.

  Lemma map_not_null s an w q n s1 p g : map_grantor s an w q n = Ok (s1, p) -> an <> None ->
    nth_error (mq_grantors q) n = Some g -> u32 (region_len g) <> 0 -> p <> Null.
  Proof.
    intros H Ha Hg Hl. apply map_as in H. destruct H as [_ [(_ & _ & [H|H])|(g1 & a & _ & _ & -> & _)]].
    - congruence.
    - apply H in Hg. contradiction.
    - discriminate.
  Qed.

  Lemma fresh_grantors c rq : request_new rq = Some c ->
    (exists g, nth_error (c_grantors c) 0 = Some g) /\ (exists g, nth_error (c_grantors c) 1 = Some g) /\
    (exists g, nth_error (c_grantors c) 2 = Some g).
  Proof.
    intros Hc. unfold request_new, fmq_new in Hc.
    repeat match type of Hc with (if ?b then _ else _) = _ => destruct b; [discriminate|] end.
    injection Hc as <-. cbn [c_grantors]. unfold create_grantors. cbn [app create_grantors_loop nth_error].
    repeat split; eexists; reflexivity.
  Qed.

  (* The only crash is that of storing to where nothing has been mapped *)
  Lemma create_dies s rq an d : fmq_create s rq an = Died d ->
    d = NullStore /\ (a_write an = None \/ r_kind rq = Sync /\ a_read an = None).
  Proof.
    unfold FmqLifeModel.fmq_create. fold (request_new rq).
    destruct (request_new rq) as [c|] eqn:Ec; [|discriminate].
    unfold alloc at 1. cbv beta iota zeta.
    assert (Hfail : forall l d',
      (let* s3 := fmq_free (with_fds {| pages := pages s; fds := fds s; heap := next_block s :: heap s;
           next_block := S (next_block s); queues := queues s; next_queue := next_queue s |} l)
           {| f_block := next_block s; f_refs := 0; f_desc := None; f_read := Null;
              f_write := Null; f_ring := Null; f_event := Null |} in Ok (s3, @None nat)) <> Died d').
    { intros l d'. unfold FmqLifeModel.fmq_free. cbn [f_desc f_block bind].
      rewrite free_ok by (left; reflexivity). discriminate. }
    destruct (a_memfd an) as [fd0|]; [|intros H; exfalso; exact (Hfail (fds s) d H)].
    destruct (existsb (Z.eqb fd0) (fds s)); [discriminate|].
    destruct (a_ftruncate an); cbn [negb]; [|intros H; exfalso; exact (Hfail _ d H)].
    clear Hfail. unfold alloc, with_fds. cbv beta iota zeta. cbn [next_block heap pages fds queues next_queue].
    set (mq := fmq_desc c (fmq_type (r_kind rq)) fd0 (r_fd rq)).
    match goal with |- context [map_grantor ?x (a_read an)] => set (s5 := x) end.
    destruct (fresh_grantors _ _ Ec) as ((g0 & G0) & (g1 & G1) & _).
    pose proof (pointers_len _ _ _ 0%nat Ec ltac:(lia) G0) as L0.
    pose proof (pointers_len _ _ _ 1%nat Ec ltac:(lia) G1) as L1.
    match goal with |- bind ?x _ = _ -> _ => destruct x as [[s6 rp]|d0|] eqn:E6; try discriminate end.
    2:{ exfalso. destruct (r_kind rq); [|discriminate]. eapply map_dies; eauto. }
    cbn [bind].
    destruct (map_grantor s6 (a_write an) (OfQueue (next_queue s) SWrite) mq 1) as [[s7 wp]|d0|] eqn:E7; try discriminate.
    2:{ exfalso. eapply map_dies; eauto. }
    cbn [bind].
    assert (Nw : a_write an <> None -> wp <> Null) by (intros Ha; eapply map_not_null; eauto).
    assert (Nr : (r_kind rq = Sync -> a_read an <> None) -> rp <> Null).
    { intros Ha. destruct (r_kind rq); [eapply map_not_null; eauto|]. injection E6 as <- <-. discriminate. }
    match goal with |- bind ?x _ = _ -> _ => destruct x as [[]|d0|] eqn:E8; try discriminate end.
    2:{ cbn [bind]. intros H. injection H as <-.
        assert (K : forall p, store p = Died d0 -> p = Null /\ d0 = NullStore)
          by (intros [| |] Hp; cbn in Hp; try discriminate; split; congruence).
        destruct (negb (r_no_reset rq)).
        - destruct (store rp) as [[]|d1|] eqn:E9; cbn [bind] in E8; try discriminate.
          + apply K in E8. destruct E8 as [-> ->]. split; [reflexivity|]. left.
            destruct (a_write an); [exfalso; apply Nw; congruence|reflexivity].
          + injection E8 as ->. apply K in E9. destruct E9 as [-> ->]. split; [reflexivity|]. right.
            destruct (r_kind rq); [|exfalso; apply Nr; congruence].
            destruct (a_read an); [exfalso; apply Nr; congruence|auto].
        - destruct (r_kind rq); [discriminate|]. apply K in E8. destruct E8 as [-> _].
          exfalso; apply Nr; congruence. }
    cbn [bind].
    destruct (map_grantor s7 (a_ring an) (OfQueue (next_queue s) SRing) mq 2) as [[s8 gp]|d0|] eqn:E9; try discriminate.
    2:{ exfalso. eapply map_dies; eauto. }
    cbn [bind].
    match goal with |- bind ?x _ = _ -> _ => destruct x as [[s9 ep]|d0|] eqn:E10; try discriminate end.
    exfalso. destruct (_ <? _); [|discriminate]. eapply map_dies; eauto.
  Qed.

  Lemma step_dies s m d : inv s -> step s m = Died d -> d = NullStore /\ ~ granted m.
  Proof.
    intros I. destruct m as [rq an|q|q|q|a n|a n]; cbn [FmqLifeModel.step].
    - destruct (fmq_create s rq an) as [[s2 r]|d0|] eqn:E; try discriminate. cbn [bind]. intros H. injection H as <-.
      apply create_dies in E. cbn [granted]. intuition congruence.
    - destruct (queues s q); [|discriminate]. destruct (_ <? _); discriminate.
    - destruct (queues s q); [|discriminate]. destruct (_ <? _); discriminate.
    - destruct (queues s q) as [f|] eqn:E; [|discriminate]. destruct (f_refs f =? 0); [|discriminate].
      destruct (i_shape _ I _ _ E) as (d1 & Sd). destruct (i_blocks _ I _ _ E) as [B1 B2].
      destruct (free_queue s f d1 Sd B1 B2) as (s2 & E2 & _). rewrite E2. discriminate.
    - destruct (_ && _); discriminate.
    - destruct (all_app _ _ _); discriminate.
  Qed.

  Lemma run_dies l : forall s d, inv s -> run s l = Died d -> d = NullStore /\ ~ Forall granted l.
  Proof.
    induction l as [|m l IH]; intros s d I; cbn [FmqLifeModel.run]; [discriminate|].
    destruct (step s m) as [s1|d1|] eqn:E; try discriminate; cbn [bind].
    - intros H. apply IH in H; [|eapply step_inv; eauto]. destruct H as [H1 H2]. split; [exact H1|].
      intros H3. inversion H3; auto.
    - intros H. injection H as ->. apply step_dies in E; [|exact I]. destruct E as [H1 H2]. split; [exact H1|].
      intros H3. inversion H3; auto.
  Qed.

  (* ------------------------------------------------------------------ *)
  (* Pages *)

  Definition placed (d : qdesc) (sl : slot) (g : grantor) (at_ a : Z) : Prop :=
    nth_error (mq_grantors (d_mq d)) (index sl) = Some g /\ 0 < at_ /\
    a = at_ * page + g_offset g mod page.
  Definition label (q : nat) (sl : slot) (d : qdesc) (g : grantor) (at_ x : Z) : mapping :=
    {| m_owner := OfQueue q sl; m_fd := nth (Z.to_nat (fd_index g)) (mq_fds (d_mq d)) 0;
       m_file := g_offset g / page + (x - at_) |}.
  Definition exact_len (g : grantor) : Prop := u32 (region_len g) = region_len g /\ 0 < region_len g.

  Lemma placed_same d sl g h a1 a2 a : placed d sl g a1 a -> placed d sl h a2 a -> g = h /\ a1 = a2.
  Proof.
    intros (H1 & H2 & H3) (K1 & K2 & K3). rewrite H1 in K1. injection K1 as <-. split; [reflexivity|].
    pose proof (Z.mod_pos_bound (g_offset g) page ltac:(lia)). nia.
  Qed.

  Record pinv (s : state) : Prop := {
    p_exact : forall q f d, queues s q = Some f -> f_desc f = Some d ->
      Forall exact_len (mq_grantors (d_mq d));
    p_heap : forall q f sl b, queues s q = Some f -> pointer f sl = Heap b -> sl = SRead;
    p_ptrs : forall q f sl a, queues s q = Some f -> pointer f sl = Mapped a ->
      exists d g at_, f_desc f = Some d /\ placed d sl g at_ a /\
        forall x, in_pages x at_ (npages (region_len g)) = true ->
        pages s x = Some (label q sl d g at_ x);
    p_owned : forall x m q sl, pages s x = Some m -> m_owner m = OfQueue q sl ->
      exists f d g at_ a, queues s q = Some f /\ f_desc f = Some d /\ pointer f sl = Mapped a /\
        placed d sl g at_ a /\ in_pages x at_ (npages (region_len g)) = true
  }.

  Lemma pinv_start : pinv start.
  Proof. split; cbn; intros; discriminate. Qed.

  Definition grown (p0 p1 : Z -> option mapping) (q : nat) (d : qdesc) (sl : slot) (p : qptr) : Prop :=
    (forall x m, p0 x = Some m -> p1 x = Some m) /\
    (forall x m, p1 x = Some m -> p0 x = Some m \/
       m_owner m = OfQueue q sl /\ exists g at_ a, p = Mapped a /\ placed d sl g at_ a /\
         in_pages x at_ (npages (region_len g)) = true) /\
    (forall a, p = Mapped a -> exists g at_, placed d sl g at_ a /\
       forall x, in_pages x at_ (npages (region_len g)) = true -> p1 x = Some (label q sl d g at_ x)).

  Lemma mapped_grown an p0 q d sl p1 p : Forall exact_len (mq_grantors (d_mq d)) ->
    mapped_as an p0 (OfQueue q sl) (d_mq d) (index sl) p1 p -> grown p0 p1 q d sl p.
  Proof.
    intros Hx [(-> & -> & _)|(g & at_ & Hg & Ha & -> & Hz & Hf & -> & _)].
    - split; [auto|]. split; [auto|discriminate].
    - assert (He : exact_len g) by (rewrite Forall_forall in Hx; apply Hx, (nth_error_In _ _ Hg)).
      destruct He as [He1 He2]. rewrite He1 in *. split; [|split].
      + intros x m Hm. destruct (in_pages _ _ _) eqn:E; [apply Hf in E; congruence|exact Hm].
      + intros x m. destruct (in_pages _ _ _) eqn:E; [|auto]. intros H. injection H as <-. right.
        split; [reflexivity|]. exists g, at_, (at_ * page + g_offset g mod page).
        split; [reflexivity|]. split; [split; [exact Hg|split; [exact Ha|reflexivity]]|exact E].
      + intros a H. injection H as <-. exists g, at_. split; [split; [exact Hg|split; [exact Ha|reflexivity]]|].
        intros x E. rewrite E. reflexivity.
  Qed.

  Lemma request_exact rq c : request_new rq = Some c ->
    r_num_items rq * r_item_size rq + 27 + page <= 2 ^ 32 -> Forall exact_len (c_grantors c).
  Proof.
    intros Hc Hs. unfold request_new in Hc.
    destruct (layout _ _ _ _ _ _ _ _ _ Hbits Hpage Hs Hc) as (_ & _ & _ & (L1 & _ & _ & _ & L5) & L).
    assert (Hpos : 0 < r_num_items rq * r_item_size rq).
    { unfold fmq_new in Hc. destruct (Z.leb_spec (r_item_size rq) 0); [discriminate|].
      destruct (Z.leb_spec (r_num_items rq) 0); [discriminate|]. nia. }
    rewrite Forall_forall in *. intros g Hg. specialize (L g Hg). unfold mapping_ok, map_range in L.
    assert (Er : g_offset g - g_offset g / page * page = g_offset g mod page)
      by (pose proof (Z.div_mod (g_offset g) page ltac:(lia)); lia).
    rewrite Er in L. fold (region_len g) in L. destruct L as (_ & _ & L).
    assert (He : 0 < g_extent g).
    { assert (Hi : In (g_extent g) (map g_extent (c_grantors c))) by (apply in_map; exact Hg).
      rewrite L1 in Hi. apply in_app_or in Hi. cbn [In] in Hi. destruct (r_event_flag rq); cbn [In] in Hi; lia. }
    pose proof (Z.mod_pos_bound (g_offset g) page ltac:(lia)). unfold exact_len. unfold region_len at 2 3.
    split; lia.
  Qed.

  Lemma pinv_made s rq an s1 q : inv s -> pinv s -> small page (New rq an) -> made s rq an s1 q -> pinv s1.
  Proof.
    intros I P Hs (c & fd0 & r & w & g & e & p1 & p2 & p3 & M).
    cbv zeta in M. destruct M as (Hq & Hc & _ & Mr & Mw & Mg & Me & _ & _ & _ & Hqs & _).
    set (nb := next_block s) in *. set (f := new_fmq nb q c rq fd0 r w g e) in *.
    set (d := {| d_block := nb + 3; d_grantors := nb + 2; d_fds := nb + 1;
                 d_mq := fmq_desc c (fmq_type (r_kind rq)) fd0 (r_fd rq) |}).
    assert (Hd : f_desc f = Some d) by reflexivity.
    assert (Hx : Forall exact_len (mq_grantors (d_mq d))) by (exact (request_exact _ _ Hc Hs)).
    assert (Gr : grown (pages s) p1 q d SRead r).
    { destruct (r_kind rq); [apply (mapped_grown (a_read an)); assumption|].
      destruct Mr as [-> ->]. split; [auto|]. split; [auto|discriminate]. }
    assert (Hr : forall b, r = Heap b -> True) by auto.
    pose proof (mapped_grown _ _ _ d SWrite _ _ Hx Mw) as Gw.
    pose proof (mapped_grown _ _ _ d SRing _ _ Hx Mg) as Gg.
    pose proof (mapped_grown _ _ _ d SEvent _ _ Hx Me) as Ge.
    pose proof (mapped_not_heap _ _ _ _ _ _ _ Mw) as Nw. pose proof (mapped_not_heap _ _ _ _ _ _ _ Mg) as Ng.
    pose proof (mapped_not_heap _ _ _ _ _ _ _ Me) as Ne.
    destruct Gr as (R1 & R2 & R3). destruct Gw as (W1 & W2 & W3). destruct Gg as (T1 & T2 & T3).
    destruct Ge as (E1 & E2 & E3).
    assert (Hqs' : forall x f0, queues s1 x = Some f0 -> (x = q /\ f0 = f) \/ (x <> q /\ queues s x = Some f0)).
    { intros x f0. rewrite Hqs. destruct (Nat.eqb_spec x q); intros E; [left|right]; split; auto; congruence. }
    assert (Hqsq : queues s1 q = Some f) by (rewrite Hqs, Nat.eqb_refl; reflexivity).
    assert (Hold : forall x f0, queues s x = Some f0 -> queues s1 x = Some f0).
    { intros x f0 E. rewrite Hqs. destruct (Nat.eqb_spec x q) as [->|]; [|exact E].
      rewrite Hq, (i_next _ I) in E by lia. discriminate. }
    split.
    - intros x f0 d0 Ef Ed. apply Hqs' in Ef. destruct Ef as [[-> ->]|[_ Ef]]; [|eapply (p_exact _ P); eauto].
      rewrite Hd in Ed. injection Ed as <-. exact Hx.
    - intros x f0 sl b Ef Ep. apply Hqs' in Ef. destruct Ef as [[-> ->]|[_ Ef]]; [|eapply (p_heap _ P); eauto].
      destruct sl; cbn in Ep; [reflexivity| | |]; exfalso; [eapply Nw|eapply Ng|eapply Ne]; exact Ep.
    - intros x f0 sl a Ef Ep. apply Hqs' in Ef. destruct Ef as [[-> ->]|[_ Ef]].
      + exists d. destruct sl; cbn in Ep.
        * destruct (R3 a Ep) as (h & at_ & Hp & Hl). exists h, at_. repeat (split; [assumption|]). auto.
        * destruct (W3 a Ep) as (h & at_ & Hp & Hl). exists h, at_. repeat (split; [assumption|]). auto.
        * destruct (T3 a Ep) as (h & at_ & Hp & Hl). exists h, at_. repeat (split; [assumption|]). auto.
        * destruct (E3 a Ep) as (h & at_ & Hp & Hl). exists h, at_. repeat (split; [assumption|]). auto.
      + destruct (p_ptrs _ P _ _ _ _ Ef Ep) as (d0 & h & at_ & H1 & H2 & H3).
        exists d0, h, at_. repeat (split; [assumption|]). auto 8.
    - intros x m q0 sl Hm Ho.
      assert (Hcase : pages s x = Some m \/ (q0 = q /\ exists g0 at_ a, pointer f sl = Mapped a /\ placed d sl g0 at_ a /\
         in_pages x at_ (npages (region_len g0)) = true)).
      { apply E2 in Hm. destruct Hm as [Hm|(Hw & Hp)].
        2:{ right. rewrite Ho in Hw. injection Hw as -> ->. split; [reflexivity|exact Hp]. }
        apply T2 in Hm. destruct Hm as [Hm|(Hw & Hp)].
        2:{ right. rewrite Ho in Hw. injection Hw as -> ->. split; [reflexivity|exact Hp]. }
        apply W2 in Hm. destruct Hm as [Hm|(Hw & Hp)].
        2:{ right. rewrite Ho in Hw. injection Hw as -> ->. split; [reflexivity|exact Hp]. }
        apply R2 in Hm. destruct Hm as [Hm|(Hw & Hp)]; [left; exact Hm|].
        right. rewrite Ho in Hw. injection Hw as -> ->. split; [reflexivity|exact Hp]. }
      destruct Hcase as [Hm0|(-> & g0 & at_ & a & Hp & Hpl & Hin)].
      + destruct (p_owned _ P _ _ _ _ Hm0 Ho) as (f0 & d0 & g0 & at_ & a & A1 & A2 & A3 & A4 & A5).
        exists f0, d0, g0, at_, a. split; [apply Hold; exact A1|]. auto.
      + exists f, d, g0, at_, a. auto 8.
  Qed.

  (* Unmapping takes exactly what belongs to the pointer *)
  Lemma unmap_hits s q f d sl : pinv s -> queues s q = Some f -> f_desc f = Some d ->
    exists hit : Z -> bool,
      (forall s1 x, pages (unmap_grantor s1 (pointer f sl) (d_mq d) (index sl)) x =
                    if hit x then None else pages s1 x) /\
      (forall x, hit x = true <-> exists m, pages s x = Some m /\ m_owner m = OfQueue q sl).
  Proof.
    intros P Ef Ed.
    assert (Hno : (forall a, pointer f sl <> Mapped a) ->
      forall x, ~ exists m, pages s x = Some m /\ m_owner m = OfQueue q sl).
    { intros Hn x (m & Hm & Ho). destruct (p_owned _ P _ _ _ _ Hm Ho) as (f0 & d0 & g0 & at_ & a & A1 & A2 & A3 & _).
      rewrite Ef in A1. injection A1 as <-. eapply Hn; exact A3. }
    unfold FmqLifeModel.unmap_grantor. destruct (pointer f sl) as [|a|b] eqn:Ep.
    - exists (fun _ => false). split; [intros s1 x; destruct (nth_error _ _); reflexivity|].
      intros x. split; [discriminate|]. intros H. exfalso. eapply Hno; [discriminate|exact H].
    - destruct (p_ptrs _ P _ _ _ _ Ef Ep) as (d0 & g & at_ & H1 & H2 & H3).
      rewrite Ed in H1. injection H1 as <-.
      assert (He : exact_len g).
      { pose proof (p_exact _ P _ _ _ Ef Ed) as Hx. rewrite Forall_forall in Hx.
        apply Hx, (nth_error_In _ _ (proj1 H2)). }
      pose proof H2 as (G1 & G2 & G3). rewrite G1.
      exists (fun x => in_pages x at_ (npages (region_len g))). split.
      + intros s1 x. unfold FmqLifeModel.sys_munmap. fold (region_len g).
        replace (a - g_offset g mod page) with (at_ * page) by lia.
        rewrite Z.mod_mul, Z.div_mul by lia. rewrite Z.eqb_refl.
        destruct (Z.eqb_spec (region_len g) 0); [destruct He; lia|]. reflexivity.
      + intros x. split.
        * intros Hx. eexists. split; [apply H3; exact Hx|reflexivity].
        * intros (m & Hm & Ho). destruct (p_owned _ P _ _ _ _ Hm Ho) as (f0 & d0 & g0 & at0 & a0 & A1 & A2 & A3 & A4 & A5).
          rewrite Ef in A1. injection A1 as <-. rewrite Ed in A2. injection A2 as <-.
          rewrite Ep in A3. injection A3 as <-. destruct (placed_same _ _ _ _ _ _ _ H2 A4) as [<- <-]. exact A5.
    - exists (fun _ => false). split; [intros s1 x; destruct (nth_error _ _); reflexivity|].
      intros x. split; [discriminate|]. intros H. exfalso. eapply Hno; [discriminate|exact H].
  Qed.

  Lemma unmap_without s q f d x : pinv s -> queues s q = Some f -> f_desc f = Some d ->
    pages (unmap_all s f (d_mq d)) x = without q (pages s x).
  Proof.
    intros P Ef Ed. unfold unmap_all.
    assert (Er : pages (match f_read f with Mapped _ => unmap_grantor s (f_read f) (d_mq d) 0 | _ => s end) =
                 pages (unmap_grantor s (pointer f SRead) (d_mq d) (index SRead))).
    { cbn [pointer index]. destruct (f_read f); [|reflexivity|];
        unfold FmqLifeModel.unmap_grantor; destruct (nth_error _ _); reflexivity. }
    destruct (unmap_hits s q f d SRead P Ef Ed) as (h0 & A0 & B0).
    destruct (unmap_hits s q f d SWrite P Ef Ed) as (h1 & A1 & B1).
    destruct (unmap_hits s q f d SRing P Ef Ed) as (h2 & A2 & B2).
    destruct (unmap_hits s q f d SEvent P Ef Ed) as (h3 & A3 & B3).
    cbn [pointer index] in A1, A2, A3.
    rewrite A3, A2, A1, Er, A0.
    specialize (B0 x). specialize (B1 x). specialize (B2 x). specialize (B3 x).
    destruct (pages s x) as [m|] eqn:Em; cbn [without].
    2:{ destruct (h0 x), (h1 x), (h2 x), (h3 x); reflexivity. }
    assert (Hq : forall sl h, (h = true <-> exists m0, Some m = Some m0 /\ m_owner m0 = OfQueue q sl) ->
              h = true <-> m_owner m = OfQueue q sl).
    { intros sl h H. rewrite H. split; [intros (m0 & E & K); injection E as <-; exact K|intros K; eauto]. }
    apply Hq in B0. apply Hq in B1. apply Hq in B2. apply Hq in B3. clear Hq.
    destruct (m_owner m) as [|q1 sl].
    - destruct (h3 x); [exfalso; assert (App = OfQueue q SEvent) by (apply B3; reflexivity); discriminate|].
      destruct (h2 x); [exfalso; assert (App = OfQueue q SRing) by (apply B2; reflexivity); discriminate|].
      destruct (h1 x); [exfalso; assert (App = OfQueue q SWrite) by (apply B1; reflexivity); discriminate|].
      destruct (h0 x); [exfalso; assert (App = OfQueue q SRead) by (apply B0; reflexivity); discriminate|].
      reflexivity.
    - destruct (Nat.eqb_spec q1 q) as [->|Nq].
      + destruct sl; [assert (T : h0 x = true) by (apply B0; reflexivity)|
          assert (T : h1 x = true) by (apply B1; reflexivity)|
          assert (T : h2 x = true) by (apply B2; reflexivity)|
          assert (T : h3 x = true) by (apply B3; reflexivity)]; rewrite T;
          destruct (h0 x), (h1 x), (h2 x), (h3 x); reflexivity.
      + assert (K : forall sl h, (h = true <-> OfQueue q1 sl = OfQueue q sl) -> h = false \/ False).
        { intros sl0 h H. destruct h; [|auto]. assert (OfQueue q1 sl0 = OfQueue q sl0) by (apply H; reflexivity). congruence. }
        destruct (h3 x); [exfalso; assert (OfQueue q1 sl = OfQueue q SEvent) by (apply B3; reflexivity); congruence|].
        destruct (h2 x); [exfalso; assert (OfQueue q1 sl = OfQueue q SRing) by (apply B2; reflexivity); congruence|].
        destruct (h1 x); [exfalso; assert (OfQueue q1 sl = OfQueue q SWrite) by (apply B1; reflexivity); congruence|].
        destruct (h0 x); [exfalso; assert (OfQueue q1 sl = OfQueue q SRead) by (apply B0; reflexivity); congruence|].
        reflexivity.
  Qed.

  (* References, and pages of the application *)
  Lemma pinv_same s s1 : pinv s ->
    (forall q, match queues s1 q, queues s q with
               | Some f1, Some f => f_desc f1 = f_desc f /\ forall sl, pointer f1 sl = pointer f sl
               | None, None => True
               | _, _ => False
               end) ->
    (forall x m q sl, m_owner m = OfQueue q sl -> (pages s1 x = Some m <-> pages s x = Some m)) ->
    pinv s1.
  Proof.
    intros P Hq Hp.
    assert (K : forall q f1, queues s1 q = Some f1 -> exists f, queues s q = Some f /\
      f_desc f1 = f_desc f /\ forall sl, pointer f1 sl = pointer f sl).
    { intros q f1 E. specialize (Hq q). rewrite E in Hq. destruct (queues s q) as [f|]; [|contradiction].
      exists f. tauto. }
    split.
    - intros q f1 d E Ed. apply K in E. destruct E as (f & E & E1 & _). rewrite E1 in Ed. eapply (p_exact _ P); eauto.
    - intros q f1 sl b E Ep. apply K in E. destruct E as (f & E & _ & E1). rewrite E1 in Ep. eapply (p_heap _ P); eauto.
    - intros q f1 sl a E Ep. apply K in E. destruct E as (f & E & E0 & E1). rewrite E1 in Ep.
      destruct (p_ptrs _ P _ _ _ _ E Ep) as (d & g & at_ & A1 & A2 & A3). exists d, g, at_.
      split; [congruence|]. split; [exact A2|]. intros x Hx. apply (Hp x _ q sl); [reflexivity|]. auto.
    - intros x m q sl Hm Ho. apply (Hp x m q sl Ho) in Hm.
      destruct (p_owned _ P _ _ _ _ Hm Ho) as (f & d & g & at_ & a & A1 & A2 & A3 & A4 & A5).
      specialize (Hq q). rewrite A1 in Hq. destruct (queues s1 q) as [f1|] eqn:E1; [|contradiction].
      destruct Hq as [Q1 Q2]. exists f1, d, g, at_, a. rewrite Q1, Q2. auto 8.
  Qed.

  Lemma step_pinv s m s1 : inv s -> pinv s -> small page m -> step s m = Ok s1 -> pinv s1.
  Proof.
    intros I P Hs. destruct m as [rq an|q|q|q|a n|a n]; cbn [FmqLifeModel.step].
    - destruct (fmq_create s rq an) as [[s2 r]| |] eqn:E; try discriminate. cbn [bind]. intros H. injection H as <-.
      apply create_cases in E; [|apply fresh_not0, I]. destruct r as [q|]; [eapply pinv_made; eauto|].
      destruct E as (E1 & _ & E2 & _). apply (pinv_same s); [exact P| |].
      + intros q. rewrite E2. destruct (queues s q); auto.
      + intros x m q sl _. rewrite E1. reflexivity.
    - destruct (queues s q) as [f|] eqn:E; [|discriminate]. destruct (Z.ltb_spec 0 (f_refs f)); [|discriminate].
      intros H0. injection H0 as <-. apply (pinv_same s); [exact P| |intros; reflexivity].
      intros x. cbn [with_queue queues]. destruct (Nat.eqb_spec x q) as [->|].
      + rewrite E. split; [reflexivity|]. intros []; reflexivity.
      + destruct (queues s x); auto.
    - destruct (queues s q) as [f|] eqn:E; [|discriminate]. destruct (Z.ltb_spec 0 (f_refs f)); [|discriminate].
      intros H0. injection H0 as <-. apply (pinv_same s); [exact P| |intros; reflexivity].
      intros x. cbn [with_queue queues]. destruct (Nat.eqb_spec x q) as [->|].
      + rewrite E. split; [reflexivity|]. intros []; reflexivity.
      + destruct (queues s x); auto.
    - destruct (queues s q) as [f|] eqn:E; [|discriminate]. destruct (f_refs f =? 0); [|discriminate].
      destruct (i_shape _ I _ _ E) as (d & Sd). destruct (i_blocks _ I _ _ E) as [B1 B2].
      destruct (free_queue s f d Sd B1 B2) as (s2 & E2 & H1 & H2 & H3 & H4 & H5 & H6).
      rewrite E2. cbn [bind]. intros H. injection H as <-. destruct Sd as [Ed _].
      assert (Hpg : forall x, pages s2 x = without q (pages s x))
        by (intros x; rewrite H2; apply unmap_without; assumption).
      assert (K : forall x f0, queues (with_queue s2 q None) x = Some f0 -> x <> q /\ queues s x = Some f0).
      { intros x f0. cbn [with_queue queues]. rewrite H5. destruct (Nat.eqb_spec x q); [discriminate|]. auto. }
      assert (Hw : forall x m q1 sl, m_owner m = OfQueue q1 sl -> q1 <> q ->
                     (pages s2 x = Some m <-> pages s x = Some m)).
      { intros x m q1 sl Ho Nq. rewrite Hpg. unfold without. destruct (pages s x) as [m0|]; [|reflexivity].
        destruct (m_owner m0) as [|q2 sl2] eqn:Eo; [reflexivity|].
        destruct (Nat.eqb_spec q2 q); [|reflexivity]. split; [discriminate|]. intros H. injection H as ->. congruence. }
      split.
      + intros x f0 d0 Ef Ed0. apply K in Ef. eapply (p_exact _ P); [apply Ef|exact Ed0].
      + intros x f0 sl b Ef. apply K in Ef. eapply (p_heap _ P). apply Ef.
      + intros x f0 sl a Ef Ep. apply K in Ef. destruct Ef as [N Ef].
        destruct (p_ptrs _ P _ _ _ _ Ef Ep) as (d0 & g & at_ & A1 & A2 & A3). exists d0, g, at_.
        split; [exact A1|]. split; [exact A2|]. intros y Hy. cbn [with_queue pages].
        apply (Hw y _ x sl); [reflexivity|exact N|auto].
      + intros x m q1 sl Hm Ho. cbn [with_queue pages] in Hm.
        assert (Nq : q1 <> q).
        { intros ->. rewrite Hpg in Hm. unfold without in Hm. destruct (pages s x) as [m0|]; [|discriminate].
          destruct (m_owner m0) as [|q2 sl2] eqn:Eo; [injection Hm as ->; congruence|].
          destruct (Nat.eqb_spec q2 q); [discriminate|]. injection Hm as ->. congruence. }
        apply (Hw x m q1 sl Ho Nq) in Hm.
        destruct (p_owned _ P _ _ _ _ Hm Ho) as (f0 & d0 & g & at_ & a & A1 & A2).
        exists f0, d0, g, at_, a. split; [|exact A2]. cbn [with_queue queues]. rewrite H5.
        destruct (Nat.eqb_spec q1 q); [contradiction|exact A1].
    - destruct (0 <? a); [|discriminate]. cbn [andb]. destruct (range_free _ _ _) eqn:Ef; [|discriminate].
      intros H. injection H as <-. apply (pinv_same s); [exact P| |].
      + intros q. cbn [with_pages queues]. destruct (queues s q); auto.
      + intros x m q sl Ho. cbn [with_pages pages]. destruct (in_pages x a n) eqn:Ei; [|reflexivity].
        rewrite (free_range _ _ _ _ Ef Ei). split; [|discriminate]. intros H. injection H as <-. discriminate Ho.
    - destruct (all_app _ _ _) eqn:Ef; [|discriminate].
      intros H. injection H as <-. apply (pinv_same s); [exact P| |].
      + intros q. cbn [with_pages queues]. destruct (queues s q); auto.
      + intros x m q sl Ho. cbn [with_pages pages]. destruct (in_pages x a n) eqn:Ei; [|reflexivity].
        split; [discriminate|]. intros Hm. exfalso. unfold all_app in Ef. rewrite forallb_forall in Ef.
        unfold in_pages in Ei. specialize (Ef (Z.to_nat (x - a)) ltac:(apply in_seq; lia)).
        replace (a + Z.of_nat (Z.to_nat (x - a))) with x in Ef by lia. rewrite Hm, Ho in Ef. discriminate.
  Qed.

  Lemma run_pinv l : forall s s1, inv s -> pinv s -> Forall (small page) l -> run s l = Ok s1 -> pinv s1.
  Proof.
    induction l as [|m l IH]; intros s s1 I P Hs; cbn [FmqLifeModel.run].
    - intros H. injection H as <-. exact P.
    - inversion Hs as [|x y Hm Hl]; subst x y. destruct (step s m) eqn:E; try discriminate. cbn [bind].
      apply IH; [eapply step_inv; eauto|eapply step_pinv; eauto|exact Hl].
  Qed.

  (* ------------------------------------------------------------------ *)
  (* No pointer is missing *)
  Definition full (s : state) : Prop :=
    forall q f d sl g, queues s q = Some f -> f_desc f = Some d ->
    nth_error (mq_grantors (d_mq d)) (index sl) = Some g -> pointer f sl <> Null.

  Lemma full_start : full start.
  Proof. intros q f d sl g H. discriminate H. Qed.

  Lemma mapped_not_null an p0 w q n p1 p g : mapped_as an p0 w q n p1 p -> an <> None ->
    nth_error (mq_grantors q) n = Some g -> u32 (region_len g) <> 0 -> p <> Null.
  Proof.
    intros [(_ & _ & [H|H])|(g1 & a & _ & _ & -> & _)] Ha Hg Hl.
    - congruence.
    - apply H in Hg. contradiction.
    - discriminate.
  Qed.

  Lemma full_made s rq an s1 q : full s -> small page (New rq an) -> granted (New rq an) ->
    made s rq an s1 q -> full s1.
  Proof.
    intros F Hs (G1 & G2 & G3 & G4) (c & fd0 & r & w & g & e & p1 & p2 & p3 & M).
    cbv zeta in M. destruct M as (Hq & Hc & _ & Mr & Mw & Mg & Me & _ & _ & _ & Hqs & _).
    intros x f d sl h. rewrite Hqs. destruct (Nat.eqb x q); [|apply F].
    intros Ef Ed Hg. injection Ef as <-. cbn [new_fmq f_desc] in Ed. injection Ed as <-. cbn [d_mq] in Hg.
    assert (Hl : u32 (region_len h) <> 0).
    { pose proof (request_exact _ _ Hc Hs) as Hx. rewrite Forall_forall in Hx.
      destruct (Hx h (nth_error_In _ _ Hg)) as [-> ?]. lia. }
    destruct sl; cbn [pointer new_fmq f_read f_write f_ring f_event index] in *.
    - destruct (r_kind rq); [eapply mapped_not_null; eauto|]. destruct Mr as [-> _]. discriminate.
    - eapply mapped_not_null; eauto.
    - eapply mapped_not_null; eauto.
    - eapply mapped_not_null; eauto.
  Qed.

  Lemma step_full s m s1 : inv s -> full s -> small page m -> granted m -> step s m = Ok s1 -> full s1.
  Proof.
    intros I F Hs Hg. destruct m as [rq an|q|q|q|a n|a n]; cbn [FmqLifeModel.step].
    - destruct (fmq_create s rq an) as [[s2 r]| |] eqn:E; try discriminate. cbn [bind]. intros H. injection H as <-.
      apply create_cases in E; [|apply fresh_not0, I]. destruct r as [q|]; [eapply full_made; eauto|].
      destruct E as (_ & _ & E2 & _). unfold full. rewrite E2. exact F.
    - destruct (queues s q) as [f|] eqn:E; [|discriminate]. destruct (Z.ltb_spec 0 (f_refs f)); [|discriminate].
      intros H0. injection H0 as <-. intros x f0 d sl g. cbn [with_queue queues].
      destruct (Nat.eqb_spec x q) as [->|]; [|apply F]. intros H0. injection H0 as <-.
      cbn [set_refs f_desc]. intros Ed Eg. pose proof (F q f d sl g E Ed Eg) as K. destruct sl; exact K.
    - destruct (queues s q) as [f|] eqn:E; [|discriminate]. destruct (Z.ltb_spec 0 (f_refs f)); [|discriminate].
      intros H0. injection H0 as <-. intros x f0 d sl g. cbn [with_queue queues].
      destruct (Nat.eqb_spec x q) as [->|]; [|apply F]. intros H0. injection H0 as <-.
      cbn [set_refs f_desc]. intros Ed Eg. pose proof (F q f d sl g E Ed Eg) as K. destruct sl; exact K.
    - destruct (queues s q) as [f|] eqn:E; [|discriminate]. destruct (f_refs f =? 0); [|discriminate].
      destruct (i_shape _ I _ _ E) as (d & Sd). destruct (i_blocks _ I _ _ E) as [B1 B2].
      destruct (free_queue s f d Sd B1 B2) as (s2 & E2 & H1 & H2 & H3 & H4 & H5 & H6).
      rewrite E2. cbn [bind]. intros H. injection H as <-. intros x f0 d0 sl g.
      cbn [with_queue queues]. rewrite H5. destruct (Nat.eqb x q); [discriminate|]. apply F.
    - destruct (_ && _); [|discriminate]. intros H. injection H as <-. exact F.
    - destruct (all_app _ _ _); [|discriminate]. intros H. injection H as <-. exact F.
  Qed.

  Lemma run_full l : forall s s1, inv s -> full s -> Forall (small page) l -> Forall granted l ->
    run s l = Ok s1 -> full s1.
  Proof.
    induction l as [|m l IH]; intros s s1 I P Hs Hg; cbn [FmqLifeModel.run].
    - intros H. injection H as <-. exact P.
    - inversion Hs as [|x y Hm Hl]; subst x y. inversion Hg as [|x y Gm Gl]; subst x y.
      destruct (step s m) eqn:E; try discriminate. cbn [bind].
      apply IH; [eapply step_inv; eauto|eapply step_full; eauto|exact Hl|exact Gl].
  Qed.

  Lemma placed_visible s q d sl g at_ a : 0 <= g_offset g -> exact_len g -> placed d sl g at_ a ->
    (forall x, in_pages x at_ (npages (region_len g)) = true -> pages s x = Some (label q sl d g at_ x)) ->
    visible page s a (nth (Z.to_nat (fd_index g)) (mq_fds (d_mq d)) 0) (g_offset g) (g_extent g).
  Proof.
    intros Ho [_ He] (_ & Ha & ->) Hp k Hk. set (r := g_offset g mod page) in *.
    assert (Er : region_len g = r + g_extent g) by reflexivity.
    pose proof (Z.mod_pos_bound (g_offset g) page ltac:(lia)) as Hr. fold r in Hr.
    replace (at_ * page + r + k) with (r + k + at_ * page) by lia.
    rewrite Z.div_add, Z.mod_add by lia.
    exists (label q sl d g at_ ((r + k) / page + at_)). split.
    - apply Hp. unfold in_pages, FmqLifeModel.npages. rewrite Er.
      pose proof (Z.div_pos (r + k) page ltac:(lia) ltac:(lia)).
      assert ((r + k) / page < (r + g_extent g + page - 1) / page).
      { apply Z.div_lt_upper_bound; [lia|].
        pose proof (Z.div_mod (r + g_extent g + page - 1) page ltac:(lia)).
        pose proof (Z.mod_pos_bound (r + g_extent g + page - 1) page ltac:(lia)). lia. }
      apply andb_true_intro. split; [apply Z.leb_le|apply Z.ltb_lt]; lia.
    - split; [reflexivity|]. cbn [label m_file].
      pose proof (Z.div_mod (g_offset g) page ltac:(lia)). pose proof (Z.div_mod (r + k) page ltac:(lia)).
      fold r in H. nia.
  Qed.

  Lemma offsets_pos rq c g : request_new rq = Some c -> In g (c_grantors c) -> 0 <= g_offset g.
  Proof.
    intros Hc. unfold request_new, fmq_new in Hc.
    repeat match type of Hc with (if ?b then _ else _) = _ => destruct b; [discriminate|] end.
    injection Hc as <-. cbn [c_grantors]. unfold create_grantors.
    assert (K : forall l nf pos off, In g (create_grantors_loop bits nf pos off l) -> 0 <= g_offset g).
    { induction l as [|z l IH]; intros nf pos off; cbn [create_grantors_loop In]; [contradiction|].
      intros [<-|H]; [|eapply IH; exact H]. cbn [g_offset]. unfold u32. apply Z.mod_pos_bound. lia. }
    apply K.
  Qed.

  Definition positive (s : state) : Prop :=
    forall q f d, queues s q = Some f -> f_desc f = Some d ->
    Forall (fun g => 0 <= g_offset g) (mq_grantors (d_mq d)).
  Lemma step_positive s m s1 : inv s -> positive s -> step s m = Ok s1 -> positive s1.
  Proof.
    intros I F. destruct m as [rq an|q|q|q|a n|a n]; cbn [FmqLifeModel.step].
    - destruct (fmq_create s rq an) as [[s2 r]| |] eqn:E; try discriminate. cbn [bind]. intros H. injection H as <-.
      apply create_cases in E; [|apply fresh_not0, I]. destruct r as [q|].
      + destruct E as (c & fd0 & r & w & g & e & p1 & p2 & p3 & M).
        cbv zeta in M. destruct M as (Hq & Hc & _ & _ & _ & _ & _ & _ & _ & _ & Hqs & _).
        intros x f d. rewrite Hqs. destruct (Nat.eqb x q); [|apply F].
        intros Ef Ed. injection Ef as <-. cbn [new_fmq f_desc] in Ed. injection Ed as <-.
        apply Forall_forall. intros h Hh. eapply offsets_pos; eauto.
      + destruct E as (_ & _ & E2 & _). unfold positive. rewrite E2. exact F.
    - destruct (queues s q) as [f|] eqn:E; [|discriminate]. destruct (Z.ltb_spec 0 (f_refs f)); [|discriminate].
      intros H0. injection H0 as <-. intros x f0 d. cbn [with_queue queues].
      destruct (Nat.eqb_spec x q) as [->|]; [|apply F]. intros H0. injection H0 as <-. exact (F q f d E).
    - destruct (queues s q) as [f|] eqn:E; [|discriminate]. destruct (Z.ltb_spec 0 (f_refs f)); [|discriminate].
      intros H0. injection H0 as <-. intros x f0 d. cbn [with_queue queues].
      destruct (Nat.eqb_spec x q) as [->|]; [|apply F]. intros H0. injection H0 as <-. exact (F q f d E).
    - destruct (queues s q) as [f|] eqn:E; [|discriminate]. destruct (f_refs f =? 0); [|discriminate].
      destruct (i_shape _ I _ _ E) as (d & Sd). destruct (i_blocks _ I _ _ E) as [B1 B2].
      destruct (free_queue s f d Sd B1 B2) as (s2 & E2 & H1 & H2 & H3 & H4 & H5 & H6).
      rewrite E2. cbn [bind]. intros H. injection H as <-. intros x f0 d0.
      cbn [with_queue queues]. rewrite H5. destruct (Nat.eqb x q); [discriminate|]. apply F.
    - destruct (_ && _); [|discriminate]. intros H. injection H as <-. exact F.
    - destruct (all_app _ _ _); [|discriminate]. intros H. injection H as <-. exact F.
  Qed.
  Lemma run_positive l : forall s s1, inv s -> positive s -> run s l = Ok s1 -> positive s1.
  Proof.
    induction l as [|m l IH]; intros s s1 I P; cbn [FmqLifeModel.run].
    - intros H. injection H as <-. exact P.
    - destruct (step s m) eqn:E; try discriminate. cbn [bind].
      apply IH; [eapply step_inv; eauto|eapply step_positive; eauto].
  Qed.

  Theorem all_usable l s q f : Forall (small page) l -> Forall granted l -> run start l = Ok s ->
    queues s q = Some f -> usable page s f.
  Proof.
    intros Hs Hg H E.
    pose proof (run_inv _ _ _ inv_start H) as I. pose proof (run_pinv _ _ _ inv_start pinv_start Hs H) as P.
    pose proof (run_full _ _ _ inv_start full_start Hs Hg H) as F.
    assert (Po : positive s) by (eapply run_positive; [apply inv_start| |exact H]; intros ? ? ? K; discriminate K).
    destruct (i_shape _ I _ _ E) as (d & Ed & Sh). exists d. split; [exact Ed|]. intros sl g Eg.
    destruct (pointer f sl) as [|a|b] eqn:Ep.
    - exact (F _ _ _ _ _ E Ed Eg Ep).
    - destruct (p_ptrs _ P _ _ _ _ E Ep) as (d0 & g0 & at_ & A1 & A2 & A3).
      rewrite Ed in A1. injection A1 as <-. assert (g0 = g) by (destruct A2 as [A2 _]; congruence). subst g0.
      pose proof (p_exact _ P _ _ _ E Ed) as Hx. pose proof (Po _ _ _ E Ed) as Hp. rewrite Forall_forall in Hx, Hp.
      apply (placed_visible s q d sl g at_ a); try assumption; [apply Hp|apply Hx]; exact (nth_error_In _ _ Eg).
    - pose proof (p_heap _ P _ _ _ _ E Ep) as ->. split; [reflexivity|]. cbn [pointer] in Ep. rewrite Ep in Sh.
      split; [exact Sh|]. apply (i_blocks _ I _ _ E). unfold blocks. rewrite Ep, Ed. cbn. auto 8.
  Qed.

  Theorem free_own l s q s1 x : Forall (small page) l -> run start l = Ok s -> step s (Free q) = Ok s1 ->
    pages s1 x = without q (pages s x).
  Proof.
    intros Hs H. pose proof (run_inv _ _ _ inv_start H) as I.
    pose proof (run_pinv _ _ _ inv_start pinv_start Hs H) as P. cbn [FmqLifeModel.step].
    destruct (queues s q) as [f|] eqn:E; [|discriminate]. destruct (f_refs f =? 0); [|discriminate].
    destruct (i_shape _ I _ _ E) as (d & Sd). destruct (i_blocks _ I _ _ E) as [B1 B2].
    destruct (free_queue s f d Sd B1 B2) as (s2 & E2 & H1 & H2 & H3 & H4 & H5 & H6).
    rewrite E2. cbn [bind]. intros K. injection K as <-. cbn [with_queue pages]. rewrite H2.
    destruct Sd as [Ed _]. apply unmap_without; assumption.
  Qed.

  Theorem heap_released l s : run start l = Ok s -> (forall q, queues s q = None) -> heap s = [].
  Proof.
    intros H Hn. pose proof (run_inv _ _ _ inv_start H) as I. destruct (heap s) as [|b h] eqn:E; [reflexivity|].
    destruct (i_owned _ I b ltac:(rewrite E; left; reflexivity)) as (q & f & Hq & _). rewrite Hn in Hq. discriminate.
  Qed.

  Theorem pages_released l s x m : Forall (small page) l -> run start l = Ok s ->
    (forall q, queues s q = None) -> pages s x = Some m -> m_owner m = App.
  Proof.
    intros Hs H Hn Hm. pose proof (run_pinv _ _ _ inv_start pinv_start Hs H) as P.
    destruct (m_owner m) as [|q sl] eqn:Eo; [reflexivity|].
    destruct (p_owned _ P _ _ _ _ Hm Eo) as (f & d & g & at_ & a & A1 & _). rewrite Hn in A1. discriminate.
  Qed.

  (* Nobody but the library itself touches pages of the application *)
  Theorem failed_new l s rq an s1 : run start l = Ok s -> fmq_create s rq an = Ok (s1, None) ->
    pages s1 = pages s /\ heap s1 = heap s /\ queues s1 = queues s.
  Proof.
    intros H E. pose proof (run_inv _ _ _ inv_start H) as I.
    apply create_cases in E; [|apply fresh_not0, I]. destruct E as (E1 & E2 & E3 & _).
    rewrite drop_none in E2 by (intros b [<-|[]]; apply fresh_not0, I). auto.
  Qed.

  Lemma step_fds s m s1 : inv s -> step s m = Ok s1 -> incl (fds s) (fds s1).
  Proof.
    intros I. destruct m as [rq an|q|q|q|a n|a n]; cbn [FmqLifeModel.step].
    - destruct (fmq_create s rq an) as [[s2 r]| |] eqn:E; try discriminate. cbn [bind]. intros H. injection H as <-.
      apply create_cases in E; [|apply fresh_not0, I]. destruct r as [q|].
      + destruct E as (c & fd0 & r & w & g & e & p1 & p2 & p3 & M). cbv zeta in M.
        destruct M as (_ & _ & _ & _ & _ & _ & _ & _ & _ & -> & _). apply incl_tl, incl_refl.
      + destruct E as (_ & _ & _ & _ & _ & [[_ ->]|[_ ->]]); [apply incl_refl|].
        destruct (a_memfd an); [apply incl_tl, incl_refl|apply incl_refl].
    - destruct (queues s q); [|discriminate]. destruct (_ <? _); [|discriminate].
      intros H. injection H as <-. apply incl_refl.
    - destruct (queues s q); [|discriminate]. destruct (_ <? _); [|discriminate].
      intros H. injection H as <-. apply incl_refl.
    - destruct (queues s q) as [f|] eqn:E; [|discriminate]. destruct (f_refs f =? 0); [|discriminate].
      destruct (i_shape _ I _ _ E) as (d & Sd). destruct (i_blocks _ I _ _ E) as [B1 B2].
      destruct (free_queue s f d Sd B1 B2) as (s2 & E2 & H1 & H2 & H3 & H4 & H5 & H6).
      rewrite E2. cbn [bind]. intros H. injection H as <-. cbn [with_queue fds]. rewrite H3. apply incl_refl.
    - destruct (_ && _); [|discriminate]. intros H. injection H as <-. apply incl_refl.
    - destruct (all_app _ _ _); [|discriminate]. intros H. injection H as <-. apply incl_refl.
  Qed.
  Lemma run_fds l : forall s s1, inv s -> run s l = Ok s1 -> incl (fds s) (fds s1).
  Proof.
    induction l as [|m l IH]; intros s s1 I; cbn [FmqLifeModel.run].
    - intros H. injection H as <-. apply incl_refl.
    - destruct (step s m) as [s2| |] eqn:E; try discriminate. cbn [bind]. intros H.
      eapply incl_tran; [eapply step_fds; eauto|]. eapply IH; [eapply step_inv; eauto|exact H].
  Qed.
  Lemma run_app l1 : forall l2 s, run s (l1 ++ l2) = (let* s1 := run s l1 in run s1 l2).
  Proof.
    induction l1 as [|m l1 IH]; intros l2 s; cbn [FmqLifeModel.run app bind]; [reflexivity|].
    destruct (step s m); cbn [bind]; auto.
  Qed.

  Theorem fd_leaks l1 rq an l2 s fd : accepted bits page rq -> a_memfd an = Some fd ->
    run start (l1 ++ New rq an :: l2) = Ok s -> In fd (fds s).
  Proof.
    intros Ha Hf. rewrite run_app. destruct (run start l1) as [s0| |] eqn:E0; try discriminate. cbn [bind].
    pose proof (run_inv _ _ _ inv_start E0) as I. cbn [FmqLifeModel.run].
    destruct (step s0 (New rq an)) as [s1| |] eqn:E1; try discriminate. cbn [bind]. intros H.
    apply (run_fds _ _ _ (step_inv _ _ _ I E1) H). cbn [FmqLifeModel.step] in E1.
    destruct (fmq_create s0 rq an) as [[s2 r]| |] eqn:E; try discriminate. cbn [bind] in E1. injection E1 as <-.
    apply create_cases in E; [|apply fresh_not0, I]. destruct r as [q|].
    - destruct E as (c & fd0 & r & w & g & e & p1 & p2 & p3 & M). cbv zeta in M.
      destruct M as (_ & _ & M0 & _ & _ & _ & _ & _ & _ & -> & _). left. congruence.
    - destruct E as (_ & _ & _ & _ & _ & [[E1 _]|[_ ->]]); [exfalso; apply Ha; exact E1|].
      rewrite Hf. left. reflexivity.
  Qed.

  Lemma map_none s w q n : map_grantor s None w q n = Ok (s, Null).
  Proof.
    unfold FmqLifeModel.map_grantor. destruct (nth_error _ _); [|reflexivity].
    destruct (map_range _ _). reflexivity.
  Qed.

  Theorem null_store l s rq an : run start l = Ok s -> accepted bits page rq -> a_memfd an <> None ->
    a_ftruncate an = true -> r_no_reset rq = false ->
    a_write an = None \/ (r_kind rq = Sync /\ a_read an = None) ->
    step s (New rq an) = Never \/ step s (New rq an) = Died NullStore.
  Proof.
    intros _ Ha Hm Ht Hr Hn. cbn [FmqLifeModel.step]. unfold FmqLifeModel.fmq_create.
    unfold accepted in Ha. destruct (fmq_new _ _ _ _ _ _ _ _) as [c|]; [|congruence].
    destruct (a_memfd an) as [fd0|]; [|congruence]. unfold alloc at 1. cbv beta iota zeta.
    destruct (existsb _ _); [left; reflexivity|]. rewrite Ht, Hr. cbn [negb].
    unfold alloc, with_fds. cbv beta iota zeta.
    match goal with |- context [map_grantor ?x (a_read an)] => set (s5 := x) end.
    match goal with |- context [bind (match r_kind rq with Sync => ?x | Unsync => ?y end) _] =>
      destruct (match r_kind rq with Sync => x | Unsync => y end) as [[s6 rp]|d|] eqn:E6 end;
      [| |left; reflexivity].
    2:{ exfalso. destruct (r_kind rq); [|discriminate]. eapply map_dies; eauto. }
    cbn [bind].
    match goal with |- context [map_grantor s6 (a_write an) ?w ?mq 1] =>
      destruct (map_grantor s6 (a_write an) w mq 1) as [[s7 wp]|d|] eqn:E7 end; [| |left; reflexivity].
    2:{ exfalso. eapply map_dies; eauto. }
    cbn [bind]. right. destruct Hn as [Hw|[Hk Hrd]].
    - rewrite Hw, map_none in E7. injection E7 as _ <-. destruct rp; reflexivity.
    - rewrite Hk, Hrd, map_none in E6. injection E6 as _ <-. reflexivity.
  Qed.

  Theorem null_ring l s rq an s1 q : run start l = Ok s -> fmq_create s rq an = Ok (s1, Some q) ->
    a_ring an = None -> exists f, queues s1 q = Some f /\ f_refs f = 1 /\ pointer f SRing = Null.
  Proof.
    intros H E Hn. pose proof (run_inv _ _ _ inv_start H) as I.
    apply create_cases in E; [|apply fresh_not0, I]. destruct E as (c & fd0 & r & w & g & e & p1 & p2 & p3 & M).
    cbv zeta in M. destruct M as (_ & _ & _ & _ & _ & Mg & _ & _ & _ & _ & -> & _).
    rewrite Nat.eqb_refl. eexists. split; [reflexivity|]. split; [reflexivity|]. cbn [pointer new_fmq f_ring].
    destruct Mg as [(-> & _)|(h & at_ & _ & _ & _ & _ & _ & _ & Mn)]; [reflexivity|congruence].
  Qed.

  Lemma unmap_none s p q n x : pages s x = None -> pages (unmap_grantor s p q n) x = None.
  Proof.
    unfold FmqLifeModel.unmap_grantor, FmqLifeModel.sys_munmap. intros H.
    destruct (nth_error _ _); [|exact H]. destruct p; [exact H| |exact H].
    destruct (_ && _); [|exact H]. cbn [with_pages pages]. destruct (in_pages _ _ _); [reflexivity|exact H].
  Qed.
End Life.

(* The length of the mapping is cut to 32 bits, that of what is unmapped is not *)
Section Large.
  Let page : Z := 4096.
  Local Notation step := (step 64 page).
  Local Notation run := (run 64 page).
  Local Notation npages := (npages page).

  Theorem foreign_unmapped l s rq an s4 at_ :
    let n := 16 + r_num_items rq * r_item_size rq in
    let q := next_queue s in
    run start l = Ok s -> accepted 64 page rq -> r_fd rq = None -> a_memfd an <> None -> a_ftruncate an = true ->
    2 ^ 32 <= n -> n mod 2 ^ 32 <> 0 -> a_ring an = Some at_ ->
    let x := at_ + npages (n mod 2 ^ 32) in
    run s [New rq an; AppMap x 1; Unref q; Free q] = Ok s4 -> pages s4 x = None.
  Proof.
    intros n q H Hacc Hfd Hm Ht Hn Hz Har x.
    pose proof (run_inv 64 page eq_refl (or_intror eq_refl) _ _ _ inv_start H) as I.
    cbn [FmqLifeModel.run]. destruct (step s (New rq an)) as [s1| |] eqn:E1; try discriminate. cbn [bind].
    pose proof (step_inv 64 page eq_refl (or_intror eq_refl) _ _ _ I E1) as I1.
    destruct (step s1 (AppMap x 1)) as [s2| |] eqn:E2; try discriminate. cbn [bind].
    pose proof (step_inv 64 page eq_refl (or_intror eq_refl) _ _ _ I1 E2) as I2.
    destruct (step s2 (Unref q)) as [s3| |] eqn:E3; try discriminate. cbn [bind].
    pose proof (step_inv 64 page eq_refl (or_intror eq_refl) _ _ _ I2 E3) as I3.
    destruct (step s3 (Free q)) as [s5| |] eqn:E4; try discriminate. cbn [bind].
    intros K. injection K as <-. cbn [FmqLifeModel.step] in E4.
    destruct (queues s3 q) as [f|] eqn:Ef; [|discriminate]. destruct (f_refs f =? 0); [|discriminate].
    destruct (i_shape _ I3 _ _ Ef) as (d & Sd). destruct (i_blocks _ I3 _ _ Ef) as [B1 B2].
    destruct (free_queue 64 page (or_intror eq_refl) s3 f d Sd B1 B2) as (s6 & E6 & _ & H2 & _). rewrite E6 in E4. cbn [bind] in E4.
    injection E4 as <-. cbn [with_queue pages]. rewrite H2. unfold unmap_all. apply unmap_none.
    (* the ring of the queue *)
    assert (R : exists g0, f_ring f = Mapped (at_ * page + 16) /\ nth_error (mq_grantors (d_mq d)) 2 = Some g0 /\
      g_offset g0 = 16 /\ g_extent g0 = n - 16).
    { cbn [FmqLifeModel.step] in E1.
      destruct (fmq_create 64 page s rq an) as [[s0 r]| |] eqn:E; try discriminate. cbn [bind] in E1. injection E1 as <-.
      apply (create_cases 64 page) in E; [|reflexivity|apply fresh_not0, I]. destruct r as [q1|].
      2:{ exfalso. destruct E as (_ & _ & E & _). cbn [FmqLifeModel.step] in E2, E3.
          destruct (_ && _) in E2; [|discriminate]. injection E2 as <-. cbn [with_pages queues] in E3.
          rewrite E in E3. unfold q in E3. rewrite (i_next _ I) in E3 by lia. discriminate. }
      destruct E as (c & fd0 & r & w & g & e & p1 & p2 & p3 & M).
      cbv zeta in M. destruct M as (Hq & Hc & _ & _ & _ & Mg & _ & _ & _ & _ & Hqs & _).
      assert (Hg0 : exists g0, nth_error (c_grantors c) 2 = Some g0 /\ g_offset g0 = 16 /\ g_extent g0 = n - 16).
      { unfold request_new, fmq_new in Hc. rewrite Hfd in Hc. cbn [is_some andb] in Hc.
        repeat match type of Hc with (if ?b then _ else _) = _ => destruct b; [discriminate|] end.
        injection Hc as <-. cbn [c_grantors]. eexists. split; [reflexivity|]. split; [reflexivity|].
        cbn [g_extent]. unfold n. lia. }
      destruct Hg0 as (g0 & Eg & Eo & Ee). exists g0.
      cbn [FmqLifeModel.step] in E2, E3.
      destruct (_ && _) in E2; [|discriminate]. injection E2 as <-. cbn [with_pages queues] in E3.
      rewrite Hqs, Hq in E3. fold q in E3. rewrite Nat.eqb_refl in E3. cbn [new_fmq f_refs] in E3. injection E3 as <-.
      cbn [with_queue queues] in Ef. rewrite Nat.eqb_refl in Ef. injection Ef as <-.
      destruct Sd as [Sd _]. cbn [set_refs new_fmq f_desc] in Sd. injection Sd as <-. cbn [d_mq fmq_desc mq_grantors].
      split; [|split; [exact Eg|split; [exact Eo|exact Ee]]]. cbn [set_refs new_fmq f_ring].
      destruct Mg as [(_ & _ & [Mn|Mn])|(h & a & Mh & _ & -> & _ & _ & _ & Mn)].
      - congruence.
      - exfalso. specialize (Mn g0 Eg). unfold region_len in Mn. rewrite Eo, Ee in Mn.
        change (16 mod page) with 16 in Mn. unfold u32 in Mn. apply Hz. rewrite <- Mn. f_equal. lia.
      - cbn [fmq_desc mq_grantors] in Mh. rewrite Eg in Mh. injection Mh as <-. rewrite Eo.
        change (16 mod page) with 16. rewrite Har in Mn. injection Mn as <-. reflexivity. }
    destruct R as (g0 & Er & Eg & Eo & Ee). unfold FmqLifeModel.unmap_grantor at 1. rewrite Eg, Er.
    unfold FmqLifeModel.sys_munmap. rewrite Eo, Ee. change (16 mod page) with 16.
    replace (at_ * page + 16 - 16) with (at_ * page) by lia. rewrite Z.mod_mul, Z.div_mul by discriminate.
    rewrite Z.eqb_refl. destruct (Z.eqb_spec (16 + (n - 16)) 0); [lia|]. cbn [andb negb with_pages pages].
    replace (16 + (n - 16)) with n by lia.
    assert (Hin : in_pages x at_ (npages n) = true).
    { unfold in_pages, x, FmqLifeModel.npages, page.
      pose proof (Z.mod_pos_bound n (2 ^ 32) ltac:(lia)) as Hb. pose proof (Z.div_mod n (2 ^ 32) ltac:(lia)) as Hd.
      assert (1 <= n / 2 ^ 32) by (apply Z.div_le_lower_bound; lia).
      set (k := n mod 2 ^ 32) in *. set (h := n / 2 ^ 32) in *.
      pose proof (Z.div_pos (k + 4096 - 1) 4096 ltac:(lia) ltac:(lia)).
      assert ((k + 4096 - 1) / 4096 < (n + 4096 - 1) / 4096).
      { replace (n + 4096 - 1) with (k + 4096 - 1 + (1048576 * h) * 4096) by lia.
        rewrite Z.div_add by lia. lia. }
      apply andb_true_intro. split; [apply Z.leb_le|apply Z.ltb_lt]; lia. }
    rewrite Hin. reflexivity.
  Qed.
End Large.
