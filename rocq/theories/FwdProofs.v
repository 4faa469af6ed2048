(* Messages which are sent on: proofs *)
From Verif Require Import Base BaseLemmas UtfModel WriterModel ReaderModel CodecSpec
  CodecProofs CodecSafety ObjModel ObjReader KernelModel ObjSpec ObjProofs ObjInvariant
  TreeProofs PieceProofs HidlSpec HidlWriter HidlOps HidlPlaced HidlStruct HidlRead HidlRound HidlTrip
  TxModel TxSpec TxProofs FwdTree FwdSpec.

(* All buffers of a tree *)
Inductive buffers (i : io) : list bytes -> Z -> Prop :=
| buffers_nil : buffers i [] 0
| buffers_cons a l pa r n : 0 <= l < 2 ^ (8 * psz i) -> buffers i r n ->
    buffers i (buffer_image i a l pa :: r) (align8 l + n).
Lemma buffers_app i l n : buffers i l n -> forall r m, buffers i r m -> buffers i (l ++ r) (n + m).
Proof.
  intros H. induction H as [|a l pa r n Hl H IH]; intros r2 m Hr; [exact Hr|].
  cbn [Datatypes.app]. replace (align8 l + n + m) with (align8 l + (n + m)) by lia.
  constructor; [exact Hl|]. apply IH. exact Hr.
Qed.

(* ------------------------------------------------------------------ *)
(* Copying, one object at a time *)
Section Copying.
  Variables (i : io) (pr : protocol) (c : converter) (data : bytes).
  Let osz (o : Z) : Z := Z.max 4 (object_size i pr (k_type data o)).

  (* The output as if everything before [at_] were copied already *)
  Definition sofar (off at_ : Z) (d : wdata) : bytes := wd_bytes d ++ slice data off (at_ - off).

  Definition object_copy (o : Z) : bytes :=
    match conv c data o with Some l => converted_image i pr l | None => slice data o (object_size i pr (k_type data o)) end.

  Lemma step_object o r off d :
    0 <= off <= o -> o + osz o <= blen data ->
    exists d1, append_objects i pr c data (o :: r) off d = append_objects i pr c data r (o + blen (object_copy o)) d1 /\
      wd_bytes d1 = sofar off o d ++ object_copy o /\
      wd_offsets d1 = wd_offsets d ++ [blen (sofar off o d)] /\
      wd_bufsize d1 = wd_bufsize d + align8 (data_size i data o).
  Proof.
    intros Ho1 Ho2.
    assert (Hosz : 4 <= osz o) by (unfold osz; lia).
    set (pre := slice data off (o - off)).
    assert (Hpre : (if off <? o then load data off (o - off) else Ok []) = Ok pre).
    { destruct (Z.ltb_spec off o); [apply load_inside; lia|].
      unfold pre. replace (o - off) with 0 by lia. unfold slice. rewrite ztake_neg by lia. reflexivity. }
    assert (Hoff1 : (if off <? o then o else off) = o) by (destruct (Z.ltb_spec off o); lia).
    cbn [append_objects]. rewrite Hpre. cbn [Base.bind]. rewrite Hoff1.
    rewrite (conv_load i pr) by (fold (osz o); lia). cbn [Base.bind].
    rewrite (data_size_load i pr) by (fold (osz o); lia).
    set (d1 := wd_set_bytes d (wd_bytes d ++ pre)).
    set (img := object_copy o).
    assert (Hobj :
      match conv c data o with
      | Some obj =>
        let buf := set_size (wd_bytes (record_offset d1 (blen (wd_bytes d1))))
                     (blen (wd_bytes d1) + MAX_BINDER_OBJECT_SIZE) in
        let* (buf1, n0) := encode_local_object i pr buf (blen (wd_bytes d1)) (Some obj) in
        Ok (wd_set_bytes (record_offset d1 (blen (wd_bytes d1))) (set_size buf1 (blen (wd_bytes d1) + n0)), n0)
      | None =>
        let* t := load data o 4 in
        let n0 := object_size i pr (unle t) in
        let* img0 := load data o n0 in
        Ok (wd_set_bytes (record_offset d1 (blen (wd_bytes d1)))
              (wd_bytes (record_offset d1 (blen (wd_bytes d1))) ++ img0), n0)
      end = Ok (wd_set_bytes (record_offset d1 (blen (wd_bytes d1))) (wd_bytes d1 ++ img), blen img)).
    { unfold img, object_copy. destruct (conv c data o) as [l|] eqn:Ec.
      - rewrite converted_is_local, blen_local. cbn [record_offset wd_bytes]. fold d1.
        rewrite encode_local_eq by apply flat_fits. cbn [Base.bind].
        do 3 f_equal. rewrite (app_assoc (wd_bytes d1)).
        apply TxProofs.set_size_cut. rewrite blen_app, blen_local. reflexivity.
      - assert (0 <= object_size i pr (k_type data o)).
        { destruct (object_size_cases i pr data (k_type data o)) as [[E _]|(_ & _ & _ & E)]; [|exact E].
          rewrite E. apply (full_nonneg i pr). }
        assert (object_size i pr (k_type data o) <= osz o) by (unfold osz; lia).
        rewrite load_inside by lia. cbn [Base.bind].
        change (unle (slice data o 4)) with (k_type data o).
        rewrite load_inside by lia. cbn [Base.bind]. rewrite blen_slice by lia. reflexivity. }
    cbv zeta in Hobj. rewrite Hobj. cbn [Base.bind].
    eexists. split; [reflexivity|].
    cbn [add_bufsize wd_set_bytes record_offset wd_bytes wd_offsets wd_bufsize d1]. fold pre. unfold sofar. fold pre.
    split; [reflexivity|]. split; reflexivity.
  Qed.

  (* An object *)
  Definition place_image (p : place) (fl : Z) : bytes :=
    match p with Handle h => flat_image i TYPE_HANDLE fl h 0 | Home a => flat_image i TYPE_BINDER fl a 0 end.
  Definition place_conv (p : place) : option local := match p with Handle h => replaced c (u32 h) | Home _ => None end.
  Lemma step_place pre fl p ex post r off d :
    data = pre ++ place_image p fl ++ ex ++ post -> blen ex = flat_extra pr -> 0 <= off <= blen pre ->
    exists d1, append_objects i pr c data (blen pre :: r) off d =
        append_objects i pr c data r (blen pre + flat_size i + flat_extra pr) d1 /\
      wd_bytes d1 = sofar off (blen pre) d ++
        match place_conv p with Some l => converted_image i pr l | None => place_image p fl ++ ex end /\
      wd_offsets d1 = wd_offsets d ++ [blen (sofar off (blen pre) d)] /\ wd_bufsize d1 = wd_bufsize d.
  Proof.
    intros Hd Hex Hoff.
    set (T := match p with Handle _ => TYPE_HANDLE | Home _ => TYPE_BINDER end).
    assert (Hbl : blen (place_image p fl) = flat_size i) by (destruct p; apply blen_flat).
    assert (Ht : k_type data (blen pre) = T) by (rewrite Hd; destruct p; cbn [place_image]; rewrite flat_type; reflexivity).
    assert (Ho : object_size i pr T = flat_size i + flat_extra pr) by (destruct p; reflexivity).
    pose proof (full_nonneg i pr). pose proof (flat_size_pos i). pose proof (blen_nonneg _ post). pose proof (blen_nonneg _ pre).
    assert (Hcv : conv c data (blen pre) = place_conv p).
    { unfold conv, place_conv, replaced. rewrite Ht. destruct p as [h|a]; subst T.
      - change (TYPE_HANDLE =? TYPE_HANDLE) with true. cbv iota. rewrite Hd. cbn [place_image]. rewrite flat_low. reflexivity.
      - change (TYPE_BINDER =? TYPE_HANDLE) with false. destruct c; reflexivity. }
    assert (Hcopy : object_copy (blen pre) =
      match place_conv p with Some l => converted_image i pr l | None => place_image p fl ++ ex end).
    { unfold object_copy. rewrite Hcv. destruct (place_conv p); [reflexivity|]. rewrite Ht, Ho, Hd.
      rewrite (app_assoc _ ex post). apply slice_app_exact; [reflexivity|]. rewrite blen_app, Hbl, Hex. reflexivity. }
    assert (Hlen : blen data = blen pre + (flat_size i + (flat_extra pr + blen post)))
      by (rewrite Hd, !blen_app, Hbl, Hex; reflexivity).
    assert (4 <= flat_size i) by (destruct i; vm_compute; discriminate).
    destruct (step_object (blen pre) r off d Hoff) as (d1 & E1 & E2 & E3 & E4).
    { unfold osz. rewrite Ht, Ho. lia. }
    assert (Hcl : blen (object_copy (blen pre)) = flat_size i + flat_extra pr).
    { rewrite Hcopy. destruct (place_conv p); [rewrite converted_is_local; apply blen_local|]. rewrite blen_app, Hbl, Hex. reflexivity. }
    exists d1. rewrite E1, E2, E3, E4.
    rewrite Hcl, Hcopy, Z.add_assoc. split; [reflexivity|]. split; [reflexivity|]. split; [reflexivity|].
    unfold data_size. rewrite Ht. destruct p; subst T;
      [change (TYPE_HANDLE =? TYPE_PTR) with false; change (TYPE_HANDLE =? TYPE_FDA) with false|
       change (TYPE_BINDER =? TYPE_PTR) with false; change (TYPE_BINDER =? TYPE_FDA) with false];
    cbv iota; change (align8 0) with 0; lia.
  Qed.

  (* A descriptor *)
  Lemma step_fd pre fl v post r off d :
    data = pre ++ flat_image i TYPE_FD fl v 0 ++ post -> 0 <= off <= blen pre ->
    exists d1, append_objects i pr c data (blen pre :: r) off d = append_objects i pr c data r (blen pre + flat_size i) d1 /\
      wd_bytes d1 = sofar off (blen pre) d ++ flat_image i TYPE_FD fl v 0 /\
      wd_offsets d1 = wd_offsets d ++ [blen (sofar off (blen pre) d)] /\ wd_bufsize d1 = wd_bufsize d.
  Proof.
    intros Hd Hoff.
    assert (Ht : k_type data (blen pre) = TYPE_FD) by (rewrite Hd, flat_type; reflexivity).
    assert (Ho : object_size i pr TYPE_FD = flat_size i) by reflexivity.
    pose proof (flat_size_pos i). pose proof (blen_nonneg _ post). pose proof (blen_nonneg _ pre).
    assert (Hcopy : object_copy (blen pre) = flat_image i TYPE_FD fl v 0).
    { unfold object_copy, conv. rewrite Ht. change (TYPE_FD =? TYPE_HANDLE) with false. cbv iota.
      replace (match c with Some _ => None | None => None end) with (@None local) by (destruct c; reflexivity).
      rewrite Ho, Hd. apply slice_app_exact; [reflexivity|]. rewrite blen_flat. reflexivity. }
    assert (Hlen : blen data = blen pre + (flat_size i + blen post)) by (rewrite Hd, !blen_app, blen_flat; reflexivity).
    assert (4 <= flat_size i) by (destruct i; vm_compute; discriminate).
    destruct (step_object (blen pre) r off d Hoff) as (d1 & E1 & E2 & E3 & E4).
    { unfold osz. rewrite Ht, Ho. lia. }
    exists d1. rewrite E1, E2, E3, E4, Hcopy, blen_flat.
    split; [reflexivity|]. split; [reflexivity|]. split; [reflexivity|].
    unfold data_size. rewrite Ht. change (TYPE_FD =? TYPE_PTR) with false. change (TYPE_FD =? TYPE_FDA) with false.
    cbv iota. change (align8 0) with 0. lia.
  Qed.

  (* A buffer *)
  Lemma step_buffer pre a l pa post r off d :
    data = pre ++ buffer_image i a l pa ++ post -> 0 <= off <= blen pre -> 0 <= l < 2 ^ (8 * psz i) ->
    exists d1, append_objects i pr c data (blen pre :: r) off d = append_objects i pr c data r (blen pre + ptr_size i) d1 /\
      wd_bytes d1 = sofar off (blen pre) d ++ buffer_image i a l pa /\
      wd_offsets d1 = wd_offsets d ++ [blen (sofar off (blen pre) d)] /\ wd_bufsize d1 = wd_bufsize d + align8 l.
  Proof.
    intros Hd Hoff Hl.
    assert (Ht : k_type data (blen pre) = TYPE_PTR /\ kp_length (k_ptr i data (blen pre)) = usz i l).
    { rewrite Hd. destruct pa as [p|]; cbn [buffer_image].
      - destruct (ptr_fields i 1 a l (pa_index p) (pa_offset p) pre post) as [A B]. rewrite A, B. split; reflexivity.
      - destruct (ptr_fields i 0 a l 0 0 pre post) as [A B]. rewrite A, B. split; reflexivity. }
    destruct Ht as [Ht Hkl].
    assert (Ho : object_size i pr TYPE_PTR = ptr_size i) by reflexivity.
    pose proof (ptr_size_pos i). pose proof (blen_nonneg _ post). pose proof (blen_nonneg _ pre).
    assert (Hcopy : object_copy (blen pre) = buffer_image i a l pa).
    { unfold object_copy, conv. rewrite Ht. change (TYPE_PTR =? TYPE_HANDLE) with false. cbv iota.
      replace (match c with Some _ => None | None => None end) with (@None local) by (destruct c; reflexivity).
      rewrite Ho, Hd. apply slice_app_exact; [reflexivity|]. rewrite blen_buffer. reflexivity. }
    assert (Hlen : blen data = blen pre + (ptr_size i + blen post)) by (rewrite Hd, !blen_app, blen_buffer; reflexivity).
    assert (4 <= ptr_size i) by (destruct i; vm_compute; discriminate).
    destruct (step_object (blen pre) r off d Hoff) as (d1 & E1 & E2 & E3 & E4).
    { unfold osz. rewrite Ht, Ho. lia. }
    exists d1. rewrite E1, E2, E3, E4, Hcopy, blen_buffer.
    split; [reflexivity|]. split; [reflexivity|]. split; [reflexivity|].
    unfold data_size. rewrite Ht. change (TYPE_PTR =? TYPE_PTR) with true. cbv iota. rewrite Hkl.
    unfold usz. rewrite Z.mod_small by lia. reflexivity.
  Qed.

  Lemma sofar_end off d : sofar off off d = wd_bytes d.
  Proof. clear osz pr c i. unfold sofar. rewrite Z.sub_diag. unfold slice. rewrite ztake_neg by lia. apply app_nil_r. Qed.

  Lemma step_buffers imgs n : buffers i imgs n -> forall pre post r d off,
    data = pre ++ concat imgs ++ post -> 0 <= off <= blen pre ->
    exists d1 off1, append_objects i pr c data (offs (blen pre) (ptr_size i) (length imgs) ++ r) off d =
        append_objects i pr c data r off1 d1 /\ 0 <= off1 <= blen pre + blen (concat imgs) /\
      sofar off1 (blen pre + blen (concat imgs)) d1 = sofar off (blen pre) d ++ concat imgs /\
      wd_offsets d1 = wd_offsets d ++ offs (blen (sofar off (blen pre) d)) (ptr_size i) (length imgs) /\
      wd_bufsize d1 = wd_bufsize d + n.
  Proof.
    intros H. induction H as [|a l pa imgs n Hl H IH]; intros pre post r d off Hd Hoff.
    - exists d, off. cbn [concat length offs Datatypes.app]. rewrite !app_nil_r. change (blen (@nil Z)) with 0. rewrite !Z.add_0_r.
      repeat split; lia || reflexivity.
    - cbn [concat length offs Datatypes.app]. cbn [concat] in Hd. rewrite <- app_assoc in Hd.
      destruct (step_buffer pre a l pa _ (offs (blen pre + ptr_size i) (ptr_size i) (length imgs) ++ r) off d Hd Hoff Hl)
        as (d1 & E1 & E2 & E3 & E4).
      assert (Hp : blen (pre ++ buffer_image i a l pa) = blen pre + ptr_size i) by (rewrite blen_app, blen_buffer; reflexivity).
      pose proof (blen_nonneg _ pre). pose proof (ptr_size_pos i).
      destruct (IH (pre ++ buffer_image i a l pa) post r d1 (blen pre + ptr_size i)) as (d2 & off2 & F1 & F0 & F2 & F3 & F4).
      { rewrite <- app_assoc. exact Hd. }
      { rewrite Hp. lia. }
      rewrite Hp in F1, F0, F2, F3. rewrite sofar_end in F2, F3. rewrite E2 in F2, F3.
      exists d2, off2. rewrite E1, F1. split; [reflexivity|]. rewrite blen_app, blen_buffer, Z.add_assoc.
      split; [exact F0|]. split; [rewrite F2, <- app_assoc; reflexivity|].
      split; [|rewrite F4, E4; lia].
      rewrite F3, E3, <- app_assoc, blen_app, blen_buffer. reflexivity.
  Qed.
End Copying.

Lemma t_buffers i t : forall m n pa, tree_ok i m t -> buffers i (t_emit i n pa t) (t_space t).
Proof.
  induction t as [a d ks IH] using tree_ind2. intros m n pa Hok. apply tree_ok_node in Hok. destruct Hok as (Hn & _ & Hf).
  rewrite t_emit_node, t_space_node. pose proof (blen_nonneg _ d). constructor; [split; [lia|apply Hn]|].
  generalize (n + 1). clear Hn. induction IH as [|[c t1] ks Ht Hks IHks]; intros q; cbn [f_emit f_space forest_ok] in *; [constructor|].
  cbn [snd] in Ht. destruct Hf as [Hf1 Hf2]. fold (f_emit i n). apply buffers_app; [apply (Ht m); exact Hf1|]. apply IHks; exact Hf2.
Qed.

(* ------------------------------------------------------------------ *)
(* Messages on their way. What was written by each of the append calls is in the message as if it were written by the process in the
   middle, with its own idea of what the driver does; objects are described by what they are to that process *)
Inductive item : Type :=
| IOp (e : kenv) (o : op) (ps : list piece)
| IObj (p : place) (fl : Z) (ex : bytes).

(* Only their sizes and places matter *)
Definition it_ps (x : item) : list piece :=
  match x with IOp _ _ ps => ps | IObj _ fl ex => [PFlat TYPE_HANDLE fl 0; PData ex] end.
Definition it_tr (i : io) (n pos : Z) (x : item) : bytes :=
  match x with IOp e _ ps => ps_tr e n pos ps | IObj p fl ex => place_image i p fl ++ ex end.
Definition it_sg (pos : Z) (x : item) : bytes := match x with IOp e _ ps => ps_sg e pos ps | IObj _ _ _ => [] end.
Definition it_kind (i : io) (x : item) : rkind := match x with IOp _ o _ => rkind_of i o | IObj _ _ _ => rkind_of i (OpRemote None) end.
Definition it_starts (x : item) : Prop := match x with IOp _ o _ => starts_well [o] | IObj _ _ _ => True end.
Definition its_start (l : list item) : Prop := match l with [] => True | x :: _ => it_starts x end.
Definition is_object (o : op) : bool := match o with OpLocal _ | OpRemote _ => true | _ => false end.

Fixpoint is_tr (i : io) (n pos : Z) (its : list item) : bytes :=
  match its with
  | [] => []
  | x :: r => it_tr i n pos x ++ is_tr i (n + Z.of_nat (ps_count (it_ps x))) (pos + ps_space (it_ps x)) r
  end.
Fixpoint is_sg (pos : Z) (its : list item) : bytes :=
  match its with
  | [] => []
  | x :: r => it_sg pos x ++ is_sg (pos + ps_space (it_ps x)) r
  end.
Definition is_ps (its : list item) : list piece := concat (map it_ps its).

(* What the process in the middle makes of it *)
Definition moved (e : kenv) (c : converter) (x y : item) : Prop :=
  match x, y with
  | IOp e1 o _, IOp e2 o2 _ => o2 = o /\
    forall fd, sgn 32 (k_fd e2 fd) = sgn 32 (k_fd e (sgn 32 (k_fd e1 fd)))
  | IObj p _ _, IObj q _ _ => q = onward e c p
  | _, _ => False
  end.

(* The driver between the first sender and the last receiver *)
Definition through (e1 e2 : kenv) : kenv :=
  {| k_io := k_io e2; k_sgbase := k_sgbase e2; k_mem := k_mem e1; k_node := k_node e2; k_ref := k_ref e2; k_own := k_own e2;
     k_fd := fun fd => k_fd e2 (sgn 32 (k_fd e1 fd)) |}.

Lemma ps_len_app i ps qs : ps_len i (ps ++ qs) = ps_len i ps + ps_len i qs.
Proof. induction ps as [|p r IH]; cbn [ps_len Datatypes.app]; lia. Qed.

Section Items.
  Variables (i : io) (pr : protocol) (m : memory).

  Definition item_ok (base : Z) (x : item) : Prop :=
    match x with
    | IOp e o ps => k_io e = i /\ k_sgbase e = base /\ k_mem e = m /\ call_ok i pr m o /\ is_object o = false /\
      describes i pr m o ps /\ Forall (p_good i m) ps
    | IObj p fl ex => blen ex = flat_extra pr /\ u32 fl = fl /\ match p with Handle h => u32 h = h | Home a => usz i a = a end
    end.

  Lemma it_tr_len base x n pos : item_ok base x -> blen (it_tr i n pos x) = ps_len i (it_ps x).
  Proof.
    destruct x as [e o ps|p fl ex]; cbn [item_ok it_tr it_ps].
    - intros (<- & _). apply ps_tr_len.
    - intros _. cbn [ps_len p_len]. rewrite blen_app. destruct p; cbn [place_image]; rewrite blen_flat; lia.
  Qed.
  Lemma it_sg_len base x pos : item_ok base x -> blen (it_sg pos x) = ps_space (it_ps x).
  Proof.
    destruct x as [e o ps|p fl ex]; cbn [item_ok it_sg it_ps]; [|reflexivity].
    intros (H1 & _ & H2 & _ & _ & _ & H3). apply ps_sg_len. apply (good_ok _ m); [auto|]. rewrite H1. exact H3.
  Qed.
  Lemma is_tr_len base its : Forall (item_ok base) its -> forall n pos, blen (is_tr i n pos its) = ps_len i (is_ps its).
  Proof.
    intros H. induction H as [|x its Hx H IH]; intros n pos; cbn [is_tr]; [reflexivity|].
    unfold is_ps in *. cbn [map concat]. rewrite ps_len_app, blen_app, IH. f_equal. eapply it_tr_len; exact Hx.
  Qed.

  (* What is read *)
  Definition it_got (g : message) (x : item) (r : ritem) : Prop :=
    match x with
    | IOp e o _ => got i e g o r
    | IObj p _ _ => exists h, p = Handle h /\ r = IObject (Some h)
    end.
  Definition it_foreign (x : item) : Prop := match x with IObj (Home _) _ _ => False | _ => True end.

  Lemma read_obj cm g st h fl ex pre post rest :
    blen (m_data g) < 2 ^ 31 -> blen ex = flat_extra pr -> u32 h = h ->
    m_data g = pre ++ (place_image i (Handle h) fl ++ ex) ++ post ->
    read_item cm i pr g (mk_reader st (blen (m_data g)) (blen pre) (blen pre :: rest)) (rkind_of i (OpRemote None)) =
      Ok (IObject (Some h), mk_reader st (blen (m_data g)) (blen pre + (flat_size i + flat_extra pr)) rest).
  Proof.
    intros Hsize Hex Hh Hd. cbn [place_image] in Hd. rewrite <- app_assoc in Hd. cbn [rkind_of read_item].
    destruct (decode_flat i g pre _ _ _ _ (blen (m_data g)) Hd eq_refl Hsize) as (D1 & D2 & D3 & D4 & D5).
    unfold rd_nullable_object, can_read_object. cbn [mk_reader r_objects r_ptr].
    rewrite Z.eqb_refl. unfold decode_binder_object. unfold r_remaining in D1.
    unfold r_remaining. cbn [mk_reader r_end r_ptr] in D1 |- *. rewrite D1, D2, D3, D4.
    cbn [Base.bind]. change (u32 TYPE_HANDLE =? TYPE_HANDLE) with true. cbv iota. cbn [Base.bind].
    assert (0 <= flat_extra pr) by (destruct pr; cbn; lia).
    pose proof (flat_size_pos i).
    destruct (Z.eqb_spec (flat_size i + flat_extra pr) 0); [lia|]. cbn [wrapi ok].
    unfold r_eat, ok. cbn [wrapi mk_reader r_start r_end r_ptr r_objects tl]. rewrite Hh. reflexivity.
  Qed.

  Lemma read_its cm g st its : forall n pos pre sg0,
    0 < m_sgbase g -> low_message i g -> blen (m_data g) < 2 ^ 31 -> Forall (item_ok (m_sgbase g)) its -> Forall it_foreign its ->
    m_data g = pre ++ is_tr i n pos its -> m_sg g = sg0 ++ is_sg pos its -> blen sg0 = pos ->
    exists rs, read_items cm i pr g (mk_reader st (blen (m_data g)) (blen pre) (ps_offs i (blen pre) (is_ps its)))
                 (map (it_kind i) its) = Ok (rs, mk_reader st (blen (m_data g)) (blen (m_data g)) []) /\
      Forall2 (it_got g) its rs.
  Proof.
    induction its as [|x its IH]; intros n pos pre sg0 Hb Hlow Hsize Hok Hfor Hd Hsg Hsg0.
    - cbn [is_tr is_ps map concat ps_offs read_items] in *. rewrite app_nil_r in Hd. exists []. rewrite Hd. split; [reflexivity|constructor].
    - inversion Hok as [|y z Hx Hr]; subst y z. inversion Hfor as [|y z F1 F2]; subst y z.
      cbn [is_tr is_sg] in Hd, Hsg. unfold is_ps. cbn [map concat]. fold (is_ps its). rewrite ps_offs_app.
      assert (R : exists r, read_item cm i pr g (mk_reader st (blen (m_data g)) (blen pre)
          (ps_offs i (blen pre) (it_ps x) ++ ps_offs i (blen pre + ps_len i (it_ps x)) (is_ps its))) (it_kind i x) =
          Ok (r, mk_reader st (blen (m_data g)) (blen pre + ps_len i (it_ps x)) (ps_offs i (blen pre + ps_len i (it_ps x)) (is_ps its))) /\
          it_got g x r).
      { destruct x as [e o ps|[h|a] fl ex]; cbn [item_ok it_foreign it_ps it_kind it_tr it_sg it_got] in *; [| |contradiction].
        - destruct Hx as (A1 & A2 & A3 & A4 & A5 & A6 & A7).
          assert (P : 0 < k_sgbase e) by (rewrite A2; exact Hb).
          assert (F : foreign e o) by (destruct o; try discriminate A5; exact Logic.I).
          exact (read_op cm i pr e g m st A1 (eq_sym A2) P Hlow Hsize o ps n pos pre _ sg0 _ _ A4 F A6 A7 Hd Hsg Hsg0).
        - destruct Hx as (X1 & X2 & X3). exists (IObject (Some h)). split; [|exists h; split; reflexivity].
          cbn [ps_offs p_offs ps_len p_len Datatypes.app]. rewrite Z.add_0_r, X1.
          eapply read_obj; eassumption. }
      destruct R as (r & R1 & R2). cbn [read_items]. rewrite R1. cbn [Base.bind].
      assert (Hl : blen (pre ++ it_tr i n pos x) = blen pre + ps_len i (it_ps x))
        by (rewrite blen_app; f_equal; eapply it_tr_len; exact Hx).
      assert (Hs : blen (sg0 ++ it_sg pos x) = pos + ps_space (it_ps x))
        by (rewrite blen_app, Hsg0; f_equal; eapply it_sg_len; exact Hx).
      destruct (IH (n + Z.of_nat (ps_count (it_ps x))) (pos + ps_space (it_ps x)) (pre ++ it_tr i n pos x) (sg0 ++ it_sg pos x) Hb Hlow Hsize Hr F2)
        as (rs & R3 & R4); [rewrite <- app_assoc; exact Hd|rewrite <- app_assoc; exact Hsg|exact Hs|].
      rewrite Hl in R3. rewrite R3. cbn [Base.bind]. exists (r :: rs). split; [reflexivity|]. constructor; assumption.
  Qed.

  (* ---------------------------------------------------------------- *)
  (* The next process *)
  Variables (c : converter) (e2 : kenv).
  Hypothesis Hi : k_io e2 = i.
  Hypothesis Hconv : converter_ok i c.

  (* [ps] are copied like this *)
  Definition copies (data pre : bytes) (n : Z) (ps ps2 : list piece) : Prop :=
    forall rest off d, 0 <= off <= blen pre -> exists off2 d2,
      append_objects i pr c data (ps_offs i (blen pre) ps ++ rest) off d = append_objects i pr c data rest off2 d2 /\
      0 <= off2 <= blen pre + ps_len i ps /\
      sofar data off2 (blen pre + ps_len i ps) d2 = sofar data off (blen pre) d ++ ps_bytes i n ps2 /\
      wd_offsets d2 = wd_offsets d ++ ps_offs i (blen (sofar data off (blen pre) d)) ps2 /\
      wd_bufsize d2 = wd_bufsize d + ps_space ps2.

  Definition sizes_same (ps qs : list piece) : Prop :=
    ps_count ps = ps_count qs /\ ps_space ps = ps_space qs /\ ps_len i ps = ps_len i qs /\ forall a, ps_offs i a ps = ps_offs i a qs.

  (* The pieces which are sent on are those of the item [y] *)
  Definition fwd1 (n pos : Z) (x : item) (ps2 : list piece) (y : item) : Prop :=
    Forall (p_ok e2) ps2 /\ sizes_same ps2 (it_ps x) /\ sizes_same (it_ps y) (it_ps x) /\
    (it_starts x -> (forall r, first_ok (ps2 ++ r)) /\ it_starts y) /\
    item_ok (k_sgbase e2) y /\ ps_tr e2 n pos ps2 = it_tr i n pos y /\ ps_sg e2 pos ps2 = it_sg pos y /\
    it_kind i y = it_kind i x /\ moved e2 c x y.

  (* Buffers *)
  Lemma tree_forwarded e1 o t n pos pre post data :
    ~ starts_well [o] -> item_ok (k_sgbase e1) (IOp e1 o [PTree t]) ->
    data = pre ++ p_tr e1 n pos (PTree t) ++ post -> holds (k_mem e2) (k_sgbase e1 + pos) (p_sg e1 pos (PTree t)) ->
    0 < k_sgbase e1 -> 0 <= pos -> k_sgbase e1 + pos + t_space t < 2 ^ (8 * psz i) ->
    exists ps2 y, copies data pre n [PTree t] ps2 /\ fwd1 n pos (IOp e1 o [PTree t]) ps2 y.
  Proof.
    intros Hst (A1 & _ & A3 & A4 & A5 & A6 & A7) Hd Hh Hbase Hpos Htop.
    exists [PTree (t_fwd i (k_sgbase e1) pos t)], (IOp (through e1 e2) o [PTree t]).
    inversion A7 as [|x y Hgood _]; subst x y.
    cbn [p_good p_tr p_sg] in *. rewrite A1 in Hd, Hh. destruct Hgood as [Htr Hsl].
    destruct (fwd_same i (k_sgbase e1) t m pos Htr) as (S1 & S2 & S3).
    assert (Ht2 : tree_ok i (k_mem e2) (t_fwd i (k_sgbase e1) pos t)) by (apply (fwd_ok i _ t m); auto; lia).
    destruct (blen_concat_emit_t i (t_reloc (k_sgbase e1) pos t) n None) as [L1 L2]. rewrite count_reloc in L1, L2.
    split.
    - intros rest off d Hoff. cbn [ps_offs p_offs ps_len p_len ps_bytes p_bytes ps_space p_space].
      rewrite !app_nil_r, !Z.add_0_r, S2, S3, S1.
      pose proof (t_buffers i _ _ n None Ht2) as Hb. rewrite S2, S3 in Hb.
      destruct (step_buffers i pr c data _ _ Hb pre post rest d off Hd Hoff) as (d2 & off2 & E1 & E2 & E3 & E4 & E5).
      rewrite L1, L2 in *. exists off2, d2. split; [exact E1|]. split; [exact E2|]. split; [exact E3|]. split; [exact E4|exact E5].
    - unfold fwd1, sizes_same. split; [constructor; [|constructor]; cbn [p_ok]; rewrite Hi; exact Ht2|].
      cbn [it_ps ps_count p_count ps_space p_space ps_len p_len ps_offs p_offs]. rewrite S1, S2.
      split; [repeat split; reflexivity|]. split; [repeat split; reflexivity|]. split; [intros H; contradiction|].
      split; [cbn [item_ok through k_io k_sgbase k_mem]; auto 10|].
      cbn [ps_tr p_tr ps_sg p_sg it_tr it_sg it_kind moved through k_io k_sgbase k_fd]. rewrite Hi.
      split; [rewrite (reloc_fwd i _ _ t m) by exact Htr; reflexivity|].
      split; [rewrite (fwd_image i _ _ t m) by exact Htr; reflexivity|].
      split; [reflexivity|]. split; [reflexivity|]. reflexivity.
  Qed.

  (* Plain data *)
  Lemma plain_forwarded e1 v n pos pre post data :
    item_ok (k_sgbase e1) (IOp e1 (OpPlain v) [PData (chunk v)]) -> data = pre ++ chunk v ++ post ->
    exists ps2 y, copies data pre n [PData (chunk v)] ps2 /\ fwd1 n pos (IOp e1 (OpPlain v) [PData (chunk v)]) ps2 y.
  Proof.
    intros (A1 & _ & A3 & A4 & A5 & A6 & A7) Hd. inversion A7 as [|x y Hgood _]; subst x y.
    exists [PData (chunk v)], (IOp (through e1 e2) (OpPlain v) [PData (chunk v)]). split.
    - intros rest off d Hoff. cbn [ps_offs p_offs ps_len p_len ps_bytes p_bytes ps_space p_space Datatypes.app].
      rewrite !app_nil_r, !Z.add_0_r. exists off, d. split; [reflexivity|].
      pose proof (blen_nonneg _ (chunk v)). split; [lia|]. split; [|split; reflexivity].
      unfold sofar. rewrite <- app_assoc. f_equal.
      replace (blen pre + blen (chunk v) - off) with ((blen pre - off) + blen (chunk v)) by lia.
      rewrite slice_split by lia. f_equal.
      rewrite Hd. replace (off + (blen pre - off)) with (blen pre) by lia. apply slice_app_exact; reflexivity.
    - unfold fwd1, sizes_same. split; [constructor; [exact Hgood|constructor]|].
      split; [repeat split; reflexivity|]. split; [repeat split; reflexivity|].
      split.
      { cbn [it_starts starts_well]. intros H. split; [|exact H]. intros r. cbn [Datatypes.app first_ok]. left. intros E. apply H.
        rewrite append_value_eq, E. reflexivity. }
      split; [cbn [item_ok through k_io k_sgbase k_mem]; auto 10|].
      split; [reflexivity|]. split; [reflexivity|]. split; [reflexivity|]. split; reflexivity.
  Qed.

  (* Descriptors *)
  Lemma fd_forwarded e1 fd dupfd n pos pre post data :
    let x := u32 (if dupfd <? 0 then fd else dupfd) in let ps := [PFlat TYPE_FD (0x7f + 0x100) x] in
    item_ok (k_sgbase e1) (IOp e1 (OpFd fd dupfd) ps) -> data = pre ++ flat_tr e1 TYPE_FD (0x7f + 0x100) x ++ post ->
    exists ps2 y, copies data pre n ps ps2 /\ fwd1 n pos (IOp e1 (OpFd fd dupfd) ps) ps2 y.
  Proof.
    intros x ps (A1 & _ & A3 & A4 & A5 & A6 & A7) Hd. set (y := u32 (k_fd e1 (sgn 32 (u32 x)))).
    change (flat_tr e1 TYPE_FD (0x7f + 0x100) x) with (flat_image (k_io e1) TYPE_FD (u32 (0x7f + 0x100)) y 0) in Hd. rewrite A1 in Hd.
    exists [PFlat TYPE_FD (u32 (0x7f + 0x100)) y], (IOp (through e1 e2) (OpFd fd dupfd) ps). split.
    - intros rest off d Hoff. cbn [ps ps_offs p_offs ps_len p_len ps_bytes p_bytes ps_space p_space Datatypes.app].
      rewrite !app_nil_r, !Z.add_0_r.
      destruct (step_fd i pr c data pre _ y post rest off d Hd Hoff) as (d1 & E1 & E2 & E3 & E4).
      exists (blen pre + flat_size i), d1. split; [exact E1|]. pose proof (flat_size_pos i). split; [lia|].
      rewrite sofar_end. split; [exact E2|]. split; [exact E3|exact E4].
    - unfold fwd1, sizes_same. split; [constructor; [cbn [p_ok]; right; right; left; reflexivity|constructor]|].
      split; [repeat split; reflexivity|]. split; [repeat split; reflexivity|].
      split; [intros _; split; [intros r|]; exact Logic.I|].
      split; [cbn [item_ok through k_io k_sgbase k_mem]; auto 10|].
      split.
      { cbn [ps ps_tr p_tr it_tr]. f_equal. unfold flat_tr. cbn [through k_io k_fd].
        change (TYPE_FD =? TYPE_BINDER) with false. change (TYPE_FD =? TYPE_WEAK_BINDER) with false.
        change (TYPE_FD =? TYPE_HANDLE) with false. change (TYPE_FD =? TYPE_WEAK_HANDLE) with false. cbn [orb].
        f_equal. do 2 f_equal. unfold y. rewrite u32_u32, sgn_u32_any. reflexivity. }
      split; [reflexivity|]. split; [reflexivity|]. split; reflexivity.
  Qed.

  (* Objects *)
  Lemma local_image l n : ps_bytes i n [PFlat TYPE_BINDER (0x7f + 0x100) (lo_ptr l);
      PData match pr with Aidl3 => le 4 (lo_stability l) | _ => [] end] = converted_image i pr l.
  Proof. unfold converted_image. cbn [ps_bytes p_bytes]. destruct pr; rewrite ?app_nil_r; reflexivity. Qed.
  Lemma blen_ex l : blen match pr with Aidl3 => le 4 (lo_stability l) | _ => [] end = flat_extra pr.
  Proof. destruct pr; reflexivity. Qed.
  Lemma usz_usz a : usz i (usz i a) = usz i a.
  Proof. unfold usz. apply Z.mod_mod. pose proof (pow_psz i). pose proof (psz_pos i). lia. Qed.
  Lemma flat_usz t fl a : flat_image i t fl (usz i a) 0 = flat_image i t fl a 0.
  Proof.
    unfold flat_image. do 3 f_equal. rewrite <- unle_lep.
    rewrite <- (le_unle (le (psize i) a)) at 2 by apply all_bytes_le.
    f_equal. pose proof (blen_le (psize i) a) as B. unfold blen in B. lia.
  Qed.

  Lemma object_forwarded base p fl ex n pos pre post data :
    item_ok base (IObj p fl ex) -> data = pre ++ (place_image i p fl ++ ex) ++ post ->
    exists ps2 y, copies data pre n (it_ps (IObj p fl ex)) ps2 /\ fwd1 n pos (IObj p fl ex) ps2 y.
  Proof.
    intros (Hex & Hfl & Hp) Hd. rewrite <- app_assoc in Hd.
    pose proof (full_nonneg i pr) as Hfull. pose proof (flat_size_pos i) as Hfs.
    assert (Hcopies : forall ps2,
      ps_bytes i n ps2 = match place_conv c p with Some l => converted_image i pr l | None => place_image i p fl ++ ex end ->
      sizes_same ps2 (it_ps (IObj p fl ex)) -> copies data pre n (it_ps (IObj p fl ex)) ps2).
    { intros ps2 Hb (_ & S2 & S3 & S4) rest off d Hoff. rewrite S4, S2, Hb.
      cbn [it_ps ps_offs p_offs ps_len p_len ps_space p_space Datatypes.app]. rewrite Z.add_0_r, Hex.
      destruct (step_place i pr c data pre fl p ex post rest off d Hd Hex Hoff) as (d1 & E1 & E2 & E3 & E4).
      exists (blen pre + flat_size i + flat_extra pr), d1. split; [exact E1|]. split; [lia|].
      rewrite Z.add_assoc, sofar_end. split; [exact E2|]. split; [exact E3|lia]. }
    assert (Hsame : forall t f a q f2 ex2, blen ex2 = flat_extra pr ->
      sizes_same [PFlat t f a; PData ex2] (it_ps (IObj p fl ex)) /\ sizes_same (it_ps (IObj q f2 ex2)) (it_ps (IObj p fl ex))).
    { intros t f a q f2 ex2 He. unfold sizes_same. cbn [it_ps ps_count p_count ps_space p_space ps_len p_len ps_offs p_offs].
      rewrite He, Hex. repeat split; reflexivity. }
    assert (H4 : forall ex2 : bytes, blen ex2 = flat_extra pr -> blen ex2 mod 4 = 0) by (intros ex2 ->; destruct pr; reflexivity).
    assert (Hfin : forall t f a ex2, blen ex2 = flat_extra pr -> u32 f = f -> flat_type_ok t ->
      ps_bytes i n [PFlat t f a; PData ex2] = match place_conv c p with Some l => converted_image i pr l | None => place_image i p fl ++ ex end ->
      flat_tr e2 t f a = place_image i (onward e2 c p) f ->
      exists ps2 y, copies data pre n (it_ps (IObj p fl ex)) ps2 /\ fwd1 n pos (IObj p fl ex) ps2 y).
    { intros t f a ex2 He Hf Ht Hb Htr. exists [PFlat t f a; PData ex2], (IObj (onward e2 c p) f ex2).
      destruct (Hsame t f a (onward e2 c p) f ex2 He) as [S1 S2].
      split; [apply Hcopies; assumption|]. unfold fwd1.
      split; [constructor; [exact Ht|]; constructor; [apply H4; exact He|constructor]|]. split; [exact S1|]. split; [exact S2|].
      split; [intros _; split; [intros r|]; exact Logic.I|].
      split.
      { cbn [item_ok]. split; [exact He|]. split; [exact Hf|]. unfold onward, sent_local, sent_handle.
        destruct p as [h|b]; [|apply u32_u32]. destruct (replaced c h); [apply u32_u32|].
        destruct (k_ref e2 h); [apply u32_u32|]. rewrite Hi. apply usz_usz. }
      cbn [ps_tr p_tr it_tr ps_sg p_sg it_sg it_kind moved Datatypes.app]. rewrite app_nil_r, Htr.
      split; [reflexivity|]. split; [reflexivity|]. split; reflexivity. }
    destruct p as [h|a]; cbn [place_conv place_image] in *.
    - rewrite Hp in Hfin. destruct (replaced c h) as [l|] eqn:Hr.
      + (* replaced with a local object *)
        apply (Hfin TYPE_BINDER (0x7f + 0x100) (lo_ptr l) match pr with Aidl3 => le 4 (lo_stability l) | _ => [] end).
        * apply blen_ex.
        * reflexivity.
        * left. reflexivity.
        * apply local_image.
        * unfold flat_tr, onward. rewrite Hr. change (TYPE_BINDER =? TYPE_BINDER) with true. cbn [orb sent_local place_image].
          rewrite Hi. pose proof (Hconv h l Hr) as Ha. unfold usz. rewrite Z.mod_small by (unfold is_addr in Ha; lia). reflexivity.
      + (* sent on as it is *)
        apply (Hfin TYPE_HANDLE fl h ex).
        * exact Hex.
        * exact Hfl.
        * right. left. reflexivity.
        * cbn [ps_bytes p_bytes]. rewrite app_nil_r. reflexivity.
        * unfold flat_tr, onward. rewrite Hr. change (TYPE_HANDLE =? TYPE_BINDER) with false. change (TYPE_HANDLE =? TYPE_WEAK_BINDER) with false.
          change (TYPE_HANDLE =? TYPE_HANDLE) with true. cbn [orb]. rewrite Hp, Hfl, Hi. unfold sent_handle.
          destruct (k_ref e2 h) as [h2|]; cbn [place_image]; [reflexivity|]. rewrite Hi, flat_usz. reflexivity.
    - (* an object of the process in the middle *)
      apply (Hfin TYPE_BINDER fl a ex).
      + exact Hex.
      + exact Hfl.
      + left. reflexivity.
      + cbn [ps_bytes p_bytes]. rewrite app_nil_r. reflexivity.
      + unfold flat_tr, onward. change (TYPE_BINDER =? TYPE_BINDER) with true. cbn [orb sent_local place_image].
        rewrite Hi, Hp, Hfl. reflexivity.
  Qed.

  Lemma item_forwarded base x n pos pre post data :
    0 < base -> item_ok base x ->
    data = pre ++ it_tr i n pos x ++ post -> holds (k_mem e2) (base + pos) (it_sg pos x) ->
    0 <= pos -> base + pos + ps_space (it_ps x) < 2 ^ (8 * psz i) ->
    exists ps2 y, copies data pre n (it_ps x) ps2 /\ fwd1 n pos x ps2 y.
  Proof.
    intros Hbase Hok Hd Hh Hpos Htop. destruct x as [e1 o ps|p fl ex]; [|eapply object_forwarded; eassumption].
    pose proof Hok as (A1 & A2 & A3 & A4 & A5 & A6 & A7). subst base.
    assert (Htree : forall t, ps = [PTree t] -> ~ starts_well [o] ->
      exists ps2 y, copies data pre n ps ps2 /\ fwd1 n pos (IOp e1 o ps) ps2 y).
    { intros t -> G2. cbn [it_tr it_sg it_ps ps_tr ps_sg ps_space p_space] in *. rewrite !app_nil_r in *.
      apply (tree_forwarded e1 o t n pos pre post data); auto. rewrite Z.add_0_r in Htop. exact Htop. }
    cbn [it_tr it_sg it_ps] in *.
    destruct o as [v|[l|]|[h|]|fd dupfd|ptr size pa|slack f pa|b count elemsize|s|l|m1 ptr t pa|m1 ptr count t];
      cbn [call_ok] in A4; try contradiction; try discriminate A5.
    - cbn [describes] in A6. subst ps. cbn [ps_tr p_tr] in *. rewrite app_nil_r in Hd.
      apply (plain_forwarded e1 v n pos pre post data); assumption.
    - cbn [describes] in A6. subst ps. cbn [ps_tr p_tr] in Hd. rewrite app_nil_r in Hd.
      apply (fd_forwarded e1 fd dupfd n pos pre post data); assumption.
    - destruct A6 as (v & a & ->). eapply Htree; [reflexivity|auto].
    - destruct A6 as (v & ->). eapply Htree; [reflexivity|auto].
    - destruct A6 as (v & a & ->). eapply Htree; [reflexivity|auto].
    - cbn [describes] in A6. subst ps. eapply Htree; [reflexivity|auto].
    - destruct A6 as (v & ->). eapply Htree; [reflexivity|auto].
  Qed.

  Lemma its_forwarded base its : forall n pos pre data,
    0 < base -> Forall (item_ok base) its ->
    data = pre ++ is_tr i n pos its -> holds (k_mem e2) (base + pos) (is_sg pos its) ->
    0 <= pos -> base + pos + ps_space (is_ps its) < 2 ^ (8 * psz i) ->
    exists ps2 its2, ps_tr e2 n pos ps2 = is_tr i n pos its2 /\ ps_sg e2 pos ps2 = is_sg pos its2 /\
      sizes_same ps2 (is_ps its) /\ sizes_same (is_ps its2) (is_ps its) /\ Forall (p_ok e2) ps2 /\
      (its_start its -> first_ok ps2 /\ its_start its2) /\
      Forall (item_ok (k_sgbase e2)) its2 /\ map (it_kind i) its2 = map (it_kind i) its /\ Forall2 (moved e2 c) its its2 /\
      copies data pre n (is_ps its) ps2.
  Proof.
    induction its as [|x its IH]; intros n pos pre data Hbase Hok Hd Hh Hpos Htop.
    - exists [], []. cbn [is_tr is_sg is_ps map concat ps_tr ps_sg its_start] in *. rewrite app_nil_r in Hd.
      split; [reflexivity|]. split; [reflexivity|]. split; [repeat split; reflexivity|]. split; [repeat split; reflexivity|].
      split; [constructor|]. split; [intros _; split; exact Logic.I|].
      split; [constructor|]. split; [reflexivity|]. split; [constructor|].
      intros rest off d Hoff. exists off, d. cbn [ps_offs ps_len ps_bytes ps_space Datatypes.app]. rewrite !Z.add_0_r, !app_nil_r.
      split; [reflexivity|]. split; [lia|]. split; [reflexivity|]. split; reflexivity.
    - inversion Hok as [|y z Hx Hr]; subst y z.
      cbn [is_tr is_sg] in Hd, Hh. unfold is_ps in Htop. cbn [map concat] in Htop. fold (is_ps its) in Htop. rewrite ps_space_app in Htop.
      pose proof (ps_space_nonneg (it_ps x)). pose proof (ps_space_nonneg (is_ps its)).
      apply holds_app in Hh. destruct Hh as [Hh1 Hh2].
      rewrite (it_sg_len base), <- Z.add_assoc in Hh2 by exact Hx.
      destruct (item_forwarded base x n pos pre (is_tr i (n + Z.of_nat (ps_count (it_ps x))) (pos + ps_space (it_ps x)) its) data)
        as (ps2 & y & C1 & P1 & S1 & S2 & P3 & P4 & P5 & P6 & P7 & P8); auto; [lia|].
      assert (Hl : blen (pre ++ it_tr i n pos x) = blen pre + ps_len i (it_ps x))
        by (rewrite blen_app; f_equal; eapply it_tr_len; exact Hx).
      destruct (IH (n + Z.of_nat (ps_count (it_ps x))) (pos + ps_space (it_ps x)) (pre ++ it_tr i n pos x) data Hbase Hr)
        as (qs2 & its2 & T1 & T2 & S3 & S4 & T5 & T6 & T7 & T8 & T9 & C2);
        [rewrite <- app_assoc; exact Hd|exact Hh2|lia|lia|].
      destruct S1 as (S11 & S12 & S13 & S14). destruct S2 as (S21 & S22 & S23 & S24).
      destruct S3 as (S31 & S32 & S33 & S34). destruct S4 as (S41 & S42 & S43 & S44).
      exists (ps2 ++ qs2), (y :: its2).
      unfold is_ps. cbn [is_tr is_sg map concat its_start]. fold (is_ps its) (is_ps its2).
      split; [rewrite ps_tr_app, S11, S12, S21, S22, P5, T1; reflexivity|].
      split; [rewrite ps_sg_app, S12, S22, P6, T2; reflexivity|].
      split; [unfold sizes_same; rewrite !ps_count_app, !ps_space_app, !ps_len_app; repeat split; try lia;
        intros a; rewrite !ps_offs_app, S14, S13, S34; reflexivity|].
      split; [unfold sizes_same; rewrite !ps_count_app, !ps_space_app, !ps_len_app; repeat split; try lia;
        intros a; rewrite !ps_offs_app, S24, S23, S44; reflexivity|].
      split; [apply Forall_app; split; assumption|].
      split; [intros Hs; destruct (P3 Hs) as [K5 K6]; split; [apply K5|exact K6]|].
      split; [constructor; assumption|]. split; [rewrite P7, T8; reflexivity|]. split; [constructor; assumption|].
      intros rest off d Hoff. rewrite ps_offs_app, <- app_assoc.
      destruct (C1 (ps_offs i (blen pre + ps_len i (it_ps x)) (is_ps its) ++ rest) off d Hoff) as (off1 & d1 & E1 & E2 & E3 & E4 & E5).
      unfold copies in C2. rewrite Hl in C2. destruct (C2 rest off1 d1 E2) as (off2 & d2 & E6 & E7 & E8 & E9 & E10).
      exists off2, d2. rewrite E1, E6, ps_len_app, Z.add_assoc. split; [reflexivity|]. split; [exact E7|].
      split; [rewrite E8, E3, ps_bytes_app, S11, app_assoc; reflexivity|].
      split; [|rewrite E10, E5, ps_space_app; lia].
      rewrite E9, E4, E3, ps_offs_app, app_assoc, blen_app, ps_bytes_len. reflexivity.
  Qed.

  (* The whole of the contents *)
  Lemma contents_forwarded base its data :
    0 < base -> Forall (item_ok base) its ->
    data = is_tr i 0 0 its -> holds (k_mem e2) base (is_sg 0 its) ->
    base + ps_space (is_ps its) < 2 ^ (8 * psz i) ->
    exists ps2 its2 d2, append_contents i pr c wd_empty data (ps_offs i 0 (is_ps its)) 0 = Ok d2 /\
      ps_tr e2 0 0 ps2 = is_tr i 0 0 its2 /\ ps_sg e2 0 ps2 = is_sg 0 its2 /\
      sizes_same ps2 (is_ps its) /\ sizes_same (is_ps its2) (is_ps its) /\ Forall (p_ok e2) ps2 /\
      (its_start its -> first_ok ps2 /\ its_start its2) /\
      Forall (item_ok (k_sgbase e2)) its2 /\ map (it_kind i) its2 = map (it_kind i) its /\ Forall2 (moved e2 c) its its2 /\
      wd_bytes d2 = ps_bytes i 0 ps2 /\ wd_offsets d2 = ps_offs i 0 ps2 /\ wd_bufsize d2 = ps_space ps2.
  Proof.
    intros Hbase Hok Hd Hh Htop.
    destruct (its_forwarded base its 0 0 [] data Hbase Hok Hd)
      as (ps2 & its2 & T1 & T2 & T3 & T4 & T5 & T6 & T7 & T8 & T9 & C); [rewrite Z.add_0_r; exact Hh|lia|lia|].
    destruct (C [] 0 wd_empty) as (off2 & d2 & E1 & E2 & E3 & E4 & E5); [change (blen (@nil Z)) with 0; lia|].
    change (blen (@nil Z)) with 0 in E1, E2, E3, E4. rewrite app_nil_r in E1.
    rewrite sofar_end in E3, E4. cbn [wd_empty wd_bytes wd_offsets wd_bufsize Datatypes.app] in E3, E4, E5.
    change (blen (@nil Z)) with 0 in E4. rewrite Z.add_0_l in E5, E2, E3.
    assert (Hlen : ps_len i (is_ps its) = blen data) by (rewrite Hd, (is_tr_len base) by exact Hok; reflexivity).
    rewrite Hlen in E2, E3. cbn [append_objects] in E1.
    exists ps2, its2. unfold append_contents. rewrite E1. cbn [Base.bind].
    destruct (Z.ltb_spec off2 (blen data)) as [Hlt|Hge].
    - rewrite load_inside by lia. cbn [Base.bind].
      exists (wd_set_bytes d2 (wd_bytes d2 ++ slice data off2 (blen data - off2))).
      split; [reflexivity|]. do 9 (split; [assumption|]).
      cbn [wd_set_bytes wd_bytes wd_offsets wd_bufsize]. split; [exact E3|]. split; [exact E4|exact E5].
    - assert (off2 = blen data) by lia. subst off2. rewrite sofar_end in E3.
      exists d2. split; [reflexivity|]. do 9 (split; [assumption|]).
      split; [exact E3|]. split; [exact E4|exact E5].
  Qed.
End Items.

(* ------------------------------------------------------------------ *)
(* Any pieces, sent *)
Lemma pieces_delivered e q d :
  let i := k_io e in
  wd_bytes d = ps_bytes i 0 q -> wd_offsets d = ps_offs i 0 q -> wd_bufsize d = ps_space q ->
  Forall (p_ok e) q -> first_ok q -> blen (wd_bytes d) < 2 ^ 31 ->
  0 < k_sgbase e -> k_sgbase e + align8 (wd_bufsize d) < 2 ^ (8 * psz i) ->
  exists g, k_send e (wd_bytes d) (wd_offsets d) (wd_bufsize d) = Some g /\
    m_data g = ps_tr e 0 0 q /\ m_sg g = ps_sg e 0 q /\ m_sgbase g = k_sgbase e /\ low_message i g /\
    blen (m_data g) = blen (wd_bytes d).
Proof.
  intros i B1 B2 B3 Hpo Hfirst Hsize Hpos Htop.
  assert (Hlen : blen (wd_bytes d) = ps_len i q) by (rewrite B1; apply ps_bytes_len).
  pose proof (ps_count_len i q) as Hcl. pose proof (ps_space_nonneg q).
  assert (Hfew : blen (wd_offsets d) < 2 ^ 31).
  { rewrite B2. unfold blen at 1. rewrite ps_offs_length. lia. }
  assert (Hinj : forall j k o, nth_error (wd_offsets d) j = Some o ->
                 nth_error (wd_offsets d) k = Some o -> j = k).
  { intros j k o Hj Hk. rewrite B2 in Hj, Hk.
    pose proof (ps_offs_nodup i q 0) as ND. rewrite NoDup_nth_error in ND.
    apply ND; [apply nth_error_Some|]; congruence. }
  pose proof (align8_spec (wd_bufsize d)).
  destruct (pieces_run_first e (wd_offsets d) (wd_bufsize d) Hinj Hpos Htop Hfew q
    {| ks_data := wd_bytes d; ks_sg := []; ks_min := 0; ks_last := 0; ks_last_min := 0 |}
    0%nat [] []) as (s1 & R1 & K1 & K2); auto; cbn [ks_min ks_sg];
    change (blen (@nil Z)) with 0; try reflexivity; try lia.
  cbn [ks_sg Datatypes.app] in K1, K2. change (blen (@nil Z)) with 0 in K1, K2.
  unfold run in R1. cbn [skipn] in R1. change (Z.of_nat 0) with 0 in *.
  unfold k_send. rewrite R1. eexists. split; [reflexivity|]. cbn [m_data m_sg m_sgbase].
  split; [exact K1|]. split; [exact K2|]. split; [reflexivity|].
  split; [|rewrite K1, ps_tr_len, Hlen; reflexivity].
  unfold low_message. cbn [m_sg m_sgbase]. rewrite K2, ps_sg_len by exact Hpo. lia.
Qed.


(* ------------------------------------------------------------------ *)
(* One process after another *)
Lemma sent_on_contents i cm pr k c g offs :
  sent_on i cm pr k c g offs = let* d := append_contents i pr c wd_empty (m_data g) offs 0 in Ok (Some d).
Proof.
  destruct k as [code other|]; cbn [sent_on]; [|reflexivity].
  unfold ProxyConv.forward_request, ProxyConv.converter_protocol, ProxyConv.request_to_local. destruct pr; reflexivity.
Qed.

(* Where it is at the end, and what is read there *)
Definition it_end (r : hops) (x : item) : Prop :=
  match x with IObj p _ _ => exists h, along r p = Handle h | _ => True end.
Definition it_passed (i : io) (r : hops) (g : message) (x : item) (v : ritem) : Prop :=
  match x with
  | IOp e1 (OpFd fd dupfd) _ => v = IFd (fd_along r (sgn 32 (k_fd e1 (if dupfd <? 0 then fd else dupfd))))
  | IOp e1 o _ => got i e1 g o v
  | IObj p _ _ => exists h, along r p = Handle h /\ v = IObject (Some h)
  end.

Lemma moved_end e c r x y : moved e c x y -> it_end ((e, c) :: r) x -> it_end r y.
Proof. destruct x, y; cbn [moved it_end along]; try contradiction; auto. intros ->. auto. Qed.

Lemma moved_passed i pr m base e c r g x y v :
  item_ok i pr m base x -> moved e c x y -> it_passed i r g y v -> it_passed i ((e, c) :: r) g x v.
Proof.
  destruct x as [e1 o ps|p fl ex], y as [e3 o3 ps3|q fl3 ex3]; cbn [moved item_ok]; try contradiction.
  - intros (_ & _ & _ & _ & Ho & _) [-> Hfd] H. destruct o; try discriminate Ho; cbn [it_passed fd_along got] in *; try exact H.
    rewrite H, Hfd. reflexivity.
  - intros _ -> H. exact H.
Qed.

Lemma relay_items i cm pr k m r : forall base its g offs,
  0 < base -> base + align8 (ps_space (is_ps its)) < 2 ^ (8 * psz i) ->
  Forall (item_ok i pr m base) its -> Forall (it_end r) its -> its_start its ->
  m_data g = is_tr i 0 0 its -> m_sg g = is_sg 0 its -> m_sgbase g = base -> offs = ps_offs i 0 (is_ps its) ->
  low_message i g -> blen (m_data g) < 2 ^ 31 ->
  Forall (hop_ok i (ps_space (is_ps its))) r -> mapped i cm pr k r g offs ->
  exists g2 offs2 rs, relay i cm pr k r g offs = Some (g2, offs2) /\ blen (m_data g2) = blen (m_data g) /\
    read_items cm i pr g2 (reader_init 0 (blen (m_data g2)) offs2) (map (it_kind i) its)
      = Ok (rs, mk_reader 0 (blen (m_data g2)) (blen (m_data g2)) []) /\
    Forall2 (it_passed i r g2) its rs.
Proof.
  induction r as [|[e c] r IH]; intros base its g offs Hb Htop Hok Hend Hst Hd Hsg Hsb Ho Hlow Hsize Hhops Hmap.
  - cbn [relay]. rewrite <- Hsb in Hok, Hb.
    assert (Hfor : Forall it_foreign its).
    { eapply Forall_impl; [|exact Hend]. intros [e1 o ps|[h|a] fl ex]; cbn [it_end it_foreign along]; auto. intros (h & H). discriminate H. }
    destruct (read_its i pr m cm g 0 its 0 0 [] [] Hb Hlow Hsize Hok Hfor Hd Hsg eq_refl) as (rs & R1 & R2).
    exists g, offs, rs. split; [reflexivity|]. split; [reflexivity|]. split.
    + rewrite <- R1. unfold reader_init, mk_reader. rewrite Ho. reflexivity.
    + clear - Hok R2. induction R2 as [|x v l vs G R2 IH]; constructor; inversion Hok; subst; [|auto].
      destruct x as [e1 o ps|p fl ex]; [|exact G]. destruct o; exact G.
  - inversion Hhops as [|y z Hh Hhs]; subst y z. destruct Hh as (H1 & H2 & H3 & H4). cbn [fst snd] in *.
    cbn [mapped relay] in *. destruct Hmap as [Hm Hmap].
    pose proof (align8_spec (ps_space (is_ps its))) as Ha. rewrite Hsb, Hsg in Hm. cbn [fst] in Hm.
    destruct (contents_forwarded i pr m c e H1 H4 base its (m_data g) Hb Hok Hd Hm)
      as (ps2 & its2 & d2 & E1 & E2 & E3 & (S1 & S2 & S3 & S4) & (S5 & S6 & S7 & S8) & E6 & E7 & E8 & E9 & E10 & E11 & E12 & E13); [lia|].
    destruct (E7 Hst) as [Hfirst Hst2]. rewrite <- Ho in E1.
    assert (Hl2 : blen (wd_bytes d2) = blen (m_data g)).
    { rewrite E11, ps_bytes_len, S3, Hd, (is_tr_len i pr m base) by exact Hok. reflexivity. }
    destruct (pieces_delivered e ps2 d2) as (g2 & G1 & G2 & G3 & G4 & G5 & G6);
      rewrite ?H1; auto; [lia|rewrite E13, S2; exact H3|]. rewrite H1 in *.
    assert (Hop : one_hop i cm pr k (e, c) g offs = Some (g2, wd_offsets d2)).
    { unfold one_hop. rewrite sent_on_contents. cbn [fst snd]. rewrite E1. cbn [Base.bind]. rewrite G1. reflexivity. }
    rewrite Hop in Hmap |- *.
    assert (Hend2 : Forall (it_end r) its2).
    { clear - E10 Hend. induction E10 as [|x y l l2 M E10 IH]; constructor; inversion Hend; subst; [|auto].
      eapply moved_end; eassumption. }
    destruct (IH (k_sgbase e) its2 g2 (wd_offsets d2)) as (g3 & offs3 & rs & R1 & R2 & R3 & R4); auto.
    + rewrite S6. exact H3.
    + congruence.
    + congruence.
    + rewrite E12, S4, S8. reflexivity.
    + rewrite G6, Hl2. exact Hsize.
    + rewrite S6. exact Hhs.
    + exists g3, offs3, rs. split; [exact R1|]. split; [congruence|]. split; [rewrite E9 in R3; exact R3|].
      clear - E10 R4 Hok. revert rs R4.
      induction E10 as [|x y l l2 M E10 IH]; intros rs R4; inversion R4; subst; constructor; inversion Hok; subst; [|auto].
      eapply moved_passed; eassumption.
Qed.

(* The first message *)
Definition first_item (e : kenv) (pr : protocol) (o : op) (ps : list piece) : item :=
  match o with
  | OpLocal (Some l) => IObj (sent_local e (lo_ptr l)) (0x7f + 0x100) match pr with Aidl3 => le 4 (lo_stability l) | _ => [] end
  | OpRemote (Some h) => IObj (sent_handle e h) 0x100 []
  | _ => IOp e o ps
  end.

Lemma first_item_spec e pr o ps r :
  let i := k_io e in let x := first_item e pr o ps in
  call_ok i pr (k_mem e) o -> describes i pr (k_mem e) o ps -> Forall (p_good i (k_mem e)) ps -> foreign_at_end e r o ->
  ps_count (it_ps x) = ps_count ps /\ ps_space (it_ps x) = ps_space ps /\ ps_len i (it_ps x) = ps_len i ps /\
  (forall a, ps_offs i a (it_ps x) = ps_offs i a ps) /\ (forall n pos, it_tr i n pos x = ps_tr e n pos ps) /\
  (forall pos, it_sg pos x = ps_sg e pos ps) /\ it_kind i x = rkind_of i o /\ (starts_well [o] -> it_starts x) /\
  item_ok i pr (k_mem e) (k_sgbase e) x /\ it_end r x /\ (forall g v, it_passed i r g x v -> passed i e r g o v).
Proof.
  intros i x Hok Hdes Hgood Hend.
  destruct o as [v|[l|]|[h|]|fd dupfd|ptr size pa|slack f pa|b count elemsize|s|l|m1 ptr t pa|m1 ptr count t];
    cbn [call_ok] in Hok; try contradiction; cbn [first_item] in x.
  all: try (subst x; do 7 (split; [reflexivity|]); split; [intros H; exact H|]; split; [cbn [item_ok]; auto 10|];
    split; [exact Logic.I|intros g w H; exact H]).
  - (* local *)
    cbn [describes] in Hdes. subst ps. destruct (Hend _ eq_refl) as [h Hh].
    split; [destruct pr; reflexivity|]. split; [destruct pr; reflexivity|].
    split; [subst x; cbn [it_ps ps_len p_len]; destruct pr; reflexivity|]. split; [destruct pr; reflexivity|].
    split.
    { intros n pos. subst x. cbn [it_tr sent_local place_image ps_tr p_tr]. unfold flat_tr.
      change (TYPE_BINDER =? TYPE_BINDER) with true. cbn [orb].
      fold i. unfold usz. rewrite Z.mod_small by (unfold is_addr in Hok; lia).
      destruct pr; cbn [ps_tr p_tr]; rewrite ?app_nil_r; reflexivity. }
    split; [intros pos; subst x; cbn [it_sg ps_sg p_sg]; destruct pr; reflexivity|].
    split; [reflexivity|]. split; [intros _; exact Logic.I|].
    split; [subst x; cbn [item_ok sent_local]; split; [destruct pr; reflexivity|]; split; [reflexivity|apply u32_u32]|].
    split; [exists h; exact Hh|]. intros g w (h2 & P1 & P2). eexists _, h2. split; [reflexivity|]. split; assumption.
  - (* remote *)
    cbn [describes] in Hdes. subst ps. destruct Hok as [Hx Hpr]. destruct (Hend _ eq_refl) as [h2 Hh].
    split; [destruct pr; reflexivity|]. split; [destruct pr; reflexivity|]. split; [reflexivity|]. split; [reflexivity|].
    split.
    { intros n pos. subst x. cbn [it_tr ps_tr p_tr]. unfold flat_tr, sent_handle. change (TYPE_HANDLE =? TYPE_BINDER) with false.
      change (TYPE_HANDLE =? TYPE_WEAK_BINDER) with false. change (TYPE_HANDLE =? TYPE_HANDLE) with true. cbn [orb].
      rewrite (u32_small h Hx). destruct (k_ref e h) as [h1|]; cbn [place_image]; [reflexivity|]. fold i. rewrite flat_usz. reflexivity. }
    split; [reflexivity|]. split; [reflexivity|]. split; [intros _; exact Logic.I|].
    split.
    { subst x. cbn [item_ok]. split; [destruct pr; try contradiction; reflexivity|]. split; [reflexivity|].
      unfold sent_handle. destruct (k_ref e h); [apply u32_u32|]. apply usz_usz. }
    split; [exists h2; exact Hh|]. intros g w (h3 & P1 & P2). eexists _, h3. split; [reflexivity|]. split; assumption.
Qed.

Definition first_items (e : kenv) (pr : protocol) (l : list op) (pss : list (list piece)) : list item :=
  map (fun x => first_item e pr (fst x) (snd x)) (combine l pss).
Lemma first_items_spec e pr l pss r :
  let i := k_io e in let its := first_items e pr l pss in
  Forall (call_ok i pr (k_mem e)) l -> Forall (foreign_at_end e r) l -> Forall2 (describes i pr (k_mem e)) l pss ->
  Forall (Forall (p_good i (k_mem e))) pss ->
  ps_space (is_ps its) = ps_space (concat pss) /\ (forall a, ps_offs i a (is_ps its) = ps_offs i a (concat pss)) /\
  (forall n pos, is_tr i n pos its = ps_tr e n pos (concat pss)) /\ (forall pos, is_sg pos its = ps_sg e pos (concat pss)) /\
  map (it_kind i) its = map (rkind_of i) l /\ (starts_well l -> its_start its) /\
  Forall (item_ok i pr (k_mem e) (k_sgbase e)) its /\ Forall (it_end r) its /\
  forall g rs, Forall2 (it_passed i r g) its rs -> Forall2 (passed i e r g) l rs.
Proof.
  intros i its Hok Hf D. subst its. induction D as [|o ps l pss D1 D IH]; intros G.
  - do 5 (split; [reflexivity|]). split; [intros _; exact Logic.I|]. split; [constructor|]. split; [constructor|].
    intros g rs H. inversion H. constructor.
  - inversion Hok; inversion Hf; inversion G; subst. destruct IH as (I1 & I2 & I3 & I4 & I5 & I6 & I7 & I8 & I9); auto.
    destruct (first_item_spec e pr o ps r) as (J1 & J2 & J3 & J4 & J5 & J6 & J7 & J8 & J9 & J10 & J11); auto.
    unfold first_items, is_ps. cbn [combine map concat is_tr is_sg fst snd its_start].
    fold (first_items e pr l pss). fold (is_ps (first_items e pr l pss)).
    fold i in J1, J2, J3, J4, J5, J6, J7, J8, J9, J10, J11.
    split; [rewrite !ps_space_app; lia|].
    split; [intros a; rewrite !ps_offs_app, J4, J3, I2; reflexivity|].
    split; [intros n pos; rewrite J5, J1, J2, I3, ps_tr_app; reflexivity|].
    split; [intros pos; rewrite J6, J2, I4, ps_sg_app; reflexivity|].
    split; [rewrite J7, I5; reflexivity|]. split; [intros Hs; apply J8; destruct o; exact Hs|].
    split; [constructor; assumption|]. split; [constructor; assumption|].
    intros g rs H'. inversion H'; subst. constructor; [apply J11; assumption|apply I9; assumption].
Qed.

Theorem forwarded cm pr al e1 l r k :
  let i := k_io e1 in
  (forall n, is_addr i (al n)) -> Forall (call_ok i pr (k_mem e1)) l -> Forall (foreign_at_end e1 r) l -> starts_well l ->
  exists d, w_ops i pr al wd_empty l = Ok d /\
    (blen (wd_bytes d) < 2 ^ 31 ->
     Forall (fun b => holds (k_mem e1) (fst b) (snd b)) (wd_heap d) ->
     0 < k_sgbase e1 -> k_sgbase e1 + align8 (wd_bufsize d) < 2 ^ (8 * psz i) ->
     Forall (hop_ok i (wd_bufsize d)) r ->
     exists g, k_send e1 (wd_bytes d) (wd_offsets d) (wd_bufsize d) = Some g /\
       (mapped i cm pr k r g (wd_offsets d) ->
        exists g2 offs2 rs p, relay i cm pr k r g (wd_offsets d) = Some (g2, offs2) /\
          read_items cm i pr g2 (reader_init 0 (blen (m_data g2)) offs2) (map (rkind_of i) l) = Ok (rs, p) /\
          Forall2 (passed i e1 r g2) l rs /\
          r_ptr p = blen (m_data g2) /\ r_objects p = [] /\ blen (m_data g2) = blen (wd_bytes d))).
Proof.
  intros i Hal Hok Hfor Hst.
  destruct (ops_added i pr al (k_mem e1) l wd_empty Hal Hok) as (d & _ & _ & E1 & _).
  exists d. split; [exact E1|]. intros Hsize Hheap Hpos Htop Hhops.
  destruct (delivered pr al e1 l d Hal Hok Hst E1 Hsize Hheap Hpos Htop)
    as (g & pss & Hg & D1 & G1 & K1 & K2 & Hb & Hlow & Hgl & Ho & Hbuf & _).
  exists g. split; [exact Hg|]. intros Hmap.
  destruct (first_items_spec e1 pr l pss r Hok Hfor D1 G1) as (I1 & I2 & I3 & I4 & I5 & I6 & I7 & I8 & I9).
  set (its := first_items e1 pr l pss) in *. fold i in I2, I3, I5, I7, I9.
  destruct (relay_items i cm pr k (k_mem e1) r (k_sgbase e1) its g (wd_offsets d)) as (g2 & offs2 & rs & R1 & R2 & R3 & R4); auto.
  - rewrite I1, <- Hbuf. exact Htop.
  - rewrite I3. exact K1.
  - rewrite I4. exact K2.
  - rewrite I2. exact Ho.
  - rewrite Hgl. exact Hsize.
  - rewrite I1, <- Hbuf. exact Hhops.
  - exists g2, offs2, rs, (mk_reader 0 (blen (m_data g2)) (blen (m_data g2)) []). split; [exact R1|].
    rewrite I5 in R3. split; [exact R3|].
    split; [apply I9; exact R4|split; [reflexivity|split; [reflexivity|congruence]]].
Qed.
