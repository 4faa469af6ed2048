(* Whole messages: appended, sent through the driver and read *)
From Verif Require Import Base BaseLemmas UtfModel WriterModel ReaderModel CodecSpec
  CodecProofs CodecSafety ObjModel ObjReader KernelModel ObjSpec ObjProofs ObjInvariant
  TreeProofs PieceProofs HidlSpec HidlWriter HidlOps HidlPlaced HidlStruct HidlRead HidlRound.

Lemma ops_added i pr al m l : forall d,
  (forall n, is_addr i (al n)) -> Forall (call_ok i pr m) l ->
  exists d1 pss blocks, w_ops i pr al d l = Ok d1 /\ added i d d1 (concat pss) /\
    wd_heap d1 = blocks ++ wd_heap d /\ Forall2 (describes i pr m) l pss /\
    (Forall (fun b => holds m (fst b) (snd b)) blocks -> Forall (Forall (p_good i m)) pss).
Proof.
  induction l as [|o l IH]; intros d Hal Hl.
  - exists d, [], []. cbn. split; [reflexivity|]. split; [apply added_nil|].
    split; [reflexivity|]. split; constructor.
  - inversion Hl as [|x y Ho Hr]; subst x y.
    destruct (op_added i pr al m d o Hal Ho) as (d1 & ps & bl & E1 & A1 & H1 & D1 & G1).
    destruct (IH d1 Hal Hr) as (d2 & pss & bl2 & E2 & A2 & H2 & D2 & G2).
    exists d2, (ps :: pss), (bl2 ++ bl). cbn [w_ops concat]. rewrite E1. cbn [bind].
    split; [exact E2|]. split; [eapply added_trans; eauto|].
    split; [rewrite H2, H1, app_assoc; reflexivity|]. split; [constructor; assumption|].
    intros Hb. apply Forall_app in Hb. destruct Hb as [Hb1 Hb2]. constructor; auto.
Qed.

Lemma ps_tr_app e ps qs : forall n pos,
  ps_tr e n pos (ps ++ qs) =
  ps_tr e n pos ps ++ ps_tr e (n + Z.of_nat (ps_count ps)) (pos + ps_space ps) qs.
Proof.
  induction ps as [|p r IH]; intros n pos; cbn [ps_tr ps_count ps_space app].
  - rewrite !Z.add_0_r. reflexivity.
  - rewrite IH, <- app_assoc. rewrite Nat2Z.inj_add, !Z.add_assoc. reflexivity.
Qed.
Lemma ps_sg_app e ps qs : forall pos,
  ps_sg e pos (ps ++ qs) = ps_sg e pos ps ++ ps_sg e (pos + ps_space ps) qs.
Proof.
  induction ps as [|p r IH]; intros pos; cbn [ps_sg ps_space app].
  - rewrite !Z.add_0_r. reflexivity.
  - rewrite IH, <- app_assoc, !Z.add_assoc. reflexivity.
Qed.
Lemma ps_tr_len e ps : forall n pos, blen (ps_tr e n pos ps) = ps_len (k_io e) ps.
Proof.
  induction ps as [|p r IH]; intros n pos; cbn [ps_tr ps_len]; [reflexivity|].
  rewrite blen_app, p_tr_len, IH. reflexivity.
Qed.
Lemma ps_sg_len e ps : forall pos, Forall (p_ok e) ps -> blen (ps_sg e pos ps) = ps_space ps.
Proof.
  induction ps as [|p r IH]; intros pos H; cbn [ps_sg ps_space]; [reflexivity|].
  inversion H; subst. rewrite blen_app, p_sg_len, IH by assumption. reflexivity.
Qed.

(* Offsets are increasing *)
Lemma offs_bounds size cnt : forall p o, 0 < size ->
  In o (offs p size cnt) -> p <= o /\ o + size <= p + Z.of_nat cnt * size.
Proof.
  induction cnt as [|cnt IH]; intros p o Hs H; cbn [offs] in H; [destruct H|].
  destruct H as [->|H]; [nia|]. apply IH in H; [nia|lia].
Qed.
Lemma ptr_size_pos i : 0 < ptr_size i.
Proof. destruct i; vm_compute; reflexivity. Qed.
Lemma p_offs_bounds i a p o : In o (p_offs i a p) -> a <= o /\ o < a + p_len i p.
Proof.
  pose proof (ptr_size_pos i). pose proof (flat_size_pos i).
  destruct p; cbn [p_offs p_len]; intros H1; [destruct H1| |].
  - destruct H1 as [->|[]]. lia.
  - apply offs_bounds in H1; lia.
Qed.
Lemma ps_len_nonneg i ps : 0 <= ps_len i ps.
Proof. rewrite <- (ps_bytes_len i ps 0). apply blen_nonneg. Qed.
Lemma ps_offs_bounds i ps : forall a o, In o (ps_offs i a ps) -> a <= o /\ o < a + ps_len i ps.
Proof.
  induction ps as [|p r IH]; intros a o H; cbn [ps_offs ps_len] in *; [destruct H|].
  pose proof (ps_len_nonneg i r).
  assert (0 <= p_len i p) by (rewrite <- (p_bytes_len i 0); apply blen_nonneg).
  apply in_app_or in H. destruct H as [H|H].
  - apply p_offs_bounds in H. lia.
  - apply IH in H. lia.
Qed.
Lemma offs_nodup size cnt : forall p, 0 < size -> NoDup (offs p size cnt).
Proof.
  induction cnt as [|cnt IH]; intros p Hs; cbn [offs]; constructor; [|apply IH; exact Hs].
  intros H. apply offs_bounds in H; lia.
Qed.
Lemma NoDup_app_intro {A} (l m : list A) :
  NoDup l -> NoDup m -> (forall x, In x l -> In x m -> False) -> NoDup (l ++ m).
Proof.
  induction l as [|x l IH]; intros Hl Hm Hd; [exact Hm|]. inversion Hl; subst. cbn [app].
  constructor.
  - intros H. apply in_app_or in H. destruct H as [H|H]; [contradiction|].
    apply (Hd x); [left; reflexivity|exact H].
  - apply IH; auto. intros y H3 H4. apply (Hd y); [right; exact H3|exact H4].
Qed.
Lemma ps_offs_nodup i ps : forall a, NoDup (ps_offs i a ps).
Proof.
  induction ps as [|p r IH]; intros a; cbn [ps_offs]; [constructor|].
  apply NoDup_app_intro; [|apply IH|].
  - destruct p; cbn [p_offs]; [constructor|repeat constructor; auto|apply offs_nodup, ptr_size_pos].
  - intros x H1 H2. apply p_offs_bounds in H1. apply ps_offs_bounds in H2. lia.
Qed.
Lemma ps_count_len i ps : Z.of_nat (ps_count ps) <= ps_len i ps.
Proof.
  pose proof (ptr_size_pos i). pose proof (flat_size_pos i).
  induction ps as [|p r IH]; cbn [ps_count ps_len]; [lia|].
  destruct p; cbn [p_count p_len]; [pose proof (blen_nonneg _ l)| |]; nia.
Qed.

Lemma good_ok e m ps : m = k_mem e -> Forall (p_good (k_io e) m) ps -> Forall (p_ok e) ps.
Proof.
  intros -> H. eapply Forall_impl; [|exact H]. intros [l|t f o|t]; cbn [p_good p_ok]; tauto.
Qed.

Section ReadOps.
  Variables (cm : cmode) (i : io) (pr : protocol) (e : kenv) (g : message) (st : Z).
  Let m := k_mem e.
  Hypothesis Hi : k_io e = i.
  Hypothesis Hbase : m_sgbase g = k_sgbase e.
  Hypothesis Hpos : 0 < k_sgbase e.
  Hypothesis Hlow : low_message i g.
  Hypothesis Hsize : blen (m_data g) < 2 ^ 31.
  Let E := blen (m_data g).

  Lemma read_ops l : forall pss n pos pre sg0,
    Forall (call_ok i pr m) l -> Forall (foreign e) l ->
    Forall2 (describes i pr m) l pss -> Forall (Forall (p_good i m)) pss ->
    m_data g = pre ++ ps_tr e n pos (concat pss) ->
    m_sg g = sg0 ++ ps_sg e pos (concat pss) -> blen sg0 = pos ->
    exists rs, read_items cm i pr g (mk_reader st E (blen pre) (ps_offs i (blen pre) (concat pss)))
                 (map (rkind_of i) l) = Ok (rs, mk_reader st E E []) /\
      Forall2 (got i e g) l rs.
  Proof.
    induction l as [|o l IH]; intros pss n pos pre sg0 Hok Hfor Hdes Hgood Hd Hsg Hsg0.
    - inversion Hdes; subst pss. cbn [concat ps_tr ps_offs map read_items] in *.
      rewrite app_nil_r in Hd. exists []. split; [|constructor].
      unfold E. rewrite Hd. reflexivity.
    - inversion Hdes as [|x1 ps l1 pss1 D1 D2]; subst x1 l1 pss. cbn [concat] in *.
      inversion Hok as [|x y O1 O2]; subst x y. inversion Hfor as [|x y F1 F2]; subst x y.
      inversion Hgood as [|x y G1 G2]; subst x y.
      rewrite ps_tr_app in Hd. rewrite ps_sg_app in Hsg. rewrite ps_offs_app.
      destruct (read_op cm i pr e g m st Hi Hbase Hpos Hlow Hsize o ps n pos pre _ sg0 _
        (ps_offs i (blen pre + ps_len i ps) (concat pss1)) O1 F1 D1 G1 Hd Hsg Hsg0) as (r & R1 & R2).
      cbn [map read_items]. fold E in R1. rewrite R1. cbn [bind].
      assert (Hl : blen (pre ++ ps_tr e n pos ps) = blen pre + ps_len i ps)
        by (rewrite blen_app, ps_tr_len, Hi; reflexivity).
      assert (Hs : blen (sg0 ++ ps_sg e pos ps) = pos + ps_space ps).
      { rewrite blen_app, ps_sg_len, Hsg0; [reflexivity|]. apply (good_ok e m); [reflexivity|].
        rewrite Hi. exact G1. }
      destruct (IH pss1 (n + Z.of_nat (ps_count ps)) (pos + ps_space ps)
        (pre ++ ps_tr e n pos ps) (sg0 ++ ps_sg e pos ps)) as (rs & R3 & R4); auto.
      + rewrite <- app_assoc. exact Hd.
      + rewrite <- app_assoc. exact Hsg.
      + rewrite Hl in R3. rewrite R3. cbn [bind]. exists (r :: rs). split; [reflexivity|].
        constructor; assumption.
  Qed.
End ReadOps.

Lemma first_described i pr m l pss : starts_well l -> Forall2 (describes i pr m) l pss -> first_ok (concat pss).
Proof.
  intros Hs HD. destruct HD as [|o ps l pss D1 D2]; [exact Logic.I|].
  destruct o as [v|[lo|]|[h|]|fd dupfd|ptr size pa|slack f pa|b count elemsize|s|ls|m1 ptr t pa|m1 ptr count t];
    cbn [starts_well describes] in *; try contradiction; subst ps; cbn [concat Datatypes.app first_ok];
    try exact Logic.I.
  left. intros E. apply Hs. rewrite append_value_eq, E. reflexivity.
Qed.

Theorem delivered pr al e l d :
  let i := k_io e in let m := k_mem e in
  (forall n, is_addr i (al n)) -> Forall (call_ok i pr m) l -> starts_well l ->
  w_ops i pr al wd_empty l = Ok d -> blen (wd_bytes d) < 2 ^ 31 ->
  Forall (fun b => holds m (fst b) (snd b)) (wd_heap d) ->
  0 < k_sgbase e -> k_sgbase e + align8 (wd_bufsize d) < 2 ^ (8 * psz i) ->
  exists g pss, k_send e (wd_bytes d) (wd_offsets d) (wd_bufsize d) = Some g /\
    Forall2 (describes i pr m) l pss /\ Forall (Forall (p_good i m)) pss /\
    m_data g = ps_tr e 0 0 (concat pss) /\ m_sg g = ps_sg e 0 (concat pss) /\
    m_sgbase g = k_sgbase e /\ low_message i g /\ blen (m_data g) = blen (wd_bytes d) /\
    wd_offsets d = ps_offs i 0 (concat pss) /\ wd_bufsize d = ps_space (concat pss) /\
    blen (wd_bytes d) = ps_len i (concat pss).
Proof.
  intros i m Hal Hok Hst E0 Hsize Hheap Hpos Htop.
  destruct (ops_added i pr al m l wd_empty Hal Hok) as (d0 & pss & bl & E1 & (B1 & B2 & B3) & H1 & D1 & G1).
  assert (d0 = d) by congruence. subst d0. clear E1.
  cbn [wd_empty wd_bytes wd_offsets wd_bufsize wd_heap Datatypes.app] in B1, B2, B3, H1.
  change (blen (@nil Z)) with 0 in B1, B2. rewrite app_nil_r in H1. rewrite H1 in Hheap.
  specialize (G1 Hheap). set (q := concat pss) in *.
  assert (Hpo : Forall (p_ok e) q).
  { apply (good_ok e m); [reflexivity|]. unfold q. clear - G1.
    induction G1; cbn [concat]; [constructor|]. apply Forall_app; split; assumption. }
  assert (Hlen : blen (wd_bytes d) = ps_len i q) by (rewrite B1; apply ps_bytes_len).
  pose proof (ps_count_len i q) as Hcl. pose proof (ps_space_nonneg q).
  assert (Hfew : blen (wd_offsets d) < 2 ^ 31).
  { rewrite B2. unfold blen at 1. rewrite ps_offs_length. lia. }
  assert (Hinj : forall j k o, nth_error (wd_offsets d) j = Some o ->
                 nth_error (wd_offsets d) k = Some o -> j = k).
  { intros j k o Hj Hk. rewrite B2 in Hj, Hk.
    pose proof (ps_offs_nodup i q 0) as ND. rewrite NoDup_nth_error in ND.
    apply ND; [apply nth_error_Some|]; congruence. }
  pose proof (align8_spec (wd_bufsize d)). rewrite Z.add_0_l in B3.
  destruct (pieces_run_first e (wd_offsets d) (wd_bufsize d) Hinj Hpos Htop Hfew q
    {| ks_data := wd_bytes d; ks_sg := []; ks_min := 0; ks_last := 0; ks_last_min := 0 |}
    0%nat [] []) as (s1 & R1 & K1 & K2); auto; cbn [ks_min ks_sg];
    change (blen (@nil Z)) with 0; try reflexivity; try lia.
  { right. apply (first_described i pr m l); assumption. }
  cbn [ks_sg Datatypes.app] in K1, K2. change (blen (@nil Z)) with 0 in K1, K2.
  unfold run in R1. cbn [skipn] in R1. change (Z.of_nat 0) with 0 in *.
  unfold k_send. rewrite R1.
  set (g := {| m_data := ks_data s1; m_sgbase := k_sgbase e; m_sg := ks_sg s1 |}).
  exists g, pss. fold q.
  assert (Hgl : blen (m_data g) = blen (wd_bytes d)).
  { cbn [g m_data]. rewrite K1, ps_tr_len, Hlen. reflexivity. }
  assert (Hsl : blen (m_sg g) = ps_space q) by (cbn [g m_sg]; rewrite K2; apply ps_sg_len; exact Hpo).
  assert (Hlow : low_message i g).
  { unfold low_message. rewrite Hsl. cbn [g m_sgbase]. lia. }
  split; [reflexivity|]. split; [exact D1|]. split; [exact G1|]. split; [exact K1|]. split; [exact K2|].
  split; [reflexivity|]. split; [exact Hlow|]. split; [exact Hgl|]. split; [exact B2|]. split; [exact B3|exact Hlen].
Qed.

Theorem trip cm pr al e l :
  let i := k_io e in
  (forall n, is_addr i (al n)) -> Forall (call_ok i pr (k_mem e)) l -> Forall (foreign e) l ->
  starts_well l ->
  exists d, w_ops i pr al wd_empty l = Ok d /\
    (blen (wd_bytes d) < 2 ^ 31 ->
     Forall (fun b => holds (k_mem e) (fst b) (snd b)) (wd_heap d) ->
     0 < k_sgbase e -> k_sgbase e + align8 (wd_bufsize d) < 2 ^ (8 * psz i) ->
     exists g rs p, k_send e (wd_bytes d) (wd_offsets d) (wd_bufsize d) = Some g /\
       read_items cm i pr g (reader_init 0 (blen (m_data g)) (wd_offsets d)) (map (rkind_of i) l)
         = Ok (rs, p) /\
       Forall2 (got i e g) l rs /\ r_ptr p = blen (m_data g) /\ r_objects p = [] /\
       blen (m_data g) = blen (wd_bytes d)).
Proof.
  intros i Hal Hok Hfor Hst.
  destruct (ops_added i pr al (k_mem e) l wd_empty Hal Hok) as (d & _ & _ & E1 & _).
  exists d. split; [exact E1|]. intros Hsize Hheap Hpos Htop.
  destruct (delivered pr al e l d Hal Hok Hst E1 Hsize Hheap Hpos Htop)
    as (g & pss & Hg & D1 & G1 & K1 & K2 & Hb & Hlow & Hgl & Ho & _).
  destruct (read_ops cm i pr e g 0 eq_refl Hb Hpos Hlow ltac:(rewrite Hgl; exact Hsize) l
    pss 0 0 [] [] Hok Hfor D1 G1 K1 K2 eq_refl) as (rs & R2 & R3).
  exists g, rs, (mk_reader 0 (blen (m_data g)) (blen (m_data g)) []).
  split; [exact Hg|]. split; [|split; [exact R3|split; [reflexivity|split; [reflexivity|exact Hgl]]]].
  rewrite <- R2. f_equal. unfold reader_init, mk_reader. rewrite Ho. reflexivity.
Qed.

Lemma plain_well l : starts_plain l -> starts_well l.
Proof. intros (v & r & -> & H). exact H. Qed.

Lemma Forall2_nth_l {A B} (R : A -> B -> Prop) l r k x :
  Forall2 R l r -> nth_error l k = Some x -> exists y, nth_error r k = Some y /\ R x y.
Proof.
  intros H. revert k. induction H as [|a b l r Hab H IH]; intros [|k] E; cbn in E; try discriminate.
  - injection E as <-. exists b. split; [reflexivity|exact Hab].
  - exact (IH k E).
Qed.

Theorem struct_trip cm pr al e l k t ptr :
  let i := k_io e in
  nth_error l k = Some (OpStruct (k_mem e) ptr t None) ->
  (forall n, is_addr i (al n)) -> Forall (call_ok i pr (k_mem e)) l -> Forall (foreign e) l ->
  starts_well l ->
  exists d, w_ops i pr al wd_empty l = Ok d /\
    (blen (wd_bytes d) < 2 ^ 31 ->
     Forall (fun b => holds (k_mem e) (fst b) (snd b)) (wd_heap d) ->
     0 < k_sgbase e -> k_sgbase e + align8 (wd_bufsize d) < 2 ^ (8 * psz i) ->
     exists g rs p b, k_send e (wd_bytes d) (wd_offsets d) (wd_bufsize d) = Some g /\
       read_items cm i pr g (reader_init 0 (blen (m_data g)) (wd_offsets d)) (map (rkind_of i) l)
         = Ok (rs, p) /\
       nth_error rs k = Some (IStruct b) /\ same_struct i (k_mem e) g t ptr b).
Proof.
  intros i Hk H1 H2 H3 H4. destruct (trip cm pr al e l H1 H2 H3 H4) as (d & E & H).
  exists d. split; [exact E|]. intros H5 H6 H7 H8.
  destruct (H H5 H6 H7 H8) as (g & rs & p & S & R & G & _).
  destruct (Forall2_nth_l _ _ _ _ _ G Hk) as (y & Ey & b & -> & Hb).
  exists g, rs, p, b. auto.
Qed.

(* A message which begins with a buffer in which there is a pointer is refused by the driver: it takes the offset 0
   of that buffer for "no buffer yet" *)
Lemma skip_skip {A} (l : list A) : forall a b, skipn a (skipn b l) = skipn (b + a) l.
Proof.
  intros a b. revert l. induction b as [|b IH]; intros l; [reflexivity|]. destruct l; cbn [skipn Nat.add]; [apply skipn_nil|apply IH].
Qed.
Lemma kfield_poke (b s : bytes) off o n : 0 <= off -> off + blen s <= o -> off + blen s <= blen b ->
  kfield (poke b off s) o n = kfield b o n.
Proof.
  intros H1 H2 H3. pose proof (blen_nonneg _ s). unfold kfield, slice, poke, ztake, zdrop, blen in *. do 2 f_equal.
  rewrite !skipn_app, skipn_firstn_comm, firstn_length.
  rewrite Nat.min_l by lia.
  replace (Z.to_nat off - Z.to_nat o)%nat with 0%nat by lia. cbn [firstn Datatypes.app].
  rewrite (skipn_all2 s) by lia. cbn [Datatypes.app].
  rewrite skip_skip. f_equal. lia.
Qed.
Lemma two_buffers e (data : bytes) o2 rest bufsize :
  k_type data 0 = TYPE_PTR -> k_type data o2 = TYPE_PTR -> kp_has_parent (k_ptr (k_io e) data o2) = true ->
  8 + psz (k_io e) <= o2 -> 8 + psz (k_io e) <= blen data -> k_send e data (0 :: o2 :: rest) bufsize = None.
Proof.
  intros T0 T2 P2 Ho Hl. unfold k_send. cbn [k_run]. set (i := k_io e) in *.
  unfold k_step at 1. fold i. cbn [ks_data ks_min ks_last ks_last_min ks_sg]. rewrite T0.
  destruct ((k_get_object i data 0 =? 0) || (0 <? 0)); [reflexivity|].
  change (TYPE_PTR =? TYPE_PTR) with true. cbv iota.
  destruct (k_do_ptr _ _ _ _ _ _) as [s1|] eqn:E; [|reflexivity].
  assert (Hs : ks_last s1 = 0 /\ exists v, ks_data s1 = poke data 8 (le (psize i) v)).
  { unfold k_do_ptr in E. cbn [ks_data ks_min ks_last ks_last_min ks_sg] in E. fold i in E.
    repeat match type of E with
    | (if ?b then _ else _) = _ => destruct b; try discriminate
    | (match ?x with _ => _ end) = _ => destruct x; try discriminate
    end; injection E as <-; cbn [ks_last ks_data]; split; eauto. }
  destruct Hs as (L1 & v & D1).
  assert (Hk : forall o n, o2 <= o -> kfield (ks_data s1) o n = kfield data o n).
  { intros o n Hon. assert (blen (le (psize i) v) = psz i) by (rewrite blen_le; destruct i; reflexivity).
    rewrite D1. apply kfield_poke; lia. }
  unfold k_step. fold i. unfold k_type in *. rewrite (Hk o2 4) by lia. rewrite T2.
  destruct (_ || _); [reflexivity|]. change (TYPE_PTR =? TYPE_PTR) with true. cbv iota.
  unfold k_do_ptr. fold i. cbn [ks_data ks_min ks_last ks_last_min ks_sg].
  assert (P3 : kp_has_parent (k_ptr i (ks_data s1) o2) = true).
  { unfold kp_has_parent, k_ptr in *. cbn [kp_flags] in *. rewrite Hk by lia. exact P2. }
  rewrite P3.
  repeat match goal with
  | |- context [if ?b then None else _] => destruct b; [reflexivity|]
  end.
  unfold k_validate_fixup. cbn [ks_last]. rewrite L1. cbn [Z.eqb negb].
  destruct (k_validate_ptr _ _ _ _); reflexivity.
Qed.

Theorem begins_with_buffer pr al e l d :
  let i := k_io e in
  (forall n, is_addr i (al n)) -> Forall (call_ok i pr (k_mem e)) l -> starts_hidl l ->
  w_ops i pr al wd_empty l = Ok d -> k_send e (wd_bytes d) (wd_offsets d) (wd_bufsize d) = None.
Proof.
  intros i Hal Hok Hst E0.
  destruct (ops_added i pr al (k_mem e) l wd_empty Hal Hok) as (d0 & pss & bl & E1 & (B1 & B2 & B3) & _ & D1 & _).
  assert (d0 = d) by congruence. subst d0. clear E1 E0.
  cbn [wd_empty wd_bytes wd_offsets Datatypes.app] in B1, B2. change (blen (@nil Z)) with 0 in B1, B2.
  destruct D1 as [|o ps l pss D1 _]; [contradiction|].
  assert (Hps : exists v dt c a2 d2 ks, ps = [PTree (Node v dt [(c, Node a2 d2 ks)])]).
  { destruct o; cbn [starts_hidl describes] in *; try contradiction.
    - destruct D1 as (v & a & ->). unfold leaf. eauto 10.
    - destruct D1 as (v & ->). unfold leaf. eauto 10.
    - destruct D1 as (v & a & ->). eauto 10.
    - destruct D1 as (v & ->). eauto 10. }
  destruct Hps as (v & dt & c & a2 & d2 & ks & ->).
  cbn [concat Datatypes.app ps_bytes p_bytes ps_offs p_offs] in B1, B2.
  rewrite t_emit_node in B1. cbn [f_emit] in B1. rewrite t_emit_node in B1. cbn [concat Datatypes.app] in B1.
  rewrite t_count_node in B2. cbn [f_count] in B2. rewrite t_count_node in B2. cbn [Nat.add offs Datatypes.app] in B2.
  rewrite Z.add_0_l in B2.
  unfold buffer_image in B1. rewrite <- !app_assoc in B1.
  match type of B1 with _ = ?x ++ ?y ++ ?z => set (r := z) in B1; set (I0 := x) in B1; set (I1 := y) in B1 end.
  assert (L0 : blen I0 = ptr_size i) by apply blen_ptr. assert (L1 : blen I1 = ptr_size i) by apply blen_ptr.
  rewrite B2. apply two_buffers.
  - rewrite B1. subst I0. destruct i; vm_compute; reflexivity.
  - rewrite B1. subst I0 I1. fold i. clear - i. destruct i; vm_compute; reflexivity.
  - rewrite B1. subst I0 I1. fold i. clear - i. destruct i; vm_compute; reflexivity.
  - destruct (k_io e); vm_compute; discriminate.
  - rewrite B1, !blen_app, L0, L1. pose proof (blen_nonneg _ r). fold i. destruct i; unfold ptr_size; cbn [psz]; lia.
Qed.
