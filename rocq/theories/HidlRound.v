(* Each item is read back, one after the other *)
From Verif Require Import Base BaseLemmas UtfModel WriterModel ReaderModel CodecSpec
  CodecProofs CodecSafety ObjModel ObjReader KernelModel ObjSpec ObjProofs ObjInvariant
  TreeProofs PieceProofs HidlSpec HidlWriter HidlOps HidlPlaced HidlStruct HidlRead.

Lemma decode_flat i g pre t f o post e :
  m_data g = pre ++ flat_image i t f o 0 ++ post -> e = blen (m_data g) -> e < 2 ^ 31 ->
  r_remaining (mk_reader 0 e (blen pre) []) = e - blen pre /\
  (flat_size i <=? e - blen pre) = true /\
  field32 g (blen pre) = Ok (u32 t) /\ field32 g (blen pre + 8) = Ok (u32 o) /\
  fieldp i g (blen pre + 8) = Ok (usz i o).
Proof.
  intros Hd He Hs. pose proof (psz_pos i). assert (Hf : flat_size i = 8 + 2 * psz i) by reflexivity.
  pose proof (blen_nonneg _ pre). pose proof (blen_nonneg _ post).
  assert (Hl : blen (m_data g) = blen pre + flat_size i + blen post)
    by (rewrite Hd, !blen_app, blen_flat; lia).
  split; [|split; [|split; [|split]]].
  - unfold r_remaining, u64. cbn [mk_reader r_end r_ptr]. apply Z.mod_small. lia.
  - apply Z.leb_le. lia.
  - rewrite field32_in by lia. rewrite Hd. f_equal. apply flat_type.
  - rewrite field32_in by lia. rewrite Hd. f_equal. apply flat_low.
  - rewrite fieldp_in by lia. rewrite Hd. f_equal. apply flat_value.
Qed.

Lemma u32_u32 v : u32 (u32 v) = u32 v.
Proof. unfold u32. apply Z.mod_mod. lia. Qed.
Lemma sgn_u32_any v : sgn 32 (u32 v) = sgn 32 v.
Proof. unfold sgn, u32. rewrite Z.mod_mod by lia. reflexivity. Qed.

Section ReadOp.
  Variables (cm : cmode) (i : io) (pr : protocol) (e : kenv) (g : message) (m : memory)
    (st : Z).
  Hypothesis Hi : k_io e = i.
  Hypothesis Hbase : m_sgbase g = k_sgbase e.
  Hypothesis Hpos : 0 < k_sgbase e.
  Hypothesis Hlow : low_message i g.
  Hypothesis Hsize : blen (m_data g) < 2 ^ 31.

  Let E := blen (m_data g).

  Lemma tree_at n pos t pre post sg0 sg1 rest :
    m_data g = pre ++ ps_tr e n pos [PTree t] ++ post ->
    m_sg g = sg0 ++ ps_sg e pos [PTree t] ++ sg1 -> blen sg0 = pos -> tree_ok i m t ->
    at_objs i g st E rest pre (t_emit i n None (t_reloc (k_sgbase e) pos t)) post
      (mk_reader st E (blen pre) (ps_offs i (blen pre) [PTree t] ++ rest)) /\
    placed i g (t_reloc (k_sgbase e) pos t).
  Proof.
    intros Hd Hsg Hp Hok. cbn [ps_tr p_tr ps_sg p_sg ps_offs p_offs] in *. rewrite app_nil_r in *.
    rewrite Hi in *. split.
    - split; [exact Hd|].
      destruct (blen_concat_emit_t i (t_reloc (k_sgbase e) pos t) n None) as [_ ->].
      rewrite t_count_reloc. reflexivity.
    - subst pos. rewrite <- Hbase in *. eapply placed_image; [exact Hsg|exact Hok].
  Qed.

  Lemma addr_nz t : placed i g t -> (t_addr t =? 0) = false.
  Proof. intros H. destruct (placed_low i g t Hlow H) as (_ & _ & H3). lia. Qed.

  Lemma read_op o ps n pos pre post sg0 sg1 rest :
    call_ok i pr m o -> foreign e o -> describes i pr m o ps -> Forall (p_good i m) ps ->
    m_data g = pre ++ ps_tr e n pos ps ++ post ->
    m_sg g = sg0 ++ ps_sg e pos ps ++ sg1 -> blen sg0 = pos ->
    exists r, read_item cm i pr g (mk_reader st E (blen pre) (ps_offs i (blen pre) ps ++ rest))
                (rkind_of i o) =
        Ok (r, mk_reader st E (blen pre + ps_len i ps) rest) /\ got i e g o r.
  Proof.
    intros Hok Hfor Hdes Hgood Hd Hsg Hsg0.
    pose proof (psz_pos i) as Hps. pose proof (pow_psz i) as Hpow.
    pose proof (blen_nonneg _ pre) as Hpre. pose proof (blen_nonneg _ post) as Hpost.
    destruct o as [v|[lo|]|[h|]|fd dupfd|ptr size pa|slack f pa|b count elemsize|s|l|m1 ptr t pa|m1 ptr count t];
      cbn [call_ok] in Hok; try contradiction; cbn [describes rkind_of read_item got] in *.
    - (* plain *)
      subst ps. cbn [ps_tr p_tr ps_offs p_offs ps_len p_len app] in *. rewrite app_nil_r in Hd.
      destruct Hok as [Hv _].
      eexists. split; [|reflexivity].
      assert (Hlen : blen (m_data g) = blen pre + blen (chunk v) + blen post)
        by (rewrite Hd, !blen_app; lia).
      pose proof (blen_nonneg _ (chunk v)).
      rewrite (read_value_at cm (m_data g) _ pre post v Hv); [|split; [exact Hd|]|unfold E in *; lia].
      + cbn [bind]. rewrite Z.add_0_r. reflexivity.
      + cbn [mk_reader r_ptr r_end]. split; [reflexivity|]. fold E in Hlen |- *. lia.
    - (* local *)
      subst ps. cbn [ps_tr p_tr ps_offs p_offs p_count ps_len p_len app] in *.
      unfold flat_tr in Hd. change (TYPE_BINDER =? TYPE_BINDER) with true in Hd. cbn [orb] in Hd.
      cbv iota in Hd. rewrite Hi in Hd. rewrite <- app_assoc in Hd.
      destruct (decode_flat i g pre _ _ _ _ E Hd eq_refl Hsize) as (D1 & D2 & D3 & D4 & D5).
      unfold rd_nullable_object, can_read_object. cbn [mk_reader r_objects r_ptr].
      rewrite Z.eqb_refl. unfold decode_binder_object. unfold r_remaining in D1.
      unfold r_remaining. cbn [mk_reader r_end r_ptr] in D1 |- *. rewrite D1, D2, D3, D4.
      cbn [bind]. change (u32 TYPE_HANDLE =? TYPE_HANDLE) with true. cbv iota. cbn [bind].
      assert (Hex : 0 <= flat_extra pr) by (destruct pr; cbn; lia).
      pose proof (flat_size_pos i).
      destruct (Z.eqb_spec (flat_size i + flat_extra pr) 0); [lia|]. cbn [wrapi ok].
      unfold r_eat, ok. cbn [wrapi mk_reader r_start r_end r_ptr r_objects tl].
      rewrite u32_u32. eexists. split.
      + unfold mk_reader. do 3 f_equal.
        * destruct pr; cbn [flat_extra ps_len p_len]; rewrite ?blen_le; lia.
        * destruct pr; reflexivity.
      + rewrite usz_in by (unfold is_addr in Hok; lia). reflexivity.
    - (* remote *)
      destruct Hok as [Hh Hpr].
      subst ps. cbn [ps_tr p_tr ps_offs p_offs p_count ps_len p_len app] in *. rewrite app_nil_r in Hd.
      unfold flat_tr in Hd. change (TYPE_HANDLE =? TYPE_BINDER) with false in Hd.
      change (TYPE_HANDLE =? TYPE_WEAK_BINDER) with false in Hd.
      change (TYPE_HANDLE =? TYPE_HANDLE) with true in Hd. cbn [orb] in Hd. cbv iota in Hd.
      rewrite Hi, (u32_small h Hh) in Hd. cbn [foreign] in Hfor.
      destruct (k_ref e h) as [h2|]; [|congruence].
      destruct (decode_flat i g pre _ _ _ _ E Hd eq_refl Hsize) as (D1 & D2 & D3 & D4 & D5).
      unfold rd_nullable_object, can_read_object. cbn [mk_reader r_objects r_ptr].
      rewrite Z.eqb_refl. unfold decode_binder_object. unfold r_remaining in D1.
      unfold r_remaining. cbn [mk_reader r_end r_ptr] in D1 |- *. rewrite D1, D2, D3, D4.
      cbn [bind]. change (u32 TYPE_HANDLE =? TYPE_HANDLE) with true. cbv iota. cbn [bind].
      assert (Hex : flat_extra pr = 0) by (destruct pr; cbn; congruence).
      pose proof (flat_size_pos i).
      destruct (Z.eqb_spec (flat_size i + flat_extra pr) 0); [lia|]. cbn [wrapi ok].
      unfold r_eat, ok. cbn [wrapi mk_reader r_start r_end r_ptr r_objects tl].
      rewrite u32_u32. eexists. split; [|reflexivity].
      unfold mk_reader. do 3 f_equal. lia.
    - (* fd *)
      destruct Hok as [Hfd Hdup].
      subst ps. cbn [ps_tr p_tr ps_offs p_offs p_count ps_len p_len app] in *. rewrite app_nil_r in Hd.
      unfold flat_tr in Hd. change (TYPE_FD =? TYPE_BINDER) with false in Hd.
      change (TYPE_FD =? TYPE_WEAK_BINDER) with false in Hd.
      change (TYPE_FD =? TYPE_HANDLE) with false in Hd.
      change (TYPE_FD =? TYPE_WEAK_HANDLE) with false in Hd. cbn [orb] in Hd. cbv iota in Hd.
      rewrite Hi in Hd.
      destruct (decode_flat i g pre _ _ _ _ E Hd eq_refl Hsize) as (D1 & D2 & D3 & D4 & D5).
      unfold rd_fd, can_read_object. cbn [mk_reader r_objects r_ptr].
      rewrite Z.eqb_refl. unfold decode_fd_object. unfold r_remaining in D1.
      unfold r_remaining. cbn [mk_reader r_end r_ptr] in D1 |- *. rewrite D1, D2, D3, D4.
      cbn [bind]. change (u32 TYPE_FD =? TYPE_FD) with true. cbv iota. cbn [bind].
      pose proof (flat_size_pos i).
      destruct (Z.eqb_spec (flat_size i) 0); [lia|]. cbn [wrapi ok].
      unfold r_eat, ok. cbn [wrapi mk_reader r_start r_end r_ptr r_objects tl].
      eexists. split; [|].
      + unfold mk_reader. do 3 f_equal. lia.
      + rewrite !sgn_u32_any. unfold in_range in *.
        assert (Ew : sgn 32 (if dupfd <? 0 then fd else dupfd) = if dupfd <? 0 then fd else dupfd).
        { rewrite <- sgn_u32_any. apply sgn_u32. destruct (dupfd <? 0); lia. }
        rewrite Ew. reflexivity.
    - (* vec *)
      destruct Hdes as (v & a & ->). inversion Hgood as [|x y Hg _]; subst x y. destruct Hg as [Hg _].
      destruct (tree_at n pos _ pre post sg0 sg1 rest Hd Hsg Hsg0 Hg) as [Hat Hpl].
      match type of Hat with at_objs _ _ _ _ _ _ _ _ ?q => generalize dependent q; intros p0 Hat end.
      set (bb := match b with Some b => b | None => [] end) in *.
      rewrite t_reloc_node in Hat, Hpl. cbn [f_reloc] in Hat, Hpl. unfold leaf in Hat, Hpl.
      rewrite t_reloc_node in Hat, Hpl. cbn [f_reloc] in Hat, Hpl.
      rewrite blen_hidl in Hat, Hpl.
      destruct (hidl_at _ _ _ _ _ _ _ Hlow Hpl) as (H1 & H2 & H3 & H4). cbn [t_addr] in H2.
      rewrite t_emit_node in Hat. rewrite blen_hidl in Hat. cbn [f_emit] in Hat. rewrite t_emit_node in Hat.
      cbn [f_emit app] in Hat.
      destruct (at_objs_step _ _ _ _ _ _ _ _ _ _ _ _ Hat) as (p1 & E1 & A1).
      destruct (at_objs_step _ _ _ _ _ _ _ _ _ _ _ _ A1) as (p2 & E2 & A2).
      apply at_objs_end in A2. subst p2.
      destruct (placed_low i g _ Hlow Hpl) as (L1 & _ & _). cbn [t_addr] in L1.
      destruct (placed_low i g _ Hlow H4) as (L2 & L3 & _). cbn [t_addr t_data] in L2, L3.
      pose proof (addr_nz _ Hpl) as Z1. pose proof (addr_nz _ H4) as Z2. cbn [t_addr] in Z1, Z2.
      destruct (placed_leaf _ _ _ _ H4) as [Q1 Q2].
      pose proof (blen_nonneg _ bb).
      unfold rd_hidl_vec. rewrite E1. cbn [bind bo_data bo_size].
      rewrite !usz_in in * by lia. rewrite Z1, Z.eqb_refl. cbn [negb andb].
      rewrite H2, H3. cbn [bind]. rewrite Z2. cbn [negb]. rewrite E2. cbn [bind bo_data bo_size].
      rewrite Z.eqb_refl. cbn [andb].
      assert (Hcase : 0 <= count < 2 ^ 32 /\
        ((count = 0 /\ bb = []) \/ (0 < count /\ exists b0, b = Some b0 /\ bb = b0 /\ 0 < elemsize /\
           blen bb = count * elemsize))).
      { destruct b as [b0|]; subst bb.
        - destruct Hok as (C1 & C2 & C3 & C4 & C5). split; [nia|].
          destruct (Z.eq_dec count 0) as [->|Hc]; [left; split; [reflexivity|apply blen_zero; lia]|right].
          split; [lia|]. exists b0. auto.
        - subst count. split; [lia|]. left; auto. }
      destruct Hcase as [Hcr Hcase]. rewrite u32_small by lia.
      rewrite !blen_app, !blen_buffer.
      change (ps_len i _) with (2 * ptr_size i + 0).
      destruct Hcase as [[-> Hbb]|(Hc & b0 & Eb & Ebb & Hes & Hbl)].
      + rewrite Hbb. rewrite Z.eqb_refl, blen_nil, Z.eqb_refl. cbn [andb orb negb bind ok].
        unfold ok. cbn [bind]. rewrite Hbb, blen_nil in Q1.
        rewrite tload_in by (rewrite Z.mul_0_l; exact Q1). cbn [bind].
        eexists. split.
        * do 3 f_equal. lia.
        * change (mread (gmem g) _ (0 * 0)) with (@nil Z).
          destruct b as [b0|]; reflexivity.
      + destruct (Z.eqb_spec count 0) as [Ec|_]; [lia|]. cbn [andb orb negb].
        rewrite Hbl. destruct (Z.eqb_spec (count * elemsize) 0) as [Ec|_]; [nia|]. cbn [negb andb].
        rewrite (Z.mul_comm count elemsize), Z.mod_mul by lia. rewrite Z.eqb_refl.
        unfold ok. cbn [bind]. rewrite Z.div_mul by lia.
        rewrite tload_in by (rewrite <- Hbl; exact Q1). cbn [bind].
        rewrite <- Hbl, Q2.
        eexists. split; [do 3 f_equal; lia|]. subst b. rewrite <- Ebb.
        destruct (Z.eqb_spec count 0); [lia|]. reflexivity.
    - (* string *)
      destruct s as [[a t]|]; [|contradiction]. destruct Hok as (S1 & S2 & S3 & S4 & S5).
      destruct Hdes as (v & ->). inversion Hgood as [|x y Hg _]; subst x y. destruct Hg as [Hg _].
      cbn [cstr_ptr cstr_len cstr_text] in *.
      destruct (tree_at n pos _ pre post sg0 sg1 rest Hd Hsg Hsg0 Hg) as [Hat Hpl].
      match type of Hat with at_objs _ _ _ _ _ _ _ _ ?q => generalize dependent q; intros p0 Hat end.
      rewrite t_reloc_node in Hat, Hpl. cbn [f_reloc] in Hat, Hpl. unfold leaf in Hat, Hpl.
      rewrite t_reloc_node in Hat, Hpl. cbn [f_reloc] in Hat, Hpl.
      rewrite blen_hidl in Hat, Hpl.
      destruct (hidl_at _ _ _ _ _ _ _ Hlow Hpl) as (H1 & H2 & H3 & H4). cbn [t_addr] in H2.
      rewrite t_emit_node in Hat. rewrite blen_hidl in Hat. cbn [f_emit] in Hat. rewrite t_emit_node in Hat.
      cbn [f_emit app] in Hat.
      destruct (at_objs_step _ _ _ _ _ _ _ _ _ _ _ _ Hat) as (p1 & E1 & A1).
      destruct (at_objs_step _ _ _ _ _ _ _ _ _ _ _ _ A1) as (p2 & E2 & A2).
      apply at_objs_end in A2. subst p2.
      destruct (placed_low i g _ Hlow Hpl) as (L1 & _ & _). cbn [t_addr] in L1.
      pose proof (addr_nz _ Hpl) as Z1. cbn [t_addr] in Z1.
      unfold rd_hidl_string. rewrite E1. cbn [bind bo_data bo_size].
      rewrite (usz_in i 16) by lia. rewrite (usz_in i (k_sgbase e + pos)) by lia.
      rewrite Z1, Z.eqb_refl. cbn [negb andb]. rewrite E2. cbn [bind pa_off pa_is mkpa pa_offset].
      rewrite (check_string_at i g _ _ t 0); auto; [|lia]. cbn [bind wrapi].
      rewrite !blen_app, !blen_buffer.
      change (ps_len i _) with (2 * ptr_size i + 0).
      eexists. split; [|reflexivity].
      unfold mk_reader. do 3 f_equal. lia.
    - (* strings *)
      destruct Hok as [Hl Hn].
      destruct Hdes as (v & a & ->). inversion Hgood as [|x y Hg _]; subst x y. destruct Hg as [Hg _].
      destruct (tree_at n pos _ pre post sg0 sg1 rest Hd Hsg Hsg0 Hg) as [Hat Hpl].
      match type of Hat with at_objs _ _ _ _ _ _ _ _ ?q => generalize dependent q; intros p0 Hat end.
      rewrite t_reloc_node in Hat, Hpl. cbn [f_reloc] in Hat, Hpl.
      rewrite t_reloc_node in Hat, Hpl.
      rewrite blen_hidl, descs_len in Hat, Hpl.
      destruct (hidl_at _ _ _ _ _ _ _ Hlow Hpl) as (H1 & H2 & H3 & H4). cbn [t_addr] in H2.
      rewrite t_emit_node in Hat. rewrite blen_hidl in Hat. cbn [f_emit] in Hat. rewrite t_emit_node in Hat.
      rewrite app_nil_r in Hat. rewrite descs_len in Hat.
      destruct (at_objs_step _ _ _ _ _ _ _ _ _ _ _ _ Hat) as (p1 & E1 & A1).
      destruct (at_objs_step _ _ _ _ _ _ _ _ _ _ _ _ A1) as (p2 & E2 & A2).
      destruct (placed_low i g _ Hlow Hpl) as (L1 & _ & _). cbn [t_addr] in L1.
      destruct (placed_low i g _ Hlow H4) as (L2 & _ & _). cbn [t_addr] in L2.
      pose proof (addr_nz _ Hpl) as Z1. pose proof (addr_nz _ H4) as Z2. cbn [t_addr] in Z1, Z2.
      pose proof (blen_nonneg _ l).
      unfold rd_hidl_string_vec. rewrite E1. cbn [bind bo_data bo_size].
      rewrite (usz_in i 16) by lia. rewrite (usz_in i (k_sgbase e + pos)) by lia.
      rewrite Z1, Z.eqb_refl. cbn [negb andb]. rewrite H2, H3. cbn [bind]. rewrite Z2. cbn [andb].
      rewrite E2. cbn [bind pa_off pa_is mkpa pa_offset bo_parent_offset bo_has_parent bo_data bo_size].
      rewrite !usz_in by lia. rewrite u32_small by lia. rewrite !Z.eqb_refl. cbn [andb].
      change (str_kids 0 l) with (str_kids (16 * 0) l) in A2, H4.
      replace (Z.to_nat (blen l)) with (length l) by (unfold blen; lia).
      erewrite (strings_at i g _ _ m _ st E rest l 0); [|exact Hlow|exact Hl| | | | |exact A2].
      + cbn [wrapi ok]. eexists. split; [|reflexivity].
        unfold ok, mk_reader. cbn [wrapi]. do 3 f_equal. rewrite !blen_app, !blen_buffer.
        cbn [ps_len p_len]. rewrite t_count_node. cbn [f_count]. rewrite t_count_node.
        assert (Ec : forall k, f_count (str_kids k l) = length l).
        { clear. induction l as [|s l IH]; intros k; cbn [str_kids f_count length]; [reflexivity|].
          unfold leaf. rewrite t_count_node, IH. reflexivity. }
        rewrite Ec. rewrite !Nat2Z.inj_succ, Nat2Z.inj_add, Nat2Z.inj_succ. lia.
      + destruct (proj1 (placed_node _ _ _ _ _) H4) as (_ & _ & H5). exact H5.
      + eapply (lens_at i g _ _ _ m l [] 0 (str_kids 0 l)); [exact H4|exact Hl|reflexivity|lia|].
        intros c t Hin. eapply (str_kids_mult l 0). exact Hin.
      + lia.
      + lia.
    - (* struct *)
      destruct pa as [pa|]; [contradiction|]. destruct Hok as (-> & Hm & Hp & Ht & Hs).
      subst ps. inversion Hgood as [|x y Hg _]; subst x y. destruct Hg as [Hg _].
      assert (Hsz : 0 <= wt_size t < 2 ^ 31)
        by (destruct t; apply type_ok_eq in Ht; destruct Ht; cbn [wt_size]; lia).
      destruct (tree_at n pos _ pre post sg0 sg1 rest Hd Hsg Hsg0 Hg) as [Hat Hpl].
      match type of Hat with at_objs _ _ _ _ _ _ _ _ ?q => generalize dependent q; intros p0 Hat end.
      rewrite t_reloc_node in Hat, Hpl. rewrite blen_mread in Hat, Hpl by lia.
      rewrite t_emit_node in Hat. rewrite blen_mread in Hat by lia.
      destruct (at_objs_step _ _ _ _ _ _ _ _ _ _ _ _ Hat) as (p1 & E1 & A1).
      destruct (placed_low i g _ Hlow Hpl) as (L1 & _ & _). cbn [t_addr] in L1.
      unfold rd_hidl_struct. rewrite E1. cbn [bind bo_data bo_size].
      rewrite !usz_in by lia. rewrite Z.eqb_refl. unfold ok. cbn [bind].
      set (ks := f_reloc (k_sgbase e) (pos + align8 (wt_size t)) (t_fields i m t ptr 0)) in *.
      assert (Hcount : (length (op_wants i (OpStruct m ptr t None)) - 1)%nat =
                       length (f_emit i n (n + 1) ks)).
      { cbn [op_wants length Nat.sub]. rewrite Nat.sub_0_r.
        destruct (f_emit_len i ks n (n + 1)) as [_ ->]. unfold ks. rewrite f_count_reloc.
        apply wants_count; assumption. }
      rewrite Hcount. rewrite (skip_at i g st E rest _ _ _ _ (f_emit_buffers i n ks (n + 1)) A1).
      unfold ok. cbn [bind]. eexists. split.
      + do 2 f_equal. unfold mk_reader. f_equal. rewrite blen_app, blen_buffer.
        destruct (f_emit_len i ks n (n + 1)) as [-> _]. unfold ks. rewrite f_count_reloc.
        cbn [ps_len p_len]. rewrite t_count_node. lia.
      + exists (k_sgbase e + pos). split; [reflexivity|].
        destruct (proj1 (placed_node _ _ _ _ _) Hpl) as (P1 & P2 & P3).
        rewrite blen_mread in P1, P2 by lia.
        eapply (fields_same i m g t (k_sgbase e) Hm Hlow ptr _ 0 _ (k_sgbase e + pos)); auto; [| lia|exact P3].
        intros j Hj Hslot. rewrite P2; [apply zn_mread; lia|lia|].
        intros c t1 Hin Hr. apply f_reloc_in in Hin. destruct Hin as [t2 Hin].
        destruct t as [sz fs]. rewrite t_fields_eq in Hin. apply fs_kids_in in Hin.
        destruct Hin as (foff & f & Hin & ->). apply Hslot. exists foff, f. split; [exact Hin|lia].
    - (* struct vec *)
      destruct Hok as (-> & Hm & Hc & Ht & Hz & Hn & Hp & Hp2 & Hs).
      destruct Hdes as (v & ->). inversion Hgood as [|x y Hg _]; subst x y. destruct Hg as [Hg _].
      assert (Hsz : 0 <= wt_size t < 2 ^ 31)
        by (destruct t; apply type_ok_eq in Ht; destruct Ht; cbn [wt_size]; lia).
      assert (Hnn : 0 <= count * wt_size t) by (apply Z.mul_nonneg_nonneg; lia).
      destruct (tree_at n pos _ pre post sg0 sg1 rest Hd Hsg Hsg0 Hg) as [Hat Hpl].
      match type of Hat with at_objs _ _ _ _ _ _ _ _ ?q => generalize dependent q; intros p0 Hat end.
      rewrite t_reloc_node in Hat, Hpl. cbn [f_reloc] in Hat, Hpl.
      rewrite t_reloc_node in Hat, Hpl.
      rewrite blen_hidl, blen_mread in Hat, Hpl by lia.
      destruct (hidl_at _ _ _ _ _ _ _ Hlow Hpl) as (H1 & H2 & H3 & H4). cbn [t_addr] in H2.
      rewrite t_emit_node in Hat. rewrite blen_hidl in Hat. cbn [f_emit] in Hat. rewrite t_emit_node in Hat.
      rewrite app_nil_r in Hat. rewrite blen_mread in Hat by lia.
      destruct (at_objs_step _ _ _ _ _ _ _ _ _ _ _ _ Hat) as (p1 & E1 & A1).
      destruct (at_objs_step _ _ _ _ _ _ _ _ _ _ _ _ A1) as (p2 & E2 & A2).
      destruct (placed_low i g _ Hlow Hpl) as (L1 & _ & _). cbn [t_addr] in L1.
      destruct (placed_low i g _ Hlow H4) as (L2 & _ & _). cbn [t_addr] in L2.
      pose proof (addr_nz _ Hpl) as Z1. pose proof (addr_nz _ H4) as Z2. cbn [t_addr] in Z1, Z2.
      unfold rd_hidl_vec. rewrite E1. cbn [bind bo_data bo_size].
      rewrite !usz_in in * by lia. rewrite Z1, Z.eqb_refl. cbn [negb andb].
      rewrite H2, H3. cbn [bind]. rewrite Z2. cbn [negb]. rewrite E2. cbn [bind bo_data bo_size].
      rewrite Z.eqb_refl. cbn [andb]. rewrite u32_small by lia.
      set (q := pos + align8 16 + align8 (count * wt_size t)) in *.
      set (kids := elems_kids (fun a o => t_fields i m t a o) ptr (wt_size t) 0 (Z.to_nat count)) in *.
      set (ks := f_reloc (k_sgbase e) q kids) in *.
      assert (Hok2 : ((count =? 0) && (count * wt_size t =? 0)
               || negb (count =? 0) && negb (count * wt_size t =? 0) &&
                  (count * wt_size t mod count =? 0)) = true).
      { destruct (Z.eqb_spec count 0) as [->|Hc0]; [reflexivity|].
        assert (count * wt_size t <> 0) by nia.
        destruct (Z.eqb_spec (count * wt_size t) 0); [lia|].
        rewrite Z.mul_comm, Z.mod_mul by lia. reflexivity. }
      rewrite Hok2. unfold ok. cbn [bind].
      assert (Hcount : (length (op_wants i (OpStructVec m ptr count t)) - 2)%nat =
                       length (f_emit i (n + 1) (n + 1 + 1) ks)).
      { cbn [op_wants length Nat.sub]. rewrite Nat.sub_0_r.
        destruct (f_emit_len i ks (n + 1) (n + 1 + 1)) as [_ ->]. unfold ks. rewrite f_count_reloc.
        apply elems_count; auto; [|lia|lia]. intros obj off T1 T2. apply wants_count; assumption. }
      rewrite Hcount.
      rewrite (skip_at i g st E rest _ _ _ _ (f_emit_buffers i (n + 1) ks (n + 1 + 1)) A2).
      unfold ok. cbn [bind]. eexists. split.
      + do 2 f_equal. unfold mk_reader. f_equal. rewrite !blen_app, !blen_buffer.
        destruct (f_emit_len i ks (n + 1) (n + 1 + 1)) as [-> _]. unfold ks. rewrite f_count_reloc.
        cbn [ps_len p_len]. rewrite t_count_node. cbn [f_count]. rewrite t_count_node. lia.
      + eexists _, _. split; [reflexivity|]. split.
        * destruct (Z.eqb_spec count 0) as [Hc0|Hc0]; [left; exact Hc0|right].
          rewrite Z.mul_comm. apply Z.div_mul. lia.
        * eapply elems_same; [|exact Ht|lia|exact Hs|exact H4].
          intros obj b off pos1 a T1 T2 T3 T4 T5 T6.
          eapply fields_same; eauto.
  Qed.
End ReadOp.
