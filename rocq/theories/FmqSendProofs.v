(* Proofs about message queues which are sent to another process *)
From Verif Require Import Base BaseLemmas UtfModel WriterModel ReaderModel CodecSpec
  CodecProofs CodecSafety ObjModel ObjReader KernelModel ObjSpec ObjProofs ObjInvariant
  TreeProofs PieceProofs HidlSpec HidlWriter HidlOps HidlPlaced HidlStruct HidlRead HidlRound
  HidlTrip FmqModel FmqSendModel FmqSendSpec.

Section Run.
  Variable e : kenv.
  Variable offsets : list Z.
  Variable bufsize : Z.
  Let i := k_io e.
  Let base := k_sgbase e.
  Hypothesis offsets_inj : forall j k o,
    nth_error offsets j = Some o -> nth_error offsets k = Some o -> j = k.
  Hypothesis base_pos : 0 < base.
  Hypothesis base_top : base + align8 bufsize < 2 ^ (8 * psz i).
  Hypothesis offsets_few : blen offsets < 2 ^ 31.

  (* Pieces with something behind them *)
  Lemma pieces_run_more ps : forall s n pre post offs0 offs1,
    ks_data s = pre ++ ps_bytes i (Z.of_nat n) ps ++ post ->
    offsets = offs0 ++ ps_offs i (blen pre) ps ++ offs1 -> length offs0 = n ->
    blen pre mod 4 = 0 -> 0 < blen pre -> ks_min s <= blen pre ->
    Forall (p_ok e) ps ->
    blen (ks_sg s) + ps_space ps <= align8 bufsize ->
    exists s1, run e offsets bufsize n s = run e offsets bufsize (n + ps_count ps) s1 /\
      ks_data s1 = pre ++ ps_tr e (Z.of_nat n) (blen (ks_sg s)) ps ++ post /\
      ks_sg s1 = ks_sg s ++ ps_sg e (blen (ks_sg s)) ps /\
      ks_min s1 <= blen pre + ps_len i ps.
  Proof.
    induction ps as [|p r IH]; intros s n pre post offs0 offs1 Hd Ho Hn H4 Hpos Hmin Hok Hsp.
    - cbn [ps_bytes ps_offs ps_tr ps_sg ps_count ps_len app] in *. exists s.
      rewrite Nat.add_0_r, app_nil_r. split; [reflexivity|]. split; [exact Hd|].
      split; [reflexivity|lia].
    - cbn [ps_bytes ps_offs ps_tr ps_sg ps_space ps_count ps_len] in *.
      rewrite <- !app_assoc in Hd. rewrite <- !app_assoc in Ho.
      inversion Hok as [|x y Hp Hr]; subst x y.
      pose proof (ps_space_nonneg r) as Hsr.
      assert (Hmod := p_len_mod e p Hp). fold i in Hmod.
      assert (Hnext : forall s1, ks_data s1 = (pre ++ p_tr e (Z.of_nat n) (blen (ks_sg s)) p) ++
            ps_bytes i (Z.of_nat (n + p_count p)) r ++ post ->
          ks_sg s1 = ks_sg s ++ p_sg e (blen (ks_sg s)) p ->
          ks_min s1 <= blen pre + p_len i p ->
          exists s2, run e offsets bufsize (n + p_count p) s1 =
                     run e offsets bufsize (n + (p_count p + ps_count r)) s2 /\
            ks_data s2 = pre ++ (p_tr e (Z.of_nat n) (blen (ks_sg s)) p ++
              ps_tr e (Z.of_nat n + Z.of_nat (p_count p)) (blen (ks_sg s) + p_space p) r) ++ post /\
            ks_sg s2 = ks_sg s ++ p_sg e (blen (ks_sg s)) p ++ ps_sg e (blen (ks_sg s) + p_space p) r /\
            ks_min s2 <= blen pre + (p_len i p + ps_len i r)).
      { intros s1 D1 S1 M1.
        assert (Hpl : blen (pre ++ p_tr e (Z.of_nat n) (blen (ks_sg s)) p) = blen pre + p_len i p)
          by (rewrite blen_app, p_tr_len; reflexivity).
        assert (Hsl : blen (ks_sg s1) = blen (ks_sg s) + p_space p)
          by (rewrite S1, blen_app, p_sg_len; auto).
        assert (0 <= p_len i p) by (rewrite <- (p_bytes_len i 0); apply blen_nonneg).
        destruct (IH s1 (n + p_count p)%nat _ post (offs0 ++ p_offs i (blen pre) p) offs1 D1)
          as (s2 & R2 & D2 & S2 & M2).
        { rewrite Hpl, <- app_assoc. exact Ho. }
        { rewrite app_length, p_offs_length. lia. }
        { rewrite Hpl. lia. }
        { lia. }
        { lia. }
        { exact Hr. }
        { lia. }
        exists s2. split; [rewrite R2; f_equal; lia|]. rewrite D2, S2, Hsl, S1, <- !app_assoc.
        rewrite Nat2Z.inj_add. split; [reflexivity|]. split; [reflexivity|]. lia. }
      rewrite Nat2Z.inj_add in Hnext.
      destruct p as [l|t f o|t]; cbn [p_bytes p_offs p_count p_len p_ok p_space] in *.
      + rewrite Nat.add_0_r in Hnext. apply Hnext; cbn [p_tr p_sg].
        * rewrite <- app_assoc. exact Hd.
        * rewrite app_nil_r; reflexivity.
        * pose proof (blen_nonneg _ l). lia.
      + destruct (flat_step e offsets bufsize s (Z.of_nat n) pre t f o _ Hd Hp H4 Hmin) as (s1 & E1 & D1 & S1 & M1).
        destruct (Hnext s1) as (s2 & R2 & D2 & S2 & M2).
        * rewrite <- app_assoc. exact D1.
        * cbn [p_sg]. rewrite app_nil_r. exact S1.
        * fold i in M1. lia.
        * exists s2. split; [|split; [|split]; assumption].
          assert (Hnth : nth_error offsets n = Some (blen pre)).
          { rewrite Ho, <- Hn. rewrite nth_error_app2 by lia. rewrite Nat.sub_diag. reflexivity. }
          rewrite (run_step e offsets bufsize n s s1 _ Hnth E1), <- Nat.add_1_r. exact R2.
      + assert (Hoa : offs_at e offsets n (blen pre) (t_count t)).
        { intros j Hj. rewrite Ho, <- Hn, nth_error_app2 by lia.
          replace (length offs0 + j - length offs0)%nat with j by lia.
          rewrite nth_error_app1 by (rewrite offs_length; lia). apply offs_nth; assumption. }
        destruct (tree_run e offsets bufsize offsets_inj base_pos base_top offsets_few
                    s n pre t _ Hd H4 Hpos Hmin Hoa Hp ltac:(lia)) as (s1 & E1 & D1 & S1 & M1).
        destruct (Hnext s1) as (s2 & R2 & D2 & S2 & M2).
        * rewrite <- app_assoc. exact D1.
        * exact S1.
        * exact M1.
        * exists s2. split; [|split; [|split]; assumption]. rewrite E1. exact R2.
  Qed.

  (* The array of descriptors *)
  Lemma step_fda s n pre nf p c o r post :
    ks_data s = pre ++ fda_image i nf (Z.of_nat p) c ++ post ->
    blen pre mod 4 = 0 -> ks_min s <= blen pre -> 0 <= nf < 2 ^ 32 -> 0 <= c < 2 ^ 32 ->
    known e offsets s p o r -> (p < n)%nat -> ks_last s = o -> o <> 0 ->
    ks_last_min s <= c -> c + 4 * nf <= kp_length r ->
    k_step e offsets bufsize (Z.of_nat n) (blen pre) s =
    Some {| ks_data := ks_data s;
            ks_sg := k_map_fds e (ks_sg s) (kp_buffer r - base + c) (Z.to_nat nf);
            ks_min := blen pre + fda_size i; ks_last := o; ks_last_min := c + 4 * nf |}.
  Proof.
    intros Hd H4 Hmin Hnf Hc Hkn Hpn Hl Hnz Hlm Hlen.
    pose proof (blen_nonneg _ pre). pose proof (blen_nonneg _ post). pose proof (psz_pos i) as Hps.
    assert (HP : 2 ^ 32 <= 2 ^ (8 * psz i)) by (destruct i; vm_compute; discriminate).
    destruct Hkn as (K1 & K2 & K3 & K4 & K5).
    assert (Hpl : (p < length offsets)%nat) by (apply nth_error_Some; congruence).
    assert (Hp2 : 0 <= Z.of_nat p < 2 ^ (8 * psz i)) by (unfold blen in offsets_few; lia).
    destruct (fda_fields i nf (Z.of_nat p) c pre post) as (F1 & F2 & F3 & F4).
    rewrite <- Hd in F1, F2, F3, F4.
    unfold usz in F2, F3, F4. rewrite Z.mod_small in F2, F3, F4 by lia.
    assert (Hs : fda_size i = 8 + 3 * psz i) by reflexivity.
    assert (Hlen2 : blen (ks_data s) = blen pre + fda_size i + blen post)
      by (rewrite Hd, !blen_app, blen_fda; lia).
    assert (Hg : k_get_object i (ks_data s) (blen pre) = fda_size i).
    { unfold k_get_object. rewrite F1, Hlen2.
      replace ((0 <=? blen pre) && _ && _) with true by lia.
      change (k_object_size i TYPE_FDA) with (fda_size i).
      destruct (Z.leb_spec (blen pre + fda_size i) (blen pre + fda_size i + blen post)); [reflexivity|lia]. }
    unfold k_step. fold i. rewrite Hg, F1.
    destruct (Z.eqb_spec (fda_size i) 0); [lia|].
    destruct (Z.ltb_spec (blen pre) (ks_min s)); [lia|]. cbn [orb].
    change (TYPE_FDA =? TYPE_PTR) with false. rewrite Z.eqb_refl. cbv iota.
    unfold k_do_fda. fold i. cbn [ks_data ks_sg ks_min ks_last ks_last_min].
    rewrite F2, F3, F4.
    unfold k_validate_ptr. destruct (Z.ltb_spec (Z.of_nat p) (Z.of_nat n)); [|lia].
    rewrite Nat2Z.id, K1, K4, Z.eqb_refl. cbv iota.
    unfold k_validate_fixup. cbn [ks_data ks_last ks_last_min].
    destruct (Z.eqb_spec (ks_last s) 0); [congruence|].
    assert (HF : k_fixup_loop (length offsets) i (ks_data s) offsets (ks_last s) (ks_last_min s) o c
                 = true).
    { rewrite Hl. destruct (length offsets); cbn [k_fixup_loop]; rewrite Z.eqb_refl; lia. }
    rewrite HF. cbn [negb]. fold i in K5. rewrite K5.
    destruct (Z.ltb_spec (kp_length r) (c + 4 * nf)); [lia|]. reflexivity.
  Qed.

  Definition q_bytes (n a0 a1 a2 : Z) (desc vec hd : bytes) (nf : Z) : bytes :=
    buffer_image i a0 (blen desc) None ++
    buffer_image i a1 (blen vec) (Some (mkpa n 0)) ++ le 8 (blen hd) ++
    buffer_image i a2 (blen hd) (Some (mkpa n 16)) ++ fda_image i nf (n + 2) 12.

  Definition q_sg (pos : Z) (desc vec hd : bytes) : bytes :=
    poke (poke (k_pad8 desc) 0 (le (psize i) (base + (pos + 32))))
      16 (le (psize i) (base + (pos + 32 + align8 (blen vec)))) ++ k_pad8 vec ++ k_pad8 hd.

  Definition q_len : Z := 3 * ptr_size i + 8 + fda_size i.
  Definition q_offs (at_ : Z) : list Z :=
    [at_; at_ + ptr_size i; at_ + 2 * ptr_size i + 8; at_ + 3 * ptr_size i + 8].

  Lemma q_bytes_len n a0 a1 a2 desc vec hd nf : blen (q_bytes n a0 a1 a2 desc vec hd nf) = q_len.
  Proof. unfold q_bytes, q_len. rewrite !blen_app, !blen_buffer, blen_le, blen_fda. lia. Qed.

  Lemma queue_run s n pre post a0 a1 a2 desc vec hd nf :
    ks_data s = pre ++ q_bytes (Z.of_nat n) a0 a1 a2 desc vec hd nf ++ post ->
    (forall j o, nth_error (q_offs (blen pre)) j = Some o -> nth_error offsets (n + j) = Some o) ->
    blen pre mod 4 = 0 -> 0 < blen pre -> ks_min s <= blen pre ->
    node_ok i (k_mem e) a0 desc -> node_ok i (k_mem e) a1 vec -> node_ok i (k_mem e) a2 hd ->
    blen desc = 32 -> 0 <= nf < 2 ^ 16 -> 12 + 4 * nf <= blen hd ->
    blen (ks_sg s) + 32 + align8 (blen vec) + align8 (blen hd) <= align8 bufsize ->
    exists s1, run e offsets bufsize n s = run e offsets bufsize (n + 4) s1 /\
      ks_data s1 = pre ++ q_bytes (Z.of_nat n) (base + blen (ks_sg s)) (base + (blen (ks_sg s) + 32))
                     (base + (blen (ks_sg s) + 32 + align8 (blen vec))) desc vec hd nf ++ post /\
      ks_sg s1 = k_map_fds e (ks_sg s ++ q_sg (blen (ks_sg s)) desc vec hd)
                   (blen (ks_sg s) + 32 + align8 (blen vec) + 12) (Z.to_nat nf) /\
      ks_min s1 <= blen pre + q_len.
  Proof.
    intros Hd Hoffs H4 Hpos Hmin N0 N1 N2 Hdesc Hnf Hhd Hfit.
    pose proof (Hoffs 0%nat _ eq_refl) as O0. pose proof (Hoffs 1%nat _ eq_refl) as O1.
    pose proof (Hoffs 2%nat _ eq_refl) as O2. pose proof (Hoffs 3%nat _ eq_refl) as O3.
    rewrite Nat.add_0_r in O0.
    set (sg := ks_sg s) in *. set (pos := blen sg) in *.
    pose proof (psz_pos i) as Hps.
    assert (HP : 2 ^ 32 <= 2 ^ (8 * psz i)) by (destruct i; vm_compute; discriminate).
    assert (Hptr : ptr_size i = 8 + 4 * psz i) by reflexivity.
    pose proof (blen_nonneg _ sg) as Hsg. fold pos in Hsg.
    pose proof (align8_spec (blen vec)) as Hav. pose proof (align8_spec (blen hd)) as Hah.
    pose proof (blen_nonneg _ vec) as Hbv. pose proof (blen_nonneg _ hd) as Hbh.
    assert (H32 : align8 (blen desc) = 32) by (rewrite Hdesc; reflexivity).
    assert (Hn31 : Z.of_nat n + 3 < 2 ^ 31).
    { assert (n + 3 < length offsets)%nat by (apply nth_error_Some; congruence).
      unfold blen in offsets_few. lia. }
    unfold q_bytes in Hd. rewrite <- !app_assoc in Hd.
    pose proof N0 as (_ & _ & A0 & L0). pose proof N1 as (_ & _ & A1 & L1).
    pose proof N2 as (_ & _ & A2 & L2).
    set (B1 := buffer_image i a1 (blen vec) (Some (mkpa (Z.of_nat n) 0))) in *.
    set (B2 := buffer_image i a2 (blen hd) (Some (mkpa (Z.of_nat n) 16))) in *.
    set (F := fda_image i nf (Z.of_nat n + 2) 12) in *.
    (* the descriptor *)
    pose proof (step_root e offsets bufsize s (Z.of_nat n) pre a0 desc _ Hd H4 Hmin N0
      ltac:(fold sg; fold pos; lia)) as S1.
    fold sg in S1. fold pos in S1. fold base in S1. fold i in S1.
    set (B0' := buffer_image i (base + pos) (blen desc) None) in *.
    set (s1 := after e pre B0' (B1 ++ le 8 (blen hd) ++ B2 ++ F ++ post) (sg ++ k_pad8 desc)) in *.
    assert (Hk1 : known e offsets s1 n (blen pre) (rec_of None (base + pos) (blen desc)))
      by (apply (known_after e offsets offsets_inj); fold i; fold base; [exact O0| lia|lia|exact I]).
    (* the grantors *)
    set (pre1 := pre ++ B0').
    assert (Hp1 : blen pre1 = blen pre + ptr_size i)
      by (unfold pre1; rewrite blen_app; unfold B0'; rewrite blen_buffer; lia).
    assert (D1 : ks_data s1 = pre1 ++ B1 ++ (le 8 (blen hd) ++ B2 ++ F ++ post)).
    { unfold s1, after, pre1. cbn [ks_data]. rewrite <- !app_assoc. reflexivity. }
    assert (G1 : blen (ks_sg s1) = pos + 32).
    { unfold s1, after. cbn [ks_sg]. rewrite blen_app, blen_pad8. fold pos. lia. }
    pose proof (step_child e offsets bufsize offsets_inj offsets_few s1 (Z.of_nat (S n)) pre1 a1 vec _
      n 0 (blen pre) (rec_of None (base + pos) (blen desc)) pos n 0 0 (blen pre) D1) as S2.
    fold i in S2. fold base in S2. rewrite G1 in S2.
    specialize (S2 ltac:(lia) ltac:(unfold s1, after; cbn [ks_min]; fold i; lia) N1 ltac:(lia) Hk1 eq_refl
      ltac:(lia) ltac:(cbn [rec_of kp_length]; lia) ltac:(cbn [rec_of kp_length]; lia) ltac:(lia)
      (walk_here _ _ _ _ _) O0 ltac:(lia) eq_refl eq_refl ltac:(lia)).
    rewrite Z.add_0_r in S2.
    set (B1' := buffer_image i (base + (pos + 32)) (blen vec) (Some (mkpa (Z.of_nat n) 0))) in *.
    set (sg2 := poke (ks_sg s1 ++ k_pad8 vec) pos (le (psize i) (base + (pos + 32)))) in *.
    set (s2 := after e pre1 B1' (le 8 (blen hd) ++ B2 ++ F ++ post) sg2) in *.
    assert (K12 : keeps s1 s2).
    { eapply keeps_after; [exact D1| |unfold s1, after; cbn [ks_min]; fold i; lia].
      unfold B1', B1. rewrite !blen_buffer. reflexivity. }
    assert (Hk2 : known e offsets s2 n (blen pre) (rec_of None (base + pos) (blen desc)))
      by (eapply (keeps_known e offsets offsets_inj); eauto).
    assert (Hk2b : known e offsets s2 (S n) (blen pre1)
              (rec_of (Some (mkpa (Z.of_nat n) 0)) (base + (pos + 32)) (blen vec))).
    { apply (known_after e offsets offsets_inj); fold i; fold base; [|lia|lia|].
      - replace (S n) with (n + 1)%nat by lia. rewrite Hp1. exact O1.
      - cbn [pa_small mkpa pa_index pa_offset]. fold i. lia. }
    (* the native handle *)
    set (pre2 := pre1 ++ B1' ++ le 8 (blen hd)).
    assert (Hp2 : blen pre2 = blen pre + 2 * ptr_size i + 8).
    { unfold pre2. rewrite !blen_app, Hp1, blen_le. unfold B1'. rewrite blen_buffer. lia. }
    assert (D2 : ks_data s2 = pre2 ++ B2 ++ (F ++ post)).
    { unfold s2, after, pre2. cbn [ks_data]. rewrite <- !app_assoc. reflexivity. }
    assert (G2 : blen sg2 = pos + 32 + align8 (blen vec)).
    { unfold sg2. rewrite blen_poke_in; rewrite ?blen_app, ?blen_pad8, ?blen_le, ?psize_psz, ?G1; lia. }
    pose proof (step_child e offsets bufsize offsets_inj offsets_few s2 (Z.of_nat (S (S n))) pre2 a2 hd _
      n 16 (blen pre) (rec_of None (base + pos) (blen desc)) pos (S n) 0 (psz i) (blen pre1) D2) as S3.
    fold i in S3. fold base in S3.
    specialize (S3 ltac:(lia) ltac:(unfold s2, after; cbn [ks_min]; fold i; lia) N2
      ltac:(unfold s2, after; cbn [ks_sg]; lia) Hk2 eq_refl
      ltac:(lia) ltac:(cbn [rec_of kp_length]; lia) ltac:(cbn [rec_of kp_length]; lia) ltac:(lia)).
    assert (W3 : walk e offsets s2 (S n) 0 n (psz i)).
    { eapply walk_up; [exact Hk2b|reflexivity|reflexivity|lia|lia|].
      cbn [rec_of kp_poff mkpa pa_offset]. apply walk_here. }
    specialize (S3 W3 ltac:(replace (S n) with (n + 1)%nat by lia; rewrite Hp1; exact O1) ltac:(lia)
      eq_refl eq_refl ltac:(lia)).
    change (ks_sg s2) with sg2 in S3. rewrite G2 in S3.
    set (B2' := buffer_image i (base + (pos + 32 + align8 (blen vec))) (blen hd)
                  (Some (mkpa (Z.of_nat n) 16))) in *.
    set (sg3 := poke (sg2 ++ k_pad8 hd) (pos + 16)
                  (le (psize i) (base + (pos + 32 + align8 (blen vec))))) in *.
    set (s3 := after e pre2 B2' (F ++ post) sg3) in *.
    assert (Hk3 : known e offsets s3 (n + 2) (blen pre2)
              (rec_of (Some (mkpa (Z.of_nat n) 16)) (base + (pos + 32 + align8 (blen vec))) (blen hd))).
    { apply (known_after e offsets offsets_inj); fold i; fold base; [|lia|lia|].
      - rewrite Hp2. exact O2.
      - cbn [pa_small mkpa pa_index pa_offset]. fold i. lia. }
    (* the descriptors *)
    set (pre3 := pre2 ++ B2').
    assert (Hp3 : blen pre3 = blen pre + 3 * ptr_size i + 8).
    { unfold pre3. rewrite !blen_app, Hp2. unfold B2'. rewrite blen_buffer. lia. }
    assert (D3 : ks_data s3 = pre3 ++ fda_image i nf (Z.of_nat (n + 2)) 12 ++ post).
    { unfold s3, after, pre3, F. cbn [ks_data]. rewrite <- !app_assoc.
      replace (Z.of_nat (n + 2)) with (Z.of_nat n + 2) by lia. reflexivity. }
    pose proof (step_fda s3 (n + 3) pre3 nf (n + 2)%nat 12 (blen pre2) _ post D3 ltac:(lia)
      ltac:(unfold s3, after; cbn [ks_min]; fold i; lia) ltac:(lia) ltac:(lia) Hk3 ltac:(lia)
      eq_refl ltac:(lia) ltac:(unfold s3, after; cbn [ks_last_min]; lia)
      ltac:(cbn [rec_of kp_length]; lia)) as S4.
    cbn [rec_of kp_buffer] in S4.
    replace (base + (pos + 32 + align8 (blen vec)) - base + 12)
      with (pos + 32 + align8 (blen vec) + 12) in S4 by lia.
    change (ks_sg s3) with sg3 in S4.
    eexists. split.
    { rewrite (run_step _ _ _ n s s1 _ O0 S1).
      rewrite (run_step _ _ _ (S n) s1 s2 (blen pre1));
        [|replace (S n) with (n + 1)%nat by lia; rewrite Hp1; exact O1|exact S2].
      rewrite (run_step _ _ _ (S (S n)) s2 s3 (blen pre2));
        [|replace (S (S n)) with (n + 2)%nat by lia; rewrite Hp2; exact O2|exact S3].
      replace (S (S (S n))) with (n + 3)%nat by lia.
      assert (O3' : nth_error offsets (n + 3) = Some (blen pre3)) by (rewrite Hp3; exact O3).
      rewrite (run_step _ _ _ (n + 3) s3 _ _ O3' S4).
      replace (S (n + 3)) with (n + 4)%nat by lia. reflexivity. }
    cbn [ks_data ks_sg ks_min]. split; [|split].
    - rewrite D3. unfold pre3, pre2, pre1, q_bytes. rewrite <- !app_assoc.
      replace (Z.of_nat (n + 2)) with (Z.of_nat n + 2) by lia. reflexivity.
    - f_equal. unfold sg3, sg2, s1, after. cbn [ks_sg].
      rewrite <- app_assoc.
      rewrite (poke_app_r sg) by (fold pos; lia). fold pos.
      rewrite Z.sub_diag.
      rewrite (poke_app_l (k_pad8 desc)) by (rewrite blen_le, psize_psz, blen_pad8; lia).
      rewrite <- !app_assoc.
      rewrite (poke_app_r sg) by (fold pos; lia). fold pos.
      replace (pos + 16 - pos) with 16 by lia.
      rewrite poke_app_l; [reflexivity|].
      rewrite blen_poke_in; rewrite ?blen_le, ?psize_psz, ?blen_pad8; lia.
    - unfold q_len. lia.
  Qed.
End Run.

(* ------------------------------------------------------------------ *)
(* Descriptors are replaced *)

Lemma le4_back f : in_range (- 2 ^ 31) (2 ^ 31) f -> sgn 32 (unle (le 4 f)) = f.
Proof.
  intros H. unfold in_range in H. rewrite unle_le4. unfold sgn, u32.
  rewrite Z.mod_mod by lia. destruct (Z.ltb_spec (f mod 2 ^ 32) (2 ^ (32 - 1))) as [L|L].
  - destruct (Z.ltb_spec f 0).
    + exfalso. rewrite <- (Z.mod_unique f (2 ^ 32) (-1) (f + 2 ^ 32)) in L by lia. lia.
    + apply Z.mod_small. lia.
  - destruct (Z.ltb_spec f 0).
    + rewrite <- (Z.mod_unique f (2 ^ 32) (-1) (f + 2 ^ 32)) by lia. lia.
    + exfalso. rewrite Z.mod_small in L by lia. lia.
Qed.

Lemma map_fds e fds : forall x z,
  Forall (in_range (- 2 ^ 31) (2 ^ 31)) fds ->
  k_map_fds e (x ++ ints_image fds ++ z) (blen x) (length fds) =
  x ++ ints_image (map (k_fd e) fds) ++ z.
Proof.
  induction fds as [|f fds IH]; intros x z Hf; cbn [length k_map_fds map]; [reflexivity|].
  inversion Hf as [|y ys Hf1 Hf2]; subst y ys.
  unfold ints_image in *. cbn [map concat]. rewrite <- !app_assoc.
  assert (Ek : kfield (x ++ le 4 f ++ concat (map (le 4) fds) ++ z) (blen x) 4 = unle (le 4 f)).
  { unfold kfield. rewrite slice_app_exact by (rewrite ?blen_le; reflexivity). reflexivity. }
  rewrite Ek, le4_back by assumption.
  rewrite (poke_app _ x (le 4 f)) by (rewrite ?blen_le; reflexivity).
  rewrite (app_assoc x). replace (blen x + 4) with (blen (x ++ le 4 (k_fd e f)))
    by (rewrite blen_app, blen_le; lia).
  rewrite IH by assumption. rewrite <- app_assoc. reflexivity.
Qed.

(* ------------------------------------------------------------------ *)
(* The memory of the receiver *)

Lemma gmem_slice g x y z a off n :
  m_sg g = x ++ y ++ z -> a = m_sgbase g + blen x + off ->
  0 <= off -> 0 <= n -> off + n <= blen y -> mread (gmem g) a n = slice y off n.
Proof.
  intros Hg -> Ho Hn Hl. pose proof (blen_nonneg _ x). pose proof (blen_nonneg _ y).
  apply list_zn.
  - rewrite blen_mread by lia. unfold slice. rewrite blen_ztake, blen_zdrop; lia.
  - intros j Hj. rewrite blen_mread in Hj by lia.
    rewrite zn_mread, zn_slice by lia. unfold gmem. rewrite Hg.
    replace (m_sgbase g + blen x + off + j - m_sgbase g) with (blen x + (off + j)) by lia.
    change (nth (Z.to_nat (blen x + (off + j))) (x ++ y ++ z) uninit)
      with (zn (x ++ y ++ z) (blen x + (off + j))).
    rewrite zn_app_r by lia. rewrite zn_app_l by lia. f_equal. lia.
Qed.

(* Consecutive parts *)
Definition cat (l : list bytes) (r : bytes) : bytes := fold_right (@app Z) r l.
Fixpoint lens_of (l : list bytes) : Z := match l with [] => 0 | x :: r => blen x + lens_of r end.

Lemma cat_eq l r : cat l r = cat l [] ++ r /\ blen (cat l []) = lens_of l.
Proof.
  induction l as [|x l [IH1 IH2]]; cbn [cat fold_right lens_of].
  - split; reflexivity.
  - fold (cat l r). fold (cat l []). rewrite IH1, <- app_assoc, blen_app, IH2. split; reflexivity.
Qed.

Lemma number_at g l v k r a n :
  m_sg g = cat l (le k v ++ r) -> a = m_sgbase g + lens_of l -> n = Z.of_nat k ->
  0 <= v < 2 ^ (8 * Z.of_nat k) -> number g a n = v.
Proof.
  intros Hg -> -> Hv. unfold number. destruct (cat_eq l (le k v ++ r)) as [E1 E2]. rewrite E1 in Hg.
  rewrite (gmem_slice g (cat l []) (le k v) r _ 0); try assumption; try lia.
  - pose proof (slice_app_exact _ [] (le k v) [] 0 (Z.of_nat k) eq_refl) as E. cbn [app] in E.
    rewrite app_nil_r in E. rewrite E by (rewrite blen_le; reflexivity). rewrite unle_le.
    apply Z.mod_small. exact Hv.
  - rewrite blen_le. lia.
Qed.

Lemma le_u32 f : le 4 (u32 f) = le 4 f.
Proof.
  rewrite <- unle_le4. pose proof (le_unle (le 4 f) (all_bytes_le 4 f)) as E.
  assert (L : length (le 4 f) = 4%nat) by (pose proof (blen_le 4 f) as B; unfold blen in B; lia).
  rewrite L in E. exact E.
Qed.

Lemma concat_nth {A} (f : A -> bytes) w l : forall k x,
  (forall x, blen (f x) = w) -> nth_error l k = Some x ->
  exists p r, concat (map f l) = p ++ f x ++ r /\ blen p = w * Z.of_nat k.
Proof.
  induction l as [|y l IH]; intros [|k] x Hw E; cbn [nth_error] in E; try discriminate.
  - injection E as ->. exists [], (concat (map f l)). split; [reflexivity|]. rewrite blen_nil; lia.
  - destruct (IH k x Hw E) as (p & r & E1 & E2). cbn [map concat]. rewrite E1.
    exists (f y ++ p), r. split; [rewrite <- app_assoc; reflexivity|].
    rewrite blen_app, Hw, E2. lia.
Qed.

Lemma concat_len {A} (f : A -> bytes) w l :
  (forall x, blen (f x) = w) -> blen (concat (map f l)) = w * blen l.
Proof.
  intros Hw. induction l as [|x l IH]; cbn [map concat]; [rewrite !blen_nil; lia|].
  rewrite blen_app, Hw, IH, blen_cons. lia.
Qed.

Lemma blen_grantor x : blen (grantor_image x) = 24.
Proof. unfold grantor_image. rewrite !blen_app, !blen_le. reflexivity. Qed.
Lemma blen_mq a b c d e : blen (mq_image a b c d e) = 32.
Proof. unfold mq_image, hidl_image. rewrite !blen_app, !blen_le. reflexivity. Qed.

Lemma le8_split i v : exists x, le 8 v = le (psize i) v ++ x /\ blen x = 8 - psz i.
Proof.
  destruct i; cbn [psize].
  - exists (le 4 (v / 2 ^ 32)). split; [|rewrite blen_le; reflexivity].
    unfold le; cbn. rewrite !Z.div_div by lia. reflexivity.
  - exists []. split; [rewrite app_nil_r; reflexivity|reflexivity].
Qed.

Lemma desc_patched i a1 n a2 qu fl p1 p2 : exists x y,
  poke (poke (k_pad8 (mq_image a1 n a2 qu fl)) 0 (le (psize i) p1)) 16 (le (psize i) p2) =
  le (psize i) p1 ++ x ++ le 4 n ++ le 1 1 ++ zrepeat 0 3 ++ le (psize i) p2 ++ y ++
  le 4 qu ++ le 4 fl /\ blen x = 8 - psz i /\ blen y = 8 - psz i.
Proof.
  destruct (le8_split i a1) as (x & Ex & Lx). destruct (le8_split i a2) as (y & Ey & Ly).
  exists x, y. split; [|split; assumption].
  assert (Ep : k_pad8 (mq_image a1 n a2 qu fl) = mq_image a1 n a2 qu fl).
  { unfold k_pad8. rewrite blen_mq. change (zrepeat uninit (align8 32 - 32)) with (@nil Z).
    apply app_nil_r. }
  rewrite Ep. unfold mq_image, hidl_image. rewrite Ex, Ey. rewrite <- !app_assoc.
  match goal with |- context [poke (le (psize i) a1 ++ ?r) 0 ?p] =>
    pose proof (poke_app _ [] (le (psize i) a1) r p 0 eq_refl) as P0 end.
  cbn [app] in P0. rewrite P0 by (rewrite !blen_le; reflexivity). clear P0.
  rewrite (app_assoc (le (psize i) p1)), (app_assoc (le (psize i) p1 ++ x)),
    (app_assoc ((le (psize i) p1 ++ x) ++ le 4 n)),
    (app_assoc (((le (psize i) p1 ++ x) ++ le 4 n) ++ le 1 1)).
  rewrite (poke_app _ _ (le (psize i) a2)).
  - rewrite <- !app_assoc. reflexivity.
  - rewrite !blen_app, !blen_le, Lx, psize_psz. change (blen (zrepeat 0 3)) with 3. lia.
  - rewrite !blen_le. reflexivity.
Qed.

(* Everything which the receiver finds *)
Lemma queue_found e g q sg0 a1 a2 a0p rest :
  let i := k_io e in
  let pos := blen sg0 in
  let desc := mq_image a1 (blen (mq_grantors q)) a2 (mq_quantum q) (mq_flags q) in
  let vec := grantors_image (mq_grantors q) in
  let hd := fds_image {| fs_ptr := a0p; fs_version := mq_version q;
              fs_fds := map (k_fd e) (mq_fds q); fs_ints := mq_ints q |} in
  mq_ok q -> m_sgbase g = k_sgbase e -> low_message i g ->
  m_sg g = sg0 ++ q_sg e pos desc vec hd ++ rest ->
  same_queue e g q (k_sgbase e + pos).
Proof.
  intros i pos desc vec hd (Q1 & Q2 & Q3 & Q4 & Q5 & Q6 & Q7 & Q8) Hbase [Hlow1 Hlow2] Hsg.
  assert (Lv : blen vec = 24 * blen (mq_grantors q)) by (apply concat_len, blen_grantor).
  assert (Lh : blen hd = 12 + 4 * (blen (mq_fds q) + blen (mq_ints q))).
  { unfold hd. rewrite blen_fds. cbn [fs_fds fs_ints]. unfold blen. rewrite map_length. reflexivity. }
  assert (Ev : k_pad8 vec = vec).
  { unfold k_pad8. assert (E0 : align8 (blen vec) - blen vec = 0).
    { rewrite Lv. unfold align8. pose proof (blen_nonneg _ (mq_grantors q)). lia. }
    rewrite E0. apply app_nil_r. }
  assert (Ea : align8 (blen vec) = blen vec) by (rewrite <- (blen_pad8 vec), Ev; reflexivity).
  unfold q_sg in Hsg. rewrite Ev, Ea in Hsg. fold i in Hsg.
  set (P1 := k_sgbase e + (pos + 32)) in *.
  set (P2 := k_sgbase e + (pos + 32 + blen vec)) in *.
  destruct (desc_patched i a1 (blen (mq_grantors q)) a2 (mq_quantum q) (mq_flags q) P1 P2)
    as (x & y & Ed & Lx & Ly).
  fold desc in Ed. rewrite Ed in Hsg. clear Ed.
  pose proof (psz_pos i) as Hps. pose proof (blen_nonneg _ sg0) as L0. fold pos in L0.
  pose proof (blen_nonneg _ rest) as L1. pose proof (blen_nonneg _ (mq_grantors q)) as L2.
  pose proof (blen_nonneg _ (mq_fds q)) as L3. pose proof (blen_nonneg _ (mq_ints q)) as L4.
  pose proof (align8_spec (blen hd)) as Hah.
  assert (Z3 : blen (zrepeat 0 3) = 3) by reflexivity.
  assert (Z4 : blen (zrepeat 0 4) = 4) by reflexivity.
  assert (Lsg : blen (m_sg g) = pos + 32 + blen vec + align8 (blen hd) + blen rest).
  { rewrite Hsg, !blen_app, !blen_le, Lx, Ly, Z3, !psize_psz, blen_pad8. fold pos. lia. }
  assert (HP1 : 0 <= P1 < 2 ^ (8 * Z.of_nat (psize i))) by (rewrite psize_psz; unfold P1; lia).
  assert (HP2 : 0 <= P2 < 2 ^ (8 * Z.of_nat (psize i))) by (rewrite psize_psz; unfold P2; lia).
  assert (E32 : 2 ^ (8 * Z.of_nat 4) = 2 ^ 32) by reflexivity.
  unfold k_pad8 in Hsg. rewrite <- !app_assoc in Hsg.
  set (r0 := zrepeat uninit (align8 (blen hd) - blen hd) ++ rest) in *.
  set (ng := blen (mq_grantors q)) in *.
  set (pre := [sg0; le (psize i) P1; x; le 4 ng; le 1 1; zrepeat 0 3; le (psize i) P2; y;
               le 4 (mq_quantum q); le 4 (mq_flags q)]).
  assert (Lpre : lens_of pre = pos + 32).
  { unfold pre. cbn [lens_of]. rewrite !blen_le, Lx, Ly, Z3, !psize_psz. fold pos. lia. }
  assert (S2 : m_sg g = cat (pre ++ [vec]) (hd ++ r0)) by exact Hsg.
  assert (N1 : number g (k_sgbase e + pos) (psz i) = P1).
  { eapply (number_at g [sg0] P1 (psize i)); [exact Hsg| |symmetry; apply psize_psz|exact HP1].
    rewrite Hbase. cbn [lens_of]. unfold pos. lia. }
  assert (N2 : number g (k_sgbase e + pos + 16) (psz i) = P2).
  { eapply (number_at g [sg0; le (psize i) P1; x; le 4 ng; le 1 1; zrepeat 0 3] P2 (psize i));
      [exact Hsg| |symmetry; apply psize_psz|exact HP2].
    rewrite Hbase. cbn [lens_of]. rewrite !blen_le, Lx, Z3, psize_psz. unfold pos. lia. }
  unfold same_queue. fold i. fold ng. rewrite N1, N2.
  split; [unfold in_message; lia|].
  split.
  { eapply (number_at g [sg0; le (psize i) P1; x] ng 4); [exact Hsg| |reflexivity|rewrite E32; lia].
    rewrite Hbase. cbn [lens_of]. rewrite !blen_le, Lx, psize_psz. unfold pos. lia. }
  split.
  { eapply (number_at g [sg0; le (psize i) P1; x; le 4 ng; le 1 1; zrepeat 0 3; le (psize i) P2; y]
      (mq_quantum q) 4); [exact Hsg| |reflexivity|exact Q5].
    rewrite Hbase. cbn [lens_of]. rewrite !blen_le, Lx, Ly, Z3, !psize_psz. unfold pos. lia. }
  split.
  { eapply (number_at g [sg0; le (psize i) P1; x; le 4 ng; le 1 1; zrepeat 0 3; le (psize i) P2; y;
      le 4 (mq_quantum q)] (mq_flags q) 4); [exact Hsg| |reflexivity|exact Q6].
    rewrite Hbase. cbn [lens_of]. rewrite !blen_le, Lx, Ly, Z3, !psize_psz. unfold pos. lia. }
  split; [unfold in_message, P1; lia|].
  assert (Hcat : forall l r, cat (pre ++ l) r = cat pre (cat l r)).
  { intros l r. unfold cat. apply fold_right_app. }
  assert (Hlen : forall l, lens_of (pre ++ l) = lens_of pre + lens_of l).
  { intros l. unfold pre. cbn [app lens_of]. lia. }
  split.
  { intros k gr Hk.
    destruct (concat_nth grantor_image 24 (mq_grantors q) k gr blen_grantor Hk) as (p & r & E1 & E2).
    fold (grantors_image (mq_grantors q)) in E1. fold vec in E1.
    rewrite Hcat in S2. rewrite E1 in S2. cbn [cat fold_right] in S2.
    unfold grantor_image in S2. rewrite <- !app_assoc in S2.
    assert (Hgr := proj1 (Forall_forall _ _) Q3 gr (nth_error_In _ _ Hk)).
    destruct Hgr as (H1 & H2 & H3).
    unfold grantor_at, P1. split; [|split; [|split]].
    - eapply (number_at g (pre ++ [p]) 0 4);
        [rewrite Hcat; exact S2| |reflexivity|rewrite E32; lia].
      rewrite Hlen, Lpre, Hbase. cbn [lens_of]. rewrite E2. lia.
    - eapply (number_at g (pre ++ [p; le 4 0]) (fd_index gr) 4);
        [rewrite Hcat; exact S2| |reflexivity|exact H1].
      rewrite Hlen, Lpre, Hbase. cbn [lens_of]. rewrite E2, !blen_le. lia.
    - eapply (number_at g (pre ++ [p; le 4 0; le 4 (fd_index gr)]) (g_offset gr) 4);
        [rewrite Hcat; exact S2| |reflexivity|exact H2].
      rewrite Hlen, Lpre, Hbase. cbn [lens_of]. rewrite E2, !blen_le. lia.
    - eapply (number_at g (pre ++ [p; le 4 0; le 4 (fd_index gr); le 4 (g_offset gr); zrepeat 0 4])
                (g_extent gr) 8);
        [rewrite Hcat; exact S2| |reflexivity|exact H3].
      rewrite Hlen, Lpre, Hbase. cbn [lens_of]. rewrite E2, !blen_le, Z4. lia. }
  split; [unfold in_message, P2; lia|].
  assert (Lm : blen (map (k_fd e) (mq_fds q)) = blen (mq_fds q)) by (unfold blen; rewrite map_length; reflexivity).
  rewrite Hcat in S2.
  unfold hd in S2. unfold fds_image in S2. cbn [fs_version fs_fds fs_ints] in S2.
  rewrite Lm in S2. rewrite <- !app_assoc in S2. cbn [cat fold_right] in S2.
  set (nf := blen (mq_fds q)) in *. set (ni := blen (mq_ints q)) in *.
  unfold handle_at, P2. rewrite Lm.
  split; [|split; [|split; [|split]]].
  - eapply (number_at g (pre ++ [vec]) (mq_version q) 4); [rewrite Hcat; exact S2| |reflexivity|exact Q4].
    rewrite Hlen, Lpre, Hbase. cbn [lens_of]. lia.
  - eapply (number_at g (pre ++ [vec; le 4 (mq_version q)]) nf 4);
      [rewrite Hcat; exact S2| |reflexivity|rewrite E32; lia].
    rewrite Hlen, Lpre, Hbase. cbn [lens_of]. rewrite !blen_le. lia.
  - eapply (number_at g (pre ++ [vec; le 4 (mq_version q); le 4 nf]) ni 4);
      [rewrite Hcat; exact S2| |reflexivity|rewrite E32; lia].
    rewrite Hlen, Lpre, Hbase. cbn [lens_of]. rewrite !blen_le. lia.
  - intros k f Hk.
    destruct (concat_nth (le 4) 4 (map (k_fd e) (mq_fds q)) k f (blen_le 4) Hk) as (p & r & E1 & E2).
    unfold ints_image in S2. rewrite E1 in S2. rewrite <- (le_u32 f) in S2. rewrite <- !app_assoc in S2.
    eapply (number_at g (pre ++ [vec; le 4 (mq_version q); le 4 nf; le 4 ni; p]) (u32 f) 4);
      [rewrite Hcat; exact S2| |reflexivity|rewrite E32; unfold u32; lia].
    rewrite Hlen, Lpre, Hbase. cbn [lens_of]. rewrite !blen_le, E2. lia.
  - intros k f Hk.
    destruct (concat_nth (le 4) 4 (mq_ints q) k f (blen_le 4) Hk) as (p & r & E1 & E2).
    unfold ints_image in S2. rewrite E1 in S2. rewrite <- (le_u32 f) in S2. rewrite <- !app_assoc in S2.
    eapply (number_at g (pre ++ [vec; le 4 (mq_version q); le 4 nf; le 4 ni;
        concat (map (le 4) (map (k_fd e) (mq_fds q))); p]) (u32 f) 4);
      [rewrite Hcat; exact S2| |reflexivity|rewrite E32; unfold u32; lia].
    rewrite Hlen, Lpre, Hbase. cbn [lens_of].
    rewrite !blen_le, E2, (concat_len (le 4) 4 _ (blen_le 4)), Lm. fold nf. lia.
Qed.

(* ------------------------------------------------------------------ *)
(* What the writer adds *)

Lemma q_added i al slack d q :
  (forall n, is_addr i (al n)) -> mq_ok q ->
  0 <= slack -> fda_size i <= MAX_BINDER_OBJECT_SIZE + slack ->
  exists d1 a0 a1 a2,
    let desc := mq_image a1 (blen (mq_grantors q)) a2 (mq_quantum q) (mq_flags q) in
    let vec := grantors_image (mq_grantors q) in
    let hd := fds_image {| fs_ptr := a2; fs_version := mq_version q;
                fs_fds := mq_fds q; fs_ints := mq_ints q |} in
    w_fmq i al slack d q = Ok d1 /\
    wd_bytes d1 = wd_bytes d ++
      (buffer_image i a0 (blen desc) None ++
       buffer_image i a1 (blen vec) (Some (mkpa (blen (wd_offsets d)) 0)) ++ le 8 (blen hd) ++
       buffer_image i a2 (blen hd) (Some (mkpa (blen (wd_offsets d)) 16)) ++
       fda_image i (blen (mq_fds q)) (blen (wd_offsets d) + 2) 12) /\
    (let at_ := blen (wd_bytes d) in
     wd_offsets d1 = wd_offsets d ++
       [at_; at_ + ptr_size i; at_ + 2 * ptr_size i + 8; at_ + 3 * ptr_size i + 8]) /\
    wd_bufsize d1 = wd_bufsize d + 32 + align8 (blen vec) + align8 (blen hd) /\
    wd_heap d1 = [(a2, hd); (a1, vec); (a0, desc)] ++ wd_heap d /\
    is_addr i a0 /\ is_addr i a1 /\ is_addr i a2.
Proof.
  intros Hal (Q1 & Q2 & Q3 & Q4 & Q5 & Q6 & Q7 & Q8) H0 H1.
  set (n := wd_nalloc d).
  assert (HP : 2 ^ 32 <= 2 ^ (8 * psz i)) by (destruct i; vm_compute; discriminate).
  assert (Hg : 0 < blen (mq_grantors q)).
  { destruct (mq_grantors q) as [|x l]; [congruence|]. rewrite blen_cons. pose proof (blen_nonneg _ l). lia. }
  assert (Lv : blen (grantors_image (mq_grantors q)) = 24 * blen (mq_grantors q))
    by (apply concat_len, blen_grantor).
  pose proof (blen_nonneg _ (mq_fds q)). pose proof (blen_nonneg _ (mq_ints q)).
  unfold w_fmq. fold n. cbv zeta.
  assert (Ez : (24 * blen (mq_grantors q) =? 0) = false) by lia. rewrite !Ez.
  rewrite w_buffer_eq. cbn [bind]. rewrite w_buffer_eq. cbn [bind].
  rewrite (usz_in i 32), (usz_in i (24 * _)) by lia.
  unfold w_fds. cbn [fs_fds fs_ints fs_ptr]. cbv zeta.
  rewrite wd_int64_eq. cbn [bind]. rewrite w_buffer_eq. cbn [bind].
  rewrite (usz_in i (12 + _)) by lia. rewrite w_fda_eq by assumption.
  cbn [add_object add_bufsize record_offset add_data wd_set_bytes wd_bytes wd_offsets wd_bufsize
    wd_heap wd_nalloc heap_add pa_index pa_offset].
  eexists _, (al n), (al (S n)), (al (S (S n))). split; [reflexivity|].
  cbn [add_object add_bufsize record_offset add_data wd_set_bytes wd_bytes wd_offsets wd_bufsize
    wd_heap wd_nalloc heap_add pa_index pa_offset].
  rewrite blen_mq, Lv, blen_fds. cbn [fs_fds fs_ints]. unfold mkpa.
  split.
  { rewrite <- !app_assoc. do 5 f_equal.
    f_equal. rewrite !blen_app, !blen_cons, !blen_nil. lia. }
  split.
  { rewrite <- !app_assoc. cbn [app]. rewrite !blen_app, !blen_buffer, blen_le.
    f_equal. cbn [app]. repeat (f_equal; try lia). }
  split; [change (align8 32) with 32; lia|].
  split; [fold n; reflexivity|]. split; [apply Hal|]. split; apply Hal.
Qed.

(* ------------------------------------------------------------------ *)
(* Reading what precedes and what follows *)

Section ReadMore.
  Variables (cm : cmode) (i : io) (pr : protocol) (e : kenv) (g : message).
  Let m := k_mem e.
  Hypothesis Hi : k_io e = i.
  Hypothesis Hbase : m_sgbase g = k_sgbase e.
  Hypothesis Hpos : 0 < k_sgbase e.
  Hypothesis Hlow : low_message i g.
  Hypothesis Hsize : blen (m_data g) < 2 ^ 31.
  Let E := blen (m_data g).

  Lemma read_ops_more l : forall pss n pos pre post sg0 sg1 rest,
    Forall (call_ok i pr m) l -> Forall (foreign e) l ->
    Forall2 (describes i pr m) l pss -> Forall (Forall (p_good i m)) pss ->
    m_data g = pre ++ ps_tr e n pos (concat pss) ++ post ->
    m_sg g = sg0 ++ ps_sg e pos (concat pss) ++ sg1 -> blen sg0 = pos ->
    exists rs, read_items cm i pr g
        (mk_reader 0 E (blen pre) (ps_offs i (blen pre) (concat pss) ++ rest))
        (map (rkind_of i) l) =
        Ok (rs, mk_reader 0 E (blen pre + ps_len i (concat pss)) rest) /\
      Forall2 (got i e g) l rs.
  Proof.
    induction l as [|o l IH]; intros pss n pos pre post sg0 sg1 rest Hok Hfor Hdes Hgood Hd Hsg Hsg0.
    - inversion Hdes; subst pss. cbn [concat ps_tr ps_offs map read_items ps_len app] in *.
      exists []. split; [|constructor]. rewrite Z.add_0_r. reflexivity.
    - inversion Hdes as [|x1 ps l1 pss1 D1 D2]; subst x1 l1 pss. cbn [concat] in *.
      inversion Hok as [|x y O1 O2]; subst x y. inversion Hfor as [|x y F1 F2]; subst x y.
      inversion Hgood as [|x y G1 G2]; subst x y.
      rewrite ps_tr_app, <- app_assoc in Hd. rewrite ps_sg_app, <- app_assoc in Hsg.
      rewrite ps_offs_app, <- app_assoc.
      destruct (read_op cm i pr e g m 0 Hi Hbase Hpos Hlow Hsize o ps n pos pre _ sg0 _
        (ps_offs i (blen pre + ps_len i ps) (concat pss1) ++ rest) O1 F1 D1 G1 Hd Hsg Hsg0) as (r & R1 & R2).
      cbn [map read_items]. fold E in R1. rewrite R1. cbn [bind].
      assert (Hl : blen (pre ++ ps_tr e n pos ps) = blen pre + ps_len i ps)
        by (rewrite blen_app, ps_tr_len, Hi; reflexivity).
      assert (Hs : blen (sg0 ++ ps_sg e pos ps) = pos + ps_space ps).
      { rewrite blen_app, ps_sg_len, Hsg0; [reflexivity|]. apply (good_ok e m); [reflexivity|].
        rewrite Hi. exact G1. }
      destruct (IH pss1 (n + Z.of_nat (ps_count ps)) (pos + ps_space ps)
        (pre ++ ps_tr e n pos ps) post (sg0 ++ ps_sg e pos ps) sg1 rest) as (rs & R3 & R4); auto.
      + rewrite <- app_assoc. exact Hd.
      + rewrite <- app_assoc. exact Hsg.
      + rewrite Hl in R3. rewrite R3. cbn [bind]. exists (r :: rs).
        split; [|constructor; assumption]. do 3 f_equal.
        assert (EL : ps_len i (ps ++ concat pss1) = ps_len i ps + ps_len i (concat pss1)).
        { rewrite <- (ps_bytes_len i (ps ++ concat pss1) 0), ps_bytes_app, blen_app, !ps_bytes_len.
          reflexivity. }
        rewrite EL, Z.add_assoc. reflexivity.
  Qed.
End ReadMore.

(* The descriptors of the handle are replaced, nothing else *)
Lemma q_mapped e sg0 pos desc vec a v fds ints :
  let hd := fds_image {| fs_ptr := a; fs_version := v; fs_fds := fds; fs_ints := ints |} in
  let hd1 := fds_image {| fs_ptr := a; fs_version := v; fs_fds := map (k_fd e) fds;
               fs_ints := ints |} in
  blen desc = 32 -> Forall (in_range (- 2 ^ 31) (2 ^ 31)) fds ->
  k_map_fds e (sg0 ++ q_sg e pos desc vec hd)
    (blen sg0 + 32 + align8 (blen vec) + 12) (Z.to_nat (blen fds)) =
  sg0 ++ q_sg e pos desc vec hd1.
Proof.
  intros hd hd1 Ld Hf.
  assert (Lm : blen (map (k_fd e) fds) = blen fds) by (unfold blen; rewrite map_length; reflexivity).
  assert (Lh : blen hd1 = blen hd).
  { unfold hd, hd1. rewrite !blen_fds. cbn [fs_fds fs_ints]. lia. }
  set (i := k_io e). pose proof (psz_pos i) as Hps.
  set (D := poke (poke (k_pad8 desc) 0 (le (psize i) (k_sgbase e + (pos + 32)))) 16
              (le (psize i) (k_sgbase e + (pos + 32 + align8 (blen vec))))).
  assert (LD : blen D = 32).
  { assert (L1 : blen (k_pad8 desc) = 32) by (rewrite blen_pad8, Ld; reflexivity).
    assert (L2 : blen (poke (k_pad8 desc) 0 (le (psize i) (k_sgbase e + (pos + 32)))) = 32)
      by (rewrite blen_poke_in; rewrite ?blen_le, ?psize_psz, ?L1; lia).
    unfold D. rewrite blen_poke_in; rewrite ?blen_le, ?psize_psz, ?L2; lia. }
  set (x := sg0 ++ D ++ k_pad8 vec ++ le 4 v ++ le 4 (blen fds) ++ le 4 (blen ints)).
  set (z := ints_image ints ++ zrepeat uninit (align8 (blen hd) - blen hd)).
  assert (E1 : sg0 ++ q_sg e pos desc vec hd = x ++ ints_image fds ++ z).
  { unfold x, z, q_sg. fold i. fold D. unfold k_pad8 at 2. unfold hd at 1, fds_image.
    cbn [fs_version fs_fds fs_ints]. rewrite <- !app_assoc. reflexivity. }
  assert (E2 : sg0 ++ q_sg e pos desc vec hd1 = x ++ ints_image (map (k_fd e) fds) ++ z).
  { unfold x, z, q_sg. fold i. fold D. unfold k_pad8 at 2. rewrite Lh. unfold hd1 at 1, fds_image.
    cbn [fs_version fs_fds fs_ints]. rewrite Lm, <- !app_assoc. reflexivity. }
  rewrite E1, E2.
  replace (Z.to_nat (blen fds)) with (length fds) by (unfold blen; lia).
  replace (blen sg0 + 32 + align8 (blen vec) + 12) with (blen x)
    by (unfold x; rewrite !blen_app, !blen_le, LD, blen_pad8; lia).
  apply map_fds. exact Hf.
Qed.

Theorem queue_trip cm pr al slack e l1 q l2 :
  let i := k_io e in
  (forall n, is_addr i (al n)) ->
  Forall (call_ok i pr (k_mem e)) l1 -> Forall (foreign e) l1 -> starts_plain l1 ->
  mq_ok q -> 0 <= slack -> fda_size i <= MAX_BINDER_OBJECT_SIZE + slack ->
  Forall (call_ok i pr (k_mem e)) l2 -> Forall (foreign e) l2 ->
  exists d1 d2 d,
    w_ops i pr al wd_empty l1 = Ok d1 /\ w_fmq i al slack d1 q = Ok d2 /\
    w_ops i pr al d2 l2 = Ok d /\
    (blen (wd_bytes d) < 2 ^ 31 ->
     Forall (fun b => holds (k_mem e) (fst b) (snd b)) (wd_heap d) ->
     0 < k_sgbase e -> k_sgbase e + align8 (wd_bufsize d) < 2 ^ (8 * psz i) ->
     exists g rs1 p1 a p2 rs2 p3,
       k_send e (wd_bytes d) (wd_offsets d) (wd_bufsize d) = Some g /\
       read_items cm i pr g (reader_init 0 (blen (m_data g)) (wd_offsets d))
         (map (rkind_of i) l1) = Ok (rs1, p1) /\
       Forall2 (got i e g) l1 rs1 /\
       rd_hidl_struct i g p1 32 = Ok (Some a, p2) /\
       same_queue e g q a /\
       read_items cm i pr g
         (mk_reader 0 (blen (m_data g)) (blen (wd_bytes d2))
            (skipn (length (wd_offsets d2)) (wd_offsets d)))
         (map (rkind_of i) l2) = Ok (rs2, p3) /\
       Forall2 (got i e g) l2 rs2).
Proof.
  intros i Hal Hok1 Hfor1 Hst Hq H0 H1 Hok2 Hfor2.
  destruct (ops_added i pr al (k_mem e) l1 wd_empty Hal Hok1) as (d1 & pss1 & bl1 & E1 & (B1 & O1 & Z1) & P1 & D1 & G1).
  destruct (q_added i al slack d1 q Hal Hq H0 H1) as (d2 & a0 & a1 & a2 & E2 & B2 & O2 & Z2 & P2 & A0 & A1 & A2).
  destruct (ops_added i pr al (k_mem e) l2 d2 Hal Hok2) as (d & pss2 & bl2 & E3 & (B3 & O3 & Z3) & P3 & D3 & G3).
  exists d1, d2, d. split; [exact E1|]. split; [exact E2|]. split; [exact E3|].
  intros Hsize Hheap Hpos Htop.
  rewrite P3, P2, P1 in Hheap. cbn [wd_empty wd_heap] in Hheap. rewrite app_nil_r in Hheap.
  apply Forall_app in Hheap. destruct Hheap as [Hh3 Hheap].
  apply Forall_app in Hheap. destruct Hheap as [Hh2 Hh1].
  specialize (G1 Hh1). specialize (G3 Hh3). clear Hh1 Hh3.
  inversion Hh2 as [|x y M2 Hh2']; subst x y. inversion Hh2' as [|x y M1 Hh2'']; subst x y.
  inversion Hh2'' as [|x y M0 _]; subst x y. clear Hh2 Hh2' Hh2''. cbn [fst snd] in M0, M1, M2.
  cbn [wd_empty wd_bytes wd_offsets wd_bufsize wd_heap app] in B1, O1, Z1.
  change (blen (@nil Z)) with 0 in B1, O1.
  pose proof Hq as (Q1 & Q2 & Q3 & Q4 & Q5 & Q6 & Q7 & Q8).
  set (desc := mq_image a1 (blen (mq_grantors q)) a2 (mq_quantum q) (mq_flags q)) in *.
  set (vec := grantors_image (mq_grantors q)) in *.
  set (hd := fds_image {| fs_ptr := a2; fs_version := mq_version q;
               fs_fds := mq_fds q; fs_ints := mq_ints q |}) in *.
  assert (HP : 2 ^ 32 <= 2 ^ (8 * psz i)) by (destruct i; vm_compute; discriminate).
  assert (Ld : blen desc = 32) by apply blen_mq.
  assert (Lv : blen vec = 24 * blen (mq_grantors q)) by (apply concat_len, blen_grantor).
  assert (Lh : blen hd = 12 + 4 * (blen (mq_fds q) + blen (mq_ints q))) by apply blen_fds.
  pose proof (blen_nonneg _ (mq_fds q)) as Lf. pose proof (blen_nonneg _ (mq_ints q)) as Li.
  pose proof (blen_nonneg _ (mq_grantors q)) as Lg.
  pose proof (align8_spec (blen vec)) as Av. pose proof (align8_spec (blen hd)) as Ah.
  (* the first piece is plain data *)
  destruct Hst as (v & r & -> & Hv). rewrite append_value_eq in Hv. cbn [app] in Hv.
  inversion D1 as [|x1 ps l1' pss1' D1a D1b]; subst x1 l1' pss1. cbn [describes] in D1a. subst ps.
  inversion G1 as [|x y G1a G1b]; subst x y. inversion G1a as [|x y G1c _]; subst x y.
  cbn [p_good] in G1c.
  assert (Hc : 0 < blen (chunk v)).
  { pose proof (blen_nonneg _ (chunk v)). destruct (Z.eq_dec (blen (chunk v)) 0) as [Ez|]; [|lia].
    apply blen_zero in Ez. rewrite Ez in Hv. congruence. }
  cbn [concat app] in B1, O1, Z1.
  cbn [ps_bytes p_bytes p_count ps_offs p_offs app p_len ps_space p_space] in B1, O1, Z1.
  rewrite Z.add_0_r in B1. rewrite Z.add_0_l in O1.
  set (q1 := concat pss1') in *. set (q2 := concat pss2) in *.
  assert (Hflat : forall pss, Forall (Forall (p_good i (k_mem e))) pss -> Forall (p_ok e) (concat pss)).
  { intros pss H. apply (good_ok e (k_mem e)); [reflexivity|]. 
    induction H; cbn [concat]; [constructor|]. apply Forall_app; split; assumption. }
  assert (Hp1 : Forall (p_ok e) q1) by (apply Hflat; exact G1b).
  assert (Hp2 : Forall (p_ok e) q2) by (apply Hflat; exact G3).
  assert (Hb1 : blen (wd_bytes d1) = blen (chunk v) + ps_len i q1)
    by (rewrite B1, blen_app, ps_bytes_len; reflexivity).
  assert (Hn1 : length (wd_offsets d1) = ps_count q1) by (rewrite O1; apply ps_offs_length).
  assert (Hbn1 : blen (wd_offsets d1) = Z.of_nat (ps_count q1)) by (unfold blen; rewrite Hn1; reflexivity).
  rewrite Hbn1 in B2.
  change (wd_bytes d2 = wd_bytes d1 ++ q_bytes e (Z.of_nat (ps_count q1)) a0 a1 a2 desc vec hd (blen (mq_fds q))) in B2.
  change (wd_offsets d2 = wd_offsets d1 ++ q_offs e (blen (wd_bytes d1))) in O2.
  assert (Hb2 : blen (wd_bytes d2) = blen (wd_bytes d1) + q_len e) by (rewrite B2, blen_app, q_bytes_len; reflexivity).
  assert (Hn2 : length (wd_offsets d2) = (ps_count q1 + 4)%nat) by (rewrite O2, app_length, Hn1; reflexivity).
  assert (Hb3 : blen (wd_bytes d) = blen (wd_bytes d2) + ps_len i q2) by (rewrite B3, blen_app, ps_bytes_len; reflexivity).
  pose proof (ps_len_nonneg i q1) as Hl1. pose proof (ps_len_nonneg i q2) as Hl2.
  pose proof (ps_count_len i q1) as Hc1. pose proof (ps_count_len i q2) as Hc2.
  pose proof (ps_space_nonneg q1) as Hs1. pose proof (ps_space_nonneg q2) as Hs2.
  pose proof (psz_pos i) as Hps.
  assert (Hql : q_len e = 40 + 15 * psz i) by (unfold q_len, ptr_size, fda_size; fold i; lia).
  assert (Hnall : length (wd_offsets d) = (ps_count q1 + 4 + ps_count q2)%nat)
    by (rewrite O3, app_length, Hn2, ps_offs_length; lia).
  assert (Hfew : blen (wd_offsets d) < 2 ^ 31) by (unfold blen; rewrite Hnall; lia).
  assert (Hoffs : wd_offsets d = ps_offs i (blen (chunk v)) q1 ++ q_offs e (blen (wd_bytes d1)) ++
                    ps_offs i (blen (wd_bytes d2)) q2)
    by (rewrite O3, O2, O1, <- !app_assoc; reflexivity).
  assert (Hqo : forall o, In o (q_offs e (blen (wd_bytes d1))) ->
            blen (wd_bytes d1) <= o < blen (wd_bytes d2)).
  { intros o. unfold q_offs, ptr_size. fold i. cbn [In]. intuition lia. }
  assert (Hnd : NoDup (wd_offsets d)).
  { rewrite Hoffs. apply NoDup_app_intro; [apply ps_offs_nodup| |].
    - apply NoDup_app_intro; [|apply ps_offs_nodup|].
      + unfold q_offs, ptr_size. fold i.
        repeat (apply NoDup_cons; [cbn [In]; intuition lia|]). apply NoDup_nil.
      + intros o Ha Hb. apply Hqo in Ha. apply ps_offs_bounds in Hb. lia.
    - intros o Ha Hb. apply ps_offs_bounds in Ha. apply in_app_or in Hb. destruct Hb as [Hb|Hb].
      + apply Hqo in Hb. lia.
      + apply ps_offs_bounds in Hb. lia. }
  assert (Hinj : forall j k o, nth_error (wd_offsets d) j = Some o ->
                 nth_error (wd_offsets d) k = Some o -> j = k).
  { intros j k o Hj Hk. rewrite NoDup_nth_error in Hnd. apply Hnd; [apply nth_error_Some|]; congruence. }
  pose proof (align8_spec (wd_bufsize d)) as Abs.
  (* before the queue *)
  set (s0 := {| ks_data := wd_bytes d; ks_sg := []; ks_min := 0; ks_last := 0; ks_last_min := 0 |}).
  set (tail2 := ps_bytes i (blen (wd_offsets d2)) q2).
  set (qb := q_bytes e (Z.of_nat (ps_count q1)) a0 a1 a2 desc vec hd (blen (mq_fds q))) in *.
  destruct (pieces_run_more e (wd_offsets d) (wd_bufsize d) Hinj Hpos Htop Hfew q1 s0 0%nat
    (chunk v) (qb ++ tail2) [] (q_offs e (blen (wd_bytes d1)) ++ ps_offs i (blen (wd_bytes d2)) q2))
    as (s1 & R1 & K1 & S1 & N1); auto; cbn [ks_min ks_sg s0]; try lia.
  { cbn [s0 ks_data]. rewrite B3, B2, B1, <- !app_assoc. reflexivity. }
  { change (blen (@nil Z)) with 0. lia. }
  fold i in N1. cbn [s0 ks_sg app] in K1, S1. change (blen (@nil Z)) with 0 in K1, S1.
  change (Z.of_nat 0) with 0 in *. rewrite Nat.add_0_l in R1.
  set (pre1 := chunk v ++ ps_tr e 0 0 q1).
  assert (Hpre1 : blen pre1 = blen (wd_bytes d1)) by (unfold pre1; rewrite blen_app, ps_tr_len; fold i; lia).
  assert (Hsg1 : blen (ks_sg s1) = ps_space q1) by (rewrite S1; apply ps_sg_len; exact Hp1).
  (* the queue *)
  assert (Hnode : forall a c, is_addr i a -> holds (k_mem e) a c -> blen c < 2 ^ 32 -> node_ok i (k_mem e) a c).
  { intros a c [Ha1 Ha2] Hh Hlc. unfold node_ok. unfold holds in Hh. split; [exact Hh|].
    split; [left; lia|]. split; lia. }
  destruct (queue_run e (wd_offsets d) (wd_bufsize d) Hinj Hpos Htop Hfew s1 (ps_count q1) pre1 tail2
    a0 a1 a2 desc vec hd (blen (mq_fds q))) as (s2 & R2 & K2 & S2 & M2'); auto; fold i; try lia.
  { rewrite K1. unfold pre1. rewrite <- !app_assoc. reflexivity. }
  { intros j o Hj. rewrite Hoffs, nth_error_app2 by (rewrite ps_offs_length; lia).
    rewrite ps_offs_length. replace (ps_count q1 + j - ps_count q1)%nat with j by lia.
    rewrite Hpre1 in Hj. rewrite nth_error_app1; [exact Hj|]. apply nth_error_Some. congruence. }
  { rewrite Hpre1, Hb1.
    assert (Hm : ps_len i q1 mod 4 = 0).
    { clear - Hp1. unfold i. induction Hp1 as [|p l Hp Hl IH]; cbn [ps_len]; [reflexivity|].
      pose proof (p_len_mod e p Hp). lia. }
    lia. }
  { apply Hnode; [exact A0|exact M0|lia]. }
  { apply Hnode; [exact A1|exact M1|lia]. }
  { apply Hnode; [exact A2|exact M2|lia]. }
  rewrite Hsg1 in K2, S2.
  set (qb' := q_bytes e (Z.of_nat (ps_count q1)) (k_sgbase e + ps_space q1) (k_sgbase e + (ps_space q1 + 32))
               (k_sgbase e + (ps_space q1 + 32 + align8 (blen vec))) desc vec hd (blen (mq_fds q))) in *.
  set (hd1 := fds_image {| fs_ptr := a2; fs_version := mq_version q;
               fs_fds := map (k_fd e) (mq_fds q); fs_ints := mq_ints q |}).
  assert (S2' : ks_sg s2 = ks_sg s1 ++ q_sg e (ps_space q1) desc vec hd1).
  { rewrite S2. rewrite <- Hsg1 at 2. apply q_mapped; assumption. }
  clear S2.
  assert (Lh1 : blen hd1 = blen hd).
  { unfold hd1. rewrite blen_fds. cbn [fs_fds fs_ints]. unfold blen at 1. rewrite map_length. fold (blen (mq_fds q)). lia. }
  assert (Hsg2 : blen (ks_sg s2) = ps_space q1 + (32 + align8 (blen vec) + align8 (blen hd))).
  { rewrite S2', blen_app, Hsg1. f_equal. unfold q_sg. fold i.
    rewrite !blen_app, !blen_pad8, Lh1.
    assert (L32 : blen (k_pad8 desc) = 32) by (rewrite blen_pad8, Ld; reflexivity).
    rewrite !blen_poke_in; rewrite ?blen_poke_in; rewrite ?blen_le, ?psize_psz, ?L32; lia. }
  (* what follows *)
  set (pre2 := pre1 ++ qb').
  assert (Hpre2 : blen pre2 = blen (wd_bytes d2)).
  { unfold pre2. rewrite blen_app, Hpre1. unfold qb'. rewrite q_bytes_len. lia. }
  assert (Hm1 : ps_len i q1 mod 4 = 0).
  { clear - Hp1. unfold i. induction Hp1 as [|p l Hp Hl IH]; cbn [ps_len]; [reflexivity|].
    pose proof (p_len_mod e p Hp). lia. }
  destruct (pieces_run e (wd_offsets d) (wd_bufsize d) Hinj Hpos Htop Hfew q2 s2 (ps_count q1 + 4)%nat
    pre2 (ps_offs i (blen (chunk v)) q1 ++ q_offs e (blen (wd_bytes d1)))) as (s3 & R3 & K3 & S3); auto; try lia.
  { rewrite K2. unfold pre2, tail2. rewrite <- app_assoc.
    replace (blen (wd_offsets d2)) with (Z.of_nat (ps_count q1 + 4)) by (unfold blen; rewrite Hn2; reflexivity).
    reflexivity. }
  { rewrite Hpre2, <- app_assoc. exact Hoffs. }
  { rewrite app_length, ps_offs_length. reflexivity. }
  rewrite Hsg2 in K3, S3.
  unfold k_send. fold s0.
  assert (R : k_run e (wd_offsets d) (wd_bufsize d) 0 (wd_offsets d) s0 = Some s3).
  { change (run e (wd_offsets d) (wd_bufsize d) 0 s0 = Some s3). rewrite R1, R2. exact R3. }
  rewrite R.
  set (g := {| m_data := ks_data s3; m_sgbase := k_sgbase e; m_sg := ks_sg s3 |}).
  set (pos2 := ps_space q1 + (32 + align8 (blen vec) + align8 (blen hd))) in *.
  assert (Hgd : m_data g = pre2 ++ ps_tr e (Z.of_nat (ps_count q1 + 4)) pos2 q2) by exact K3.
  assert (Hgl : blen (m_data g) = blen (wd_bytes d)).
  { rewrite Hgd, blen_app, ps_tr_len, Hpre2. fold i. lia. }
  assert (Hgs : m_sg g = ps_sg e 0 q1 ++ q_sg e (ps_space q1) desc vec hd1 ++ ps_sg e pos2 q2).
  { cbn [g m_sg]. rewrite S3, S2', S1, <- app_assoc. reflexivity. }
  assert (Hsl : blen (m_sg g) = pos2 + ps_space q2).
  { cbn [g m_sg]. rewrite S3, blen_app, Hsg2, ps_sg_len by exact Hp2. reflexivity. }
  assert (Hlow : low_message i g).
  { unfold low_message. rewrite Hsl. cbn [g m_sgbase]. unfold pos2. lia. }
  destruct (read_ops_more cm i pr e g eq_refl eq_refl Hpos Hlow ltac:(rewrite Hgl; exact Hsize)
    (OpPlain v :: r) ([PData (chunk v)] :: pss1') 0 0 [] (qb' ++ ps_tr e (Z.of_nat (ps_count q1 + 4)) pos2 q2)
    [] (q_sg e (ps_space q1) desc vec hd1 ++ ps_sg e pos2 q2)
    (q_offs e (blen (wd_bytes d1)) ++ ps_offs i (blen (wd_bytes d2)) q2)) as (rs1 & T1 & T2); auto.
  { rewrite Hgd. unfold pre2, pre1. cbn [concat app ps_tr p_tr p_count p_space]. fold q1.
    rewrite <- !app_assoc. reflexivity. }
  destruct (read_ops_more cm i pr e g eq_refl eq_refl Hpos Hlow ltac:(rewrite Hgl; exact Hsize)
    l2 pss2 (Z.of_nat (ps_count q1 + 4)) pos2 pre2 []
    (ps_sg e 0 q1 ++ q_sg e (ps_space q1) desc vec hd1) []
    []) as (rs2 & T3 & T4); auto.
  { fold q2. rewrite app_nil_r. exact Hgd. }
  { fold q2. rewrite app_nil_r, <- app_assoc. exact Hgs. }
  { rewrite <- S1, <- S2'. exact Hsg2. }
  change (blen (@nil Z)) with 0 in T1. rewrite Z.add_0_l in T1.
  assert (Hat : m_data g = pre1 ++ buffer_image i (k_sgbase e + ps_space q1) (blen desc) None ++
     (buffer_image i (k_sgbase e + (ps_space q1 + 32)) (blen vec) (Some (mkpa (Z.of_nat (ps_count q1)) 0)) ++
      le 8 (blen hd) ++ buffer_image i (k_sgbase e + (ps_space q1 + 32 + align8 (blen vec))) (blen hd)
        (Some (mkpa (Z.of_nat (ps_count q1)) 16)) ++
      fda_image i (blen (mq_fds q)) (Z.of_nat (ps_count q1) + 2) 12) ++
      ps_tr e (Z.of_nat (ps_count q1 + 4)) pos2 q2).
  { rewrite Hgd. unfold pre2, qb', q_bytes. rewrite <- !app_assoc. reflexivity. }
  pose proof (rd_buffer_at i g 0 (blen (m_data g)) pre1 _ _ _ _
    (tl (q_offs e (blen (wd_bytes d1))) ++ ps_offs i (blen (wd_bytes d2)) q2) Hat) as RB.
  eexists g, rs1, _, (k_sgbase e + ps_space q1), _, rs2, _.
  split; [reflexivity|]. split.
  { rewrite <- T1. f_equal. unfold reader_init, mk_reader. f_equal. cbn [concat app ps_offs p_offs p_len]. fold q1.
    rewrite Z.add_0_l. exact Hoffs. }
  split; [exact T2|]. split; [|split; [|split; [|exact T4]]].
  - replace (ps_len i (concat ([PData (chunk v)] :: pss1'))) with (blen pre1)
      by (rewrite Hpre1, Hb1; reflexivity).
    rewrite <- Hpre1 in RB |- *. unfold rd_hidl_struct. cbn [q_offs app tl] in RB |- *. rewrite RB. cbn [bind ok bo_size bo_data].
    rewrite Ld, (usz_in i 32) by lia. rewrite Z.eqb_refl.
    rewrite usz_in; [reflexivity|]. unfold low_message in Hlow. cbn [g m_sgbase] in Hlow. rewrite Hsl in Hlow. unfold pos2 in Hlow. lia.
  - rewrite <- Hsg1, S1 at 1. rewrite <- S1 in Hgs. rewrite <- S1.
    apply (queue_found e g q (ks_sg s1) a1 a2 a2 (ps_sg e pos2 q2)); auto.
    rewrite Hsg1. exact Hgs.
  - rewrite <- T3, Hpre2. f_equal. f_equal. rewrite O3, skipn_app, skipn_all, Nat.sub_diag. fold q2.
    rewrite app_nil_r. reflexivity.
Qed.

(* ------------------------------------------------------------------ *)
(* Queues which gbinder_fmq_new creates *)

Definition grantor_ok (x : grantor) : Prop :=
  u32_ok (fd_index x) /\ u32_ok (g_offset x) /\ 0 <= g_extent x < 2 ^ 64.

Lemma created_grantors bits nf sizes : forall pos off,
  Forall (fun s => 0 <= s < 2 ^ 64) sizes ->
  Forall grantor_ok (create_grantors_loop bits nf pos off sizes) /\
  blen (create_grantors_loop bits nf pos off sizes) = blen sizes.
Proof.
  induction sizes as [|s r IH]; intros pos off H; cbn [create_grantors_loop].
  - split; [constructor|reflexivity].
  - inversion H as [|x y H1 H2]; subst x y.
    destruct (IH (pos + 1) (if (pos =? 2) && (nf =? 2) then off else (off + s) mod 2 ^ bits) H2)
      as [I1 I2].
    split; [constructor; [|exact I1]|rewrite !blen_cons, I2; reflexivity].
    unfold grantor_ok, u32_ok. cbn [fd_index g_offset g_extent].
    split; [destruct (_ && _); lia|]. split; [unfold u32; apply Z.mod_pos_bound; lia|exact H1].
Qed.

Lemma new_queue_ok bits page item_size num_items k ev fd buffer_size c shmem_fd :
  (bits = 32 \/ bits = 64) ->
  fmq_new bits page item_size num_items k ev
    (match fd with Some _ => true | None => false end) buffer_size = Some c ->
  in_range (- 2 ^ 31) (2 ^ 31) shmem_fd ->
  match fd with Some f => in_range (- 2 ^ 31) (2 ^ 31) f | None => True end ->
  mq_ok (fmq_desc c (fmq_type k) shmem_fd fd).
Proof.
  intros Hb Hn Hs Hf. unfold fmq_new in Hn.
  destruct (Z.leb_spec item_size 0); [discriminate|].
  destruct (Z.leb_spec num_items 0); [discriminate|].
  destruct (Z.ltb_spec ((2 ^ bits - 1) / item_size) num_items); [discriminate|].
  match type of Hn with (if ?b then _ else _) = _ => destruct b; [discriminate|] end.
  injection Hn as <-.
  assert (H2 : num_items * item_size < 2 ^ 64).
  { assert (item_size * num_items <= 2 ^ bits - 1)
      by (transitivity (item_size * ((2 ^ bits - 1) / item_size)); [nia|apply Z.mul_div_le; lia]).
    destruct Hb as [-> | ->]; lia. }
  assert (Hsz : Forall (fun s => 0 <= s < 2 ^ 64) ([8; 8; num_items * item_size] ++ (if ev then [4] else []))).
  { apply Forall_app. split.
    - repeat (apply Forall_cons; [lia || nia|]). apply Forall_nil.
    - destruct ev; [apply Forall_cons; [lia|]|]; apply Forall_nil. }
  destruct (created_grantors bits (match fd with Some _ => 2 | None => 1 end) _ 0 0 Hsz) as [G1 G2].
  set (nf := if match fd with Some _ => true | None => false end then 2 else 1).
  assert (Enf : nf = match fd with Some _ => 2 | None => 1 end) by (destruct fd; reflexivity).
  unfold mq_ok, fmq_desc.
  cbn [mq_grantors mq_version mq_fds mq_ints mq_quantum mq_flags c_grantors c_queue quantum].
  fold nf. rewrite Enf. unfold create_grantors.
  assert (L4 : 3 <= blen ([8; 8; num_items * item_size] ++ (if ev then [4] else [])) <= 4)
    by (destruct ev; vm_compute; split; discriminate).
  split; [intros E; rewrite E in G2; change (blen (@nil grantor)) with 0 in G2; lia|].
  split; [rewrite G2; lia|].
  split; [exact G1|].
  split; [destruct fd; vm_compute; split; (discriminate || reflexivity)|].
  split; [apply Z.mod_pos_bound; lia|].
  split; [destruct k; vm_compute; split; (discriminate || reflexivity)|].
  split; [destruct fd; vm_compute; reflexivity|].
  apply Forall_cons; [exact Hs|]. destruct fd as [f|]; [apply Forall_cons; [exact Hf|]|]; apply Forall_nil.
Qed.
