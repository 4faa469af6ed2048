(* Reading objects of any message which the driver lets through is safe *)
From Verif Require Import Base BaseLemmas UtfModel WriterModel ReaderModel CodecSpec
  CodecProofs CodecSafety ObjModel ObjReader KernelModel ObjSpec ObjProofs ObjInvariant
  TreeProofs PieceProofs HidlSpec HidlWriter HidlOps HidlPlaced HidlStruct HidlRead SafeSpec.

Lemma kfield_poke_out b off s o n :
  0 <= off -> off + blen s <= blen b -> 0 <= o -> 0 <= n -> o + n <= blen b ->
  (o + n <= off \/ off + blen s <= o) ->
  kfield (poke b off s) o n = kfield b o n.
Proof.
  intros H1 H2 H3 H4 H5 H6. unfold kfield. f_equal.
  pose proof (blen_nonneg _ s).
  assert (Hl : blen (poke b off s) = blen b) by (apply blen_poke_in; lia).
  apply list_zn; rewrite blen_slice by lia.
  - rewrite blen_slice by lia. reflexivity.
  - intros j Hj. rewrite !zn_slice by lia. apply zn_poke_out; lia.
Qed.

Lemma kfield_poke_in b off s :
  0 <= off -> off + blen s <= blen b -> kfield (poke b off s) off (blen s) = unle s.
Proof.
  intros H1 H2. unfold kfield. f_equal. pose proof (blen_nonneg _ s).
  assert (Hl : blen (poke b off s) = blen b) by (apply blen_poke_in; lia).
  apply list_zn; rewrite blen_slice by lia; [reflexivity|].
  intros j Hj. rewrite zn_slice by lia. apply zn_poke_in; lia.
Qed.

Lemma kfield_nonneg b o n : all_bytes b -> 0 <= kfield b o n.
Proof. intros H. apply unle_bound. apply Forall_slice. exact H. Qed.

Lemma all_bytes_poke b off s : all_bytes b -> all_bytes s -> all_bytes (poke b off s).
Proof.
  intros H1 H2. unfold poke. rewrite !all_bytes_app. split; [apply Forall_ztake; exact H1|].
  split; [exact H2|apply Forall_zdrop; exact H1].
Qed.

Lemma all_bytes_flat i t f o c : all_bytes (flat_image i t f o c).
Proof. unfold flat_image. rewrite !all_bytes_app. repeat split; apply all_bytes_le. Qed.

(* The bytes in this part of the list are bytes *)
Definition clean_range (l : bytes) (from n : Z) : Prop :=
  forall j, from <= j < from + n -> is_byte (zn l j).

Lemma clean_poke l off s from n :
  0 <= off -> off + blen s <= blen l -> 0 <= from -> all_bytes s -> clean_range l from n ->
  clean_range (poke l off s) from n.
Proof.
  intros H1 H2 H3 Hs H j Hj.
  destruct (Z.lt_ge_cases j off) as [Ho|Ho]; [rewrite zn_poke_out by lia; auto|].
  destruct (Z.lt_ge_cases j (off + blen s)) as [Hi|Hi].
  - replace j with (off + (j - off)) by lia. rewrite zn_poke_in by lia.
    unfold zn. unfold all_bytes in Hs. rewrite Forall_forall in Hs. apply Hs, nth_In. unfold blen in *. lia.
  - rewrite zn_poke_out by lia. auto.
Qed.

Lemma some_inj {A} (x y : A) : Some x = Some y -> x = y.
Proof. congruence. Qed.

Lemma object_size_flat i t :
  k_object_size i t <> 0 -> t <> TYPE_PTR -> t <> TYPE_FDA ->
  k_object_size i t = flat_size i /\
  In t [TYPE_BINDER; TYPE_WEAK_BINDER; TYPE_HANDLE; TYPE_WEAK_HANDLE; TYPE_FD].
Proof.
  unfold k_object_size. intros H1 H2 H3.
  destruct ((t =? TYPE_BINDER) || (t =? TYPE_WEAK_BINDER) || (t =? TYPE_HANDLE) ||
            (t =? TYPE_WEAK_HANDLE) || (t =? TYPE_FD)) eqn:Eo.
  - split; [reflexivity|]. cbn [In]. lia.
  - destruct (Z.eqb_spec t TYPE_PTR); [contradiction|].
    destruct (Z.eqb_spec t TYPE_FDA); [contradiction|]. congruence.
Qed.

Section Delivered.
  Variable e : kenv.
  Variable offsets : list Z.
  Variable bufsize : Z.
  Let i := k_io e.
  Let base := k_sgbase e.
  Hypothesis base_pos : 0 < base.
  Hypothesis base_top : base + align8 bufsize < 2 ^ (8 * psz i).
  Hypothesis Hbuf : 0 <= bufsize.
  Hypothesis Hmem : byte_memory (k_mem e).
  Hypothesis Hoffs : Forall (fun o => 0 <= o) offsets.

  Definition buf_in (sg : bytes) (b : kptr) : Prop :=
    base <= kp_buffer b /\ 0 <= kp_length b /\ kp_buffer b + kp_length b <= base + blen sg /\
    clean_range sg (kp_buffer b - base) (kp_length b).

  Definition obj_done (s : kstate) (o : Z) : Prop :=
    0 <= o /\ o + 4 <= ks_min s /\
    (k_type (ks_data s) o = TYPE_PTR ->
     o + ptr_size i <= ks_min s /\ buf_in (ks_sg s) (k_ptr i (ks_data s) o)).

  Definition kinv (len : Z) (n : nat) (s : kstate) : Prop :=
    all_bytes (ks_data s) /\ blen (ks_data s) = len /\ 0 <= ks_min s /\
    blen (ks_sg s) mod 8 = 0 /\ blen (ks_sg s) <= align8 bufsize /\
    (forall k o, (k < n)%nat -> nth_error offsets k = Some o -> obj_done s o).

  Lemma k_validate_done len n s idx off :
    kinv len n s -> 0 <= idx -> k_validate_ptr (ks_data s) offsets idx (Z.of_nat n) = Some off ->
    0 <= off /\ off + ptr_size i <= ks_min s /\ buf_in (ks_sg s) (k_ptr i (ks_data s) off).
  Proof.
    intros (_ & _ & _ & _ & _ & K) Hi H. unfold k_validate_ptr in H.
    destruct (Z.ltb_spec idx (Z.of_nat n)); [|discriminate].
    destruct (nth_error offsets (Z.to_nat idx)) as [o|] eqn:E; [|discriminate].
    destruct (Z.eqb_spec (k_type (ks_data s) o) TYPE_PTR) as [Et|]; [|discriminate].
    injection H as ->. destruct (K (Z.to_nat idx) _ ltac:(lia) E) as (D1 & D2 & D3).
    destruct (D3 Et) as (D4 & D5). auto.
  Qed.

  (* objects which were processed before don't change when the data changes
     after them and the buffers keep their bytes *)
  Lemma obj_done_keeps s s1 o off im :
    obj_done s o -> ks_min s <= off -> 0 <= off -> off + blen im <= blen (ks_data s) ->
    ks_data s1 = poke (ks_data s) off im -> ks_min s <= ks_min s1 ->
    blen (ks_sg s) <= blen (ks_sg s1) ->
    (forall from n, 0 <= from -> from + n <= blen (ks_sg s) -> clean_range (ks_sg s) from n ->
       clean_range (ks_sg s1) from n) ->
    obj_done s1 o.
  Proof.
    intros (D1 & D2 & D3) Hm Ho Hl Hd Hm1 Hs Hc. pose proof (blen_nonneg _ im).
    pose proof (psz_pos i) as Hps. assert (Hp : ptr_size i = 8 + 4 * psz i) by reflexivity.
    unfold obj_done, k_type in *. rewrite Hd. rewrite kfield_poke_out by lia.
    split; [exact D1|]. split; [lia|]. intros Et. destruct (D3 Et) as (D4 & B1 & B2 & B3 & B4).
    split; [lia|].
    assert (Ek : k_ptr i (poke (ks_data s) off im) o = k_ptr i (ks_data s) o).
    { unfold k_ptr. f_equal; apply kfield_poke_out; lia. }
    rewrite Ek. unfold buf_in. split; [exact B1|]. split; [exact B2|]. split; [lia|].
    apply Hc; [lia|lia|exact B4].
  Qed.

  Lemma poke_nil (l : bytes) off : poke l off [] = l.
  Proof.
    unfold poke. rewrite blen_nil, Z.add_0_r. apply ztake_zdrop.
  Qed.

  Lemma map_fds_len n : forall sg pos,
    0 <= pos -> pos + 4 * Z.of_nat n <= blen sg ->
    blen (k_map_fds e sg pos n) = blen sg /\
    forall from m, 0 <= from -> clean_range sg from m -> clean_range (k_map_fds e sg pos n) from m.
  Proof.
    induction n as [|n IH]; intros sg pos H1 H2; cbn [k_map_fds]; [auto|].
    set (im := le 4 (k_fd e (sgn 32 (kfield sg pos 4)))).
    assert (Hl : blen im = 4) by (unfold im; rewrite blen_le; reflexivity).
    assert (Hp : blen (poke sg pos im) = blen sg) by (apply blen_poke_in; lia).
    destruct (IH (poke sg pos im) (pos + 4) ltac:(lia) ltac:(lia)) as [E1 E2].
    split; [lia|]. intros from m Hf Hc. apply E2; [exact Hf|].
    apply clean_poke; try lia; [apply all_bytes_le|exact Hc].
  Qed.

  Lemma k_step_inv len n s off s1 :
    kinv len n s -> nth_error offsets n = Some off ->
    k_step e offsets bufsize (Z.of_nat n) off s = Some s1 -> kinv len (S n) s1.
  Proof.
    intros Hk Hn Hs. pose proof Hk as (K1 & K2 & K3 & K4 & K5 & K6).
    assert (Hoff : 0 <= off).
    { rewrite Forall_forall in Hoffs. apply Hoffs. eapply nth_error_In; eauto. }
    pose proof (psz_pos i) as Hps. assert (Hp : ptr_size i = 8 + 4 * psz i) by reflexivity.
    assert (Hfl : flat_size i = 8 + 2 * psz i) by reflexivity.
    assert (Hfd : fda_size i = 8 + 3 * psz i) by reflexivity.
    pose proof (align8_spec bufsize) as Ha.
    unfold k_step in Hs. fold i in Hs. unfold k_get_object in Hs.
    set (t := k_type (ks_data s) off) in *.
    destruct ((0 <=? off) && (off + 4 <=? blen (ks_data s)) && (off mod 4 =? 0)) eqn:Eg;
      [|cbn in Hs; discriminate].
    destruct (Z.leb_spec (off + k_object_size i t) (blen (ks_data s))) as [Hsz|]; [|cbn in Hs; discriminate].
    destruct (Z.eqb_spec (k_object_size i t) 0) as [|Hnz]; [cbn in Hs; discriminate|].
    destruct (Z.ltb_spec off (ks_min s)) as [|Hmin]; [cbn in Hs; discriminate|]. cbn [orb] in Hs.
    set (s0 := {| ks_data := ks_data s; ks_sg := ks_sg s; ks_min := off + k_object_size i t;
                  ks_last := ks_last s; ks_last_min := ks_last_min s |}) in *.
    assert (Hall : forall s1, blen (ks_data s1) = len -> all_bytes (ks_data s1) ->
       blen (ks_sg s1) mod 8 = 0 -> blen (ks_sg s1) <= align8 bufsize ->
       ks_min s1 = off + k_object_size i t -> blen (ks_sg s) <= blen (ks_sg s1) ->
       (exists im o2, off <= o2 /\ o2 + blen im <= blen (ks_data s) /\
           ks_data s1 = poke (ks_data s) o2 im) ->
       (forall from n, 0 <= from -> from + n <= blen (ks_sg s) -> clean_range (ks_sg s) from n ->
         clean_range (ks_sg s1) from n) ->
       obj_done s1 off -> kinv len (S n) s1).
    { intros s2 A1 A2 A3 A4 A5 A6 (im & o2 & P1 & P2 & P3) A8 A9.
      assert (4 <= k_object_size i t).
      { revert Hnz. unfold k_object_size. destruct (_ || _); [lia|]. destruct (t =? TYPE_PTR); [lia|].
        destruct (t =? TYPE_FDA); lia. }
      split; [exact A2|]. split; [exact A1|]. split; [lia|]. split; [exact A3|]. split; [exact A4|].
      intros k o Hkn Ho. destruct (Nat.eq_dec k n) as [->|Hne].
      - rewrite Hn in Ho. injection Ho as <-. exact A9.
      - apply (obj_done_keeps s s2 o o2 im); auto; try lia.
        apply (K6 k o); [lia|exact Ho]. }
    assert (Hvalid0 : forall idx po, 0 <= idx -> k_validate_ptr (ks_data s0) offsets idx (Z.of_nat n) = Some po ->
        buf_in (ks_sg s) (k_ptr i (ks_data s) po)).
    { intros idx po H0 H1. destruct (k_validate_done len n s idx po Hk H0 H1) as (_ & _ & H2). exact H2. }
    destruct (Z.eqb_spec t TYPE_PTR) as [Et|Et].
    - (* buffer *)
      assert (Esz : k_object_size i t = ptr_size i) by (rewrite Et; reflexivity).
      unfold k_do_ptr in Hs. fold i base in Hs. cbn [s0 ks_data ks_sg ks_min] in Hs.
      set (o := k_ptr i (ks_data s) off) in *.
      assert (O2 : 0 <= kp_length o) by (apply kfield_nonneg; exact K1).
      assert (O3 : 0 <= kp_parent o) by (apply kfield_nonneg; exact K1).
      assert (O4 : 0 <= kp_poff o) by (apply kfield_nonneg; exact K1).
      destruct (Z.ltb_spec (align8 bufsize - blen (ks_sg s)) (kp_length o)) as [|Hfit]; [discriminate|].
      destruct ((kp_buffer o =? 0) && negb (kp_length o =? 0)); [discriminate|].
      set (addr := base + blen (ks_sg s)) in *.
      pose proof (blen_nonneg _ (ks_sg s)) as Hsg0.
      pose proof (align8_spec (kp_length o)) as Hal.
      assert (Hmr : blen (mread (k_mem e) (kp_buffer o) (kp_length o)) = kp_length o) by (apply blen_mread; lia).
      set (sg1 := ks_sg s ++ k_pad8 (mread (k_mem e) (kp_buffer o) (kp_length o))) in *.
      assert (Hsg1 : blen sg1 = blen (ks_sg s) + align8 (kp_length o)).
      { unfold sg1. rewrite blen_app, blen_pad8, Hmr. reflexivity. }
      assert (Hle : blen (le (psize i) addr) = psz i) by (rewrite blen_le, psize_psz; reflexivity).
      set (data1 := poke (ks_data s) (off + 8) (le (psize i) addr)) in *.
      assert (Hd1 : blen data1 = len) by (unfold data1; rewrite blen_poke_in; rewrite ?Hle; lia).
      assert (Hnew : clean_range sg1 (blen (ks_sg s)) (kp_length o)).
      { intros j Hj. unfold sg1. rewrite zn_app_r by lia. unfold k_pad8.
        rewrite zn_app_l by (rewrite Hmr; lia). rewrite zn_mread by lia. apply Hmem. }
      assert (Hold : forall from m, 0 <= from -> from + m <= blen (ks_sg s) ->
                clean_range (ks_sg s) from m -> clean_range sg1 from m).
      { intros from m H1 H2 H3 j Hj. unfold sg1. rewrite zn_app_l by lia. auto. }
      assert (Hdone : forall sg2, blen sg2 = blen sg1 ->
         (forall from m, 0 <= from -> clean_range sg1 from m -> clean_range sg2 from m) ->
         kinv len (S n) {| ks_data := data1; ks_sg := sg2; ks_min := off + k_object_size i t; ks_last := off; ks_last_min := 0 |}).
      { intros sg2 H1 H2. apply Hall; cbn [ks_data ks_sg ks_min]; auto; try lia.
        - apply all_bytes_poke; [exact K1|apply all_bytes_le].
        - exists (le (psize i) addr), (off + 8). rewrite Hle. split; [lia|]. split; [lia|reflexivity].
        - unfold obj_done. cbn [ks_data ks_sg ks_min]. split; [exact Hoff|]. split; [lia|]. intros _.
          split; [lia|].
          assert (Hb2 : kp_buffer (k_ptr i data1 off) = addr).
          { cbn [k_ptr kp_buffer]. unfold data1. rewrite <- Hle at 1. rewrite kfield_poke_in by (rewrite ?Hle; lia).
            rewrite unle_lep. apply usz_in. lia. }
          assert (Hl2 : kp_length (k_ptr i data1 off) = kp_length o).
          { cbn [k_ptr kp_length o]. unfold data1. apply kfield_poke_out; rewrite ?Hle; lia. }
          unfold buf_in. rewrite Hb2, Hl2. split; [lia|]. split; [lia|]. split; [lia|].
          apply H2; [lia|]. replace (addr - base) with (blen (ks_sg s)) by lia. exact Hnew. }
      destruct (kp_has_parent o).
      + destruct (k_validate_ptr (ks_data s) offsets (kp_parent o) (Z.of_nat n)) as [po|] eqn:Ev; [|discriminate].
        destruct (Hvalid0 _ _ O3 Ev) as (V1 & V2 & V3 & V4).
        destruct (negb _); [discriminate|].
        destruct (Z.ltb_spec (kp_length (k_ptr i (ks_data s) po)) (kp_poff o + psz i)) as [|Hpl]; [discriminate|].
        apply some_inj in Hs; subst s1. apply Hdone.
        * apply blen_poke_in; rewrite ?Hle; lia.
        * intros from m H1 H2. apply clean_poke; rewrite ?Hle; try lia; [apply all_bytes_le|exact H2].
      + apply some_inj in Hs; subst s1. apply Hdone; auto.
    - destruct (Z.eqb_spec t TYPE_FDA) as [Ef|Ef].
      + (* descriptors *)
        assert (Esz : k_object_size i t = fda_size i) by (rewrite Ef; reflexivity).
        unfold k_do_fda in Hs. fold i base in Hs. cbn [s0 ks_data ks_sg ks_min] in Hs.
        set (num := kfield (ks_data s) (off + 8) (psz i)) in *.
        set (pidx := kfield (ks_data s) (off + 8 + psz i) (psz i)) in *.
        set (fix_off := kfield (ks_data s) (off + 8 + 2 * psz i) (psz i)) in *.
        assert (O2 : 0 <= num) by (apply kfield_nonneg; exact K1).
        assert (O3 : 0 <= pidx) by (apply kfield_nonneg; exact K1).
        assert (O4 : 0 <= fix_off) by (apply kfield_nonneg; exact K1).
        destruct (k_validate_ptr (ks_data s) offsets pidx (Z.of_nat n)) as [po|] eqn:Ev; [|discriminate].
        destruct (Hvalid0 _ _ O3 Ev) as (V1 & V2 & V3 & V4).
        destruct (negb _); [discriminate|].
        destruct (Z.ltb_spec (kp_length (k_ptr i (ks_data s) po)) (fix_off + 4 * num)) as [|Hpl]; [discriminate|].
        apply some_inj in Hs; subst s1.
        destruct (map_fds_len (Z.to_nat num) (ks_sg s) (kp_buffer (k_ptr i (ks_data s) po) - base + fix_off))
          as [M1 M2]; [lia|lia|].
        apply Hall; cbn [ks_data ks_sg ks_min]; auto; try lia.
        * exists [], off. rewrite poke_nil, blen_nil. split; [lia|]. split; [|reflexivity].
          lia.
        * unfold obj_done. cbn [ks_data ks_sg ks_min]. split; [exact Hoff|]. split; [lia|].
          fold t. intros Hx. congruence.
      + (* flat objects *)
        apply some_inj in Hs; subst s1. unfold k_do_flat. fold i. cbn [s0 ks_data ks_sg ks_min]. fold t.
        match goal with |- kinv _ _ {| ks_data := poke _ _ ?x |} => set (im := x) end.
        destruct (object_size_flat i t Hnz Et Ef) as [Esz Ht].
        assert (Him : exists t2 f2 o2, im = flat_image i t2 f2 o2 0 /\ u32 t2 <> TYPE_PTR).
        { unfold im. destruct ((t =? TYPE_BINDER) || (t =? TYPE_WEAK_BINDER)).
          - eexists _, _, _. split; [reflexivity|]. destruct (t =? TYPE_BINDER); discriminate.
          - assert (Ht2 : u32 t <> TYPE_PTR).
            { cbn [In] in Ht. destruct Ht as [<-|[<-|[<-|[<-|[<-|[]]]]]]; discriminate. }
            destruct ((t =? TYPE_HANDLE) || (t =? TYPE_WEAK_HANDLE)).
            + destruct (k_ref e _).
              * eexists _, _, _. split; [reflexivity|exact Ht2].
              * eexists _, _, _. split; [reflexivity|]. destruct (t =? TYPE_HANDLE); discriminate.
            + eexists _, _, _. split; [reflexivity|exact Ht2]. }
        destruct Him as (t2 & f2 & o2 & Eim & Ht2).
        assert (Hil : blen im = flat_size i) by (rewrite Eim; apply blen_flat).
        apply Hall; cbn [ks_data ks_sg ks_min]; auto; try lia.
        * rewrite blen_poke_in by lia. exact K2.
        * apply all_bytes_poke; [exact K1|]. rewrite Eim. apply all_bytes_flat.
        * exists im, off. split; [lia|]. split; [lia|reflexivity].
        * unfold obj_done. cbn [ks_data ks_sg ks_min]. split; [exact Hoff|]. split; [lia|].
          intros Hx. exfalso. apply Ht2. rewrite <- Hx.
          assert (Hpk : poke (ks_data s) off im = ztake off (ks_data s) ++ im ++ zdrop (off + blen im) (ks_data s))
            by reflexivity.
          rewrite Hpk, Eim. assert (Ez : blen (ztake off (ks_data s)) = off) by (rewrite blen_ztake; lia).
          symmetry. rewrite <- (flat_type i t2 f2 o2 0 (ztake off (ks_data s))
            (zdrop (off + blen (flat_image i t2 f2 o2 0)) (ks_data s))). rewrite Ez. reflexivity.
  Qed.

  Lemma k_run_inv len rest : forall n s s1,
    kinv len n s -> skipn n offsets = rest ->
    k_run e offsets bufsize (Z.of_nat n) rest s = Some s1 ->
    kinv len (length offsets) s1.
  Proof.
    induction rest as [|off rest IH]; intros n s s1 Hk Hr H; cbn [k_run] in H.
    - injection H as <-. destruct Hk as (K1 & K2 & K3 & K4 & K5 & K6).
      split; [exact K1|]. split; [exact K2|]. split; [exact K3|]. split; [exact K4|]. split; [exact K5|].
      intros k o Hkn Ho. apply (K6 k); [|exact Ho].
      assert (length (skipn n offsets) = 0%nat) by (rewrite Hr; reflexivity).
      rewrite skipn_length in H. lia.
    - destruct (k_step e offsets bufsize (Z.of_nat n) off s) as [s2|] eqn:E; [|discriminate].
      assert (Hn : nth_error offsets n = Some off).
      { rewrite <- (firstn_skipn n offsets), Hr.
        assert (Hlen : (n <= length offsets)%nat).
        { assert (length (skipn n offsets) = S (length rest)) by (rewrite Hr; reflexivity).
          rewrite skipn_length in H0. lia. }
        rewrite nth_error_app2; rewrite firstn_length_le by lia; [|lia].
        rewrite Nat.sub_diag. reflexivity. }
      apply (IH (S n) s2 s1).
      + eapply k_step_inv; eauto.
      + rewrite (skipn_nth n offsets off Hn) in Hr. congruence.
      + rewrite Nat2Z.inj_succ. exact H.
  Qed.
End Delivered.

(* What the reader relies on *)
Definition delivered (i : io) (g : message) (offs : list Z) : Prop :=
  0 < m_sgbase g /\ low_message i g /\ all_bytes (m_data g) /\
  forall o, In o offs -> 0 <= o /\
    (k_type (m_data g) o = TYPE_PTR ->
     let b := k_ptr i (m_data g) o in
     in_message g (kp_buffer b) (kp_length b) /\
     forall c n, 0 <= c -> 0 <= n -> c + n <= kp_length b ->
       all_bytes (mread (gmem g) (kp_buffer b + c) n)).

Lemma send_delivered e data offs bufsize g :
  0 < k_sgbase e -> k_sgbase e + align8 bufsize < 2 ^ (8 * psz (k_io e)) -> 0 <= bufsize ->
  byte_memory (k_mem e) -> Forall (fun o => 0 <= o) offs -> all_bytes data ->
  k_send e data offs bufsize = Some g ->
  delivered (k_io e) g offs /\ blen (m_data g) = blen data.
Proof.
  intros Hb Ht Hs Hm Ho Hd H. unfold k_send in H.
  destruct (k_run _ _ _ _ _ _) as [s1|] eqn:E; [|discriminate]. injection H as <-.
  pose proof (align8_spec bufsize).
  apply (k_run_inv e offs bufsize Hb Ht Hm Ho (blen data) offs 0) in E; [|split; [exact Hd|]|reflexivity].
  - destruct E as (K1 & K2 & K3 & K4 & K5 & K6). cbn [m_data]. split; [|exact K2].
    unfold delivered. cbn [m_data m_sgbase]. split; [exact Hb|]. split.
    { unfold low_message. cbn [m_sgbase m_sg]. lia. }
    split; [exact K1|]. intros o Hin.
    apply In_nth_error in Hin. destruct Hin as [k Hk].
    assert (k < length offs)%nat by (apply nth_error_Some; congruence).
    destruct (K6 k o H0 Hk) as (D1 & D2 & D3). split; [exact D1|]. intros Et.
    destruct (D3 Et) as (D4 & B1 & B2 & B3 & B4). split.
    + unfold in_message. cbn [m_sgbase m_sg]. lia.
    + intros c n Hc Hn Hcn. apply Forall_forall. intros x Hx. unfold mread in Hx.
      apply in_map_iff in Hx. destruct Hx as (j & <- & Hj). apply in_seq in Hj.
      unfold gmem. cbn [m_sgbase m_sg].
      change (is_byte (zn (ks_sg s1) (kp_buffer (k_ptr (k_io e) (ks_data s1) o) + c + Z.of_nat j - k_sgbase e))).
      apply B4. lia.
  - cbn [ks_data ks_sg ks_min]. split; [reflexivity|]. split; [lia|]. split; [reflexivity|].
    change (blen (@nil Z)) with 0. split; [lia|]. intros k o Hk. lia.
Qed.

(* ------------------------------------------------------------------ *)
Section Read.
  Variables (cm : cmode) (i : io) (pr : protocol) (g : message) (offs : list Z).
  Hypothesis Hd : delivered i g offs.
  Hypothesis Hsize : blen (m_data g) < 2 ^ 31.
  Hypothesis Hhuge : no_huge_string g.
  Let E := blen (m_data g).

  (* the reader covers all of the data and has some of the objects left *)
  Definition at_data (p : reader) : Prop :=
    inside (m_data g) p /\ r_start p = 0 /\ r_end p = E /\ incl (r_objects p) offs.

  Definition in_buf (b : bufobj) : Prop :=
    in_message g (bo_data b) (bo_size b) /\ 0 < bo_data b /\
    forall c n, 0 <= c -> 0 <= n -> c + n <= bo_size b ->
      all_bytes (mread (gmem g) (bo_data b + c) n).

  Lemma in_objects p : at_data p -> can_read_object p = true -> In (r_ptr p) offs.
  Proof.
    intros (_ & _ & _ & H) Hc. unfold can_read_object in Hc.
    destruct (r_objects p) as [|o os] eqn:Eo; [discriminate|].
    apply Z.eqb_eq in Hc. rewrite Hc. apply H. left; reflexivity.
  Qed.

  Lemma eat_data p n : at_data p -> 0 <= n -> r_ptr p + n <= E -> at_data (r_eat p n).
  Proof.
    intros ((I1 & I2 & I3 & I4) & S & En & H) Hn Hp. unfold at_data, inside, r_eat.
    cbn [r_start r_end r_ptr r_objects]. split; [lia|]. split; [exact S|]. split; [exact En|].
    intros x Hx. apply H. destruct (r_objects p); [destruct Hx|right; exact Hx].
  Qed.

  Lemma buffer_safe p : at_data p ->
    exists o p1, rd_buffer_object i g p = Ok (o, p1) /\ at_data p1 /\
      match o with Some b => in_buf b | None => True end.
  Proof.
    intros Hp. unfold rd_buffer_object.
    destruct (can_read_object p) eqn:Ec; [|exists None, p; auto].
    pose proof (in_objects p Hp Ec) as Hin.
    destruct Hd as (B0 & [L1 L2] & Hb & Hobj). destruct (Hobj _ Hin) as [Ho1 Ho2].
    pose proof Hp as ((I1 & I2 & I3 & I4) & S & En & H).
    unfold decode_buffer_object. pose proof (psz_pos i) as Hps.
    assert (Hps2 : ptr_size i = 8 + 4 * psz i) by reflexivity.
    destruct (Z.leb_spec (ptr_size i) (if r_ptr p <? blen (m_data g) then blen (m_data g) - r_ptr p else 0))
      as [Hsz|Hsz]; [|exists None, p; cbn [bind]; auto].
    assert (Hfit : r_ptr p + ptr_size i <= E).
    { destruct (Z.ltb_spec (r_ptr p) (blen (m_data g))); unfold E; lia. }
    fold E in Hfit. rewrite !field32_in by (fold E; lia). rewrite !fieldp_in by (fold E; lia).
    cbn [bind]. destruct (Z.eqb_spec (kfield (m_data g) (r_ptr p) 4) TYPE_PTR) as [Et|]; [|exists None, p; cbn [bind]; auto].
    cbn [bind]. destruct (Ho2 Et) as [M1 M2].
    eexists _, _. split; [reflexivity|]. split; [apply eat_data; auto; lia|].
    unfold in_buf. cbn [bo_data bo_size]. split; [exact M1|].
    split; [destruct M1; cbn [k_ptr kp_buffer] in *; lia|exact M2].
  Qed.

  Lemma load32_safe b c : in_buf b -> 0 <= c -> c + 4 <= bo_size b ->
    exists v, tload32 g (bo_data b + c) = Ok v /\ 0 <= v < 2 ^ 32.
  Proof.
    intros (H1 & _ & H2) Hc Hs. unfold tload32.
    rewrite tload_in by (eapply in_message_sub; eauto; lia). cbn [bind].
    eexists. split; [reflexivity|].
    pose proof (unle_bound _ (H2 c 4 Hc ltac:(lia) Hs)) as B. rewrite blen_mread in B by lia. exact B.
  Qed.
  Lemma loadp_safe b c : in_buf b -> 0 <= c -> c + psz i <= bo_size b ->
    exists v, tload_ptr i g (bo_data b + c) = Ok v.
  Proof.
    intros (H1 & _ & H2) Hc Hs. pose proof (psz_pos i). unfold tload_ptr.
    rewrite tload_in by (eapply in_message_sub; eauto; lia). cbn [bind]. eauto.
  Qed.

  Lemma check_string_safe h c b off : in_buf h -> in_buf b -> 0 <= c -> c + 16 <= bo_size h ->
    exists t, check_string i g (bo_data h + c) b off = Ok t.
  Proof.
    intros Hh Hbuf Hc Hs. unfold check_string. pose proof (psz_pos i).
    destruct (bo_has_parent b && (bo_parent_offset b =? off)); [|eauto].
    destruct (loadp_safe h c Hh Hc ltac:(lia)) as [s Es]. rewrite Es. cbn [bind].
    replace (bo_data h + c + 8) with (bo_data h + (c + 8)) by lia.
    destruct (load32_safe h (c + 8) Hh ltac:(lia) ltac:(lia)) as (len & El & Hl). rewrite El. cbn [bind].
    destruct ((bo_data b =? s) && (bo_size b =? u32 (len + 1))) eqn:Ee; [|eauto].
    apply andb_prop in Ee. destruct Ee as [E1 E2]. apply Z.eqb_eq in E1, E2. subst s.
    assert (Hne : len <> 2 ^ 32 - 1).
    { intros ->. apply (Hhuge (bo_data h + c)).
      - destruct Hh as (H1 & _). eapply in_message_sub; eauto; lia.
      - rewrite <- El. f_equal. lia. }
    rewrite u32_small in E2 by lia. destruct Hbuf as (M1 & _ & _).
    rewrite tload_in by (eapply in_message_sub; eauto; lia). cbn [bind].
    destruct (_ =? 0); [|eauto].
    rewrite <- (Z.add_0_r (bo_data b)). rewrite tload_in by (eapply in_message_sub; eauto; lia).
    cbn [bind]. eauto.
  Qed.

  Definition safe_rd {A} (x : rd A) (P : A -> Prop) : Prop :=
    exists o p1, x = Ok (o, p1) /\ at_data p1 /\ match o with Some a => P a | None => True end.

  Lemma string_safe p : at_data p -> safe_rd (rd_hidl_string i g p) (fun _ => True).
  Proof.
    intros Hp. unfold rd_hidl_string.
    destruct (buffer_safe p Hp) as ([b1|] & p1 & E1 & A1 & B1); rewrite E1; cbn [bind];
      [|exists None, p1; auto].
    destruct (negb (bo_data b1 =? 0) && (bo_size b1 =? 16)) eqn:Eg; [|exists None, p1; auto].
    destruct (buffer_safe p1 A1) as ([b2|] & p2 & E2 & A2 & B2); rewrite E2; cbn [bind];
      [|exists None, p2; auto].
    destruct (check_string_safe b1 0 b2 0 B1 B2 ltac:(lia) ltac:(lia)) as [t Et].
    rewrite Z.add_0_r in Et. rewrite Et. cbn [bind]. exists t, p2. split; [reflexivity|]. split; [exact A2|].
    destruct t; exact I.
  Qed.

  Lemma strings_safe h n : in_buf h -> forall p k, at_data p -> 0 <= k -> 16 * (k + Z.of_nat n) <= bo_size h ->
    safe_rd (rd_strings i g p (bo_data h) k n) (fun _ => True).
  Proof.
    intros Hh. induction n as [|n IH]; intros p k Hp Hk Hs; cbn [rd_strings]; [exists (Some []), p; auto|].
    destruct (buffer_safe p Hp) as ([b|] & p1 & E1 & A1 & B1); rewrite E1; cbn [bind]; [|exists None, p1; auto].
    destruct (check_string_safe h (16 * k) b (16 * k) Hh B1 ltac:(lia) ltac:(lia)) as [t Et]. rewrite Et.
    cbn [bind]. destruct t as [t|]; [|exists None, p1; auto].
    destruct (IH p1 (k + 1) A1 ltac:(lia) ltac:(lia)) as (o & p2 & E2 & A2 & _). rewrite E2. cbn [bind].
    destruct o as [l|]; [exists (Some (t :: l)), p2; auto|exists None, p2; auto].
  Qed.

  Lemma string_vec_safe p : at_data p -> safe_rd (rd_hidl_string_vec i g p) (fun _ => True).
  Proof.
    intros Hp. unfold rd_hidl_string_vec. pose proof (psz_pos i).
    destruct (buffer_safe p Hp) as ([b1|] & p1 & E1 & A1 & B1); rewrite E1; cbn [bind];
      [|exists None, p1; auto].
    destruct (negb (bo_data b1 =? 0) && (bo_size b1 =? 16)) eqn:Eg; [|exists None, p1; auto].
    destruct (loadp_safe b1 0 B1 ltac:(lia) ltac:(lia)) as [next En]. rewrite Z.add_0_r in En. rewrite En.
    destruct (load32_safe b1 8 B1 ltac:(lia) ltac:(lia)) as (n & Ec & Hn). rewrite Ec. cbn [bind].
    destruct ((next =? 0) && (n =? 0)); [exists (Some []), p1; auto|].
    destruct (buffer_safe p1 A1) as ([b2|] & p2 & E2 & A2 & B2); rewrite E2; cbn [bind]; [|exists None, p2; auto].
    match goal with |- context [if ?c then _ else fail p2] => destruct c eqn:Ee end; [|exists None, p2; auto].
    apply strings_safe; auto; lia.
  Qed.

  Lemma vec_safe p : at_data p ->
    safe_rd (rd_hidl_vec i g p) (fun v => let '(a, n, s) := v in in_message g a (n * s)).
  Proof.
    intros Hp. unfold rd_hidl_vec. pose proof (psz_pos i).
    destruct (buffer_safe p Hp) as ([b1|] & p1 & E1 & A1 & B1); rewrite E1; cbn [bind];
      [|exists None, p1; auto].
    destruct (negb (bo_data b1 =? 0) && (bo_size b1 =? 16)) eqn:Eg; [|exists None, p1; auto].
    destruct (loadp_safe b1 0 B1 ltac:(lia) ltac:(lia)) as [next En]. rewrite Z.add_0_r in En. rewrite En.
    destruct (load32_safe b1 8 B1 ltac:(lia) ltac:(lia)) as (n & Ec & Hn). rewrite Ec. cbn [bind].
    destruct (negb (next =? 0)).
    - destruct (buffer_safe p1 A1) as ([b2|] & p2 & E2 & A2 & B2); rewrite E2; cbn [bind]; [|exists None, p2; auto].
      match goal with |- context [if ?c then _ else fail p2] => destruct c eqn:Ee end; [|exists None, p2; auto].
      eexists (Some _), p2. split; [reflexivity|]. split; [exact A2|].
      destruct B2 as (M1 & _). destruct (Z.eqb_spec n 0) as [->|Hn0].
      + rewrite Z.mul_0_l. rewrite <- (Z.add_0_r (bo_data b2)). eapply in_message_sub; eauto; try lia.
      + assert (Em : bo_size b2 mod n = 0).
        { apply andb_prop in Ee. destruct Ee as [_ Ee]. cbn [andb orb negb] in Ee. lia. }
        rewrite <- Z_div_exact_full_2 by assumption. exact M1.
    - destruct (Z.eqb_spec n 0); [|exists None, p1; auto].
      eexists (Some _), p1. split; [reflexivity|]. split; [exact A1|]. rewrite Z.mul_0_l.
      rewrite <- (Z.add_0_r (bo_data b1)). destruct B1 as (M1 & _). eapply in_message_sub; eauto; lia.
  Qed.

  Lemma skip_safe n : forall p, at_data p -> safe_rd (rd_skip i g p n) (fun _ => True).
  Proof.
    induction n as [|n IH]; intros p Hp; cbn [rd_skip]; [exists (Some tt), p; auto|].
    destruct (buffer_safe p Hp) as ([b|] & p1 & E1 & A1 & B1); rewrite E1; cbn [bind]; [apply IH; exact A1|].
    exists None, p1; auto.
  Qed.

  Lemma item_read_safe p k : at_data p -> ~ bad_item cm i pr g p k ->
    exists r p1, read_item cm i pr g p k = Ok (r, p1) /\ at_data p1 /\ item_safe g k r.
  Proof.
    intros Hp Hbad. pose proof Hp as ((I1 & I2 & I3 & I4) & S & En & Hinc).
    pose proof (psz_pos i) as Hps.
    assert (Hfl : flat_size i = 8 + 2 * psz i) by reflexivity.
    assert (Hrem : r_remaining p = E - r_ptr p).
    { unfold r_remaining, u64. rewrite En. fold E in Hsize. apply Z.mod_small. lia. }
    pose proof (proj1 (proj2 (proj2 Hd))) as Hbytes.
    destruct k as [k| | | | | |size nested|nested]; cbn [read_item bad_item] in *.
    - destruct (read_kind_safe cm (m_data g) p k (conj I1 (conj I2 (conj I3 I4))) Hsize Hbytes Hbad)
        as (r & p1 & E1 & (M1 & M2 & M3 & M4 & M5) & _).
      rewrite E1. cbn [bind]. exists (IPlain r), p1. split; [reflexivity|]. split; [|exact I].
      unfold at_data. rewrite M2, M3, M4. auto.
    - unfold rd_nullable_object.
      destruct (can_read_object p) eqn:Ec; [|exists IFail, p; cbn; auto].
      unfold decode_binder_object. rewrite Hrem.
      destruct (Z.leb_spec (flat_size i) (E - r_ptr p)); [|exists IFail, p; cbn; auto].
      rewrite !field32_in, fieldp_in by (fold E; lia). cbn [bind].
      assert (Hex : 0 <= flat_extra pr) by (destruct pr; cbn; lia).
      assert (Heat : at_data (r_eat p (flat_size i + flat_extra pr))) by (apply eat_data; auto; lia).
      destruct (_ =? TYPE_HANDLE).
      + cbn [bind]. destruct (Z.eqb_spec (flat_size i + flat_extra pr) 0); [lia|]. cbn [wrapi ok].
        unfold ok. cbn [wrapi]. eexists _, _. split; [reflexivity|]. split; [exact Heat|exact I].
      + destruct (_ =? TYPE_BINDER); [|exists IFail, p; cbn; auto].
        destruct (_ =? 0); cbn [bind]; [|exists IFail, p; cbn; auto].
        destruct (Z.eqb_spec (flat_size i + flat_extra pr) 0); [lia|].
        unfold ok. cbn [wrapi]. eexists _, _. split; [reflexivity|]. split; [exact Heat|exact I].
    - unfold rd_fd.
      destruct (can_read_object p) eqn:Ec; [|exists IFail, p; cbn; auto].
      unfold decode_fd_object. rewrite Hrem.
      destruct (Z.leb_spec (flat_size i) (E - r_ptr p)); [|exists IFail, p; cbn; auto].
      rewrite !field32_in by (fold E; lia). cbn [bind].
      destruct (_ =? TYPE_FD); [|exists IFail, p; cbn; auto].
      cbn [bind]. destruct (Z.eqb_spec (flat_size i) 0); [lia|]. unfold ok. cbn [wrapi].
      eexists _, _. split; [reflexivity|]. split; [apply eat_data; auto; lia|exact I].
    - destruct (string_safe p Hp) as (o & p1 & E1 & A1 & _). rewrite E1. destruct o; cbn [wrapi];
        eexists _, _; (split; [reflexivity|]); (split; [exact A1|exact I]).
    - destruct (vec_safe p Hp) as ([[[a n] s]|] & p1 & E1 & A1 & B1); rewrite E1; cbn [bind].
      + rewrite tload_in by exact B1. cbn [bind]. eexists _, _. split; [reflexivity|]. split; [exact A1|exact I].
      + eexists _, _. split; [reflexivity|]. split; [exact A1|exact I].
    - destruct (string_vec_safe p Hp) as (o & p1 & E1 & A1 & _). rewrite E1. destruct o; cbn [wrapi];
        eexists _, _; (split; [reflexivity|]); (split; [exact A1|exact I]).
    - unfold rd_hidl_struct.
      destruct (buffer_safe p Hp) as ([b|] & p1 & E1 & A1 & B1); rewrite E1; cbn [bind];
        [|exists IFail, p1; cbn; auto].
      destruct (Z.eqb_spec (bo_size b) size) as [Es|]; [|exists IFail, p1; cbn; auto].
      unfold ok. cbn [bind]. destruct (skip_safe nested p1 A1) as (o & p2 & E2 & A2 & _). rewrite E2. cbn [bind].
      eexists _, _. split; [reflexivity|]. split; [exact A2|].
      destruct o; cbn [item_safe]; [rewrite <- Es; apply B1|exact I].
    - destruct (vec_safe p Hp) as ([[[a n] s]|] & p1 & E1 & A1 & B1); rewrite E1; cbn [bind].
      + destruct (skip_safe nested p1 A1) as (o & p2 & E2 & A2 & _). rewrite E2. cbn [bind].
        eexists _, _. split; [reflexivity|]. split; [exact A2|]. destruct o; cbn [item_safe]; [exact B1|exact I].
      + eexists _, _. split; [reflexivity|]. split; [exact A1|exact I].
  Qed.

  Lemma items_safe ks : forall p, at_data p -> good_items cm i pr g p ks ->
    exists rs p1, read_items cm i pr g p ks = Ok (rs, p1) /\ at_data p1 /\ Forall2 (item_safe g) ks rs.
  Proof.
    induction ks as [|k ks IH]; intros p Hp Hg; cbn [read_items good_items] in *;
      [exists [], p; split; [reflexivity|split; [exact Hp|constructor]]|].
    destruct Hg as [Hg1 Hg2].
    destruct (item_read_safe p k Hp Hg1) as (r & p1 & E1 & A1 & S1). rewrite E1 in *. cbn [bind].
    destruct (IH p1 A1 Hg2) as (rs & p2 & E2 & A2 & S2). rewrite E2. cbn [bind].
    exists (r :: rs), p2. split; [reflexivity|]. split; [exact A2|constructor; assumption].
  Qed.
End Read.

Theorem objects_safe cm pr e data offs bufsize g ks :
  0 < k_sgbase e -> k_sgbase e + align8 bufsize < 2 ^ (8 * psz (k_io e)) -> 0 <= bufsize ->
  byte_memory (k_mem e) -> Forall (fun o => 0 <= o) offs -> all_bytes data -> blen data < 2 ^ 31 ->
  k_send e data offs bufsize = Some g ->
  no_huge_string g ->
  good_items cm (k_io e) pr g (reader_init 0 (blen data) offs) ks ->
  exists rs p, read_items cm (k_io e) pr g (reader_init 0 (blen data) offs) ks = Ok (rs, p) /\
    inside (m_data g) p /\ Forall2 (item_safe g) ks rs.
Proof.
  intros H1 H2 H3 H4 H5 H6 H7 H8 H9 H10.
  destruct (send_delivered e data offs bufsize g H1 H2 H3 H4 H5 H6 H8) as [D L].
  destruct (items_safe cm (k_io e) pr g offs D) with (ks := ks) (p := reader_init 0 (blen data) offs)
    as (rs & p & E1 & A1 & S1); auto.
  - rewrite L. exact H7.
  - unfold at_data, inside, reader_init. cbn [r_start r_end r_ptr r_objects].
    pose proof (blen_nonneg _ data). rewrite L. split; [lia|]. split; [reflexivity|]. split; [lia|].
    apply incl_refl.
  - exists rs, p. split; [exact E1|]. split; [apply A1|exact S1].
Qed.

(* A listed NULL binder *)
Lemma null_object_read i pr g p pre suf f c os :
  m_data g = pre ++ flat_image i TYPE_BINDER f 0 c ++ suf ->
  inside (m_data g) p -> r_end p = blen (m_data g) -> blen (m_data g) < 2 ^ 31 ->
  r_ptr p = blen pre -> r_objects p = r_ptr p :: os -> flat_extra pr <= blen suf ->
  exists p1, rd_nullable_object i pr g p = Ok (Some None, p1) /\
    r_ptr p1 = r_ptr p + flat_size i + flat_extra pr /\ r_objects p1 = os.
Proof.
  intros Hm (I1 & I2 & I3 & I4) He Hs Hp Ho Hx.
  pose proof (psz_pos i) as Hps. pose proof (blen_nonneg _ pre).
  assert (Hfl : flat_size i = 8 + 2 * psz i) by reflexivity.
  assert (Hex : 0 <= flat_extra pr) by (destruct pr; cbn; lia).
  assert (Hl : blen (m_data g) = blen pre + flat_size i + blen suf).
  { rewrite Hm, !blen_app, blen_flat. lia. }
  unfold rd_nullable_object, can_read_object. rewrite Ho, Z.eqb_refl.
  unfold decode_binder_object.
  assert (Hrem : r_remaining p = blen (m_data g) - r_ptr p).
  { unfold r_remaining, u64. rewrite He. apply Z.mod_small. lia. }
  rewrite Hrem. destruct (Z.leb_spec (flat_size i) (blen (m_data g) - r_ptr p)); [|lia].
  rewrite field32_in, fieldp_in by lia. cbn [bind].
  assert (Ht : kfield (m_data g) (r_ptr p) 4 = TYPE_BINDER).
  { rewrite Hm, Hp. apply flat_type. }
  rewrite Ht. cbn [Z.eqb]. change (TYPE_BINDER =? TYPE_HANDLE) with false. change (TYPE_BINDER =? TYPE_BINDER) with true.
  cbn [bind].
  assert (Hv : kfield (m_data g) (r_ptr p + 8) (psz i) = 0).
  { rewrite Hm, Hp. rewrite flat_value. reflexivity. }
  rewrite Hv. cbn [Z.eqb bind]. destruct (Z.eqb_spec (flat_size i + flat_extra pr) 0); [lia|].
  eexists. split; [reflexivity|]. unfold r_eat. cbn [r_ptr r_objects]. rewrite Ho. cbn [tl]. split; [lia|reflexivity].
Qed.
