(* Proofs for DecodeProps.v *)
From Verif Require Import Base BaseLemmas UtfModel UtfProofs WriterModel ReaderModel CodecSpec CodecProofs CodecSafety DecodeSpec.

(* ------------------------------------------------------------------ *)
(* Numbers *)
Lemma sgn_signed bits x : 0 < bits -> signed bits x (sgn bits x).
Proof.
  intros Hb. unfold signed, sgn. assert (E : 2 ^ bits = 2 * 2 ^ (bits - 1)).
  { rewrite <- Z.pow_succ_r by lia. f_equal; lia. }
  rewrite E. set (h := 2 ^ (bits - 1)). assert (0 < h) by (unfold h; apply Z.pow_pos_nonneg; lia). clearbody h. clear E Hb.
  pose proof (Z.div_mod x (2 * h) ltac:(lia)) as D. pose proof (Z.mod_pos_bound x (2 * h) ltac:(lia)) as B.
  set (m := x mod (2 * h)) in *. set (q := x / (2 * h)) in *. clearbody m q.
  destruct (Z.ltb_spec m h); (split; [lia|]).
  - replace (x - m) with (q * (2 * h)) by lia. apply Z_mod_mult.
  - replace (x - (m - 2 * h)) with ((q + 1) * (2 * h)) by lia. apply Z_mod_mult.
Qed.
Lemma signed_sgn bits x v : 0 < bits -> signed bits x v -> sgn bits x = v.
Proof.
  intros Hb (Hr & Hm). pose proof (sgn_signed bits x Hb) as (Sr & Sm).
  set (s := sgn bits x) in *. clearbody s.
  assert (E : 2 ^ bits = 2 * 2 ^ (bits - 1)). { rewrite <- Z.pow_succ_r by lia. f_equal; lia. }
  rewrite E in *. set (h := 2 ^ (bits - 1)) in *. assert (0 < h) by (unfold h; apply Z.pow_pos_nonneg; lia). clearbody h. clear E Hb.
  apply Z_div_exact_full_2 in Hm; [|lia]. apply Z_div_exact_full_2 in Sm; [|lia].
  set (a := (x - v) / (2 * h)) in *. set (b := (x - s) / (2 * h)) in *. clearbody a b.
  assert (E : v - s = 2 * h * (b - a)) by lia.
  destruct (Z.lt_trichotomy a b) as [L|[L|L]]; [|subst; lia|].
  - assert (2 * h * 1 <= 2 * h * (b - a)) by (apply Z.mul_le_mono_nonneg_l; lia). lia.
  - assert (2 * h * (b - a) <= 2 * h * (- 1)) by (apply Z.mul_le_mono_nonneg_l; lia). lia.
Qed.

Lemma some_bit_unle b : all_bytes b -> (some_bit b <-> unle b <> 0).
Proof.
  unfold some_bit. induction b as [|x b IH]; intros Ha; idtac.
  - split; [intros (y & [] & _)|intros X; destruct (X eq_refl)].
  - change (unle (x :: b)) with (x + 256 * unle b). inversion Ha as [|? ? Hx Hb]; subst. specialize (IH Hb). pose proof (unle_bound b Hb). unfold is_byte in Hx. split.
    + intros (y & [->|Hi] & Hy); [lia|]. assert (unle b <> 0) by (apply IH; eauto). lia.
    + intros Hn. destruct (Z.eq_dec x 0) as [->|Hx0]; [|exists x; cbn; auto].
      destruct (proj2 IH ltac:(lia)) as (y & Hi & Hy). exists y; cbn; auto.
Qed.

Lemma le4_unle b : all_bytes b -> blen b = 4 -> b = le 4 (unle b).
Proof.
  intros Ha Hl. rewrite <- (le_unle b Ha) at 1. replace (length b) with 4%nat by (unfold blen in Hl; lia). reflexivity.
Qed.
Lemma le4_nonneg b n : all_bytes b -> blen b = 4 -> sgn 32 (unle b) = n -> 0 <= n -> b = le 4 n.
Proof.
  intros Ha Hl Hs Hn. rewrite (le4_unle b Ha Hl) at 1. pose proof (unle_bound b Ha) as Hb. rewrite Hl in Hb.
  change (2 ^ (8 * 4)) with (2 ^ 32) in Hb. unfold sgn in Hs. change (2 ^ (32 - 1)) with (2 ^ 31) in Hs.
  rewrite Z.mod_small in Hs by lia. destruct (Z.ltb_spec (unle b) (2 ^ 31)); [|lia]. f_equal; lia.
Qed.
Lemma le4_minus_one b : all_bytes b -> blen b = 4 -> sgn 32 (unle b) = -1 -> b = minus_one.
Proof.
  intros Ha Hl Hs. rewrite (le4_unle b Ha Hl) at 1. pose proof (unle_bound b Ha) as Hb. rewrite Hl in Hb.
  change (2 ^ (8 * 4)) with (2 ^ 32) in Hb. unfold sgn in Hs. change (2 ^ (32 - 1)) with (2 ^ 31) in Hs.
  rewrite Z.mod_small in Hs by lia. destruct (Z.ltb_spec (unle b) (2 ^ 31)); [lia|].
  replace (unle b) with (2 ^ 32 - 1) by lia. reflexivity.
Qed.

Lemma units_bytes_units l : all_bytes l -> blen l mod 2 = 0 -> units_bytes (bytes_units l) = l.
Proof.
  assert (G : forall n l, (length l <= n)%nat -> all_bytes l -> blen l mod 2 = 0 -> units_bytes (bytes_units l) = l).
  { clear. induction n as [|n IH]; intros l Hl Ha Hm.
    - destruct l; [reflexivity|cbn in Hl; lia].
    - destruct l as [|x [|y l]]; [reflexivity|cbv in Hm; discriminate|]. cbn [bytes_units units_bytes flat_map].
      fold (units_bytes (bytes_units l)). inversion Ha as [|? ? Hx Ha1]; subst. inversion Ha1 as [|? ? Hy Ha2]; subst.
      rewrite !blen_cons in Hm. rewrite IH; [|cbn in Hl; lia|exact Ha2|lia].
      change ([x; y] ++ l) with (x :: y :: l).
      assert (E : le 2 (unle [x; y]) = [x; y]).
      { apply (le_unle [x; y]). apply Forall_cons; [exact Hx|]. apply Forall_cons; [exact Hy|]. apply Forall_nil. }
      rewrite E. reflexivity. }
  intros Ha Hm. exact (G (length l) l (Nat.le_refl _) Ha Hm).
Qed.
Lemma blen_bytes_units l : blen l mod 2 = 0 -> 2 * blen (bytes_units l) = blen l.
Proof.
  assert (G : forall n l, (length l <= n)%nat -> blen l mod 2 = 0 -> 2 * blen (bytes_units l) = blen l).
  { clear. induction n as [|n IH]; intros l Hl Hm.
    - destruct l; [reflexivity|cbn in Hl; lia].
    - destruct l as [|x [|y l]]; [reflexivity|cbv in Hm; discriminate|]. cbn [bytes_units].
      rewrite !blen_cons in *. specialize (IH l ltac:(cbn in Hl; lia) ltac:(lia)). lia. }
  intros Hm. exact (G (length l) l (Nat.le_refl _) Hm).
Qed.

(* ------------------------------------------------------------------ *)
(* What is next *)
Lemma one_byte (l : bytes) : blen l = 1 -> exists x, l = [x].
Proof.
  destruct l as [|x [|y w]]; rewrite ?blen_cons, ?blen_nil; [lia|eauto|]. pose proof (blen_nonneg _ w). lia.
Qed.
Lemma two_bytes (l : bytes) : blen l = 2 -> exists x y, l = [x; y].
Proof.
  destruct l as [|x [|y [|z w]]]; rewrite ?blen_cons, ?blen_nil; [lia|lia|eauto|]. pose proof (blen_nonneg _ w). lia.
Qed.

Section At.
  Variables (mem : bytes) (p : reader).
  Hypotheses (Hin : inside mem p) (Hb : blen mem < 2 ^ 31) (Ha : all_bytes mem).

  Lemma unread_at b rest : unread mem p = b ++ rest -> exists pre suf, at_chunk mem p pre b suf /\ all_bytes b.
  Proof.
    intros E. destruct Hin as (H1 & H2 & H3 & H4). unfold unread in E.
    assert (L : blen b + blen rest = r_end p - r_ptr p).
    { rewrite <- blen_app, <- E, blen_slice; lia. }
    pose proof (blen_nonneg _ b). pose proof (blen_nonneg _ rest).
    assert (M : mem = ztake (r_ptr p) mem ++ b ++ (rest ++ zdrop (r_end p) mem)).
    { rewrite (app_assoc b), <- E. unfold slice.
      rewrite <- (ztake_zdrop _ mem (r_ptr p)) at 1. f_equal.
      rewrite <- (ztake_zdrop _ (zdrop (r_ptr p) mem) (r_end p - r_ptr p)) at 1. f_equal.
      rewrite zdrop_zdrop by lia. f_equal; lia. }
    exists (ztake (r_ptr p) mem), (rest ++ zdrop (r_end p) mem).
    assert (P : blen (ztake (r_ptr p) mem) = r_ptr p) by (rewrite blen_ztake; lia). split.
    - split; [exact M|]. rewrite P. split; [reflexivity|]. lia.
    - rewrite M in Ha. apply all_bytes_app in Ha. destruct Ha as [_ Q]. apply all_bytes_app in Q. tauto.
  Qed.
  Lemma unread_split n : 0 <= n -> r_ptr p + n <= r_end p -> exists rest, unread mem p = slice mem (r_ptr p) n ++ rest.
  Proof.
    intros Hn Hl. destruct Hin as (H1 & H2 & H3 & H4). eexists. unfold unread.
    replace (r_end p - r_ptr p) with (n + (r_end p - r_ptr p - n)) by lia.
    apply slice_split; lia.
  Qed.
  Lemma slice_len o n : 0 <= o -> 0 <= n -> o + n <= blen mem -> blen (slice mem o n) = n.
  Proof. intros. rewrite blen_slice; lia. Qed.
  Lemma slice_bytes o n : all_bytes (slice mem o n).
  Proof. apply Forall_slice. exact Ha. Qed.

  (* ---------------------------------------------------------------- *)
  (* An item which is next is read *)
  Lemma rd_uint32_any pre b suf : at_chunk mem p pre b suf -> 4 <= blen b ->
    rd_uint32 mem p = Ok (Some (unle (ztake 4 b)), skip p 4).
  Proof.
    intros H Hl. unfold rd_uint32. erewrite can_read_at by (eauto; lia).
    erewrite load_at by (eauto; lia). reflexivity.
  Qed.
  Lemma rd_uint64_any pre b suf : at_chunk mem p pre b suf -> 8 <= blen b ->
    rd_uint64 mem p = Ok (Some (unle (ztake 8 b)), skip p 8).
  Proof.
    intros H Hl. unfold rd_uint64. erewrite can_read_at by (eauto; lia).
    erewrite load_at by (eauto; lia). reflexivity.
  Qed.
  Lemma rd_uint16_any pre b suf x y r : at_chunk mem p pre b suf -> 4 <= blen b -> b = x :: y :: r ->
    rd_uint16 mem p = Ok (Some (x + 256 * y), skip p 4).
  Proof.
    intros H Hl ->. unfold rd_uint16. erewrite can_read_at by (eauto; lia).
    erewrite load_at by (eauto; lia). cbn [bind]. unfold ok, skip. do 3 f_equal.
    change (unle (ztake 2 (x :: y :: r))) with (x + 256 * (y + 256 * 0)). lia.
  Qed.

  Lemma string8_any pre s pad suf : at_chunk mem p pre (s ++ 0 :: pad) suf -> padded (s ++ 0 :: pad) pad ->
    all_bytes s -> ~ In 0 s -> rd_string8 mem p = Ok (Some s, skip p (blen (s ++ 0 :: pad))).
  Proof.
    intros H (Hp1 & Hp2) Hs H0. pose proof H as (Hm & Hp & He & Hb2). unfold rd_string8.
    rewrite blen_app, blen_cons in *. pose proof (blen_nonneg _ s). pose proof (blen_nonneg _ pad).
    assert (Es : scan_nul mem (r_ptr p) (Z.to_nat (r_end p - r_ptr p)) = Ok (Some (blen pre + blen s))).
    { rewrite Hp, Hm. rewrite <- app_assoc. cbn [app]. apply scan_nul_found; try assumption. unfold blen in *; lia. }
    rewrite Es. cbn [bind]. rewrite Hp. replace (blen pre + blen s - blen pre) with (blen s) by lia.
    replace (align4 (blen s + 1)) with (blen s + (1 + blen pad)) by (unfold align4; lia).
    destruct (Z.leb_spec (blen pre + (blen s + (1 + blen pad))) (r_end p)); [|lia].
    rewrite Hm, <- app_assoc. rewrite load_app by reflexivity. cbn [bind]. unfold ok, skip. rewrite Hp. reflexivity.
  Qed.

  Lemma nullable_none pre suf : at_chunk mem p pre minus_one suf -> forall m,
    rd_nullable_string8 m mem p = Ok (Some None, skip p 4) /\ rd_nullable_utf16 m mem p = Ok (Some None, skip p 4).
  Proof.
    intros H m. change minus_one with (le 4 (-1)) in H. split.
    - eapply rd_nullable_string8_none_at; eauto.
    - eapply rd_nullable_utf16_none_at; eauto.
  Qed.

  Lemma nullable_string8_any m pre s pad suf : let b := le 4 (blen s) ++ s ++ 0 :: pad in
    at_chunk mem p pre b suf -> padded b pad ->
    rd_nullable_string8 m mem p = Ok (Some (Some s), skip p (blen b)).
  Proof.
    intros b H (Hp1 & Hp2). pose proof H as (Hm & Hp & He & Hb2). unfold rd_nullable_string8.
    assert (HL : blen b = 4 + blen s + 1 + blen pad) by (unfold b; rewrite !blen_app, blen_le, blen_cons; lia).
    pose proof (blen_nonneg _ s). pose proof (blen_nonneg _ pad). pose proof (blen_nonneg _ pre).
    rewrite HL in He, Hp1.
    destruct (Z.leb_spec (r_ptr p + 4) (r_end p)); [|lia].
    erewrite load_at by (eauto; lia). cbn [bind]. assert (Ev : sgn 32 (unle (ztake 4 b)) = blen s).
    { unfold b. rewrite ztake_app_exact by (rewrite blen_le; lia).
      rewrite unle_le. change (2 ^ (8 * Z.of_nat 4)) with (2 ^ 32). apply sgn_u32. lia. }
    rewrite Ev. destruct (Z.eqb_spec (blen s) (-1)); [lia|]. destruct (Z.leb_spec 0 (blen s)); [|lia].
    rewrite (sarith32_ok m (blen s + 1)) by (unfold int32_max; lia). cbn [bind].
    rewrite sarith32_ok by (unfold int32_max; lia). cbn [bind].
    replace (u32 ((blen s + 1 + 3) / 4 * 4)) with (blen s + 1 + blen pad) by (unfold u32; rewrite Z.mod_small; lia).
    destruct (Z.leb_spec (r_ptr p + (blen s + 1 + blen pad) + 4) (r_end p)); [|lia].
    replace (r_ptr p + 4 + blen s) with (r_ptr p + (4 + blen s)) by lia.
    erewrite load_at_off by (eauto; lia). cbn [bind].
    replace (slice b (4 + blen s) 1) with [0].
    2: { unfold b. rewrite app_assoc. symmetry. change (0 :: pad) with ([0] ++ pad).
         apply slice_app_exact; [rewrite blen_app, blen_le; lia|reflexivity]. }
    change (unle [0] =? 0) with true. cbv iota.
    erewrite load_at_off by (eauto; lia). cbn [bind].
    replace (slice b 4 (blen s)) with s.
    2: { symmetry. unfold b. apply slice_app_exact; [rewrite blen_le; lia|reflexivity]. }
    unfold ok, skip. do 2 f_equal. f_equal. lia.
  Qed.

  Lemma nullable_utf16_any m pre u pad suf : let b := le 4 (blen u) ++ units_bytes u ++ 0 :: 0 :: pad in
    at_chunk mem p pre b suf -> padded b pad -> Forall (in_range 0 (2 ^ 16)) u ->
    rd_nullable_utf16 m mem p = Ok (Some (Some u), skip p (blen b)).
  Proof.
    intros b H (Hp1 & Hp2) Hu. pose proof H as (Hm & Hp & He & Hb2).
    assert (HL : blen b = 4 + 2 * blen u + 2 + blen pad).
    { unfold b. rewrite !blen_app, blen_le, units_bytes_len, !blen_cons; lia. }
    pose proof (blen_nonneg _ u). pose proof (blen_nonneg _ pad). pose proof (blen_nonneg _ pre).
    rewrite HL in He, Hp1.
    assert (EA : align4 ((blen u + 1) * 2) = 2 * blen u + 2 + blen pad) by (unfold align4; lia).
    replace (blen b) with (4 + align4 ((blen u + 1) * 2)) by lia.
    eapply (rd_nullable_utf16_some_at m mem p pre suf u (0 :: 0 :: pad)); [|reflexivity|exact H|exact Hu|].
    - rewrite !blen_cons; lia.
    - lia.
  Qed.

  Lemma parcelable_any pre a d suf : let b := a ++ le 4 (blen d + 4) ++ d in
    at_chunk mem p pre b suf -> all_bytes b -> blen a = 4 -> some_bit a ->
    rd_parcelable mem p = Ok (Some d, skip p (blen b)).
  Proof.
    intros b H Hab Hl Hs. pose proof H as (Hm & Hp & He & Hb2). pose proof (blen_nonneg _ d). pose proof (blen_nonneg _ pre).
    assert (HL : blen b = 8 + blen d) by (unfold b; rewrite !blen_app, blen_le; lia).
    assert (Haa : all_bytes a) by (apply all_bytes_app in Hab; tauto).
    unfold rd_parcelable. erewrite rd_uint32_any by (eauto; lia). cbn [bind]. unfold b at 1.
    rewrite ztake_app_exact by lia. apply some_bit_unle in Hs; [|exact Haa]. apply Z.eqb_neq in Hs. rewrite Hs.
    unfold b in H. apply at_chunk_skip in H. rewrite Hl in H. pose proof H as (_ & Hp2 & He2 & _).
    assert (E : rd_uint32 mem (skip p 4) = Ok (Some (blen d + 4), skip (skip p 4) 4)).
    { erewrite rd_uint32_at by (eauto; reflexivity). rewrite Z.mod_small by lia. reflexivity. }
    rewrite E. cbn [bind]. destruct (Z.leb_spec 4 (blen d + 4)); [|lia].
    apply at_chunk_skip in H. change (blen (le 4 (blen d + 4))) with 4 in H. pose proof H as (_ & Hp3 & He3 & _).
    replace (blen d + 4 - 4) with (blen d) by lia.
    set (q := skip (skip p 4) 4) in *. destruct (Z.leb_spec (r_ptr q + blen d) (r_end q)); [|lia].
    erewrite load_at by (eauto; lia). cbn [bind]. rewrite ztake_all by lia.
    unfold q, ok, skip, r_set_ptr. cbn [r_start r_end r_ptr r_objects]. do 3 f_equal. lia.
  Qed.

  Lemma byte_array_empty pre b suf : at_chunk mem p pre b suf -> blen b = 4 -> sgn 32 (unle b) <= 0 ->
    rd_byte_array mem p = Ok (Some [], skip p 4).
  Proof.
    intros H Hl Hs. unfold rd_byte_array. erewrite can_read_at by (eauto; lia). erewrite load_at by (eauto; lia).
    cbn [bind]. rewrite ztake_all by lia. destruct (Z.leb_spec (sgn 32 (unle b)) 0); [reflexivity|lia].
  Qed.
  Lemma byte_array_any pre d pad suf : let b := le 4 (blen d) ++ d ++ pad in
    at_chunk mem p pre b suf -> padded b pad -> 0 < blen d ->
    rd_byte_array mem p = Ok (Some d, skip p (blen b)).
  Proof.
    intros b H (Hp1 & Hp2) Hl. pose proof H as (Hm & Hp & He & Hb2).
    pose proof (blen_nonneg _ pad). pose proof (blen_nonneg _ pre).
    assert (HL : blen b = 4 + blen d + blen pad) by (unfold b; rewrite !blen_app, blen_le; lia).
    rewrite HL in He, Hp1.
    unfold rd_byte_array. erewrite can_read_at by (eauto; lia). erewrite load_at by (eauto; lia). cbn [bind].
    assert (Ev : sgn 32 (unle (ztake 4 b)) = blen d).
    { unfold b. rewrite ztake_app_exact by (rewrite blen_le; lia).
      rewrite unle_le. change (2 ^ (8 * Z.of_nat 4)) with (2 ^ 32). apply sgn_u32. lia. }
    rewrite Ev.
    destruct (Z.leb_spec (blen d) 0); [lia|]. erewrite can_read_at by (eauto; lia).
    erewrite load_at_off by (eauto; lia). cbn [bind].
    replace (slice b 4 (blen d)) with d.
    2: { symmetry. unfold b. apply slice_app_exact; [rewrite blen_le; lia|reflexivity]. }
    replace (align4 (blen d)) with (blen d + blen pad) by (unfold align4; lia).
    unfold ok, skip. do 2 f_equal. f_equal. lia.
  Qed.

  Lemma wf_text u cs : Forall (in_range 0 (2 ^ 16)) u -> well_formed16 u cs -> utf16_decode u = Some cs.
  Proof. intros Hu W. exact (proj2 (utf16_decode_exact u Hu cs) W). Qed.
  Lemma ill_text u : Forall (in_range 0 (2 ^ 16)) u -> (forall cs, ~ well_formed16 u cs) -> utf16_decode u = None.
  Proof.
    intros Hu N. destruct (utf16_decode u) as [s|] eqn:E; [|reflexivity]. destruct (N s). apply (utf16_decode_exact u Hu). exact E.
  Qed.

  Lemma next_read m k b r : next_is mem p k b r -> read_kind m mem p k = Ok (r, skip p (blen b)).
  Proof.
    intros (HL & rest & Hu). destruct (unread_at b rest Hu) as (pre & suf & H & Hab).
    destruct k; cbn [layout] in HL; cbn [read_kind].
    - destruct HL as (Hl & t & -> & Ht). unfold rd_bool. erewrite rd_uint32_any by (eauto; lia). cbn [rd_map wrap].
      rewrite ztake_all, Hl by lia. do 3 f_equal. pose proof (some_bit_unle b Hab) as Q.
      destruct (Z.eqb_spec (unle b) 0) as [Z0|Z0]; cbn [negb]; destruct t; try reflexivity; exfalso; tauto || intuition congruence.
    - destruct HL as (x & pad & v & E & Hl & Hs & ->). unfold rd_int8. erewrite rd_uint8_at by (eauto; lia).
      cbn [rd_map wrap]. rewrite (signed_sgn 8 x v) by (lia || exact Hs). rewrite Hl. reflexivity.
    - destruct HL as (x & pad & E & Hl & ->). erewrite rd_uint8_at by (eauto; lia). cbn [wrap]. rewrite Hl. reflexivity.
    - destruct HL as (x & y & pad & v & E & Hl & Hs & ->). unfold rd_int16. erewrite rd_uint16_any by (eauto; lia).
      cbn [rd_map wrap]. rewrite (signed_sgn 16 _ v) by (lia || exact Hs). rewrite Hl. reflexivity.
    - destruct HL as (x & y & pad & E & Hl & ->). erewrite rd_uint16_any by (eauto; lia). cbn [wrap]. rewrite Hl. reflexivity.
    - destruct HL as (v & Hl & Hs & ->). unfold rd_int32. erewrite rd_uint32_any by (eauto; lia). cbn [rd_map wrap].
      rewrite ztake_all by lia. rewrite (signed_sgn 32 _ v) by (lia || exact Hs). rewrite Hl. reflexivity.
    - destruct HL as (Hl & ->). erewrite rd_uint32_any by (eauto; lia). cbn [wrap]. rewrite ztake_all, Hl by lia. reflexivity.
    - destruct HL as (v & Hl & Hs & ->). unfold rd_int64. erewrite rd_uint64_any by (eauto; lia). cbn [rd_map wrap].
      rewrite ztake_all by lia. rewrite (signed_sgn 64 _ v) by (lia || exact Hs). rewrite Hl. reflexivity.
    - destruct HL as (Hl & ->). erewrite rd_uint64_any by (eauto; lia). cbn [wrap]. rewrite ztake_all, Hl by lia. reflexivity.
    - destruct HL as (Hl & ->). unfold rd_float. erewrite rd_uint32_any by (eauto; lia). cbn [wrap]. rewrite ztake_all, Hl by lia. reflexivity.
    - destruct HL as (Hl & ->). unfold rd_double. erewrite rd_uint64_any by (eauto; lia). cbn [wrap]. rewrite ztake_all, Hl by lia. reflexivity.
    - destruct HL as (s & pad & -> & Hp & Hs & ->). apply all_bytes_app in Hab.
      erewrite string8_any by (eauto; tauto). reflexivity.
    - destruct HL as [(-> & ->)|(u & pad & -> & Hp & Hlen & Hr & HT)]; unfold rd_nullable_string16.
      + destruct (nullable_none _ _ H m) as [_ ->]. reflexivity.
      + erewrite nullable_utf16_any by eauto. cbn [rd_map wrap]. do 2 f_equal.
        destruct HT as [(cs & W & ->)|(N & ->)]; [rewrite (wf_text u cs Hr W)|rewrite (ill_text u Hr N)]; reflexivity.
    - destruct HL as [(-> & ->)|(u & pad & -> & Hp & Hlen & Hr & ->)].
      + destruct (nullable_none _ _ H m) as [_ ->]. reflexivity.
      + erewrite nullable_utf16_any by eauto. reflexivity.
    - destruct HL as (a & d & -> & Hl & Hs & Hd & ->). erewrite parcelable_any by eauto. reflexivity.
    - destruct HL as [(v & Hl & Hs & Hv & ->)|(d & pad & -> & Hp & Hd & ->)].
      + erewrite byte_array_empty; [cbn [wrap]; rewrite Hl; reflexivity|exact H|exact Hl|].
        rewrite (signed_sgn 32 _ v) by (lia || exact Hs). exact Hv.
      + erewrite byte_array_any by (eauto; lia). reflexivity.
    - destruct HL as (<- & ->). erewrite rd_raw_at by eauto. reflexivity.
    - destruct HL as [(-> & ->)|(s & pad & -> & Hp & Hlen & ->)].
      + destruct (nullable_none _ _ H m) as [-> _]. reflexivity.
      + erewrite nullable_string8_any by eauto. reflexivity.
  Qed.

  (* ---------------------------------------------------------------- *)
  (* What is read was next *)
  Lemma next_intro k n r : 0 <= n -> r_ptr p + n <= r_end p -> layout k (slice mem (r_ptr p) n) r ->
    exists b, next_is mem p k b r.
  Proof.
    intros Hn Hl HL. destruct (unread_split n Hn Hl) as (rest & E). exists (slice mem (r_ptr p) n).
    split; [exact HL|]. exists rest. exact E.
  Qed.
  Lemma here n : 0 <= n -> r_ptr p + n <= r_end p -> blen (slice mem (r_ptr p) n) = n.
  Proof. intros. destruct Hin as (H1 & H2 & H3 & H4). apply slice_len; lia. Qed.

  Lemma u32_was v q : rd_uint32 mem p = Ok (Some v, q) ->
    r_ptr p + 4 <= r_end p /\ v = unle (slice mem (r_ptr p) 4) /\ q = skip p 4.
  Proof.
    unfold rd_uint32. destruct Hin as (H1 & H2 & H3 & H4). rewrite (can_read_inside mem) by (assumption || lia).
    destruct (Z.leb_spec (r_ptr p + 4) (r_end p)); [|discriminate]. rewrite load_inside by lia. cbn [bind].
    intros X; inversion X; subst. auto.
  Qed.
  Lemma u64_was v q : rd_uint64 mem p = Ok (Some v, q) -> r_ptr p + 8 <= r_end p /\ v = unle (slice mem (r_ptr p) 8).
  Proof.
    unfold rd_uint64. destruct Hin as (H1 & H2 & H3 & H4). rewrite (can_read_inside mem) by (assumption || lia).
    destruct (Z.leb_spec (r_ptr p + 8) (r_end p)); [|discriminate]. rewrite load_inside by lia. cbn [bind].
    intros X; inversion X; subst. auto.
  Qed.
  Lemma u16_was v q : rd_uint16 mem p = Ok (Some v, q) -> r_ptr p + 4 <= r_end p /\
    exists x y r, slice mem (r_ptr p) 4 = x :: y :: r /\ v = x + 256 * y.
  Proof.
    unfold rd_uint16. destruct Hin as (H1 & H2 & H3 & H4). rewrite (can_read_inside mem) by (assumption || lia).
    destruct (Z.leb_spec (r_ptr p + 4) (r_end p)); [|discriminate]. rewrite load_inside by lia. cbn [bind].
    intros X; inversion X; subst. split; [assumption|].
    change 4 with (2 + 2). rewrite slice_split by lia. pose proof (slice_len (r_ptr p) 2 ltac:(lia) ltac:(lia) ltac:(lia)) as L.
    apply two_bytes in L. destruct L as (x & y & ->).
    exists x, y, (slice mem (r_ptr p + 2) 2). split; [reflexivity|].
    change (unle [x; y]) with (x + 256 * (y + 256 * 0)). lia.
  Qed.
  Lemma u8_was v q : rd_uint8 mem p = Ok (Some v, q) -> r_ptr p + 4 <= r_end p /\
    exists r, slice mem (r_ptr p) 4 = v :: r.
  Proof.
    unfold rd_uint8. destruct Hin as (H1 & H2 & H3 & H4). rewrite (can_read_inside mem) by (assumption || lia).
    destruct (Z.leb_spec (r_ptr p + 4) (r_end p)); [|discriminate]. rewrite load_inside by lia. cbn [bind].
    intros X; inversion X; subst. split; [assumption|].
    change 4 with (1 + 3). rewrite slice_split by lia. pose proof (slice_len (r_ptr p) 1 ltac:(lia) ltac:(lia) ltac:(lia)) as L.
    apply one_byte in L. destruct L as (x & ->). exists (slice mem (r_ptr p + 1) 3). rewrite unle1. reflexivity.
  Qed.

  Lemma scan_was n q ptr : 0 <= ptr -> ptr + Z.of_nat n <= blen mem -> scan_nul mem ptr n = Ok (Some q) ->
    ptr <= q < ptr + Z.of_nat n /\ slice mem q 1 = [0] /\ ~ In 0 (slice mem ptr (q - ptr)).
  Proof.
    revert ptr. induction n as [|n IH]; intros ptr H0 H1; cbn [scan_nul]; [discriminate|].
    rewrite load_inside by lia. cbn [bind].
    pose proof (slice_len ptr 1 ltac:(lia) ltac:(lia) ltac:(lia)) as L.
    apply one_byte in L. destruct L as (x & E). rewrite E. rewrite unle1. destruct (Z.eqb_spec x 0) as [->|Hx].
    - intros X; inversion X; subst. split; [lia|]. split; [exact E|].
      rewrite Z.sub_diag. unfold slice. rewrite ztake_neg by lia. intros [].
    - intros X. destruct (IH (ptr + 1) ltac:(lia) ltac:(lia) X) as (Q1 & Q2 & Q3). split; [lia|]. split; [exact Q2|].
      replace (q - ptr) with (1 + (q - (ptr + 1))) by lia. rewrite slice_split by lia. rewrite E.
      cbn [app In]. intros [A|A]; [exact (Hx A)|exact (Q3 A)].
  Qed.
  Lemma string8_was s q : rd_string8 mem p = Ok (Some s, q) -> exists b, next_is mem p KString8 b (RText (Some s)).
  Proof.
    unfold rd_string8. destruct Hin as (H1 & H2 & H3 & H4).
    destruct (scan_nul mem (r_ptr p) _) as [[f|]|] eqn:E; cbn [bind]; try discriminate.
    apply scan_was in E; [|lia|lia]. destruct E as (Q1 & Q2 & Q3).
    pose proof (align4_spec (f - r_ptr p + 1)) as A.
    destruct (Z.leb_spec (r_ptr p + align4 (f - r_ptr p + 1)) (r_end p)) as [L|L]; [|discriminate].
    rewrite load_inside by lia. cbn [bind]. intros X; inversion X; subst.
    set (n := f - r_ptr p) in *. apply next_intro with (align4 (n + 1)); [lia|exact L|].
    cbn [layout]. exists (slice mem (r_ptr p) n), (slice mem (f + 1) (align4 (n + 1) - n - 1)).
    assert (E : slice mem (r_ptr p) (align4 (n + 1)) =
      slice mem (r_ptr p) n ++ 0 :: slice mem (f + 1) (align4 (n + 1) - n - 1)).
    { replace (align4 (n + 1)) with (n + (1 + (align4 (n + 1) - n - 1))) at 1 by lia.
      rewrite slice_split by lia. f_equal. replace (r_ptr p + n) with f by lia.
      rewrite slice_split by lia. rewrite Q2. reflexivity. }
    split; [exact E|]. split; [|split; [exact Q3|reflexivity]].
    split; [rewrite here by lia; lia|]. rewrite slice_len by lia. lia.
  Qed.

  Lemma zero1 o : 0 <= o -> o + 1 <= blen mem -> unle (slice mem o 1) = 0 -> slice mem o 1 = [0].
  Proof.
    intros H1 H2 H3. pose proof (slice_len o 1 ltac:(lia) ltac:(lia) ltac:(lia)) as L.
    apply one_byte in L. destruct L as (x & E). rewrite E in *. rewrite unle1 in H3. subst. reflexivity.
  Qed.
  Lemma zero2 o : 0 <= o -> o + 2 <= blen mem -> unle (slice mem o 2) = 0 -> slice mem o 2 = [0; 0].
  Proof.
    intros H1 H2 H3. pose proof (slice_len o 2 ltac:(lia) ltac:(lia) ltac:(lia)) as L. pose proof (slice_bytes o 2) as B.
    apply two_bytes in L. destruct L as (x & y & E). rewrite E in *.
    inversion B as [|? ? Bx B1]; subst. inversion B1 as [|? ? By B2]; subst. unfold is_byte in *.
    change (unle [x; y]) with (x + 256 * (y + 256 * 0)) in H3.
    assert (x = 0) by lia. assert (y = 0) by lia. subst. reflexivity.
  Qed.

  Lemma nullable_string8_was m s q : ~ bad_call m mem p KNullableString8 ->
    rd_nullable_string8 m mem p = Ok (Some s, q) -> exists b, next_is mem p KNullableString8 b (RText s).
  Proof.
    intros Hbad. unfold rd_nullable_string8. destruct Hin as (H1 & H2 & H3 & H4).
    destruct (Z.leb_spec (r_ptr p + 4) (r_end p)) as [L4|L4]; [|discriminate].
    rewrite load_inside by lia. cbn [bind]. unfold bad_call in Hbad. fold (len_field mem p).
    pose proof (sgn32_range (unle (slice mem (r_ptr p) 4))) as HR. fold (len_field mem p) in HR.
    destruct (Z.eqb_spec (len_field mem p) (-1)) as [E1|E1].
    { intros X; inversion X; subst. apply next_intro with 4; [lia|exact L4|]. cbn [layout]. left. split; [|reflexivity].
      apply le4_minus_one; [apply slice_bytes|apply here; lia|exact E1]. }
    destruct (Z.leb_spec 0 (len_field mem p)) as [Hl|Hl]; [|discriminate].
    destruct (Z.lt_ge_cases (len_field mem p) (2 ^ 31 - 4)) as [Hs|Hs].
    - set (len := len_field mem p) in *.
      rewrite (sarith32_ok m (len + 1)) by (unfold int32_max; lia). cbn [bind].
      rewrite sarith32_ok by (unfold int32_max; lia). cbn [bind].
      replace (u32 ((len + 1 + 3) / 4 * 4)) with (align4 (len + 1)) by (unfold u32, align4; rewrite Z.mod_small; lia).
      pose proof (align4_spec (len + 1)) as A.
      destruct (Z.leb_spec (r_ptr p + align4 (len + 1) + 4) (r_end p)) as [L|L]; [|discriminate].
      rewrite load_inside by lia. cbn [bind].
      destruct (Z.eqb_spec (unle (slice mem (r_ptr p + 4 + len) 1)) 0) as [Z0|Z0]; [|discriminate].
      rewrite load_inside by lia. cbn [bind]. intros X; inversion X; subst. clear X.
      apply next_intro with (4 + align4 (len + 1)); [lia|lia|]. cbn [layout]. right.
      exists (slice mem (r_ptr p + 4) len), (slice mem (r_ptr p + 4 + len + 1) (align4 (len + 1) - len - 1)).
      rewrite slice_len by lia. unfold padded. rewrite !slice_len by lia. split.
      { replace (4 + align4 (len + 1)) with (4 + (len + (1 + (align4 (len + 1) - len - 1)))) by lia.
        rewrite slice_split by lia. f_equal.
        { apply le4_nonneg; [apply slice_bytes|apply here; lia|reflexivity|exact Hl]. }
        rewrite slice_split by lia. f_equal. rewrite slice_split by lia. rewrite zero1 by (assumption || lia). reflexivity. }
      split; [lia|]. split; [lia|reflexivity].
    - destruct m; [exfalso; apply Hbad; split; [assumption|lia]|]. clear Hbad.
      set (len := len_field mem p) in *.
      assert (E : exists v, 2 ^ 31 <= u32 (v / 4 * 4) /\ forall B (k : Z -> res B),
        (let* l1 := sarith32 Wrapv (len + 1) in let* l2 := sarith32 Wrapv (l1 + 3) in k l2) = k v).
      { unfold sarith32 at 1. unfold int32_max.
        destruct ((- 2 ^ 31 <=? len + 1) && (len + 1 <=? 2 ^ 31 - 1)) eqn:G1.
        - exists (len + 4 - 2 ^ 32). split; [unfold u32; lia|]. intros B k. cbn [bind]. unfold sarith32, int32_max.
          destruct ((- 2 ^ 31 <=? len + 1 + 3) && (len + 1 + 3 <=? 2 ^ 31 - 1)) eqn:G2; [lia|].
          cbn [bind]. f_equal. unfold sgn. change (2 ^ (32 - 1)) with (2 ^ 31).
          rewrite Z.mod_small by lia. destruct (Z.ltb_spec (len + 1 + 3) (2 ^ 31)); lia.
        - exists (- 2 ^ 31 + 3). split; [vm_compute; discriminate|]. intros B k. cbn [bind].
          replace (sgn 32 (len + 1)) with (- 2 ^ 31) by (replace len with (2 ^ 31 - 1) by lia; reflexivity).
          rewrite sarith32_ok by (unfold int32_max; lia). reflexivity. }
      destruct E as (v & Hv & E). rewrite E.
      destruct (Z.leb_spec (r_ptr p + u32 (v / 4 * 4) + 4) (r_end p)) as [X|X]; [lia|discriminate].
  Qed.

  Lemma nullable_utf16_was m u q : ~ bad_call m mem p KUtf16 ->
    rd_nullable_utf16 m mem p = Ok (Some u, q) -> exists b, next_is mem p KUtf16 b (RUnits u).
  Proof.
    intros Hbad. unfold rd_nullable_utf16. destruct Hin as (H1 & H2 & H3 & H4).
    destruct (Z.leb_spec (r_ptr p + 4) (r_end p)) as [L4|L4]; [|discriminate].
    rewrite load_inside by lia. cbn [bind]. unfold bad_call in Hbad. fold (len_field mem p).
    pose proof (sgn32_range (unle (slice mem (r_ptr p) 4))) as HR. fold (len_field mem p) in HR.
    destruct (Z.eqb_spec (len_field mem p) (-1)) as [E1|E1].
    { intros X; inversion X; subst. apply next_intro with 4; [lia|exact L4|]. cbn [layout]. left. split; [|reflexivity].
      apply le4_minus_one; [apply slice_bytes|apply here; lia|exact E1]. }
    destruct (Z.leb_spec 0 (len_field mem p)) as [Hl|Hl]; [|discriminate].
    destruct (Z.lt_ge_cases (len_field mem p) (2 ^ 30 - 2)) as [Hs|Hs].
    - set (len := len_field mem p) in *.
      rewrite (sarith32_ok m (len + 1)) by (unfold int32_max; lia). cbn [bind].
      rewrite (sarith32_ok m ((len + 1) * 2)) by (unfold int32_max; lia). cbn [bind].
      rewrite sarith32_ok by (unfold int32_max; lia). cbn [bind].
      replace (u32 (((len + 1) * 2 + 3) / 4 * 4)) with (align4 ((len + 1) * 2))
        by (unfold u32, align4; rewrite Z.mod_small; lia).
      pose proof (align4_spec ((len + 1) * 2)) as A. set (al := align4 ((len + 1) * 2)) in *.
      destruct (Z.leb_spec (r_ptr p + al + 4) (r_end p)) as [L|L]; [|discriminate].
      rewrite load_inside by lia. cbn [bind].
      destruct (Z.eqb_spec (unle (slice mem (r_ptr p + 4 + 2 * len) 2)) 0) as [Z0|Z0]; [|discriminate].
      rewrite load_inside by lia. cbn [bind]. intros X; inversion X; subst. clear X.
      set (us := slice mem (r_ptr p + 4) (2 * len)) in *.
      assert (Lu : blen us = 2 * len) by (unfold us; apply slice_len; lia).
      assert (Lb : blen (bytes_units us) = len) by (pose proof (blen_bytes_units us ltac:(lia)); lia).
      apply next_intro with (4 + al); [lia|lia|]. cbn [layout]. right.
      exists (bytes_units us), (slice mem (r_ptr p + 4 + 2 * len + 2) (al - 2 * len - 2)).
      rewrite Lb. unfold padded. rewrite !slice_len by lia. split.
      { replace (4 + al) with (4 + (2 * len + (2 + (al - 2 * len - 2)))) by lia.
        rewrite slice_split by lia. f_equal.
        { apply le4_nonneg; [apply slice_bytes|apply here; lia|reflexivity|exact Hl]. }
        rewrite slice_split by lia. f_equal.
        { symmetry. apply units_bytes_units; [apply slice_bytes|fold us; rewrite Lu; lia]. }
        rewrite slice_split by lia. rewrite zero2 by (assumption || lia). reflexivity. }
      split; [lia|]. split; [lia|]. split; [|reflexivity].
      apply bytes_units_range. apply slice_bytes.
    - set (len := len_field mem p) in *. destruct m; [exfalso; apply Hbad; split; [assumption|lia]|].
      destruct (utf16_wrap len) as (v & Ev & Hv); [split; [lia|]|].
      { destruct (Z.lt_ge_cases len (2 ^ 31 - 2)); [assumption|exfalso; apply Hbad; split; [assumption|lia]]. }
      assert (E3 : forall B (k : Z -> res B),
        (let* l1 := sarith32 Wrapv (len + 1) in
         let* l2 := sarith32 Wrapv (l1 * 2) in
         let* l3 := sarith32 Wrapv (l2 + 3) in k l3) = k v).
      { intros B k. revert Ev. unfold bind.
        destruct (sarith32 Wrapv (len + 1)); [|discriminate].
        destruct (sarith32 Wrapv (a * 2)); [|discriminate].
        intros ->. reflexivity. }
      rewrite E3.
      destruct (Z.leb_spec (r_ptr p + u32 (v / 4 * 4) + 4) (r_end p)) as [X|X]; [exfalso; lia|discriminate].
  Qed.

  Lemma byte_array_was d q : ~ bad_call Strict mem p KByteArray ->
    rd_byte_array mem p = Ok (Some d, q) -> exists b, next_is mem p KByteArray b (RBytes d).
  Proof.
    intros Hbad. unfold rd_byte_array. destruct Hin as (H1 & H2 & H3 & H4).
    rewrite (can_read_inside mem) by (assumption || lia).
    destruct (Z.leb_spec (r_ptr p + 4) (r_end p)) as [L4|L4]; [|discriminate].
    rewrite load_inside by lia. cbn [bind]. unfold bad_call in Hbad. fold (len_field mem p).
    pose proof (sgn32_range (unle (slice mem (r_ptr p) 4))) as HR. fold (len_field mem p) in HR.
    destruct (Z.leb_spec (len_field mem p) 0) as [Hl|Hl].
    { intros X; inversion X; subst. apply next_intro with 4; [lia|exact L4|]. cbn [layout]. left.
      exists (len_field mem p). split; [apply here; lia|]. split; [apply sgn_signed; lia|]. split; [exact Hl|reflexivity]. }
    set (l := len_field mem p) in *. pose proof (align4_spec l) as A.
    rewrite (can_read_inside mem) by (assumption || lia).
    destruct (Z.leb_spec (r_ptr p + (4 + l)) (r_end p)) as [L|L]; [|discriminate].
    rewrite load_inside by lia. cbn [bind]. intros X; inversion X; subst. clear X.
    assert (r_ptr p + 4 + align4 l <= r_end p) by lia.
    apply next_intro with (4 + align4 l); [lia|lia|]. cbn [layout]. right.
    exists (slice mem (r_ptr p + 4) l), (slice mem (r_ptr p + 4 + l) (align4 l - l)).
    rewrite slice_len by lia. unfold padded. rewrite !slice_len by lia. split.
    { replace (4 + align4 l) with (4 + (l + (align4 l - l))) by lia. rewrite slice_split by lia. f_equal.
      { apply le4_nonneg; [apply slice_bytes|apply here; lia|reflexivity|lia]. }
      rewrite slice_split by lia. reflexivity. }
    split; [lia|]. split; [lia|reflexivity].
  Qed.
End At.

Lemma skip_inside mem p n : inside mem p -> 0 <= n -> r_ptr p + n <= r_end p -> inside mem (skip p n).
Proof. unfold inside, skip, r_set_ptr. cbn. lia. Qed.

Lemma parcelable_was mem p d q : inside mem p -> blen mem < 2 ^ 31 -> all_bytes mem ->
  rd_parcelable mem p = Ok (Some d, q) -> exists b, next_is mem p KParcelable b (RBytes d).
Proof.
  intros Hin Hb Ha. unfold rd_parcelable. destruct (rd_uint32 mem p) as [[[nn|] p1]|] eqn:E1; cbn [bind]; try discriminate.
  apply u32_was in E1; [|assumption..]. destruct E1 as (L1 & E1 & ->).
  destruct (Z.eqb_spec nn 0) as [|Hn]; [discriminate|].
  pose proof (skip_inside mem p 4 Hin ltac:(lia) L1) as Hin1.
  destruct (rd_uint32 mem (skip p 4)) as [[[ps|] p2]|] eqn:E2; cbn [bind]; try discriminate.
  apply u32_was in E2; [|assumption..]. destruct E2 as (L2 & E2 & ->).
  change (r_ptr (skip p 4)) with (r_ptr p + 4) in *. change (r_end (skip p 4)) with (r_end p) in *.
  destruct (Z.leb_spec 4 ps) as [H4|]; [|discriminate].
  change (r_ptr (skip (skip p 4) 4)) with (r_ptr p + 4 + 4) in *. change (r_end (skip (skip p 4) 4)) with (r_end p) in *.
  destruct (Z.leb_spec (r_ptr p + 4 + 4 + (ps - 4)) (r_end p)) as [L3|]; [|discriminate].
  pose proof Hin as (I1 & I2 & I3 & I4). rewrite load_inside by lia. cbn [bind].
  intros X; inversion X; subst d. clear X.
  pose proof (slice_bytes mem Ha (r_ptr p + 4) 4) as B2. pose proof (slice_len mem (r_ptr p + 4) 4 ltac:(lia) ltac:(lia) ltac:(lia)) as N2.
  apply next_intro with (4 + ps); [assumption|lia|lia|]. cbn [layout].
  exists (slice mem (r_ptr p) 4), (slice mem (r_ptr p + 4 + 4) (ps - 4)).
  rewrite !slice_len by lia. replace (ps - 4 + 4) with ps by lia. split.
  { replace (4 + ps) with (4 + (4 + (ps - 4))) by lia. rewrite slice_split by lia. f_equal.
    rewrite slice_split by lia. f_equal. rewrite (le4_unle _ B2 N2). f_equal. lia. }
  split; [reflexivity|]. split; [|split; [lia|reflexivity]].
  apply some_bit_unle; [apply slice_bytes; exact Ha|]. lia.
Qed.

Lemma raw_was mem n : forall p l q, inside mem p -> blen mem < 2 ^ 31 -> all_bytes mem ->
  rd_raw mem p n = Ok (Some l, q) -> exists b, next_is mem p (KRaw n) b (RBytes l).
Proof.
  intros p l q Hin Hb Ha E.
  assert (G : length l = n /\ r_ptr p + blen l <= r_end p /\ l = slice mem (r_ptr p) (blen l)).
  { revert p l q Hin E. induction n as [|n IH]; intros p l q Hin; cbn [rd_raw].
    - intros X; inversion X; subst. split; [reflexivity|]. pose proof Hin as (I1 & I2 & I3 & I4).
      change (blen (@nil Z)) with 0. split; [lia|]. unfold slice. rewrite ztake_neg by lia. reflexivity.
    - unfold rd_byte. destruct (Z.ltb_spec (r_ptr p) (r_end p)) as [L|]; [|discriminate].
      pose proof Hin as (I1 & I2 & I3 & I4). rewrite load_inside by lia. cbn [bind ok].
      pose proof (slice_len mem (r_ptr p) 1 ltac:(lia) ltac:(lia) ltac:(lia)) as N1.
      fold (skip p 1). pose proof (skip_inside mem p 1 Hin ltac:(lia) ltac:(lia)) as Hin1.
      destruct (rd_raw mem (skip p 1) n) as [[[l1|] q1]|] eqn:E1; try discriminate.
      intros X; inversion X; subst. destruct (IH _ _ _ Hin1 E1) as (G1 & G2 & G3).
      change (r_ptr (skip p 1)) with (r_ptr p + 1) in *. change (r_end (skip p 1)) with (r_end p) in *.
      rewrite blen_cons. split; [cbn; congruence|]. split; [lia|].
      pose proof (blen_nonneg _ l1). rewrite slice_split by lia. rewrite <- G3.
      apply one_byte in N1. destruct N1 as (x & ->). rewrite unle1. reflexivity. }
  destruct G as (G1 & G2 & G3). pose proof (blen_nonneg _ l).
  apply next_intro with (blen l); [assumption|lia|lia|]. cbn [layout]. rewrite <- G3. split; [exact G1|reflexivity].
Qed.

Lemma read_next mem p m k r q : inside mem p -> blen mem < 2 ^ 31 -> all_bytes mem -> ~ bad_call m mem p k ->
  read_kind m mem p k = Ok (r, q) -> r <> RFail -> exists b, next_is mem p k b r.
Proof.
  intros Hin Hb Ha Hbad HR Hr.
  assert (W : forall A (f : A -> result) x, wrap f x = Ok (r, q) -> exists a, x = Ok (Some a, q) /\ r = f a).
  { intros A f [[[a|] y]|]; cbn [wrap]; intros X; inversion X; subst; [eauto|congruence]. }
  assert (M : forall A B (f : A -> B) x a, rd_map f x = Ok (Some a, q) -> exists c, x = Ok (Some c, q) /\ a = f c).
  { intros A B f [[[c|] y]|] a; cbn [rd_map]; intros X; inversion X; subst; eauto. }
  destruct k; cbn [read_kind] in HR; apply W in HR; destruct HR as (v & HR & ->).
  - unfold rd_bool in HR. apply M in HR. destruct HR as (c & HR & ->). apply u32_was in HR; [|assumption..].
    destruct HR as (L & -> & _). apply next_intro with 4; [assumption|lia|exact L|]. cbn [layout].
    split; [apply here; assumption || lia|]. eexists. split; [reflexivity|].
    rewrite (some_bit_unle _ (slice_bytes mem Ha _ _)). destruct (Z.eqb_spec (unle (slice mem (r_ptr p) 4)) 0); cbn; intuition congruence.
  - unfold rd_int8 in HR. apply M in HR. destruct HR as (c & HR & ->). apply u8_was in HR; [|assumption..].
    destruct HR as (L & r & E). apply next_intro with 4; [assumption|lia|exact L|]. cbn [layout].
    exists c, r, (sgn 8 c). split; [exact E|]. split; [apply here; assumption || lia|]. split; [apply sgn_signed; lia|reflexivity].
  - apply u8_was in HR; [|assumption..]. destruct HR as (L & r & E).
    apply next_intro with 4; [assumption|lia|exact L|]. cbn [layout].
    exists v, r. split; [exact E|]. split; [apply here; assumption || lia|reflexivity].
  - unfold rd_int16 in HR. apply M in HR. destruct HR as (c & HR & ->). apply u16_was in HR; [|assumption..].
    destruct HR as (L & x & y & r & E & ->). apply next_intro with 4; [assumption|lia|exact L|]. cbn [layout].
    exists x, y, r, (sgn 16 (x + 256 * y)). split; [exact E|]. split; [apply here; assumption || lia|]. split; [apply sgn_signed; lia|reflexivity].
  - apply u16_was in HR; [|assumption..]. destruct HR as (L & x & y & r & E & ->).
    apply next_intro with 4; [assumption|lia|exact L|]. cbn [layout].
    exists x, y, r. split; [exact E|]. split; [apply here; assumption || lia|reflexivity].
  - unfold rd_int32 in HR. apply M in HR. destruct HR as (c & HR & ->). apply u32_was in HR; [|assumption..].
    destruct HR as (L & -> & _). apply next_intro with 4; [assumption|lia|exact L|]. cbn [layout].
    eexists. split; [apply here; assumption || lia|]. split; [apply sgn_signed; lia|reflexivity].
  - apply u32_was in HR; [|assumption..]. destruct HR as (L & -> & _).
    apply next_intro with 4; [assumption|lia|exact L|]. cbn [layout]. split; [apply here; assumption || lia|reflexivity].
  - unfold rd_int64 in HR. apply M in HR. destruct HR as (c & HR & ->). apply u64_was in HR; [|assumption..].
    destruct HR as (L & ->). apply next_intro with 8; [assumption|lia|exact L|]. cbn [layout].
    eexists. split; [apply here; assumption || lia|]. split; [apply sgn_signed; lia|reflexivity].
  - apply u64_was in HR; [|assumption..]. destruct HR as (L & ->).
    apply next_intro with 8; [assumption|lia|exact L|]. cbn [layout]. split; [apply here; assumption || lia|reflexivity].
  - unfold rd_float in HR. apply u32_was in HR; [|assumption..]. destruct HR as (L & -> & _).
    apply next_intro with 4; [assumption|lia|exact L|]. cbn [layout]. split; [apply here; assumption || lia|reflexivity].
  - unfold rd_double in HR. apply u64_was in HR; [|assumption..]. destruct HR as (L & ->).
    apply next_intro with 8; [assumption|lia|exact L|]. cbn [layout]. split; [apply here; assumption || lia|reflexivity].
  - eapply string8_was; eauto.
  - unfold rd_nullable_string16 in HR. apply M in HR. destruct HR as (c & HR & ->).
    apply nullable_utf16_was in HR; [|assumption..]. destruct HR as (b & HL & Hn). exists b. split; [|exact Hn].
    cbn [layout] in HL |- *. destruct HL as [(-> & X)|(u & pad & Eb & Hp & Hl & Hf & X)]; inversion X; subst c.
    + left. auto.
    + right. exists u, pad. do 4 (split; [assumption|]). destruct (utf16_decode u) as [cs|] eqn:E.
      * left. exists cs. split; [|reflexivity]. apply (utf16_decode_exact u Hf). exact E.
      * right. split; [|reflexivity]. intros cs Wf. apply (utf16_decode_exact u Hf) in Wf. congruence.
  - apply nullable_utf16_was in HR; assumption.
  - eapply parcelable_was; eauto.
  - apply byte_array_was in HR; [assumption..|]. intros X; apply Hbad. exact X.
  - eapply raw_was; eauto.
  - apply nullable_string8_was in HR; assumption.
Qed.

Theorem decode_exact m mem p k : inside mem p -> blen mem < 2 ^ 31 -> all_bytes mem -> ~ bad_call m mem p k ->
  (forall b r, next_is mem p k b r -> read_kind m mem p k = Ok (r, r_set_ptr p (r_ptr p + blen b))) /\
  ((forall b r, ~ next_is mem p k b r) ->
   exists p1, read_kind m mem p k = Ok (RFail, p1) /\ inside mem p1 /\ (atomic_kind k -> p1 = p)).
Proof.
  intros Hin Hb Ha Hbad. split.
  - intros b r Hn. exact (next_read mem p Hin Hb Ha m k b r Hn).
  - intros Hno. destruct (read_kind_safe m mem p k Hin Hb Ha Hbad) as (r & p1 & E & (Mi & _) & Hat).
    assert (r = RFail).
    { destruct r; try reflexivity; exfalso;
        (destruct (read_next mem p m k _ p1 Hin Hb Ha Hbad E ltac:(discriminate)) as (bb & Hn); exact (Hno _ _ Hn)). }
    subst r. exists p1. split; [exact E|]. split; [exact Mi|]. intros At. exact (Hat At eq_refl).
Qed.

Lemma next_unique mem p k b1 r1 b2 r2 : inside mem p -> blen mem < 2 ^ 31 -> all_bytes mem ->
  next_is mem p k b1 r1 -> next_is mem p k b2 r2 -> b1 = b2 /\ r1 = r2.
Proof.
  intros Hin Hb Ha N1 N2. pose proof (next_read mem p Hin Hb Ha Strict k b1 r1 N1) as E1.
  pose proof (next_read mem p Hin Hb Ha Strict k b2 r2 N2) as E2. rewrite E1 in E2. inversion E2 as [[Er El]].
  assert (L : blen b1 = blen b2) by lia. split; [|reflexivity].
  destruct N1 as (_ & t1 & U1). destruct N2 as (_ & t2 & U2). rewrite U1 in U2.
  rewrite <- (ztake_app_exact _ b1 t1 (blen b1) eq_refl), U2, L. apply ztake_app_exact. reflexivity.
Qed.

(* The items of a block of bytes *)
Lemma layouts_read m ks : forall mem p bs rs rest, inside mem p -> blen mem < 2 ^ 31 -> all_bytes mem ->
  layouts ks bs rs -> unread mem p = bs ++ rest ->
  read_kinds m mem p ks = Ok (rs, r_set_ptr p (r_ptr p + blen bs)).
Proof.
  induction ks as [|k ks IH]; intros mem p bs rs rest Hin Hb Ha HL Hu; inversion HL as [|? b r ? bs1 rs1 Hk Hks]; subst.
  - cbn [read_kinds]. rewrite blen_nil. destruct p; unfold r_set_ptr; cbn. do 3 f_equal. lia.
  - cbn [read_kinds]. rewrite <- app_assoc in Hu.
    assert (Hn : next_is mem p k b r) by (split; [exact Hk|eauto]).
    rewrite (next_read mem p Hin Hb Ha m k b r Hn). cbn [bind].
    pose proof Hin as (I1 & I2 & I3 & I4). pose proof (blen_nonneg _ b). pose proof (blen_nonneg _ bs1). pose proof (blen_nonneg _ rest).
    assert (Hlen : blen b + (blen bs1 + blen rest) = r_end p - r_ptr p).
    { rewrite <- !blen_app, <- Hu. unfold unread. apply slice_len; lia. }
    assert (Hin1 : inside mem (skip p (blen b))) by (apply skip_inside; [exact Hin|lia|lia]).
    rewrite (IH mem (skip p (blen b)) bs1 rs1 rest Hin1 Hb Ha Hks).
    + cbn [bind]. unfold skip, r_set_ptr. cbn [r_start r_end r_ptr r_objects]. rewrite blen_app. do 3 f_equal. lia.
    + unfold unread in *. unfold skip. cbn [r_ptr r_end r_set_ptr].
      replace (r_end p - r_ptr p) with (blen b + (r_end p - (r_ptr p + blen b))) in Hu by lia.
      rewrite slice_split in Hu by lia.
      assert (E : zdrop (blen b) (slice mem (r_ptr p) (blen b) ++ slice mem (r_ptr p + blen b) (r_end p - (r_ptr p + blen b)))
        = zdrop (blen b) (b ++ bs1 ++ rest)) by (rewrite Hu; reflexivity).
      rewrite !zdrop_app_exact in E; [exact E|reflexivity|]. symmetry. apply slice_len; lia.
Qed.

(* What the writer appends *)
Lemma written_layout v b : value_ok v -> v <> VParcelable None -> append_value [] v = Ok b -> blen b < 2 ^ 31 ->
  layout (kind_of v) b (expected v).
Proof.
  intros Hv Hn E Hb. rewrite append_value_eq in E. cbn [app] in E. injection E as <-.
  pose proof (chunk_bytes v Hv) as Ha. set (p := reader_init 0 (blen (chunk v)) []).
  pose proof (blen_nonneg _ (chunk v)) as L0.
  assert (Hin : inside (chunk v) p) by (unfold inside, p; cbn; lia).
  assert (R : read_kind Strict (chunk v) p (kind_of v) = Ok (expected v, skip p (blen (chunk v)))).
  { apply (read_value_at Strict (chunk v) p [] []); [exact Hv| |exact Hb].
    unfold at_chunk. rewrite app_nil_r. cbn [app]. unfold p. cbn [reader_init r_ptr r_end]. rewrite blen_nil. repeat split; lia. }
  assert (G : ~ bad_call Strict (chunk v) p (kind_of v)).
  { intros B. pose proof (bad_call_bad _ _ _ _ Hin Hb B) as X. rewrite R in X. cbn in X. lia. }
  assert (F : expected v <> RFail).
  { destruct v; cbn [expected]; try discriminate; repeat match goal with |- context[match ?x with _ => _ end] => destruct x end; congruence. }
  destruct (read_next _ _ _ _ _ _ Hin Hb Ha G R F) as (b & HL & rest & Hu).
  assert (E : b = chunk v); [|rewrite <- E; exact HL].
  assert (N : next_is (chunk v) p (kind_of v) b (expected v)) by (split; [exact HL|eauto]).
  pose proof (next_read _ _ Hin Hb Ha Strict _ _ _ N) as R2. rewrite R in R2. inversion R2 as [El].
  assert (U : unread (chunk v) p = chunk v) by (unfold unread, p; cbn [reader_init r_ptr r_end]; apply slice_all; lia).
  rewrite U in Hu. assert (Lr : blen rest = 0).
  { assert (X : blen (chunk v) = blen b + blen rest) by (rewrite Hu at 1; apply blen_app). lia. }
  apply blen_zero in Lr. subst rest. rewrite app_nil_r in Hu. symmetry. exact Hu.
Qed.
Lemma written_layouts vs : forall b, Forall value_ok vs -> ~ In (VParcelable None) vs ->
  append_values [] vs = Ok b -> blen b < 2 ^ 31 -> layouts (map kind_of vs) b (map expected vs).
Proof.
  intros b Hv Hn E Hb. rewrite append_values_eq in E. cbn [app] in E. injection E as <-.
  induction vs as [|v vs IH]; cbn [map flat_map]; [constructor|].
  inversion Hv as [|? ? Hv1 Hv2]; subst. cbn [flat_map] in Hb. rewrite blen_app in Hb.
  pose proof (blen_nonneg _ (chunk v)). pose proof (blen_nonneg _ (flat_map chunk vs)).
  constructor.
  - apply written_layout; [exact Hv1| |apply (append_value_eq [] v)|lia]. intros ->. apply Hn. left. reflexivity.
  - apply IH; [exact Hv2| |lia]. intros X. apply Hn. right. exact X.
Qed.
