(* Proofs about the plain data writer and reader *)
From Verif Require Import Base BaseLemmas UtfModel UtfProofs WriterModel ReaderModel CodecSpec.

(* ------------------------------------------------------------------ *)
(* Writer: every append adds a definite chunk at the end *)

Lemma set_size_grow buf n :
  0 <= n -> set_size buf (blen buf + n) = buf ++ zrepeat uninit n.
Proof.
  intros H; unfold set_size.
  destruct (Z.leb_spec (blen buf + n) (blen buf)).
  - replace n with 0 by lia. rewrite ztake_all by lia.
    unfold zrepeat; cbn; rewrite app_nil_r; reflexivity.
  - f_equal; f_equal; lia.
Qed.

Lemma zrepeat_split {A} (x : A) n k :
  0 <= k <= n -> zrepeat x n = zrepeat x k ++ zrepeat x (n - k).
Proof.
  intros H; unfold zrepeat. rewrite <- repeat_app. f_equal; lia.
Qed.

Lemma store_tail buf t o s :
  0 <= o -> o + blen s <= blen t ->
  store (buf ++ t) (blen buf + o) s = Ok (buf ++ poke t o s).
Proof.
  intros H1 H2. unfold store. pose proof (blen_nonneg _ buf). rewrite blen_app.
  destruct ((0 <=? blen buf + o) && (blen buf + o + blen s <=? blen buf + blen t)) eqn:E; [|lia].
  f_equal. unfold poke. pose proof (blen_nonneg _ s).
  rewrite ztake_app_r by lia. replace (blen buf + o - blen buf) with o by lia.
  rewrite zdrop_app_r by lia. replace (blen buf + o + blen s - blen buf) with (o + blen s) by lia.
  rewrite <- app_assoc. reflexivity.
Qed.

Lemma poke_fill (d r : bytes) (x : Z) n :
  blen d + blen r <= n ->
  poke (d ++ zrepeat x (n - blen d)) (blen d) r = d ++ r ++ zrepeat x (n - blen d - blen r).
Proof.
  intros H. pose proof (blen_nonneg _ d). pose proof (blen_nonneg _ r).
  rewrite (zrepeat_split x (n - blen d) (blen r)) by lia.
  apply poke_app; [reflexivity|]. rewrite blen_zrepeat; lia.
Qed.

Lemma zrepeat_0 {A} (x : A) n : n <= 0 -> zrepeat x n = [].
Proof. intros H; unfold zrepeat; replace (Z.to_nat n) with O by lia; reflexivity. Qed.

Lemma zrepeat_blen0 {A} (x : A) n : zrepeat x n = [] ++ zrepeat x (n - blen (@nil Z)).
Proof. rewrite blen_nil, Z.sub_0_r; reflexivity. Qed.

Lemma poke_first (r : bytes) (x : Z) n :
  blen r <= n -> poke (zrepeat x n) 0 r = r ++ zrepeat x (n - blen r).
Proof.
  intros H. pose proof (blen_nonneg _ r).
  rewrite (zrepeat_split x n (blen r)) by lia.
  rewrite <- (app_nil_l (zrepeat x (blen r) ++ _)).
  rewrite poke_app; [reflexivity|reflexivity|rewrite blen_zrepeat; lia].
Qed.

Lemma w_padded_eq buf d :
  blen d <= 4 -> w_padded buf d = Ok (buf ++ d ++ zrepeat 0 (4 - blen d)).
Proof.
  intros H. pose proof (blen_nonneg _ d). unfold w_padded.
  rewrite set_size_grow by lia. rewrite blen_app, blen_zrepeat.
  replace (blen buf + Z.max 0 4 - 4) with (blen buf + 0) by lia.
  rewrite store_tail by (rewrite ?blen_zrepeat; lia). cbn [bind].
  rewrite poke_first by lia.
  replace (blen buf + 0 + blen d) with (blen buf + blen d) by lia.
  rewrite store_tail by (rewrite ?blen_app, ?blen_zrepeat; lia).
  rewrite poke_fill by (rewrite blen_zrepeat; lia).
  rewrite blen_zrepeat. rewrite (zrepeat_0 uninit) by lia.
  rewrite app_nil_r; reflexivity.
Qed.

Lemma w_int32_eq buf v : w_int32 buf v = Ok (buf ++ le 4 v).
Proof.
  unfold w_int32. rewrite set_size_grow by lia. rewrite blen_app, blen_zrepeat.
  replace (blen buf + Z.max 0 4 - 4) with (blen buf + 0) by lia.
  rewrite store_tail by (rewrite ?blen_zrepeat, ?blen_le; lia).
  rewrite poke_first by (rewrite blen_le; lia).
  rewrite blen_le, zrepeat_0 by lia. rewrite app_nil_r; reflexivity.
Qed.

Lemma w_int64_eq buf v : w_int64 buf v = Ok (buf ++ le 8 v).
Proof.
  unfold w_int64. rewrite set_size_grow by lia. rewrite blen_app, blen_zrepeat.
  replace (blen buf + Z.max 0 8 - 8) with (blen buf + 0) by lia.
  rewrite store_tail by (rewrite ?blen_zrepeat, ?blen_le; lia).
  rewrite poke_first by (rewrite blen_le; lia).
  rewrite blen_le, zrepeat_0 by lia. rewrite app_nil_r; reflexivity.
Qed.

Definition string8_chunk (s : bytes) : bytes :=
  s ++ zrepeat 0 (align4 (blen s + 1) - blen s).

Lemma w_string8_eq buf s :
  w_string8_len buf (Some s) (blen s) = Ok (buf ++ string8_chunk s).
Proof.
  unfold w_string8_len. pose proof (blen_nonneg _ s).
  pose proof (align4_spec (blen s + 1)) as HA.
  set (pl := align4 (blen s + 1)) in *.
  rewrite set_size_grow by lia.
  rewrite store_tail by (rewrite ?blen_zrepeat, ?blen_le; lia). cbn [bind].
  assert (E : poke (zrepeat uninit pl) ((pl / 4 - 1) * 4) (le 4 0)
              = zrepeat uninit (pl - 4) ++ zrepeat 0 4).
  { rewrite (zrepeat_split uninit pl (pl - 4)) by lia.
    rewrite poke_app_nil; [reflexivity| rewrite blen_zrepeat; lia|].
    rewrite blen_le, blen_zrepeat; lia. }
  rewrite E; clear E.
  replace (load s 0 (blen s)) with (Ok s).
  2: { symmetry; apply load_ok. repeat split; try lia. symmetry; apply slice_all; reflexivity. }
  cbn [bind].
  replace (blen buf) with (blen buf + 0) by lia.
  rewrite store_tail; [|lia|rewrite blen_app, !blen_zrepeat; lia].
  f_equal. f_equal. unfold string8_chunk. fold pl.
  (* poke over [uninit..., 0 0 0 0] *)
  unfold poke. rewrite ztake_neg by lia. cbn [app]. f_equal.
  replace (0 + blen s) with (blen s) by lia.
  destruct (Z.le_gt_cases (blen s) (pl - 4)) as [Hc|Hc].
  - rewrite zdrop_app_l by (rewrite blen_zrepeat; lia).
    rewrite zdrop_all by (rewrite blen_zrepeat; lia). cbn [app].
    f_equal; lia.
  - rewrite zdrop_app_r by (rewrite blen_zrepeat; lia).
    rewrite blen_zrepeat. unfold zdrop, zrepeat.
    replace (Z.to_nat 4) with (Z.to_nat (blen s - Z.max 0 (pl - 4)) +
      Z.to_nat (pl - blen s))%nat by lia.
    rewrite repeat_app. rewrite skipn_app, skipn_all2 by (rewrite repeat_length; lia).
    rewrite repeat_length, Nat.sub_diag. reflexivity.
Qed.

Definition empty16_chunk : bytes := le 4 0 ++ le 2 0 ++ le 2 0xffff.

Lemma w_string16_empty_eq buf : w_string16_empty buf = Ok (buf ++ empty16_chunk).
Proof.
  unfold w_string16_empty. rewrite set_size_grow by lia.
  replace (store (buf ++ zrepeat uninit 8) (blen buf) (le 2 0))
    with (store (buf ++ zrepeat uninit 8) (blen buf + 0) (le 2 0)) by (f_equal; lia).
  rewrite store_tail by (vm_compute; congruence). cbn [bind].
  rewrite store_tail by (vm_compute; congruence). cbn [bind].
  rewrite store_tail by (vm_compute; congruence). cbn [bind].
  rewrite store_tail by (vm_compute; congruence). reflexivity.
Qed.

(* length, units, zero padding *)
Definition units_chunk (u : list Z) : bytes :=
  le 4 (blen u) ++ units_bytes u ++ zrepeat 0 (align4 ((blen u + 1) * 2) - 2 * blen u).

Lemma w_utf16_some_eq buf u :
  0 < blen u -> w_utf16 buf (Some u) = Ok (buf ++ units_chunk u).
Proof.
  intros Hu. unfold w_utf16.
  destruct (Z.ltb_spec 0 (blen u)); [|lia].
  pose proof (align4_spec ((blen u + 1) * 2)) as HA.
  set (pl := align4 ((blen u + 1) * 2)) in *.
  replace (blen buf + pl + 4) with (blen buf + (4 + pl)) by lia.
  rewrite set_size_grow by lia.
  replace (store (buf ++ zrepeat uninit (4 + pl)) (blen buf) (le 4 (blen u)))
    with (store (buf ++ zrepeat uninit (4 + pl)) (blen buf + 0) (le 4 (blen u))) by (f_equal; lia).
  rewrite store_tail by (rewrite ?blen_zrepeat, ?blen_le; lia). cbn [bind].
  rewrite poke_first by (rewrite blen_le; lia).
  rewrite store_tail by (rewrite ?blen_app, ?blen_zrepeat, ?blen_le, ?units_bytes_len; lia).
  cbn [bind].
  replace 4 with (blen (le 4 (blen u))) at 1 by (rewrite blen_le; lia).
  rewrite poke_fill by (rewrite blen_le, units_bytes_len; lia).
  rewrite blen_le, units_bytes_len.
  replace (blen buf + 4 + 2 * blen u) with (blen buf + (4 + 2 * blen u)) by lia.
  rewrite store_tail by (rewrite ?blen_app, ?blen_zrepeat, ?blen_le, ?units_bytes_len; lia).
  f_equal. f_equal. unfold units_chunk. fold pl. rewrite app_assoc.
  rewrite poke_app_nil; [rewrite <- app_assoc; reflexivity| |].
  - rewrite blen_app, blen_le, units_bytes_len; lia.
  - rewrite !blen_zrepeat; lia.
Qed.

Lemma w_string16_some_eq buf s :
  utf8_prefix s <> [] ->
  w_string16 buf (Some s) = Ok (buf ++ units_chunk (utf16 (utf8_prefix s))).
Proof.
  intros Hs. unfold w_string16.
  pose proof (utf8_nonempty _ Hs) as H8. pose proof (utf16_nonempty _ Hs) as H16.
  set (u := utf16 (utf8_prefix s)) in *.
  destruct (Z.ltb_spec 0 (blen (utf8 (utf8_prefix s)))); [|lia].
  pose proof (align4_spec ((blen u + 1) * 2)) as HA.
  set (pl := align4 ((blen u + 1) * 2)) in *.
  replace (blen buf + pl + 4) with (blen buf + (4 + pl)) by lia.
  rewrite set_size_grow by lia.
  rewrite store_tail by (rewrite ?blen_zrepeat, ?units_bytes_len; lia). cbn [bind].
  rewrite (zrepeat_split uninit (4 + pl) 4) by lia.
  replace (4 + pl - 4) with pl by lia.
  rewrite (zrepeat_split uninit pl (2 * blen u)) by lia.
  rewrite poke_app; [|rewrite blen_zrepeat; lia|rewrite blen_zrepeat, units_bytes_len; lia].
  match goal with |- context [store ?b (blen buf) ?c] =>
    replace (store b (blen buf) c) with (store b (blen buf + 0) c) by (f_equal; lia) end.
  rewrite store_tail by (rewrite ?blen_app, ?blen_zrepeat, ?blen_le, ?units_bytes_len; lia).
  cbn [bind].
  rewrite <- (app_nil_l (zrepeat uninit 4 ++ _)).
  rewrite poke_app; [|reflexivity|rewrite blen_zrepeat, blen_le; lia]. cbn [app].
  destruct (Z.ltb_spec (blen u * 2) pl); [|lia].
  replace (blen buf + 4 + 2 * blen u) with (blen buf + (4 + 2 * blen u)) by lia.
  rewrite store_tail by (rewrite ?blen_app, ?blen_zrepeat, ?blen_le, ?units_bytes_len; lia).
  f_equal. f_equal. unfold units_chunk. fold pl. rewrite app_assoc.
  rewrite poke_app_nil; [rewrite <- app_assoc; do 3 f_equal; lia| |].
  - rewrite blen_app, blen_le, units_bytes_len; lia.
  - rewrite !blen_zrepeat; lia.
Qed.

Definition parcelable_chunk (p : option bytes) : bytes :=
  match p with
  | Some d => le 4 1 ++ le 4 (blen d + 4) ++ d
  | None => le 4 0
  end.

Lemma w_parcelable_eq buf p : w_parcelable buf p = Ok (buf ++ parcelable_chunk p).
Proof.
  unfold w_parcelable, parcelable_chunk. destruct p as [d|]; [|apply w_int32_eq].
  rewrite w_int32_eq. cbn [bind]. rewrite w_int32_eq. cbn [bind].
  rewrite <- !app_assoc; reflexivity.
Qed.

Definition byte_array_chunk (a : option bytes) : bytes :=
  match a with
  | Some (x :: d) =>
    le 4 (blen (x :: d)) ++ (x :: d) ++ zrepeat 0xff (align4 (blen (x :: d)) - blen (x :: d))
  | _ => le 4 (-1)
  end.

Lemma w_byte_array_eq buf a : w_byte_array buf a = Ok (buf ++ byte_array_chunk a).
Proof.
  unfold w_byte_array.
  assert (E : forall b, blen (set_size buf (blen buf + 4 + align4 0)) - 4 - align4 0 = blen b ->
     b = buf -> store (set_size buf (blen buf + 4 + align4 0)) (blen b) (le 4 (-1))
      = Ok (buf ++ le 4 (-1))).
  { intros b _ ->. change (align4 0) with 0.
    replace (blen buf + 4 + 0) with (blen buf + 4) by lia.
    rewrite set_size_grow by lia.
    replace (store (buf ++ zrepeat uninit 4) (blen buf) (le 4 (-1)))
      with (store (buf ++ zrepeat uninit 4) (blen buf + 0) (le 4 (-1))) by (f_equal; lia).
    rewrite store_tail by (vm_compute; congruence). reflexivity. }
  assert (E0 : blen (set_size buf (blen buf + 4 + align4 0)) - 4 - align4 0 = blen buf).
  { change (align4 0) with 0. replace (blen buf + 4 + 0) with (blen buf + 4) by lia.
    rewrite set_size_grow, blen_app, blen_zrepeat by lia. lia. }
  destruct a as [d|].
  2: { rewrite E0. apply E; [assumption|reflexivity]. }
  destruct d as [|x d].
  { rewrite blen_nil. cbn [Z.ltb Z.compare]. rewrite E0. apply E; [assumption|reflexivity]. }
  clear E E0. unfold byte_array_chunk. set (l := x :: d).
  assert (Hl : 0 < blen l) by (unfold l; rewrite blen_cons; pose proof (blen_nonneg _ d); lia).
  clearbody l. clear x d.
  destruct (Z.ltb_spec 0 (blen l)); [|lia].
  pose proof (align4_spec (blen l)) as HA. set (pl := align4 (blen l)) in *.
  replace (blen buf + 4 + pl) with (blen buf + (4 + pl)) by lia.
  rewrite set_size_grow by lia. rewrite blen_app, blen_zrepeat.
  replace (blen buf + Z.max 0 (4 + pl) - 4 - pl) with (blen buf + 0) by lia.
  rewrite store_tail by (rewrite ?blen_zrepeat, ?blen_le; lia). cbn [bind].
  rewrite poke_first by (rewrite blen_le; lia).
  replace (blen buf + 0 + 4) with (blen buf + blen (le 4 (blen l))) by (rewrite blen_le; lia).
  rewrite store_tail by (rewrite ?blen_app, ?blen_zrepeat, ?blen_le; lia). cbn [bind].
  rewrite poke_fill by (rewrite blen_le; lia). rewrite blen_le.
  replace (4 + pl - Z.of_nat 4 - blen l) with (pl - blen l) by lia.
  destruct (Z.ltb_spec (blen l) pl) as [Hp|Hp].
  - replace (blen buf + Z.of_nat 4 + blen l) with (blen buf + (4 + blen l)) by lia.
    rewrite store_tail by (rewrite ?blen_app, ?blen_zrepeat, ?blen_le; lia).
    f_equal. f_equal. rewrite app_assoc.
    rewrite poke_app_nil; [rewrite <- app_assoc; reflexivity| |].
    + rewrite blen_app, blen_le; lia.
    + rewrite !blen_zrepeat; lia.
  - rewrite !zrepeat_0 by lia. reflexivity.
Qed.

(* The bytes which a value adds *)
Definition chunk (v : value) : bytes :=
  match v with
  | VBool b => [if b then 1 else 0] ++ zrepeat 0 3
  | VInt8 v | VUint8 v => le 1 v ++ zrepeat 0 3
  | VInt16 v | VUint16 v => le 2 v ++ zrepeat 0 2
  | VInt32 v | VUint32 v | VFloat v => le 4 v
  | VInt64 v | VUint64 v | VDouble v => le 8 v
  | VString8 s => string8_chunk s
  | VString16 None => le 4 (-1)
  | VString16 (Some s) =>
    match utf8_prefix (utf8 s) with
    | [] => empty16_chunk
    | t => units_chunk (utf16 t)
    end
  | VUtf16 None => le 4 (-1)
  | VUtf16 (Some []) => empty16_chunk
  | VUtf16 (Some u) => units_chunk u
  | VParcelable p => parcelable_chunk p
  | VByteArray a => byte_array_chunk a
  | VRaw l => l
  | VNullableString8 None => le 4 (-1)
  | VNullableString8 (Some s) => le 4 (blen s) ++ string8_chunk s
  end.

Lemma append_value_eq buf v : append_value buf v = Ok (buf ++ chunk v).
Proof.
  destruct v; cbn [append_value chunk].
  - unfold w_bool. rewrite w_padded_eq by (rewrite blen_cons, blen_nil; lia).
    destruct b; reflexivity.
  - apply w_padded_eq; rewrite blen_le; lia.
  - apply w_padded_eq; rewrite blen_le; lia.
  - apply w_padded_eq; rewrite blen_le; lia.
  - apply w_padded_eq; rewrite blen_le; lia.
  - apply w_int32_eq.
  - apply w_int32_eq.
  - apply w_int64_eq.
  - apply w_int64_eq.
  - apply w_int32_eq.
  - apply w_int64_eq.
  - apply w_string8_eq.
  - destruct s as [s|]; cbn [option_map]; [|apply w_int32_eq].
    destruct (utf8_prefix (utf8 s)) as [|c t] eqn:E.
    + unfold w_string16. rewrite E. cbn. apply w_string16_empty_eq.
    + rewrite w_string16_some_eq by (rewrite E; discriminate). rewrite E; reflexivity.
  - destruct u as [u|]; [|apply w_int32_eq].
    destruct u as [|x u].
    + unfold w_utf16. rewrite blen_nil. cbn. apply w_string16_empty_eq.
    + apply w_utf16_some_eq. rewrite blen_cons. pose proof (blen_nonneg _ u); lia.
  - apply w_parcelable_eq.
  - apply w_byte_array_eq.
  - reflexivity.
  - destruct s as [s|]; [|apply w_int32_eq].
    rewrite w_int32_eq. cbn [bind]. rewrite w_string8_eq, <- app_assoc. reflexivity.
Qed.

Lemma append_values_eq buf vs :
  append_values buf vs = Ok (buf ++ flat_map chunk vs).
Proof.
  revert buf; induction vs as [|v vs IH]; intros buf; cbn [append_values flat_map].
  - rewrite app_nil_r; reflexivity.
  - rewrite append_value_eq. cbn [bind]. rewrite IH, <- app_assoc. reflexivity.
Qed.

(* ------------------------------------------------------------------ *)
(* Reader at a position where a chunk lies *)

Definition at_chunk (mem : bytes) (p : reader) (pre c suf : bytes) : Prop :=
  mem = pre ++ c ++ suf /\ r_ptr p = blen pre /\
  blen pre + blen c <= r_end p <= blen mem /\ blen mem < 2 ^ 63.

Definition skip (p : reader) (n : Z) : reader := r_set_ptr p (r_ptr p + n).

Lemma can_read_at mem p pre c suf n :
  at_chunk mem p pre c suf -> 0 <= n <= blen c -> can_read p n = true.
Proof.
  intros (-> & Hp & He & Hb) Hn. unfold can_read, u64.
  pose proof (blen_nonneg _ pre). lia.
Qed.

Lemma load_at mem p pre c suf n :
  at_chunk mem p pre c suf -> 0 <= n <= blen c ->
  load mem (r_ptr p) n = Ok (ztake n c).
Proof.
  intros (-> & Hp & He & Hb) Hn. rewrite Hp.
  rewrite <- (ztake_zdrop _ c n) at 1. rewrite <- app_assoc.
  apply load_app; [reflexivity|]. rewrite blen_ztake; lia.
Qed.

Lemma load_at_off mem p pre c suf o n :
  at_chunk mem p pre c suf -> 0 <= o -> 0 <= n -> o + n <= blen c ->
  load mem (r_ptr p + o) n = Ok (slice c o n).
Proof.
  intros (-> & Hp & He & Hb) Ho Hn Hc. rewrite Hp.
  assert (E : pre ++ c ++ suf =
    (pre ++ ztake o c) ++ slice c o n ++ zdrop n (zdrop o c) ++ suf).
  { rewrite <- (ztake_zdrop _ c o) at 1. rewrite <- (ztake_zdrop _ (zdrop o c) n) at 1.
    unfold slice. rewrite <- !app_assoc. reflexivity. }
  rewrite E. apply load_app.
  - rewrite blen_app, blen_ztake; lia.
  - unfold slice. rewrite blen_ztake, blen_zdrop; lia.
Qed.

Lemma unle1 b : unle [b] = b.
Proof. change (unle [b]) with (b + 256 * 0); lia. Qed.

Lemma unle_pad l n : unle (l ++ zrepeat 0 n) = unle l.
Proof. rewrite unle_app, unle_zeros; lia. Qed.

Lemma mod_small_Z v lo hi : lo = 0 -> in_range lo hi v -> v mod hi = v.
Proof. unfold in_range; intros -> H; apply Z.mod_small; lia. Qed.

Lemma sgn_mod bits v :
  0 < bits -> in_range (- 2 ^ (bits - 1)) (2 ^ (bits - 1)) v ->
  sgn bits (v mod 2 ^ bits) = v.
Proof.
  intros Hb H; unfold in_range in H; unfold sgn.
  assert (E : 2 ^ bits = 2 * 2 ^ (bits - 1)).
  { rewrite <- Z.pow_succ_r by lia. f_equal; lia. }
  rewrite Z.mod_mod by lia. set (h := 2 ^ (bits - 1)) in *. rewrite E.
  assert (h > 0) by lia.
  assert (M : v mod (2 * h) = v \/ v mod (2 * h) = v + 2 * h).
  { destruct (Z.le_gt_cases 0 v).
    - left; apply Z.mod_small; lia.
    - right. rewrite <- (Z.mod_small (v + 2 * h) (2 * h)) by lia.
      rewrite <- (Z_mod_plus_full v 1 (2 * h)). f_equal; lia. }
  destruct (Z.ltb_spec (v mod (2 * h)) h); lia.
Qed.

Lemma rd_uint8_at mem p pre c suf b r :
  at_chunk mem p pre c suf -> c = b :: r -> 4 <= blen c ->
  rd_uint8 mem p = Ok (Some b, skip p 4).
Proof.
  intros H Hc Hl. unfold rd_uint8. erewrite can_read_at by (eauto; lia).
  erewrite load_at by (eauto; lia). cbn [bind]. subst c.
  change (ztake 1 (b :: r)) with [b]. rewrite unle1. reflexivity.
Qed.

Lemma rd_uint16_at mem p pre c suf v r :
  at_chunk mem p pre c suf -> c = le 2 v ++ r -> 4 <= blen c ->
  rd_uint16 mem p = Ok (Some (v mod 2 ^ 16), skip p 4).
Proof.
  intros H Hc Hl. unfold rd_uint16. erewrite can_read_at by (eauto; lia).
  erewrite load_at by (eauto; lia). cbn [bind]. subst c.
  rewrite ztake_app_exact by (rewrite blen_le; lia).
  rewrite unle_le. reflexivity.
Qed.

Lemma rd_uint32_at mem p pre c suf v r :
  at_chunk mem p pre c suf -> c = le 4 v ++ r ->
  rd_uint32 mem p = Ok (Some (v mod 2 ^ 32), skip p 4).
Proof.
  intros H Hc.
  assert (Hl : 4 <= blen c)
    by (subst c; rewrite blen_app, blen_le; pose proof (blen_nonneg _ r); lia).
  unfold rd_uint32. erewrite can_read_at by (eauto; lia).
  erewrite load_at by (eauto; lia). cbn [bind]. subst c.
  rewrite ztake_app_exact by (rewrite blen_le; lia).
  rewrite unle_le. reflexivity.
Qed.

Lemma rd_uint64_at mem p pre c suf v r :
  at_chunk mem p pre c suf -> c = le 8 v ++ r ->
  rd_uint64 mem p = Ok (Some (v mod 2 ^ 64), skip p 8).
Proof.
  intros H Hc.
  assert (Hl : 8 <= blen c)
    by (subst c; rewrite blen_app, blen_le; pose proof (blen_nonneg _ r); lia).
  unfold rd_uint64. erewrite can_read_at by (eauto; lia).
  erewrite load_at by (eauto; lia). cbn [bind]. subst c.
  rewrite ztake_app_exact by (rewrite blen_le; lia).
  rewrite unle_le. reflexivity.
Qed.

Lemma at_chunk_skip mem p pre a c suf :
  at_chunk mem p pre (a ++ c) suf ->
  at_chunk mem (skip p (blen a)) (pre ++ a) c suf.
Proof.
  intros (-> & Hp & He & Hb). unfold at_chunk, skip; cbn.
  rewrite blen_app in He.
  repeat split; rewrite <- ?app_assoc; rewrite ?blen_app in *; try lia; reflexivity.
Qed.

(* The scan of read_string8 *)
Lemma scan_nul_found pre s suf n :
  all_bytes s -> ~ In 0 s -> (length s < n)%nat ->
  scan_nul (pre ++ s ++ 0 :: suf) (blen pre) n = Ok (Some (blen pre + blen s)).
Proof.
  revert pre n; induction s as [|b s IH]; intros pre n Hs H0 Hn.
  - destruct n as [|n]; [cbn in Hn; lia|]. cbn [scan_nul app].
    change (0 :: suf) with ([0] ++ suf).
    rewrite load_app by reflexivity. cbn [bind]. rewrite unle1, blen_nil. cbn [Z.eqb].
    f_equal; f_equal; lia.
  - destruct n as [|n]; [cbn in Hn; lia|]. cbn [scan_nul].
    change ((b :: s) ++ 0 :: suf) with ([b] ++ (s ++ 0 :: suf)).
    rewrite load_app by reflexivity. cbn [bind].
    rewrite unle1.
    destruct (Z.eqb_spec b 0) as [->|Hb0]; [exfalso; apply H0; left; reflexivity|].
    rewrite app_assoc.
    replace (blen pre + 1) with (blen (pre ++ [b])) by (rewrite blen_app; reflexivity).
    inversion Hs; subst. rewrite IH; [|assumption| |cbn in Hn; lia].
    + rewrite blen_app, !blen_cons, blen_nil. f_equal; f_equal; lia.
    + intros X; apply H0; right; exact X.
Qed.

Lemma zrepeat_S {A} (x : A) n : 0 < n -> zrepeat x n = x :: zrepeat x (n - 1).
Proof.
  intros H. rewrite (zrepeat_split x n 1) by lia. reflexivity.
Qed.

Lemma string8_chunk_len s : blen (string8_chunk s) = align4 (blen s + 1).
Proof.
  unfold string8_chunk. pose proof (align4_spec (blen s + 1)). pose proof (blen_nonneg _ s).
  rewrite blen_app, blen_zrepeat; lia.
Qed.

Lemma rd_string8_at mem p pre suf s :
  at_chunk mem p pre (string8_chunk s) suf -> all_bytes s -> ~ In 0 s ->
  rd_string8 mem p = Ok (Some s, skip p (blen (string8_chunk s))).
Proof.
  intros H Hs H0. pose proof (string8_chunk_len s) as HL.
  pose proof (align4_spec (blen s + 1)) as HA. pose proof (blen_nonneg _ s).
  destruct H as (Hm & Hp & He & Hb).
  unfold rd_string8.
  assert (Es : scan_nul mem (r_ptr p) (Z.to_nat (r_end p - r_ptr p)) =
    Ok (Some (blen pre + blen s))).
  { rewrite Hp, Hm. unfold string8_chunk. rewrite zrepeat_S by lia.
    rewrite <- app_assoc. cbn [app]. apply scan_nul_found; try assumption.
    rewrite HL in He. unfold blen in *; lia. }
  rewrite Es. cbn [bind]. rewrite Hp.
  replace (blen pre + blen s - blen pre) with (blen s) by lia.
  rewrite HL in He.
  destruct (Z.leb_spec (blen pre + align4 (blen s + 1)) (r_end p)); [|lia].
  rewrite Hm. unfold string8_chunk at 1. rewrite <- app_assoc.
  rewrite load_app by reflexivity. cbn [bind].
  unfold ok, skip. rewrite HL, Hp. reflexivity.
Qed.

Lemma rd_nullable_string8_none_at m mem p pre suf :
  at_chunk mem p pre (le 4 (-1)) suf ->
  rd_nullable_string8 m mem p = Ok (Some None, skip p 4).
Proof.
  intros H. pose proof H as (Hm & Hp & He & Hb). unfold rd_nullable_string8.
  rewrite blen_le in He. destruct (Z.leb_spec (r_ptr p + 4) (r_end p)); [|lia].
  erewrite load_at by (eauto; rewrite blen_le; lia). reflexivity.
Qed.

Lemma rd_nullable_utf16_none_at m mem p pre suf :
  at_chunk mem p pre (le 4 (-1)) suf ->
  rd_nullable_utf16 m mem p = Ok (Some None, skip p 4).
Proof.
  intros H. pose proof H as (Hm & Hp & He & Hb). unfold rd_nullable_utf16.
  rewrite blen_le in He. destruct (Z.leb_spec (r_ptr p + 4) (r_end p)); [|lia].
  erewrite load_at by (eauto; rewrite blen_le; lia). reflexivity.
Qed.

Lemma sarith32_ok m v : - 2 ^ 31 <= v <= int32_max -> sarith32 m v = Ok v.
Proof.
  intros H; unfold sarith32.
  destruct ((- 2 ^ 31 <=? v) && (v <=? int32_max)) eqn:E; [reflexivity|lia].
Qed.

Lemma slice_app_mid {A} (l m r : list A) o n :
  o = blen l -> n = blen m -> slice (l ++ m ++ r) o n = m.
Proof. apply slice_app_exact. Qed.

Lemma rd_nullable_string8_some_at m mem p pre suf s :
  at_chunk mem p pre (le 4 (blen s) ++ string8_chunk s) suf ->
  4 + align4 (blen s + 1) < 2 ^ 31 -> 
  rd_nullable_string8 m mem p =
    Ok (Some (Some s), skip p (blen (le 4 (blen s) ++ string8_chunk s))).
Proof.
  intros H Hsz. pose proof H as (Hm & Hp & He & Hb). unfold rd_nullable_string8.
  pose proof (string8_chunk_len s) as HL. pose proof (align4_spec (blen s + 1)) as HA.
  pose proof (blen_nonneg _ s). set (pl := align4 (blen s + 1)) in *.
  rewrite blen_app, blen_le, HL in He.
  destruct (Z.leb_spec (r_ptr p + 4) (r_end p)); [|lia].
  erewrite load_at by (eauto; rewrite blen_app, blen_le, HL; lia). cbn [bind].
  rewrite ztake_app_exact by (rewrite blen_le; lia).
  rewrite unle_le. change (2 ^ (8 * Z.of_nat 4)) with (2 ^ 32). rewrite sgn_u32 by lia.
  destruct (Z.eqb_spec (blen s) (-1)); [lia|].
  destruct (Z.leb_spec 0 (blen s)); [|lia].
  rewrite !sarith32_ok by (unfold int32_max; lia). cbn [bind].
  rewrite !sarith32_ok by (unfold int32_max; lia). cbn [bind].
  change ((blen s + 1 + 3) / 4 * 4) with pl.
  replace (u32 pl) with pl by (unfold u32; rewrite Z.mod_small; lia).
  destruct (Z.leb_spec (r_ptr p + pl + 4) (r_end p)); [|lia].
  replace (r_ptr p + 4 + blen s) with (r_ptr p + (4 + blen s)) by lia.
  erewrite load_at_off by (eauto; rewrite ?blen_app, ?blen_le, ?HL; lia). cbn [bind].
  replace (slice (le 4 (blen s) ++ string8_chunk s) (4 + blen s) 1) with [0].
  2: { unfold string8_chunk. fold pl. rewrite zrepeat_S by lia. rewrite app_assoc.
       symmetry. change (0 :: zrepeat 0 (pl - blen s - 1)) with ([0] ++ zrepeat 0 (pl - blen s - 1)).
       apply slice_app_exact; [rewrite blen_app, blen_le; lia|reflexivity]. }
  change (unle [0] =? 0) with true. cbv iota.
  erewrite load_at_off by (eauto; rewrite ?blen_app, ?blen_le, ?HL; lia). cbn [bind].
  replace (slice (le 4 (blen s) ++ string8_chunk s) 4 (blen s)) with s.
  2: { symmetry. unfold string8_chunk. apply slice_app_exact; [rewrite blen_le; lia|reflexivity]. }
  unfold ok, skip. do 2 f_equal. f_equal. rewrite blen_app, blen_le, HL. lia.
Qed.

Lemma units_chunk_len u : blen (units_chunk u) = 4 + align4 ((blen u + 1) * 2).
Proof.
  unfold units_chunk. pose proof (align4_spec ((blen u + 1) * 2)). pose proof (blen_nonneg _ u).
  rewrite !blen_app, blen_zrepeat, units_bytes_len, blen_le; lia.
Qed.

Lemma rd_nullable_utf16_some_at m mem p pre suf u pad :
  (* either the zero padding of a non-empty string, or 0 0 ff ff *)
  blen pad = align4 ((blen u + 1) * 2) - 2 * blen u ->
  ztake 2 pad = [0; 0] ->
  at_chunk mem p pre (le 4 (blen u) ++ units_bytes u ++ pad) suf ->
  Forall (in_range 0 (2 ^ 16)) u ->
  4 + align4 ((blen u + 1) * 2) < 2 ^ 31 ->
  rd_nullable_utf16 m mem p =
    Ok (Some (Some u), skip p (4 + align4 ((blen u + 1) * 2))).
Proof.
  intros Hpad Hz H Hu Hsz. pose proof H as (Hm & Hp & He & Hb). unfold rd_nullable_utf16.
  pose proof (align4_spec ((blen u + 1) * 2)) as HA.
  pose proof (blen_nonneg _ u). set (pl := align4 ((blen u + 1) * 2)) in *.
  assert (HL : blen (le 4 (blen u) ++ units_bytes u ++ pad) = 4 + pl).
  { rewrite !blen_app, blen_le, units_bytes_len, Hpad; lia. }
  rewrite HL in He.
  destruct (Z.leb_spec (r_ptr p + 4) (r_end p)); [|lia].
  erewrite load_at by (eauto; rewrite HL; lia). cbn [bind].
  rewrite ztake_app_exact by (rewrite blen_le; lia).
  rewrite unle_le. change (2 ^ (8 * Z.of_nat 4)) with (2 ^ 32). rewrite sgn_u32 by lia.
  destruct (Z.eqb_spec (blen u) (-1)); [lia|].
  destruct (Z.leb_spec 0 (blen u)); [|lia].
  rewrite (sarith32_ok m (blen u + 1)) by (unfold int32_max; lia). cbn [bind].
  rewrite (sarith32_ok m ((blen u + 1) * 2)) by (unfold int32_max; lia). cbn [bind].
  rewrite sarith32_ok by (unfold int32_max; lia). cbn [bind].
  change (((blen u + 1) * 2 + 3) / 4 * 4) with pl.
  replace (u32 pl) with pl by (unfold u32; rewrite Z.mod_small; lia).
  destruct (Z.leb_spec (r_ptr p + pl + 4) (r_end p)); [|lia].
  replace (r_ptr p + 4 + 2 * blen u) with (r_ptr p + (4 + 2 * blen u)) by lia.
  erewrite load_at_off by (eauto; rewrite ?HL; lia). cbn [bind].
  replace (slice (le 4 (blen u) ++ units_bytes u ++ pad) (4 + 2 * blen u) 2) with [0; 0].
  2: { rewrite app_assoc. rewrite slice_app_r by (rewrite blen_app, blen_le, units_bytes_len; lia).
       rewrite blen_app, blen_le, units_bytes_len. unfold slice.
       rewrite zdrop_neg by lia. symmetry; exact Hz. }
  change (unle [0; 0] =? 0) with true. cbv iota.
  erewrite load_at_off by (eauto; rewrite ?HL; lia). cbn [bind].
  replace (slice (le 4 (blen u) ++ units_bytes u ++ pad) 4 (2 * blen u)) with (units_bytes u).
  2: { symmetry. apply slice_app_exact; [rewrite blen_le; lia|rewrite units_bytes_len; reflexivity]. }
  rewrite bytes_units_bytes by exact Hu.
  unfold ok, skip. do 2 f_equal. f_equal. lia.
Qed.

Lemma rd_nullable_utf16_empty_at m mem p pre suf :
  at_chunk mem p pre empty16_chunk suf ->
  rd_nullable_utf16 m mem p = Ok (Some (Some []), skip p 8).
Proof.
  intros H. apply (rd_nullable_utf16_some_at m mem p pre suf [] (le 2 0 ++ le 2 0xffff));
    try reflexivity; [exact H|constructor].
Qed.

Lemma rd_nullable_utf16_units_at m mem p pre suf u :
  at_chunk mem p pre (units_chunk u) suf ->
  Forall (in_range 0 (2 ^ 16)) u -> blen (units_chunk u) < 2 ^ 31 ->
  rd_nullable_utf16 m mem p = Ok (Some (Some u), skip p (blen (units_chunk u))).
Proof.
  intros H Hu Hsz. rewrite units_chunk_len in *.
  pose proof (align4_spec ((blen u + 1) * 2)) as HA. pose proof (blen_nonneg _ u).
  eapply rd_nullable_utf16_some_at; try exact H; try assumption.
  - rewrite blen_zrepeat; lia.
  - rewrite (zrepeat_split 0 _ 2) by lia. apply ztake_app_exact. reflexivity.
Qed.

Lemma rd_parcelable_some_at mem p pre suf d :
  at_chunk mem p pre (parcelable_chunk (Some d)) suf -> 8 + blen d < 2 ^ 31 ->
  rd_parcelable mem p = Ok (Some d, skip p (blen (parcelable_chunk (Some d)))).
Proof.
  intros H Hsz. cbn [parcelable_chunk] in *. pose proof (blen_nonneg _ d).
  unfold rd_parcelable. erewrite rd_uint32_at by (eauto). cbn [bind].
  change (1 mod 2 ^ 32 =? 0) with false. cbv iota.
  pose proof (at_chunk_skip _ _ _ _ _ _ H) as H1. rewrite blen_le in H1.
  change (Z.of_nat 4) with 4 in H1.
  erewrite rd_uint32_at by (eauto). cbn [bind].
  pose proof (at_chunk_skip _ _ _ _ _ _ H1) as H2. rewrite blen_le in H2.
  change (Z.of_nat 4) with 4 in H2.
  rewrite Z.mod_small by lia.
  destruct (Z.leb_spec 4 (blen d + 4)); [|lia].
  replace (blen d + 4 - 4) with (blen d) by lia.
  pose proof H2 as (Hm & Hp & He & Hb).
  destruct (Z.leb_spec (r_ptr (skip (skip p 4) 4) + blen d) (r_end (skip (skip p 4) 4))); [|lia].
  erewrite load_at by (eauto; lia). cbn [bind]. rewrite ztake_all by lia.
  unfold ok, skip, r_set_ptr; cbn. do 2 f_equal. f_equal.
  rewrite !blen_app, !blen_le. lia.
Qed.

Lemma rd_parcelable_none_at mem p pre suf :
  at_chunk mem p pre (parcelable_chunk None) suf ->
  rd_parcelable mem p = Ok (None, skip p 4).
Proof.
  intros H. cbn [parcelable_chunk] in *. rewrite <- (app_nil_r (le 4 0)) in H.
  unfold rd_parcelable. erewrite rd_uint32_at by (eauto). reflexivity.
Qed.

Lemma rd_byte_array_at mem p pre suf a :
  at_chunk mem p pre (byte_array_chunk a) suf -> blen (byte_array_chunk a) < 2 ^ 31 ->
  rd_byte_array mem p =
    Ok (Some (match a with Some d => d | None => [] end), skip p (blen (byte_array_chunk a))).
Proof.
  intros H Hsz.
  assert (E : forall q : reader, at_chunk mem q pre (le 4 (-1)) suf ->
    rd_byte_array mem q = Ok (Some [], skip q (blen (le 4 (-1))))).
  { intros q Hq. unfold rd_byte_array.
    erewrite can_read_at by (eauto; rewrite blen_le; lia).
    erewrite load_at by (eauto; rewrite blen_le; lia). reflexivity. }
  destruct a as [[|x d]|]; cbn [byte_array_chunk] in *; try (apply E; exact H). clear E.
  set (l := x :: d) in *.
  assert (Hl : 0 < blen l) by (unfold l; rewrite blen_cons; pose proof (blen_nonneg _ d); lia).
  clearbody l. clear x d.
  pose proof (align4_spec (blen l)) as HA. set (pl := align4 (blen l)) in *.
  set (c := le 4 (blen l) ++ l ++ zrepeat 0xff (pl - blen l)) in *.
  assert (HL : blen c = 4 + pl).
  { unfold c. rewrite !blen_app, blen_le, blen_zrepeat; lia. }
  rewrite HL in *.
  unfold rd_byte_array.
  erewrite can_read_at by (eauto; lia).
  erewrite load_at by (eauto; lia). cbn [bind].
  assert (Ev : sgn 32 (unle (ztake 4 c)) = blen l).
  { unfold c. rewrite ztake_app_exact by (rewrite blen_le; lia).
    rewrite unle_le. change (2 ^ (8 * Z.of_nat 4)) with (2 ^ 32). apply sgn_u32; lia. }
  rewrite Ev.
  destruct (Z.leb_spec (blen l) 0); [lia|].
  erewrite can_read_at by (eauto; lia).
  erewrite load_at_off by (eauto; lia). cbn [bind].
  replace (slice c 4 (blen l)) with l.
  2: { symmetry; unfold c. apply slice_app_exact; [rewrite blen_le; lia|reflexivity]. }
  fold pl. unfold ok, skip. do 2 f_equal. f_equal. lia.
Qed.

Lemma rd_raw_at mem p pre suf l :
  at_chunk mem p pre l suf -> all_bytes l ->
  rd_raw mem p (length l) = Ok (Some l, skip p (blen l)).
Proof.
  revert p pre; induction l as [|b l IH]; intros p pre H Hl; cbn [rd_raw length].
  - unfold ok, skip, r_set_ptr. rewrite blen_nil, Z.add_0_r. destruct p; reflexivity.
  - inversion Hl as [|? ? Hb Hr]; subst.
    pose proof (blen_nonneg _ l).
    assert (E : rd_byte mem p = Ok (Some b, skip p 1)).
    { pose proof H as (Hm & Hp & He & Hbd). rewrite blen_cons in He. unfold rd_byte.
      destruct (Z.ltb_spec (r_ptr p) (r_end p)); [|lia].
      erewrite load_at by (eauto; rewrite blen_cons; lia).
      change (ztake 1 (b :: l)) with [b]. cbn [bind].
      rewrite unle1. reflexivity. }
    rewrite E.
    change (b :: l) with ([b] ++ l) in H. apply at_chunk_skip in H.
    change (blen [b]) with 1 in H.
    erewrite IH; [|exact H|assumption].
    unfold skip, r_set_ptr; cbn. do 2 f_equal. f_equal. rewrite blen_cons; lia.
Qed.

Lemma read_value_at m mem p pre suf v :
  value_ok v -> at_chunk mem p pre (chunk v) suf -> blen (chunk v) < 2 ^ 31 ->
  read_kind m mem p (kind_of v) = Ok (expected v, skip p (blen (chunk v))).
Proof.
  intros Hv H Hsz. unfold value_ok in Hv.
  destruct v; cbn [kind_of expected read_kind chunk] in *.
  - (* bool *)
    unfold rd_bool.
    assert (E : [if b then 1 else 0] ++ zrepeat 0 3 = le 4 (if b then 1 else 0) ++ [])
      by (destruct b; reflexivity).
    erewrite rd_uint32_at by (eauto). destruct b; reflexivity.
  - (* int8 *)
    unfold rd_int8. change (le 1 v ++ zrepeat 0 3) with ((v mod 256) :: zrepeat 0 3) in *.
    erewrite rd_uint8_at; [|exact H|reflexivity|vm_compute; congruence].
    cbn [rd_map wrap]. change 256 with (2 ^ 8). rewrite sgn_mod by (assumption || lia).
    reflexivity.
  - change (le 1 v ++ zrepeat 0 3) with ((v mod 256) :: zrepeat 0 3) in *.
    erewrite rd_uint8_at; [|exact H|reflexivity|vm_compute; congruence].
    cbn [wrap]. unfold in_range in Hv. rewrite Z.mod_small by lia. reflexivity.
  - (* int16 *)
    unfold rd_int16.
    erewrite rd_uint16_at; [|exact H|reflexivity|rewrite blen_app, blen_le, blen_zrepeat; lia].
    cbn [rd_map wrap]. rewrite sgn_mod by (assumption || lia). reflexivity.
  - erewrite rd_uint16_at; [|exact H|reflexivity|rewrite blen_app, blen_le, blen_zrepeat; lia].
    cbn [wrap]. unfold in_range in Hv. rewrite Z.mod_small by lia. reflexivity.
  - (* int32 *)
    unfold rd_int32. rewrite <- (app_nil_r (le 4 v)) in H.
    erewrite rd_uint32_at by (eauto). cbn [rd_map wrap].
    rewrite sgn_mod by (assumption || lia). reflexivity.
  - rewrite <- (app_nil_r (le 4 v)) in H. erewrite rd_uint32_at by (eauto). cbn [wrap].
    unfold in_range in Hv. rewrite Z.mod_small by lia. reflexivity.
  - (* int64 *)
    unfold rd_int64. rewrite <- (app_nil_r (le 8 v)) in H.
    erewrite rd_uint64_at by (eauto). cbn [rd_map wrap].
    rewrite sgn_mod by (assumption || lia). reflexivity.
  - rewrite <- (app_nil_r (le 8 v)) in H. erewrite rd_uint64_at by (eauto). cbn [wrap].
    unfold in_range in Hv. rewrite Z.mod_small by lia. reflexivity.
  - unfold rd_float. rewrite <- (app_nil_r (le 4 bits)) in H.
    erewrite rd_uint32_at by (eauto). cbn [wrap].
    unfold in_range in Hv. rewrite Z.mod_small by lia. reflexivity.
  - unfold rd_double. rewrite <- (app_nil_r (le 8 bits)) in H.
    erewrite rd_uint64_at by (eauto). cbn [wrap].
    unfold in_range in Hv. rewrite Z.mod_small by lia. reflexivity.
  - (* string8 *)
    destruct Hv. erewrite rd_string8_at by (eauto). reflexivity.
  - (* string16 *)
    unfold rd_nullable_string16. destruct s as [s|]; cbn [option_map].
    2: { erewrite rd_nullable_utf16_none_at by (eauto). reflexivity. }
    destruct Hv as [Hs H0]. rewrite utf8_prefix_utf8 in * by assumption.
    destruct s as [|x s].
    + erewrite rd_nullable_utf16_empty_at by (eauto). reflexivity.
    + erewrite rd_nullable_utf16_units_at; [|exact H|apply utf16_units; assumption|exact Hsz].
      cbn [rd_map wrap]. rewrite utf16_decode_utf16 by assumption. reflexivity.
  - (* utf16 *)
    destruct u as [u|].
    2: { erewrite rd_nullable_utf16_none_at by (eauto). reflexivity. }
    destruct u as [|x u].
    + erewrite rd_nullable_utf16_empty_at by (eauto). reflexivity.
    + erewrite rd_nullable_utf16_units_at by (eauto). reflexivity.
  - (* parcelable *)
    destruct p0 as [d|].
    + erewrite rd_parcelable_some_at; [reflexivity|exact H|].
      cbn [parcelable_chunk] in Hsz. rewrite !blen_app, !blen_le in Hsz. lia.
    + erewrite rd_parcelable_none_at by (eauto). reflexivity.
  - (* byte array *)
    erewrite rd_byte_array_at by (eauto). destruct a; reflexivity.
  - (* raw *)
    erewrite rd_raw_at by (eauto). reflexivity.
  - (* nullable string8 *)
    destruct s as [s|].
    + erewrite rd_nullable_string8_some_at; [reflexivity|exact H|].
      rewrite blen_app, blen_le, string8_chunk_len in Hsz. lia.
    + erewrite rd_nullable_string8_none_at by (eauto). reflexivity.
Qed.

Lemma read_values_at m mem p pre suf vs :
  Forall value_ok vs -> at_chunk mem p pre (flat_map chunk vs) suf ->
  blen (flat_map chunk vs) < 2 ^ 31 ->
  read_kinds m mem p (map kind_of vs) =
    Ok (map expected vs, skip p (blen (flat_map chunk vs))).
Proof.
  revert p pre; induction vs as [|v vs IH]; intros p pre Hv H Hsz; cbn [map read_kinds flat_map] in *.
  - unfold skip, r_set_ptr. rewrite blen_nil, Z.add_0_r. destruct p; reflexivity.
  - inversion Hv as [|? ? Hv1 Hvs]; subst. rewrite blen_app in Hsz.
    pose proof (blen_nonneg _ (chunk v)). pose proof (blen_nonneg _ (flat_map chunk vs)).
    rewrite (read_value_at m mem p pre (flat_map chunk vs ++ suf) v Hv1); [|..].
    2: { destruct H as (Hm & Hp & He & Hb). rewrite blen_app in He.
         repeat split; try assumption; try lia. rewrite Hm, <- app_assoc. reflexivity. }
    2: { lia. }
    cbn [bind]. apply at_chunk_skip in H.
    rewrite (IH _ _ Hvs H) by lia. cbn [bind].
    unfold skip, r_set_ptr; cbn. do 2 f_equal. f_equal. rewrite blen_app; lia.
Qed.

(* C01 *)
Lemma parcel_roundtrip_lemma m vs objs :
  Forall value_ok vs ->
  exists buf, append_values [] vs = Ok buf /\
    (blen buf < 2 ^ 31 ->
     read_kinds m buf (reader_init 0 (blen buf) objs) (map kind_of vs) =
       Ok (map expected vs,
           {| r_start := 0; r_end := blen buf; r_ptr := blen buf; r_objects := objs |})).
Proof.
  intros Hv. exists (flat_map chunk vs). split; [apply append_values_eq|].
  intros Hsz. pose proof (blen_nonneg _ (flat_map chunk vs)).
  rewrite (read_values_at m _ _ [] [] vs Hv); [|..].
  - unfold skip, reader_init, r_set_ptr; cbn. do 3 f_equal.
  - repeat split; cbn [reader_init r_ptr r_end]; rewrite ?app_nil_r; cbn [app];
      rewrite ?blen_nil; lia || reflexivity.
  - exact Hsz.
Qed.

Lemma firstn_in_list {A} n (l : list A) x : In x (firstn n l) -> In x l.
Proof. revert l; induction n; intros [|y l]; cbn; intuition. Qed.
Lemma skipn_in_list {A} n (l : list A) x : In x (skipn n l) -> In x l.
Proof. revert l; induction n; intros [|y l]; cbn; intuition. Qed.

(* ------------------------------------------------------------------ *)
(* Received text *)
Lemma utf16_read_units m mem p o p1 : all_bytes mem ->
  rd_nullable_utf16 m mem p = Ok (Some (Some o), p1) -> Forall (fun x => 0 <= x < 2 ^ 16) o.
Proof.
  intros Hm. unfold rd_nullable_utf16. destruct (_ <=? _); [|discriminate]. destruct (load mem (r_ptr p) 4) as [lb|]; [|discriminate]. cbn [bind].
  destruct (_ =? -1); [discriminate|]. destruct (0 <=? _); [|discriminate].
  destruct (sarith32 _ _); [|discriminate]. cbn [bind]. destruct (sarith32 _ _); [|discriminate]. cbn [bind]. destruct (sarith32 _ _); [|discriminate]. cbn [bind].
  destruct (_ <=? _); [|discriminate]. destruct (load mem _ 2) as [z|]; [|discriminate]. cbn [bind]. destruct (_ =? 0); [|discriminate].
  destruct (load mem _ _) as [s|] eqn:El; [|discriminate]. cbn [bind]. intros [= <- <-]. apply bytes_units_range.
  unfold load in El. destruct (_ && _); [|discriminate]. injection El as <-. unfold all_bytes, slice in *.
  apply Forall_forall. intros x Hx. rewrite Forall_forall in Hm. apply Hm. unfold ztake, zdrop in Hx. apply firstn_in_list in Hx. eapply skipn_in_list; exact Hx.
Qed.

Lemma received_text m mem p : all_bytes mem ->
  match read_kind m mem p KUtf16 with
  | Ok (RUnits (Some u), p1) =>
    exists t, read_kind m mem p KString16 = Ok (RText t, p1) /\
    (forall cs, well_formed16 u cs -> t = Some (utf8 cs)) /\
    ((forall cs, ~ well_formed16 u cs) -> t = None)
  | Ok (RUnits None, p1) => read_kind m mem p KString16 = Ok (RText None, p1)
  | x => read_kind m mem p KString16 = x
  end.
Proof.
  intros Hm. cbn [read_kind]. unfold rd_nullable_string16.
  destruct (rd_nullable_utf16 m mem p) as [[[[u|]|] p1]|] eqn:E; cbn [wrap rd_map]; try reflexivity.
  pose proof (utf16_read_units _ _ _ _ _ Hm E) as Hu. pose proof (utf16_decode_exact u Hu) as X.
  eexists. split; [reflexivity|]. split.
  - intros cs W. apply X in W. rewrite W. reflexivity.
  - intros N. destruct (utf16_decode u) as [s|]; [|reflexivity]. destruct (N s). apply X. reflexivity.
Qed.
