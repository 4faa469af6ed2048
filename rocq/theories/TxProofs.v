(* Proofs about transaction structures and copies *)
From Verif Require Import Base BaseLemmas UtfModel WriterModel ReaderModel CodecSpec
  CodecProofs CodecSafety ObjModel ObjReader KernelModel ObjSpec ObjProofs ObjInvariant
  TreeProofs PieceProofs HidlSpec HidlWriter HidlOps HidlPlaced HidlStruct HidlRead SafeProofs
  TxModel TxSpec.

(* ------------------------------------------------------------------ *)
(* C13 *)
Lemma offsets_valid_order i size offs : forall min,
  0 <= min -> size < 2 ^ 64 -> Forall (fun o => 0 <= o < 2 ^ (8 * psz i)) offs ->
  Forall (fun o => o + flat_size i < 2 ^ 64) offs -> min <= size ->
  (i = Io32 -> size < 2 ^ 32) ->
  offsets_valid i offs min size = true ->
  in_order (fun _ => flat_size i) min offs size.
Proof.
  induction offs as [|o r IH]; intros min H1 H2 H3 H4 H5 H6 H; cbn [offsets_valid in_order] in *; [exact H5|].
  inversion H3 as [|x y A1 A2]; subst x y. inversion H4 as [|x y B1 B2]; subst x y.
  assert (Hf : 0 <= flat_size i) by (destruct i; cbn; lia).
  assert (E : u64 (o + flat_size i) = o + flat_size i) by (unfold u64; apply Z.mod_small; lia).
  rewrite E in H. destruct (Z.ltb_spec o min); [discriminate|].
  destruct (Z.ltb_spec size (o + flat_size i)); [discriminate|]. cbn [orb] in H.
  split; [assumption|]. apply IH in H; auto; try lia.
  - rewrite usz_in in H; [exact H|]. destruct i; cbn [psz] in *; [specialize (H6 eq_refl)|];
      change (2 ^ (8 * 4)) with (2 ^ 32) in *; change (2 ^ (8 * 8)) with (2 ^ 64) in *; lia.
  - unfold usz. apply Z.mod_pos_bound. destruct i; cbn; lia.
  - unfold usz. etransitivity; [apply Z.mod_le; destruct i; cbn; lia|lia].
Qed.

Lemma in_order_valid i size offs : forall min,
  0 <= min -> size < 2 ^ (8 * psz i) ->
  in_order (fun _ => flat_size i) min offs size -> offsets_valid i offs min size = true.
Proof.
  induction offs as [|o r IH]; intros min H1 H2 H; cbn [offsets_valid in_order] in *; [reflexivity|].
  destruct H as [A H].
  assert (Hf : 0 <= flat_size i) by (destruct i; cbn; lia).
  assert (Hle : forall l f, in_order (fun _ => flat_size i) f l size -> f <= size).
  { clear - Hf. induction l as [|x l IH]; intros f H; cbn [in_order] in H; [exact H|].
    destruct H as [A B]. apply IH in B. lia. }
  pose proof (Hle _ _ H) as Hsz.
  assert (2 ^ (8 * psz i) <= 2 ^ 64) by (destruct i; cbn; lia).
  assert (E : u64 (o + flat_size i) = o + flat_size i) by (unfold u64; apply Z.mod_small; lia).
  rewrite E. destruct (Z.ltb_spec o min); [lia|].
  destruct (Z.ltb_spec size (o + flat_size i)); [lia|]. cbn [orb].
  rewrite usz_in by lia. apply IH; auto. lia.
Qed.

Lemma offsets_at_range i m a n : byte_memory m ->
  Forall (fun o => 0 <= o < 2 ^ (8 * psz i)) (offsets_at i m a n).
Proof.
  intros Hm. unfold offsets_at. apply Forall_forall. intros x Hx. apply in_map_iff in Hx.
  destruct Hx as (k & <- & _).
  assert (Hp : 0 <= psz i) by (destruct i; cbn; lia).
  assert (Hb : all_bytes (mread m (a + psz i * Z.of_nat k) (psz i))).
  { apply Forall_forall. intros y Hy. unfold mread in Hy. apply in_map_iff in Hy.
    destruct Hy as (j & <- & _). apply Hm. }
  pose proof (unle_bound _ Hb) as B. rewrite blen_mread in B by lia. exact B.
Qed.

(* Fields of the structure *)
Lemma tr_parse_range i b : all_bytes b ->
  0 <= tr_data_size (tr_parse i b) < 2 ^ (8 * psz i).
Proof.
  intros Hb. cbn [tr_parse tr_data_size]. unfold kfield.
  pose proof (unle_bound _ (Forall_slice _ _ (2 * psz i + 16) (psz i) _ Hb)) as B.
  assert (Hl : blen (slice b (2 * psz i + 16) (psz i)) <= psz i).
  { unfold slice. rewrite blen_ztake. destruct i; cbn [psz]; lia. }
  split; [apply B|]. eapply Z.lt_le_trans; [apply B|]. apply Z.pow_le_mono_r; [lia|]. lia.
Qed.

Theorem decoded_objects i m b :
  byte_memory m -> all_bytes b ->
  let t := tr_parse i b in
  let offs := offsets_at i m (tr_offsets t) (Z.to_nat (u32 (tr_offsets_size t / psz i))) in
  Forall (fun o => o + flat_size i < 2 ^ 64) offs ->
  tr_buffer t + tr_data_size t < 2 ^ 64 ->
  Z.testbit (tr_flags t) 3 = false ->
  let tx := decode_transaction_data i m b in
  tx_size tx = tr_data_size t /\ tx_data tx = tr_buffer t /\
  (in_order (fun _ => flat_size i) 0 offs (tx_size tx) /\
   tx_objects tx = map (fun o => tr_buffer t + o) offs \/
   ~ in_order (fun _ => flat_size i) 0 offs (tx_size tx) /\ tx_objects tx = []) /\
  in_order (fun _ => flat_size i) (tx_data tx) (tx_objects tx) (tx_data tx + tx_size tx).
Proof.
  intros Hm Hb t offs Ho Hbuf Hs tx.
  pose proof (tr_parse_range i b Hb) as Hr. fold t in Hr.
  assert (H64 : 2 ^ (8 * psz i) <= 2 ^ 64) by (destruct i; cbn; lia).
  assert (Hbase : 0 <= tr_buffer t).
  { unfold t. cbn [tr_parse tr_buffer]. apply kfield_nonneg. exact Hb. }
  unfold tx, decode_transaction_data. fold t. rewrite Hs. fold offs.
  cbn [tx_size tx_data tx_objects]. split; [reflexivity|]. split; [reflexivity|].
  assert (Hmap : forall l f, 0 <= f -> in_order (fun _ => flat_size i) f l (tr_data_size t) ->
     map (fun o => u64 (tr_buffer t + o)) l = map (fun o => tr_buffer t + o) l /\
     in_order (fun _ => flat_size i) (tr_buffer t + f) (map (fun o => tr_buffer t + o) l)
       (tr_buffer t + tr_data_size t)).
  { assert (Hf : 0 <= flat_size i) by (destruct i; cbn; lia).
    induction l as [|x l IH]; intros f Hf0 H; cbn [map in_order] in *; [split; [reflexivity|lia]|].
    destruct H as [A B]. destruct (IH (x + flat_size i) ltac:(lia) B) as [C D].
    assert (Hx : x + flat_size i <= tr_data_size t).
    { clear - B Hf. revert B. generalize (x + flat_size i). induction l as [|y l IH]; intros z H; cbn [in_order] in H; [exact H|].
      destruct H as [A B]. apply IH in B. lia. }
    split; [|split; [lia|]].
    - rewrite C. f_equal. unfold u64. apply Z.mod_small. lia.
    - replace (tr_buffer t + x + flat_size i) with (tr_buffer t + (x + flat_size i)) by lia. exact D. }
  destruct (offsets_valid i offs 0 (tr_data_size t)) eqn:E.
  - apply offsets_valid_order in E; auto; try lia.
    + destruct (Hmap offs 0 ltac:(lia) E) as [M1 M2]. rewrite M1. rewrite Z.add_0_r in M2.
      split; [left; split; [exact E|reflexivity]|exact M2].
    + unfold offs. apply offsets_at_range. exact Hm.
    + intros ->. exact (proj2 Hr).
  - split; [right; split; [|reflexivity]|cbn [in_order]; lia]. intros Hi.
    apply in_order_valid in Hi; [congruence|lia|apply Hr].
Qed.

(* ------------------------------------------------------------------ *)
(* C14 *)
Lemma blen_lep i v : blen (le (psize i) v) = psz i.
Proof. rewrite blen_le, psize_psz. reflexivity. Qed.

Lemma kfield_mid (pre s suf : bytes) off n :
  off = blen pre -> n = blen s -> kfield (pre ++ s ++ suf) off n = unle s.
Proof. intros H1 H2. unfold kfield. rewrite slice_app_exact by assumption. reflexivity. Qed.

Definition tr_fits (i : io) (t : trdata) : trdata :=
  {| tr_target := usz i (tr_target t); tr_cookie := usz i (tr_cookie t);
     tr_code := u32 (tr_code t); tr_flags := u32 (tr_flags t);
     tr_pid := u32 (tr_pid t); tr_euid := u32 (tr_euid t);
     tr_data_size := usz i (tr_data_size t); tr_offsets_size := usz i (tr_offsets_size t);
     tr_buffer := usz i (tr_buffer t); tr_offsets := usz i (tr_offsets t) |}.

Lemma tr_parse_image i t r : tr_parse i (tr_image i t ++ r) = tr_fits i t.
Proof.
  assert (E4 : forall v, unle (le 4 v) = u32 v) by (intros v; rewrite unle_le; reflexivity).
  assert (L4 : forall v, blen (le 4 v) = 4) by (intros v; rewrite blen_le; reflexivity).
  assert (EP : forall v, unle (le (psize i) v) = usz i v).
  { intros v. rewrite unle_le, psize_psz. reflexivity. }
  pose proof (psz_pos i) as Hp.
  unfold tr_parse, tr_fits, tr_image. rewrite <- !app_assoc.
  f_equal; rewrite <- ?E4, <- ?EP.
  - apply (kfield_mid [] _ _); rewrite ?blen_lep; reflexivity.
  - apply (kfield_mid (le (psize i) (tr_target t)) _ _); rewrite ?blen_lep; reflexivity.
  - rewrite (app_assoc (le _ _)). apply kfield_mid; rewrite ?blen_app, ?blen_lep, ?L4; lia.
  - rewrite 2 (app_assoc _ _ (_ ++ _)). apply kfield_mid; rewrite ?blen_app, ?blen_lep, ?L4; lia.
  - rewrite 3 (app_assoc _ _ (_ ++ _)). apply kfield_mid; rewrite ?blen_app, ?blen_lep, ?L4; lia.
  - rewrite 4 (app_assoc _ _ (_ ++ _)). apply kfield_mid; rewrite ?blen_app, ?blen_lep, ?L4; lia.
  - rewrite 5 (app_assoc _ _ (_ ++ _)). apply kfield_mid; rewrite ?blen_app, ?blen_lep, ?L4; lia.
  - rewrite 6 (app_assoc _ _ (_ ++ _)). apply kfield_mid; rewrite ?blen_app, ?blen_lep, ?L4; lia.
  - rewrite 7 (app_assoc _ _ (_ ++ _)). apply kfield_mid; rewrite ?blen_app, ?blen_lep, ?L4; lia.
  - rewrite 8 (app_assoc _ _ (_ ++ _)). apply kfield_mid; rewrite ?blen_app, ?blen_lep, ?L4; lia.
Qed.

Lemma offsets_at_cons i m a n :
  offsets_at i m a (S n) = unle (mread m a (psz i)) :: offsets_at i m (a + psz i) n.
Proof.
  unfold offsets_at. cbn [seq map]. f_equal.
  - f_equal. f_equal. lia.
  - rewrite <- seq_shift, map_map. apply map_ext. intros k. do 2 f_equal. lia.
Qed.

Lemma offsets_read i m offs : forall a,
  Forall (fun o => 0 <= o < 2 ^ (8 * psz i)) offs ->
  holds m a (offsets_image i offs) -> offsets_at i m a (length offs) = offs.
Proof.
  pose proof (psz_pos i) as Hp.
  induction offs as [|o r IH]; intros a Hr H; [reflexivity|].
  inversion Hr as [|x y R1 R2]; subst x y. cbn [length]. rewrite offsets_at_cons.
  unfold holds, offsets_image in H. cbn [flat_map] in H. fold (offsets_image i r) in H.
  rewrite blen_app, blen_lep in H. pose proof (blen_nonneg _ (offsets_image i r)).
  f_equal.
  - rewrite <- (Z.add_0_r a). rewrite (mread_sub _ _ _ _ 0 (psz i) H) by lia.
    rewrite <- (blen_lep i o) at 1. rewrite slice_app_l by (rewrite ?blen_lep; lia).
    rewrite slice_all by reflexivity. rewrite unle_le, psize_psz. apply Z.mod_small. exact R1.
  - apply IH; [exact R2|]. unfold holds.
    rewrite (mread_sub _ _ _ _ (psz i) (blen (offsets_image i r)) H) by lia.
    rewrite slice_app_r by (rewrite blen_lep; lia). rewrite blen_lep, Z.sub_diag.
    apply slice_all. reflexivity.
Qed.

Lemma in_order_le i offs : forall f size,
  in_order (fun _ => flat_size i) f offs size ->
  f <= size /\ Forall (fun o => f <= o < size) offs /\ blen offs * flat_size i <= size - f.
Proof.
  pose proof (flat_size_pos i).
  induction offs as [|o r IH]; intros f size H1; cbn [in_order] in H1.
  - split; [exact H1|]. split; [constructor|]. change (blen (@nil Z)) with 0. lia.
  - destruct H1 as [A B]. destruct (IH _ _ B) as (C & D & E).
    split; [lia|]. split.
    + constructor; [lia|]. eapply Forall_impl; [|exact D]. cbn beta. lia.
    + change (blen (o :: r)) with (Z.of_nat (S (length r))). unfold blen in E. lia.
Qed.

Theorem sent_structure i handle code payload payload_len tx_flags offsets offs_addr r :
  0 <= code < 2 ^ 32 -> 0 <= payload_len < 2 ^ 31 ->
  0 <= tx_flags < 2 ^ 32 -> Z.testbit tx_flags 3 = false ->
  in_order (fun _ => flat_size i) 0 offsets payload_len ->
  forall m target cookie pid euid buffer offs2,
  let sent := fill_transaction_data i handle code payload payload_len tx_flags offsets offs_addr in
  holds m offs2 (snd sent) -> 0 <= offs2 < 2 ^ (8 * psz i) ->
  0 <= buffer -> buffer + payload_len < 2 ^ (8 * psz i) ->
  0 <= pid < 2 ^ 32 -> 0 <= euid < 2 ^ 32 ->
  decode_transaction_data i m (deliver i (fst sent ++ r) target cookie pid euid buffer offs2) =
  {| tx_status := 0; tx_code := code;
     tx_flags := if Z.testbit tx_flags 0 then TX_FLAG_ONEWAY else 0;
     tx_pid := pid; tx_euid := euid; tx_target := usz i target; tx_size := payload_len;
     tx_data := buffer; tx_objects := map (fun o => buffer + o) offsets |}.
Proof.
  intros H1 H2 H3 H4 H5 m target cookie pid euid buffer offs2 sent Hm Ho Hb1 Hb2 Hpid Heuid.
  pose proof (psz_pos i) as Hp.
  destruct (in_order_le i offsets 0 payload_len H5) as (_ & O2 & O3).
  assert (Hfl : flat_size i = 8 + 2 * psz i) by reflexivity.
  assert (H64 : 2 ^ 32 <= 2 ^ (8 * psz i) <= 2 ^ 64) by (destruct i; cbn; lia).
  pose proof (blen_nonneg _ offsets) as Hn.
  set (has := match offsets with [] => false | _ => true end).
  assert (Hsz : (if has then blen offsets * psz i else 0) = blen offsets * psz i).
  { unfold has. destruct offsets; [reflexivity|reflexivity]. }
  assert (Hob : snd sent = offsets_image i offsets).
  { unfold sent, fill_transaction_data. cbn [snd]. destruct offsets; reflexivity. }
  assert (Hnn : 0 <= blen offsets * psz i < 2 ^ 31) by (destruct Hp as [E|E]; rewrite E in *; lia).
  assert (U32 : forall v, 0 <= v < 2 ^ 32 -> u32 v = v) by (intros v Hv; apply u32_small; exact Hv).
  assert (USZ : forall v, 0 <= v < 2 ^ (8 * psz i) -> usz i v = v) by (intros v Hv; apply usz_in; exact Hv).
  unfold deliver. unfold sent at 1 2 3 4. unfold fill_transaction_data. cbn [fst].
  rewrite tr_parse_image. unfold tr_fits.
  cbn [tr_target tr_cookie tr_code tr_flags tr_pid tr_euid tr_data_size tr_offsets_size tr_buffer tr_offsets].
  fold has. rewrite Hsz, (USZ (blen offsets * psz i)), (USZ payload_len), !U32 by lia.
  unfold decode_transaction_data.
  match goal with |- context [tr_parse i (tr_image i ?t)] =>
    rewrite <- (app_nil_r (tr_image i t)), tr_parse_image; unfold tr_fits end.
  cbn [tr_target tr_cookie tr_code tr_flags tr_pid tr_euid tr_data_size tr_offsets_size tr_buffer tr_offsets].
  rewrite (USZ (blen offsets * psz i)), (USZ payload_len), (USZ buffer), (USZ offs2), !U32 by (rewrite ?Z.div_mul by lia; destruct Hp as [E|E]; rewrite E in *; lia).
  rewrite H4.
  rewrite Z.div_mul by lia.
  unfold blen at 1 2. rewrite Nat2Z.id.
  rewrite offsets_read.
  - rewrite (in_order_valid i payload_len offsets 0) by (try lia; exact H5).
    assert (Hmap : map (fun o => u64 (buffer + o)) offsets = map (fun o => buffer + o) offsets).
    { apply map_ext_in. intros o Hin. rewrite Forall_forall in O2. specialize (O2 o Hin).
      unfold u64. apply Z.mod_small. lia. }
    rewrite Hmap. reflexivity.
  - eapply Forall_impl; [|exact O2]. cbn beta. lia.
  - rewrite <- Hob. exact Hm.
Qed.

Theorem sent_status i m status addr target cookie pid euid buffer offs2 :
  - 2 ^ 31 <= status < 2 ^ 31 -> holds m buffer (le 4 status) -> 0 <= buffer < 2 ^ (8 * psz i) ->
  let tx := decode_transaction_data i m
    (deliver i (encode_status_reply i addr) target cookie pid euid buffer offs2) in
  tx_status tx = status /\ tx_size tx = 0 /\ tx_objects tx = [] /\ tx_flags tx = 0.
Proof.
  intros Hs Hm Hb tx. unfold tx, deliver, encode_status_reply.
  match goal with |- context [tr_parse i (tr_image i ?t)] =>
    rewrite <- (app_nil_r (tr_image i t)), tr_parse_image end.
  unfold tr_fits.
  cbn [tr_target tr_cookie tr_code tr_flags tr_pid tr_euid tr_data_size tr_offsets_size tr_buffer tr_offsets].
  unfold decode_transaction_data.
  match goal with |- context [tr_parse i (tr_image i ?t)] =>
    rewrite <- (app_nil_r (tr_image i t)), tr_parse_image end.
  unfold tr_fits.
  cbn [tr_target tr_cookie tr_code tr_flags tr_pid tr_euid tr_data_size tr_offsets_size tr_buffer tr_offsets].
  change (u32 (u32 TF_STATUS_CODE)) with 8. change (Z.testbit 8 3) with true. cbv iota.
  cbn [tx_status tx_size tx_objects tx_flags]. rewrite usz_in by exact Hb.
  split; [|auto].
  unfold holds in Hm. rewrite blen_le in Hm. change (Z.of_nat 4) with 4 in Hm. rewrite Hm.
  rewrite unle_le. change (8 * Z.of_nat 4) with 32.
  apply sgn_u32. exact Hs.
Qed.

(* ------------------------------------------------------------------ *)
(* C15 *)
Lemma converted_is_local i pr l : converted_image i pr l = local_image i pr (Some l).
Proof. reflexivity. Qed.

Lemma full_nonneg i pr : 0 <= flat_size i + flat_extra pr /\ 0 <= flat_extra pr.
Proof. destruct i, pr; cbn; lia. Qed.

Lemma set_size_cut (l r : bytes) n : n = blen l -> set_size (l ++ r) n = l.
Proof.
  intros ->. unfold set_size. rewrite blen_app. pose proof (blen_nonneg _ r).
  destruct (Z.leb_spec (blen l) (blen l + blen r)); [|lia]. apply ztake_app_exact. reflexivity.
Qed.

Section Copy.
  Variables (i : io) (pr : protocol) (c : converter) (data : bytes).
  Hypothesis Hbytes : all_bytes data.
  Let osz (o : Z) : Z := Z.max 4 (object_size i pr (k_type data o)).
  Let full : Z := flat_size i + flat_extra pr.

  Definition data_size (o : Z) : Z :=
    if k_type data o =? TYPE_PTR then kp_length (k_ptr i data o)
    else if k_type data o =? TYPE_FDA then u64 (usz i (kfield data (o + 8) (psz i) * 4))
    else 0.

  Lemma object_size_cases t :
    object_size i pr t = full /\ t = TYPE_HANDLE \/
    t <> TYPE_HANDLE /\
    (t = TYPE_PTR -> object_size i pr t = ptr_size i) /\
    (t = TYPE_FDA -> object_size i pr t = fda_size i) /\ 0 <= object_size i pr t.
  Proof.
    destruct (Z.eq_dec t TYPE_HANDLE) as [->|Hn]; [left; split; reflexivity|right].
    split; [exact Hn|]. split; [intros ->; reflexivity|]. split; [intros ->; reflexivity|].
    unfold object_size. assert (0 <= flat_extra pr) by (destruct pr; cbn; lia).
    assert (0 <= flat_size i /\ 0 <= ptr_size i /\ 0 <= fda_size i) by (destruct i; cbn; lia).
    repeat match goal with |- context [if ?b then _ else _] => destruct b end; lia.
  Qed.

  Lemma data_size_load o : 0 <= o -> o + osz o <= blen data ->
    object_data_size i data o = Ok (data_size o).
  Proof.
    intros H1 H2. unfold object_data_size, data_size, osz in *.
    rewrite load_inside by lia. cbn [bind].
    change (unle (slice data o 4)) with (k_type data o).
    pose proof (psz_pos i) as Hp.
    assert (Hpt : ptr_size i = 8 + 4 * psz i) by reflexivity.
    assert (Hfd : fda_size i = 8 + 3 * psz i) by reflexivity.
    destruct (object_size_cases (k_type data o)) as [[_ E]|(E1 & E2 & E3 & E4)].
    - rewrite E. reflexivity.
    - destruct (Z.eqb_spec (k_type data o) TYPE_PTR) as [Et|].
      + specialize (E2 Et). rewrite load_inside by lia. reflexivity.
      + destruct (Z.eqb_spec (k_type data o) TYPE_FDA) as [Et|]; [|reflexivity].
        specialize (E3 Et). rewrite load_inside by lia. reflexivity.
  Qed.

  (* the local object for the object at [o] *)
  Definition conv (o : Z) : option local :=
    match c with
    | None => None
    | Some f => if k_type data o =? TYPE_HANDLE then f (kfield data (o + 8) 4) else None
    end.

  Lemma conv_converts o l : conv o = Some l <-> converts c data o l.
  Proof.
    unfold conv, converts. destruct c as [f|].
    - destruct (Z.eqb_spec (k_type data o) TYPE_HANDLE) as [E|E].
      + split; [intros H; exists f; auto|]. intros (f' & [= <-] & _ & H). exact H.
      + split; [discriminate|]. intros (f' & [= <-] & H & _). contradiction.
    - split; [discriminate|]. intros (f' & H & _). discriminate.
  Qed.

  Lemma conv_load o : 0 <= o -> o + osz o <= blen data ->
    convert_local c data o = Ok (conv o).
  Proof.
    intros H1 H2. unfold convert_local, conv. destruct c as [f|]; [|reflexivity].
    unfold decode_binder_handle. unfold osz in H2. rewrite load_inside by lia. cbn [bind].
    change (unle (slice data o 4)) with (k_type data o).
    destruct (Z.eqb_spec (k_type data o) TYPE_HANDLE) as [E|E]; [|reflexivity].
    assert (12 <= object_size i pr (k_type data o)).
    { rewrite E. destruct i, pr; vm_compute; discriminate. }
    rewrite load_inside by lia. reflexivity.
  Qed.

  (* The copy of one piece is right: bytes outside of converted objects *)
  Definition copied (T : bytes) (objs : list Z) (from to : Z) : Prop :=
    (forall j, from <= j < to -> ~ in_converted i pr c data objs j -> zn T (j - from) = zn data j) /\
    (forall o l, In o objs -> converts c data o l ->
       from <= o /\ o + full <= to /\ slice T (o - from) full = converted_image i pr l).

  Lemma osz_pos o : 4 <= osz o.
  Proof. unfold osz. lia. Qed.

  Lemma in_order_tail objs : forall f, in_order osz f objs (blen data) ->
    f <= blen data /\ Forall (fun o => f <= o /\ o + osz o <= blen data) objs.
  Proof.
    induction objs as [|o r IH]; intros f H; cbn [in_order] in H; [split; [exact H|constructor]|].
    destruct H as [A B]. destruct (IH _ B) as [C D]. pose proof (osz_pos o).
    split; [lia|]. constructor; [lia|]. eapply Forall_impl; [|exact D]. cbn beta. lia.
  Qed.

  Lemma objects_copied objs : forall off d,
    0 <= off -> in_order osz off objs (blen data) ->
    exists off1 d1 T, append_objects i pr c data objs off d = Ok (off1, d1) /\
      off <= off1 <= blen data /\ wd_bytes d1 = wd_bytes d ++ T /\ blen T = off1 - off /\
      copied T objs off off1 /\
      (forall o l j, In o objs -> converts c data o l -> off1 <= j -> ~ (o <= j < o + full)) /\
      wd_offsets d1 = wd_offsets d ++ map (fun o => blen (wd_bytes d) + (o - off)) objs /\
      wd_bufsize d1 = wd_bufsize d + zsum (map (fun o => align8 (data_size o)) objs).
  Proof.
    induction objs as [|o r IH]; intros off d Hoff Hin.
    - exists off, d, []. cbn [append_objects map zsum in_order] in *. rewrite !app_nil_r, Z.add_0_r.
      change (blen (@nil Z)) with 0.
      split; [reflexivity|]. split; [lia|]. split; [reflexivity|]. split; [lia|].
      split; [split; [intros j Hj; lia|intros ? ? []]|]. split; [intros ? ? ? []|].
      split; reflexivity.
    - pose proof (in_order_tail _ _ Hin) as [_ Hall]. inversion Hall as [|x y [Ho1 Ho2] _]; subst x y.
      cbn [in_order] in Hin. destruct Hin as [_ Hin].
      set (pre := slice data off (o - off)).
      assert (Hpre : (if off <? o then load data off (o - off) else Ok []) = Ok pre).
      { pose proof (osz_pos o). destruct (Z.ltb_spec off o); [apply load_inside; lia|].
        unfold pre. replace (o - off) with 0 by lia. unfold slice. rewrite ztake_neg by lia. reflexivity. }
      assert (Hoff1 : (if off <? o then o else off) = o) by (destruct (Z.ltb_spec off o); lia).
      assert (Hpl : blen pre = o - off).
      { unfold pre. apply blen_slice; [lia|lia|]. pose proof (osz_pos o). lia. }
      cbn [append_objects]. rewrite Hpre. cbn [bind]. rewrite Hoff1.
      rewrite conv_load by lia. cbn [bind].
      rewrite data_size_load by lia.
      set (d1 := wd_set_bytes d (wd_bytes d ++ pre)).
      set (img := match conv o with Some l => converted_image i pr l
                  | None => slice data o (object_size i pr (k_type data o)) end).
      assert (Hobj : exists n,
        blen img = n /\ 0 <= n <= osz o /\
        match conv o with Some _ => n = full | None => n = object_size i pr (k_type data o) end /\
        match conv o with
        | Some obj =>
          let buf := set_size (wd_bytes (record_offset d1 (blen (wd_bytes d1))))
                       (blen (wd_bytes d1) + MAX_BINDER_OBJECT_SIZE) in
          let* (buf1, n0) := encode_local_object i pr buf (blen (wd_bytes d1)) (Some obj) in
          Ok (wd_set_bytes (record_offset d1 (blen (wd_bytes d1))) (set_size buf1 (blen (wd_bytes d1) + n0)), n0)
        | None =>
          let* t := load data o 4 in
          let n0 := object_size i pr (unle t) in
          let* img0 := load data o n0 in
          Ok (wd_set_bytes (record_offset d1 (blen (wd_bytes d1)))
                (wd_bytes (record_offset d1 (blen (wd_bytes d1))) ++ img0), n0)
        end = Ok (wd_set_bytes (record_offset d1 (blen (wd_bytes d1))) (wd_bytes d1 ++ img), n)).
      { destruct (conv o) as [l|] eqn:Ec.
        - exists full. unfold img. rewrite converted_is_local, blen_local. split; [reflexivity|].
          apply conv_converts in Ec. destruct Ec as (f & _ & Et & _).
          assert (Eo : object_size i pr (k_type data o) = full) by (rewrite Et; reflexivity).
          assert (0 <= full) by (pose proof (full_nonneg i pr); unfold full; lia).
          split; [unfold osz; lia|]. split; [reflexivity|].
          cbn [record_offset wd_bytes]. fold d1.
          rewrite encode_local_eq by apply flat_fits. cbn [bind].
          do 3 f_equal. rewrite (app_assoc (wd_bytes d1)).
          apply set_size_cut. rewrite blen_app, blen_local. reflexivity.
        - exists (object_size i pr (k_type data o)). unfold img.
          assert (0 <= object_size i pr (k_type data o)).
          { destruct (object_size_cases (k_type data o)) as [[E _]|(_ & _ & _ & E)]; [|exact E].
            rewrite E. apply (full_nonneg i pr). }
          assert (object_size i pr (k_type data o) <= osz o) by (unfold osz; lia).
          split; [apply blen_slice; lia|]. split; [lia|]. split; [reflexivity|].
          rewrite load_inside by (pose proof (osz_pos o); lia). cbn [bind].
          change (unle (slice data o 4)) with (k_type data o).
          rewrite load_inside by lia. reflexivity. }
      destruct Hobj as (n & Hn1 & Hn2 & Hn3 & Hobj). cbv zeta in Hobj. rewrite Hobj. cbn [bind].
      set (d2 := add_bufsize (wd_set_bytes (record_offset d1 (blen (wd_bytes d1))) (wd_bytes d1 ++ img))
                   (align8 (data_size o))).
      assert (Hin2 : in_order osz (o + n) r (blen data)).
      { destruct r as [|o2 r2]; cbn [in_order] in *; [lia|]. split; [lia|apply Hin]. }
      destruct (IH (o + n) d2 ltac:(lia) Hin2) as (off2 & d3 & T & E1 & E2 & E3 & E4 & (C1 & C2) & E5 & E6 & E7).
      exists off2, d3, (pre ++ img ++ T). split; [exact E1|].
      assert (Hb2 : wd_bytes d2 = (wd_bytes d ++ pre) ++ img) by reflexivity.
      split; [lia|]. split; [rewrite E3, Hb2, <- !app_assoc; reflexivity|].
      split; [rewrite !blen_app, Hpl, Hn1, E4; lia|].
      split.
      + split.
        * intros j Hj Hnc.
          destruct (Z.lt_ge_cases j o) as [Hjo|Hjo].
          { rewrite zn_app_l by lia. unfold pre. rewrite zn_slice by lia. f_equal. lia. }
          rewrite zn_app_r by lia. rewrite Hpl.
          destruct (Z.lt_ge_cases j (o + n)) as [Hjn|Hjn].
          { rewrite zn_app_l by lia. unfold img in *. destruct (conv o) as [l|] eqn:Ec.
            - exfalso. apply Hnc. exists o, l. split; [left; reflexivity|].
              split; [apply conv_converts; exact Ec|]. unfold full in Hn3. lia.
            - rewrite zn_slice by lia. f_equal. lia. }
          rewrite zn_app_r by lia. rewrite Hn1.
          replace (j - off - (o - off) - n) with (j - (o + n)) by lia.
          apply C1; [lia|]. intros (o2 & l2 & I1 & I2 & I3). apply Hnc.
          exists o2, l2. split; [right; exact I1|]. auto.
        * intros o2 l2 [<-|Hin3] Hc2.
          { apply conv_converts in Hc2 as Hc3. rewrite Hc3 in Hn3.
            split; [lia|]. split; [lia|].
            rewrite <- Hpl. rewrite slice_app_exact; [|reflexivity|rewrite Hn1; lia].
            unfold img. rewrite Hc3. reflexivity. }
          { destruct (C2 o2 l2 Hin3 Hc2) as (D1 & D2 & D3). split; [lia|]. split; [lia|].
            rewrite app_assoc. rewrite slice_app_r by (rewrite blen_app; lia).
            rewrite blen_app, Hpl, Hn1. rewrite <- D3. f_equal. lia. }
      + split; [|split].
        * intros o2 l2 j [<-|Hin3] Hc2 Hj.
          { apply conv_converts in Hc2. rewrite Hc2 in Hn3. lia. }
          { apply (E5 o2 l2 j Hin3 Hc2 Hj). }
        * rewrite E6. change (wd_offsets d2) with (wd_offsets d ++ [blen (wd_bytes d ++ pre)]).
          cbn [map]. rewrite <- app_assoc. cbn [app]. rewrite blen_app, Hpl. do 2 f_equal.
          rewrite Hb2, !blen_app, Hpl, Hn1. apply map_ext. intros o2. lia.
        * rewrite E7. change (wd_bufsize d2) with (wd_bufsize d + align8 (data_size o)). cbn [map zsum]. lia.
  Qed.

  Lemma contents_copied objs off d :
    0 <= off -> in_order osz off objs (blen data) ->
    exists T d1, append_contents i pr c d data objs off = Ok d1 /\
      wd_bytes d1 = wd_bytes d ++ T /\ blen T = blen data - off /\
      copied T objs off (blen data) /\
      wd_offsets d1 = wd_offsets d ++ map (fun o => blen (wd_bytes d) + (o - off)) objs /\
      wd_bufsize d1 = wd_bufsize d + zsum (map (fun o => align8 (data_size o)) objs).
  Proof.
    intros Hoff Hin.
    destruct (objects_copied objs off d Hoff Hin) as (off1 & d1 & T & E1 & E2 & E3 & E4 & (C1 & C2) & E5 & E6 & E7).
    unfold append_contents. rewrite E1. cbn [bind].
    destruct (Z.ltb_spec off1 (blen data)) as [Hlt|Hge].
    - rewrite load_inside by lia. cbn [bind].
      set (rest := slice data off1 (blen data - off1)).
      assert (Hr : blen rest = blen data - off1) by (apply blen_slice; lia).
      eexists (T ++ rest), _. split; [reflexivity|]. cbn [wd_set_bytes wd_bytes wd_offsets wd_bufsize].
      split; [rewrite E3, <- app_assoc; reflexivity|]. split; [rewrite blen_app; lia|].
      split; [|split; [exact E6|exact E7]]. split.
      + intros j Hj Hnc. destruct (Z.lt_ge_cases j off1).
        * rewrite zn_app_l by lia. apply C1; [lia|exact Hnc].
        * rewrite zn_app_r by lia. unfold rest. rewrite zn_slice by lia. f_equal. lia.
      + intros o l Hi Hc. destruct (C2 o l Hi Hc) as (D1 & D2 & D3). split; [lia|]. split; [lia|].
        rewrite slice_app_l by lia. exact D3.
    - assert (off1 = blen data) by lia. subst off1.
      exists T, d1. split; [reflexivity|]. split; [exact E3|]. split; [exact E4|].
      split; [split; assumption|]. split; assumption.
  Qed.

  Lemma in_order_apart objs : forall f o1 o2, in_order osz f objs (blen data) ->
    In o1 objs -> In o2 objs -> o1 <> o2 -> o1 + osz o1 <= o2 \/ o2 + osz o2 <= o1.
  Proof.
    induction objs as [|o r IH]; intros f o1 o2 H I1 I2 Hne; [destruct I1|].
    cbn [in_order] in H. destruct H as [A B].
    destruct (in_order_tail r _ B) as [_ Hall]. rewrite Forall_forall in Hall.
    destruct I1 as [<-|I1], I2 as [<-|I2].
    - contradiction.
    - left. apply (Hall o2 I2).
    - right. apply (Hall o1 I1).
    - eapply IH; eauto.
  Qed.

  (* the buffers of the copy *)
  Lemma copied_space objs off T pre :
    0 <= off -> in_order osz off objs (blen data) -> blen T = blen data - off ->
    copied T objs off (blen data) ->
    forall o, In o objs ->
    buffer_space i (pre ++ T) (blen pre + (o - off)) =
    if k_type data o =? TYPE_PTR then align8 (data_size o) else 0.
  Proof.
    intros Hoff Hin HT (C1 & C2) o Ho.
    destruct (in_order_tail _ _ Hin) as [_ Hall]. rewrite Forall_forall in Hall.
    destruct (Hall o Ho) as [Ho1 Ho2]. pose proof (osz_pos o) as Hos.
    pose proof (psz_pos i) as Hp. assert (Hpt : ptr_size i = 8 + 4 * psz i) by reflexivity.
    assert (Hfl : flat_size i = 8 + 2 * psz i) by reflexivity.
    assert (Hex : 0 <= flat_extra pr) by (pose proof (full_nonneg i pr); unfold full; lia).
    assert (Hk : forall p q, 0 <= p -> p <= blen T -> kfield (pre ++ T) (blen pre + p) q = kfield T p q).
    { intros p q H1 H2. unfold kfield. rewrite slice_app_r by lia. do 2 f_equal. lia. }
    unfold buffer_space, k_type. rewrite Hk by lia.
    destruct (conv o) as [l|] eqn:Ec.
    - apply conv_converts in Ec. destruct (C2 o l Ho Ec) as (D1 & D2 & D3).
      destruct Ec as (f & _ & Et & _). unfold k_type in Et. rewrite Et.
      assert (E : kfield T (o - off) 4 = TYPE_BINDER).
      { unfold kfield. replace (o - off) with (o - off + 0) by lia.
        rewrite <- (slice_slice _ T (o - off) full 0 4) by (unfold full; lia).
        rewrite D3. reflexivity. }
      rewrite E. reflexivity.
    - assert (Heq : forall k, 0 <= k < osz o -> zn T (o - off + k) = zn data (o + k)).
      { intros k Hkk. replace (o - off + k) with (o + k - off) by lia. apply C1; [lia|].
        intros (o2 & l2 & I1 & I2 & I3). destruct (Z.eq_dec o2 o) as [->|Hne].
        - apply conv_converts in I2. congruence.
        - destruct (in_order_apart objs off o o2 Hin Ho I1 ltac:(congruence)) as [H|H]; [lia|].
          assert (osz o2 >= full).
          { unfold osz. destruct I2 as (f2 & _ & Et2 & _). rewrite Et2. change (object_size i pr TYPE_HANDLE) with full. lia. }
          unfold full in *. lia. }
      assert (Hf : forall k n, 0 <= k -> 0 <= n -> k + n <= osz o -> kfield T (o - off + k) n = kfield data (o + k) n).
      { intros k n H1 H2 H3. unfold kfield. f_equal. apply list_zn; rewrite blen_slice by lia.
        - rewrite blen_slice by lia. reflexivity.
        - intros j Hj. rewrite !zn_slice by lia. rewrite <- !Z.add_assoc. rewrite !Z.add_assoc.
          replace (o - off + k + j) with (o - off + (k + j)) by lia.
          replace (o + k + j) with (o + (k + j)) by lia. apply Heq. lia. }
      pose proof (Hf 0 4 ltac:(lia) ltac:(lia) ltac:(lia)) as Ht. rewrite !Z.add_0_r in Ht. rewrite Ht.
      fold (k_type data o). destruct (Z.eqb_spec (k_type data o) TYPE_PTR) as [Et|]; [|reflexivity].
      f_equal. unfold data_size. rewrite Et. change (TYPE_PTR =? TYPE_PTR) with true. cbv iota.
      cbn [k_ptr kp_length].
      assert (Hop : osz o = ptr_size i).
      { unfold osz. rewrite Et. change (object_size i pr TYPE_PTR) with (ptr_size i). lia. }
      replace (blen pre + (o - off) + 8 + psz i) with (blen pre + (o - off + (8 + psz i))) by lia.
      rewrite Hk by lia. rewrite Hf by lia. f_equal. lia.
  Qed.
End Copy.

Lemma zsum_le {A} (f g : A -> Z) l : (forall x, In x l -> f x <= g x) ->
  zsum (map f l) <= zsum (map g l).
Proof.
  induction l as [|x l IH]; intros H; cbn [map zsum]; [lia|].
  pose proof (H x (or_introl eq_refl)). assert (zsum (map f l) <= zsum (map g l)); [|lia].
  apply IH. intros y Hy. apply H. right; exact Hy.
Qed.

Theorem contents_copy i pr c d data objs off :
  contents_ok i pr data objs off ->
  exists T d1, append_contents i pr c d data objs off = Ok d1 /\
    wd_bytes d1 = wd_bytes d ++ T /\ blen T = blen data - off /\
    (forall j, off <= j < blen data -> ~ in_converted i pr c data objs j ->
       byte_at T (j - off) = byte_at data j) /\
    (forall o l, In o objs -> converts c data o l ->
       slice T (o - off) (flat_size i + flat_extra pr) = converted_image i pr l) /\
    let offs := map (fun o => blen (wd_bytes d) + (o - off)) objs in
    wd_offsets d1 = wd_offsets d ++ offs /\
    space_needed i (wd_bytes d1) offs <= wd_bufsize d1 - wd_bufsize d /\
    (has_fda data objs = false ->
     space_needed i (wd_bytes d1) offs = wd_bufsize d1 - wd_bufsize d).
Proof.
  intros (H1 & H2 & H3).
  destruct (contents_copied i pr c data objs off d H1 H3) as (T & d1 & E1 & E2 & E3 & C & E5 & E6).
  exists T, d1. split; [exact E1|]. split; [exact E2|]. split; [exact E3|].
  split; [apply C|]. split; [intros o l Ho Hc; apply (proj2 C o l Ho Hc)|].
  cbv zeta. split; [exact E5|].
  assert (Hs : space_needed i (wd_bytes d1) (map (fun o => blen (wd_bytes d) + (o - off)) objs) =
    zsum (map (fun o => if k_type data o =? TYPE_PTR then align8 (data_size i data o) else 0) objs)).
  { unfold space_needed. rewrite map_map, E2. f_equal. apply map_ext_in. intros o Ho.
    apply (copied_space i pr c data objs off T (wd_bytes d)); auto. }
  rewrite Hs, E6.
  assert (Hnn : forall o, 0 <= align8 (data_size i data o)).
  { intros o. assert (0 <= data_size i data o); [|pose proof (align8_spec (data_size i data o)); lia].
    unfold data_size. destruct (_ =? _); [apply kfield_nonneg; exact H2|].
    destruct (_ =? _); [unfold u64; apply Z.mod_pos_bound; lia|lia]. }
  split.
  - assert (zsum (map (fun o => if k_type data o =? TYPE_PTR then align8 (data_size i data o) else 0) objs) <=
            zsum (map (fun o => align8 (data_size i data o)) objs)); [|lia].
    apply zsum_le. intros o _. specialize (Hnn o). destruct (_ =? _); lia.
  - intros Hf. replace (wd_bufsize d + zsum (map (fun o => align8 (data_size i data o)) objs) - wd_bufsize d)
      with (zsum (map (fun o => align8 (data_size i data o)) objs)) by lia.
    f_equal. apply map_ext_in. intros o Ho. unfold has_fda in Hf.
    destruct (Z.eqb_spec (k_type data o) TYPE_PTR) as [|Hne]; [reflexivity|].
    unfold data_size. destruct (Z.eqb_spec (k_type data o) TYPE_PTR) as [|_]; [contradiction|].
    destruct (Z.eqb_spec (k_type data o) TYPE_FDA) as [Ef|]; [|reflexivity].
    exfalso. assert (existsb (fun o => k_type data o =? TYPE_FDA) objs = true); [|congruence].
    apply existsb_exists. exists o. split; [exact Ho|]. apply Z.eqb_eq. exact Ef.
Qed.

Theorem decoded_objects_32 m b :
  byte_memory m -> all_bytes b ->
  let t := tr_parse Io32 b in
  let offs := offsets_at Io32 m (tr_offsets t) (Z.to_nat (u32 (tr_offsets_size t / 4))) in
  Z.testbit (tr_flags t) 3 = false ->
  let tx := decode_transaction_data Io32 m b in
  (in_order (fun _ => 16) 0 offs (tx_size tx) /\
   tx_objects tx = map (fun o => tr_buffer t + o) offs \/
   ~ in_order (fun _ => 16) 0 offs (tx_size tx) /\ tx_objects tx = []) /\
  in_order (fun _ => 16) (tx_data tx) (tx_objects tx) (tx_data tx + tx_size tx).
Proof.
  intros Hm Hb t offs Hf tx.
  pose proof (offsets_at_range Io32 m (tr_offsets t) (Z.to_nat (u32 (tr_offsets_size t / 4))) Hm) as Hr.
  fold offs in Hr.
  assert (H1 : Forall (fun o => o + flat_size Io32 < 2 ^ 64) offs).
  { eapply Forall_impl; [|exact Hr]. intros o Ho.
    change (8 * psz Io32) with 32 in Ho. change (flat_size Io32) with 16.
    cbn beta in Ho. lia. }
  assert (H2 : tr_buffer t + tr_data_size t < 2 ^ 64).
  { pose proof (tr_parse_range Io32 b Hb) as R1. fold t in R1.
    assert (R2 : tr_buffer t < 2 ^ 32).
    { unfold t. cbn [tr_parse tr_buffer]. unfold kfield.
      set (a := 4 * psz Io32 + 16).
      pose proof (unle_bound _ (Forall_slice _ _ a (psz Io32) _ Hb)) as B.
      assert (Hl : blen (slice b a (psz Io32)) <= 4).
      { unfold slice. rewrite blen_ztake. change (psz Io32) with 4. lia. }
      eapply Z.lt_le_trans; [apply B|]. change (2 ^ 32) with (2 ^ (8 * 4)).
      apply Z.pow_le_mono_r; lia. }
    change (8 * psz Io32) with 32 in R1. lia. }
  exact (proj2 (proj2 (decoded_objects Io32 m b Hm Hb H1 H2 Hf))).
Qed.

Theorem sent_transaction i handle code payload payload_len flags offsets offs_addr :
  0 <= code < 2 ^ 32 -> 0 <= payload_len < 2 ^ 31 ->
  in_order (fun _ => flat_size i) 0 offsets payload_len ->
  forall sent, sent = encode_transaction i handle code payload payload_len flags offsets offs_addr \/
    (exists bs, sent = encode_transaction_sg i handle code payload payload_len flags offsets offs_addr bs) ->
  forall m target cookie pid euid buffer offs2,
  holds m offs2 (snd sent) -> 0 <= offs2 < 2 ^ (8 * psz i) ->
  0 <= buffer -> buffer + payload_len < 2 ^ (8 * psz i) ->
  0 <= pid < 2 ^ 32 -> 0 <= euid < 2 ^ 32 ->
  decode_transaction_data i m (deliver i (fst sent) target cookie pid euid buffer offs2) =
  {| tx_status := 0; tx_code := code;
     tx_flags := if Z.testbit flags 0 then TX_FLAG_ONEWAY else 0;
     tx_pid := pid; tx_euid := euid; tx_target := usz i target; tx_size := payload_len;
     tx_data := buffer; tx_objects := map (fun o => buffer + o) offsets |}.
Proof.
  intros H1 H2 H3 sent Hs m target cookie pid euid buffer offs2 Hm Ho Hb1 Hb2 Hp He.
  assert (Hf : 0 <= request_flags flags < 2 ^ 32 /\ Z.testbit (request_flags flags) 3 = false /\
    Z.testbit (request_flags flags) 0 = Z.testbit flags 0).
  { unfold request_flags. destruct (Z.testbit flags 0); vm_compute; repeat split; discriminate. }
  destruct Hf as (F1 & F2 & F3). rewrite <- F3.
  destruct Hs as [->|(bs & ->)].
  - pose proof (sent_structure i handle code payload payload_len (request_flags flags) offsets offs_addr []) as K.
    cbv zeta in K. rewrite app_nil_r in K. apply K; auto.
  - apply (sent_structure i handle code payload payload_len (request_flags flags) offsets offs_addr (le (psize i) (align8 bs))); auto.
Qed.

Theorem sent_reply i handle code payload payload_len offsets offs_addr :
  0 <= code < 2 ^ 32 -> 0 <= payload_len < 2 ^ 31 ->
  in_order (fun _ => flat_size i) 0 offsets payload_len ->
  forall sent, sent = encode_reply i handle code payload payload_len offsets offs_addr \/
    (exists bs, sent = encode_reply_sg i handle code payload payload_len offsets offs_addr bs) ->
  forall m target cookie pid euid buffer offs2,
  holds m offs2 (snd sent) -> 0 <= offs2 < 2 ^ (8 * psz i) ->
  0 <= buffer -> buffer + payload_len < 2 ^ (8 * psz i) ->
  0 <= pid < 2 ^ 32 -> 0 <= euid < 2 ^ 32 ->
  decode_transaction_data i m (deliver i (fst sent) target cookie pid euid buffer offs2) =
  {| tx_status := 0; tx_code := code; tx_flags := 0;
     tx_pid := pid; tx_euid := euid; tx_target := usz i target; tx_size := payload_len;
     tx_data := buffer; tx_objects := map (fun o => buffer + o) offsets |}.
Proof.
  intros H1 H2 H3 sent Hs m target cookie pid euid buffer offs2 Hm Ho Hb1 Hb2 Hp He.
  assert (F1 : 0 <= 0 < 2 ^ 32) by lia.
  destruct Hs as [->|(bs & ->)].
  - pose proof (sent_structure i handle code payload payload_len 0 offsets offs_addr []) as K.
    cbv zeta in K. rewrite app_nil_r in K. apply K; auto.
  - apply (sent_structure i handle code payload payload_len 0 offsets offs_addr (le (psize i) (align8 bs))); auto.
Qed.

Lemma blen_tr_image i t : blen (tr_image i t) = tr_size i.
Proof.
  unfold tr_image, tr_size. rewrite !blen_app, !blen_lep, !blen_le. lia.
Qed.

Theorem driver_sees i handle code payload payload_len flags offsets offs_addr bs :
  0 <= handle < 2 ^ 32 -> 0 <= code < 2 ^ 32 -> 0 <= payload_len < 2 ^ 31 ->
  in_order (fun _ => flat_size i) 0 offsets payload_len ->
  0 <= payload < 2 ^ (8 * psz i) -> 0 <= offs_addr < 2 ^ (8 * psz i) ->
  0 <= bs -> bs + 8 <= 2 ^ (8 * psz i) ->
  let sent := encode_transaction_sg i handle code payload payload_len flags offsets offs_addr bs in
  blen (fst sent) = tr_size i + psz i /\
  tr_parse i (fst sent) =
    {| tr_target := handle; tr_cookie := 0; tr_code := code;
       tr_flags := if Z.testbit flags 0 then TF_ONE_WAY else TF_ACCEPT_FDS;
       tr_pid := 0; tr_euid := 0; tr_data_size := payload_len;
       tr_offsets_size := psz i * Z.of_nat (length offsets); tr_buffer := payload;
       tr_offsets := match offsets with [] => 0 | _ => offs_addr end |} /\
  kfield (fst sent) (tr_size i) (psz i) = align8 bs /\
  snd sent = flat_map (fun o => le (psize i) o) offsets.
Proof.
  intros H1 H2 H3 H4 H5 H6 H7 H8 sent.
  destruct (in_order_le i offsets 0 payload_len H4) as (_ & _ & O3).
  pose proof (psz_pos i) as Hp. assert (Hfl : flat_size i = 8 + 2 * psz i) by reflexivity.
  assert (H64 : 2 ^ 32 <= 2 ^ (8 * psz i)) by (destruct i; cbn; lia).
  pose proof (blen_nonneg _ offsets) as Hn.
  assert (Hnn : 0 <= psz i * blen offsets < 2 ^ 31) by (destruct Hp as [E|E]; rewrite E in *; lia).
  unfold sent, encode_transaction_sg, fill_transaction_data. cbn [fst snd].
  split; [rewrite blen_app, blen_tr_image, blen_lep; reflexivity|]. split; [|split].
  - rewrite tr_parse_image. unfold tr_fits.
    cbn [tr_target tr_cookie tr_code tr_flags tr_pid tr_euid tr_data_size tr_offsets_size tr_buffer tr_offsets].
    assert (EO : (if match offsets with [] => false | _ :: _ => true end then blen offsets * psz i else 0) = psz i * blen offsets).
    { destruct offsets; [change (blen []) with 0; lia|lia]. }
    rewrite EO. rewrite (u32_small handle) by lia. rewrite (u32_small code) by lia.
    rewrite (usz_in i handle), (usz_in i payload), (usz_in i payload_len), (usz_in i (psz i * _)) by lia.
    rewrite (usz_in i 0) by lia.
    assert (EF : u32 (request_flags flags) = if Z.testbit flags 0 then TF_ONE_WAY else TF_ACCEPT_FDS).
    { unfold request_flags. destruct (Z.testbit flags 0); reflexivity. }
    rewrite EF. f_equal.
    destruct offsets; rewrite usz_in by lia; reflexivity.
  - pose proof (kfield_mid (tr_image i
      {| tr_target := u32 handle; tr_cookie := 0; tr_code := code; tr_flags := request_flags flags;
       tr_pid := 0; tr_euid := 0; tr_data_size := payload_len;
       tr_offsets_size := if match offsets with [] => false | _ :: _ => true end then blen offsets * psz i else 0;
       tr_buffer := payload; tr_offsets := if match offsets with [] => false | _ :: _ => true end then offs_addr else 0 |})
      (le (psize i) (align8 bs)) [] (tr_size i) (psz i)) as K.
    rewrite app_nil_r in K. rewrite K; [|rewrite blen_tr_image; reflexivity|rewrite blen_lep; reflexivity].
    rewrite unle_le, psize_psz. apply Z.mod_small. pose proof (align8_spec bs).
    assert (2 ^ (8 * psz i) mod 8 = 0) by (destruct i; reflexivity). lia.
  - destruct offsets; reflexivity.
Qed.

Theorem contents_identical i pr d data objs off :
  contents_ok i pr data objs off ->
  exists d1, append_contents i pr None d data objs off = Ok d1 /\
    wd_bytes d1 = wd_bytes d ++ skipn (Z.to_nat off) data /\
    wd_offsets d1 = wd_offsets d ++ map (fun o => blen (wd_bytes d) + (o - off)) objs.
Proof.
  intros H. destruct (contents_copy i pr None d data objs off H) as (T & d1 & E1 & E2 & E3 & C1 & _ & E5 & _).
  exists d1. split; [exact E1|]. split; [|exact E5]. rewrite E2. f_equal.
  change (skipn (Z.to_nat off) data) with (zdrop off data).
  pose proof (blen_nonneg _ T).
  destruct H as (H1 & _). apply list_zn.
  - rewrite blen_zdrop. lia.
  - intros j Hj. rewrite zn_zdrop by lia.
    specialize (C1 (off + j)). replace (off + j - off) with j in C1 by lia.
    apply C1; [lia|]. intros (o & l & _ & (f & Hf & _) & _). discriminate.
Qed.

Theorem contents_replaced i pr d data objs :
  contents_ok i pr data objs 0 ->
  exists d1, set_contents i pr None d data objs = Ok d1 /\
    wd_bytes d1 = data /\ wd_offsets d1 = objs.
Proof.
  intros H. destruct (contents_identical i pr wd_empty data objs 0 H) as (d1 & E1 & E2 & E3).
  exists d1. split; [exact E1|]. split; [exact E2|]. rewrite E3.
  cbn [wd_empty wd_offsets wd_bytes app]. change (blen []) with 0.
  rewrite <- (map_id objs) at 2. apply map_ext. intros o. lia.
Qed.
