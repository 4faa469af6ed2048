(* Proofs about RPC headers *)
From Verif Require Import Base BaseLemmas UtfModel WriterModel ReaderModel CodecSpec UtfProofs
  CodecProofs CodecSafety ObjModel RpcModel RpcSpec.

(* The header as a list of values *)
Definition header_values (pr : protocol) (s : list Z) : list value :=
  match pr with
  | Aidl => [VInt32 BINDER_RPC_FLAGS; VString16 (Some s)]
  | Aidl2 => [VInt32 BINDER_RPC_FLAGS; VInt32 UNSET_WORK_SOURCE; VString16 (Some s)]
  | Aidl3 => [VInt32 BINDER_RPC_FLAGS; VInt32 UNSET_WORK_SOURCE; VInt32 BINDER_SYS_HEADER;
              VString16 (Some s)]
  | Hidl => [VString8 s]
  end.

Lemma rd_int32_value m mem p v : forall q,
  read_kind m mem p KInt32 = Ok (RNum v, q) -> rd_int32 mem p = Ok (Some v, q).
Proof.
  intros q H. cbn [read_kind] in H. unfold wrap in H.
  destruct (rd_int32 mem p) as [[[x|] q']|e]; inversion H; reflexivity.
Qed.

Lemma rd_string16_value m mem p s : forall q,
  read_kind m mem p KString16 = Ok (RText s, q) -> rd_string16 m mem p = Ok (s, q).
Proof.
  intros q H. cbn [read_kind] in H. unfold wrap in H. unfold rd_string16.
  destruct (rd_nullable_string16 m mem p) as [[[x|] q']|e]; inversion H; reflexivity.
Qed.

Lemma rd_string8_value m mem p s : forall q,
  read_kind m mem p KString8 = Ok (RText (Some s), q) -> rd_string8 mem p = Ok (Some s, q).
Proof.
  intros q H. cbn [read_kind] in H. unfold wrap in H.
  destruct (rd_string8 mem p) as [[[x|] q']|e]; inversion H; reflexivity.
Qed.

Lemma read_kinds_cons m mem p k ks rs q :
  read_kinds m mem p (k :: ks) = Ok (rs, q) ->
  exists r p1 rs1, read_kind m mem p k = Ok (r, p1) /\ read_kinds m mem p1 ks = Ok (rs1, q) /\ rs = r :: rs1.
Proof.
  cbn [read_kinds]. destruct (read_kind m mem p k) as [[r p1]|e]; [|discriminate]. cbn [bind].
  destruct (read_kinds m mem p1 ks) as [[rs1 q1]|e] eqn:E; [|discriminate]. cbn [bind].
  intros H. inversion H; subst. eauto 6.
Qed.

Definition iface_chars (pr : protocol) (iface : bytes) (s : list Z) : Prop :=
  match pr with
  | Hidl => all_bytes s /\ ~ In 0 s /\ iface = s
  | _ => Forall is_scalar s /\ ~ In 0 s /\ iface = utf8 s
  end.

Lemma iface_has_chars pr iface : iface_ok pr iface -> exists s, iface_chars pr iface s.
Proof. destruct pr; intros H; cbn in *; try exact H. exists iface. tauto. Qed.

Lemma header_values_ok pr iface s : iface_chars pr iface s -> Forall value_ok (header_values pr s).
Proof.
  assert (V1 : value_ok (VInt32 BINDER_RPC_FLAGS)) by (unfold value_ok, in_range, BINDER_RPC_FLAGS; cbn; lia).
  assert (V2 : value_ok (VInt32 UNSET_WORK_SOURCE)) by (unfold value_ok, in_range, UNSET_WORK_SOURCE; lia).
  assert (V3 : value_ok (VInt32 BINDER_SYS_HEADER)) by (unfold value_ok, in_range, BINDER_SYS_HEADER, fourcc; lia).
  destruct pr; cbn [iface_chars header_values]; intros (H1 & H2 & H3);
    repeat (apply Forall_cons; [assumption || (split; assumption)|]); apply Forall_nil.
Qed.

Lemma header_written pr buf iface s : iface_chars pr iface s ->
  write_rpc_header pr buf iface = append_values buf (header_values pr s).
Proof.
  destruct pr; cbn [iface_chars]; intros (H1 & H2 & ->); cbn [write_rpc_header header_values append_values append_value option_map];
    rewrite ?w_int32_eq; cbn [bind]; rewrite ?w_int32_eq; cbn [bind]; rewrite ?w_int32_eq; cbn [bind];
    match goal with |- ?x = _ => destruct x; reflexivity end.
Qed.

Lemma header_read pr m mem p q iface s txcode :
  iface_chars pr iface s -> has_header pr txcode ->
  read_kinds m mem p (map kind_of (header_values pr s)) = Ok (map expected (header_values pr s), q) ->
  read_rpc_header pr m mem p txcode = Ok (Some iface, q).
Proof.
  intros Hs Hc H.
  assert (Hcode : pr <> Hidl -> (INTERNAL_TRANSACTIONS <? txcode) = false).
  { intros Hn. destruct Hc as [->|Hc]; [congruence|]. apply Z.ltb_ge. exact Hc. }
  destruct pr; cbn [iface_chars header_values map kind_of expected option_map] in *;
    destruct Hs as (H1 & H2 & ->); cbn [read_rpc_header header_ints rd_skip_int32];
    rewrite ?Hcode by discriminate;
    repeat (apply read_kinds_cons in H; destruct H as (? & ? & ? & ?E & H & ?R); inversion R; subst; clear R);
    cbn [read_kinds] in H; inversion H; subst;
    repeat match goal with
    | E : read_kind _ _ _ KInt32 = _ |- _ => apply rd_int32_value in E
    | E : read_kind _ _ _ KString16 = _ |- _ => apply rd_string16_value in E
    | E : read_kind _ _ _ KString8 = _ |- _ => apply rd_string8_value in E
    end;
    repeat match goal with E : _ = Ok _ |- _ => rewrite E; clear E; cbn [bind] end; reflexivity.
Qed.

Theorem header_roundtrip m pr iface payload objs txcode :
  iface_ok pr iface -> has_header pr txcode ->
  exists hdr, new_iface pr (Some iface) = Ok hdr /\ blen hdr mod 4 = 0 /\
    (blen (hdr ++ payload) < 2 ^ 31 ->
     set_data pr m (hdr ++ payload) objs txcode = Ok (Some iface, blen hdr) /\
     args_reader (hdr ++ payload) objs (blen hdr) =
       {| r_start := blen hdr; r_ptr := blen hdr; r_end := blen hdr + blen payload; r_objects := objs |}).
Proof.
  intros Hi Hc. destruct (iface_has_chars _ _ Hi) as (s & Hs).
  pose proof (header_values_ok pr iface s Hs) as Hv.
  set (hdr := flat_map chunk (header_values pr s)).
  exists hdr. split; [|split].
  - cbn [new_iface]. rewrite (header_written pr [] iface s Hs). rewrite append_values_eq. reflexivity.
  - assert (Hp : Forall padded_value (header_values pr s)).
    { destruct pr; cbn [header_values]; repeat (apply Forall_cons; [exact I|]); apply Forall_nil. }
    unfold hdr. clear - Hp. induction Hp as [|v vs P1 P2 IH]; [reflexivity|].
    cbn [flat_map]. rewrite blen_app. pose proof (chunk_aligned v P1). lia.
  - intros Hsz. rewrite blen_app in Hsz. pose proof (blen_nonneg _ payload). pose proof (blen_nonneg _ hdr).
    assert (E : read_rpc_header pr m (hdr ++ payload) (reader_init 0 (blen (hdr ++ payload)) objs) txcode =
      Ok (Some iface, skip (reader_init 0 (blen (hdr ++ payload)) objs) (blen hdr))).
    { apply (header_read pr m _ _ _ iface s txcode Hs Hc).
      apply (read_values_at m _ _ [] payload _ Hv); [|unfold hdr in *; lia].
      repeat split; cbn [reader_init r_ptr r_end app]; rewrite ?blen_app, ?blen_nil; fold hdr; try lia. }
    split.
    + unfold set_data. rewrite E. cbn [bind]. do 2 f_equal.
      unfold r_bytes_read, skip, r_set_ptr, reader_init. cbn [r_ptr r_start].
      replace (0 + blen hdr - 0) with (blen hdr) by lia. apply Z.mod_small. lia.
    + unfold args_reader, reader_init. rewrite blen_app. f_equal; lia.
Qed.

Theorem internal_no_header m pr mem objs txcode :
  ~ has_header pr txcode -> set_data pr m mem objs txcode = Ok (None, 0).
Proof.
  intros Hn. unfold set_data, read_rpc_header, has_header in *.
  assert (pr <> Hidl) by tauto.
  destruct (Z.ltb_spec INTERNAL_TRANSACTIONS txcode); [|lia].
  destruct pr; try reflexivity. congruence.
Qed.

(* Safety: the reader of the arguments is inside of any data *)
Lemma rd_int32_safe mem p : inside mem p -> blen mem < 2 ^ 31 -> all_bytes mem ->
  exists o q, rd_int32 mem p = Ok (o, q) /\ moved mem p q /\
    (o <> None -> r_ptr q = r_ptr p + 4).
Proof.
  intros Hi Hb Ha.
  destruct (read_kind_safe Wrapv mem p KInt32 Hi Hb Ha) as (r & q & E & Hq & _).
  - intros [_ []].
  - cbn [read_kind] in E. unfold wrap in E.
    destruct (rd_int32 mem p) as [[o q']|e] eqn:E2; [|discriminate].
    exists o, q'. split; [reflexivity|]. split; [destruct o; inversion E; subst; exact Hq|].
    intros Hn. unfold rd_int32, rd_map, rd_uint32 in E2. destruct (can_read p 4).
    + destruct (load mem (r_ptr p) 4) as [b|]; [|discriminate]. cbn in E2. inversion E2; reflexivity.
    + cbn in E2. inversion E2; subst. congruence.
Qed.

Lemma rd_skip_safe mem n : forall p, inside mem p -> blen mem < 2 ^ 31 -> all_bytes mem ->
  exists o q, rd_skip_int32 mem p n = Ok (o, q) /\ moved mem p q /\
    (o = true -> r_ptr q = r_ptr p + 4 * Z.of_nat n).
Proof.
  induction n as [|n IH]; intros p Hi Hb Ha; cbn [rd_skip_int32].
  - exists true, p. split; [reflexivity|]. split; [apply moved_refl; exact Hi|]. lia.
  - destruct (rd_int32_safe mem p Hi Hb Ha) as (o & q & -> & M & Hp). cbn [bind].
    destruct o as [v|].
    + destruct (IH q (proj1 M) Hb Ha) as (o2 & q2 & E2 & M2 & Hp2).
      exists o2, q2. split; [exact E2|]. split; [eapply moved_trans; eassumption|].
      intros Ho. rewrite Hp2 by exact Ho. rewrite Hp by discriminate. lia.
    + exists false, q. split; [reflexivity|]. split; [exact M|discriminate].
Qed.

Theorem header_inside m pr mem objs txcode :
  all_bytes mem -> blen mem < 2 ^ 31 -> name_length_ok pr mem ->
  exists iface h, set_data pr m mem objs txcode = Ok (iface, h) /\
    0 <= h <= blen mem /\ (iface = None -> h = 0) /\ inside mem (args_reader mem objs h).
Proof.
  intros Ha Hb Hn. pose proof (blen_nonneg _ mem) as Hl.
  set (p := reader_init 0 (blen mem) objs).
  assert (Hi : inside mem p) by (unfold inside, p, reader_init; cbn; lia).
  assert (K : exists iface q, read_rpc_header pr m mem p txcode = Ok (iface, q) /\ moved mem p q).
  { assert (K2 : forall n, header_ints pr = n -> pr <> Hidl -> exists iface q,
      (let* (ok, p1) := rd_skip_int32 mem p n in
       if ok then rd_string16 m mem p1 else Ok (None, p1)) = Ok (iface, q) /\ moved mem p q).
    { intros n En Hpr. destruct (rd_skip_safe mem n p Hi Hb Ha) as (o & q & -> & M & Hp). cbn [bind].
      destruct o; [|eauto].
      destruct (read_kind_safe m mem q KString16 (proj1 M) Hb Ha) as (r & q2 & E & M2 & _).
      - intros [B1 B2]. rewrite Hp in * by reflexivity.
        assert (Hn2 : name_length_ok pr mem) by exact Hn. unfold name_length_ok in Hn2.
        destruct M as (M1 & _ & Mend & _). unfold len_field in B2. rewrite Hp in B2 by reflexivity.
        rewrite Mend in B1. change (r_ptr p) with 0 in *. change (r_end p) with (0 + blen mem) in B1.
        rewrite En in Hn2. cbv zeta in Hn2. specialize (Hn2 Hpr ltac:(lia)).
        rewrite Z.add_0_l in B2. destruct m; lia.
      - cbn [read_kind] in E. unfold wrap in E. unfold rd_string16.
        destruct (rd_nullable_string16 m mem q) as [[[x|] q']|e]; inversion E; subst; cbn [bind];
          (eexists _, _; split; [reflexivity|]; eapply moved_trans; eassumption). }
    destruct pr; cbn [read_rpc_header].
    1,2,3: (destruct (INTERNAL_TRANSACTIONS <? txcode);
      [exists None, p; split; [reflexivity|apply moved_refl; exact Hi]|apply K2; [reflexivity|discriminate]]).
    destruct (read_kind_safe m mem p KString8 Hi Hb Ha) as (r & q2 & E & M2 & _); [intros [_ []]|].
    cbn [read_kind] in E. unfold wrap in E.
    destruct (rd_string8 mem p) as [[[x|] q']|e]; inversion E; subst; eauto. }
  destruct K as (iface & q & E & M1 & M2 & M3 & M4 & M5).
  unfold set_data. fold p. rewrite E. cbn [bind].
  assert (Hq : r_bytes_read q = r_ptr q).
  { unfold r_bytes_read, u64. rewrite M2. unfold inside in M1. cbn [p reader_init r_start].
    rewrite Z.sub_0_r. apply Z.mod_small. lia. }
  destruct iface as [s|].
  - exists (Some s), (r_ptr q). rewrite Hq. unfold inside in M1. split; [reflexivity|]. split; [lia|].
    split; [discriminate|]. unfold args_reader, reader_init, inside. cbn. lia.
  - exists None, 0. split; [reflexivity|]. split; [lia|]. split; [reflexivity|].
    unfold args_reader, reader_init, inside. cbn. lia.
Qed.
