(* Proofs about calls from end to end *)
From Verif Require Import Base BaseLemmas UtfModel WriterModel ReaderModel CodecSpec
  CodecProofs CodecSafety ObjModel ObjReader KernelModel ObjSpec ObjProofs ObjInvariant
  TreeProofs PieceProofs HidlSpec HidlWriter HidlOps HidlPlaced HidlStruct HidlRead HidlRound HidlTrip
  TxModel TxSpec TxProofs RpcModel RpcSpec RpcProofs WholeModel WholeSpec.
From Verif Require DispatchModel DispatchSpec DispatchProofs DriverModel CmdModel CmdSpec CmdProofs ClientModel ClientSpec.

(* ------------------------------------------------------------------ *)
(* The driver uses only the aligned size of buffers *)
Lemma k_run_size e offs b1 b2 : align8 b1 = align8 b2 ->
  forall rest k s, k_run e offs b1 k rest s = k_run e offs b2 k rest s.
Proof.
  intros H. induction rest as [|o r IH]; intros k s; cbn [k_run]; [reflexivity|].
  assert (E : k_step e offs b1 k o s = k_step e offs b2 k o s).
  { unfold k_step, k_do_ptr. rewrite H. reflexivity. }
  rewrite E. destruct (k_step e offs b2 k o s); [apply IH|reflexivity].
Qed.
Lemma k_send_size e data offs b1 b2 : align8 b1 = align8 b2 -> k_send e data offs b1 = k_send e data offs b2.
Proof. intros H. unfold k_send. rewrite (k_run_size e offs b1 b2 H). reflexivity. Qed.
Lemma align8_twice b : align8 (CmdSpec.whole_words b) = align8 b.
Proof. unfold align8, CmdSpec.whole_words. lia. Qed.

(* Objects are in order *)
Lemma offs_in_order i cnt : forall from p limit,
  0 <= from <= p -> p + Z.of_nat cnt * ptr_size i <= limit ->
  forall r, (forall f, from <= f <= p + Z.of_nat cnt * ptr_size i -> in_order (fun _ => flat_size i) f r limit) ->
  in_order (fun _ => flat_size i) from (offs p (ptr_size i) cnt ++ r) limit.
Proof.
  pose proof (flat_size_pos i) as Hf. assert (Hp : flat_size i <= ptr_size i) by (destruct i; vm_compute; discriminate).
  induction cnt as [|cnt IH]; intros from p limit H1 H2 r Hr; cbn [offs app].
  - apply Hr. lia.
  - cbn [in_order]. split; [lia|]. apply IH; [lia|nia|]. intros f Hf1. apply Hr. nia.
Qed.
Lemma ps_offs_in_order i q : forall from a limit,
  0 <= from <= a -> a + ps_len i q <= limit -> in_order (fun _ => flat_size i) from (ps_offs i a q) limit.
Proof.
  pose proof (flat_size_pos i) as Hf.
  induction q as [|p r IH]; intros from a limit H1 H2; cbn [ps_offs ps_len] in *.
  - cbn [in_order]. lia.
  - pose proof (ps_len_nonneg i r) as Hr.
    destruct p as [l|t f o|t]; cbn [p_offs p_len] in *.
    + cbn [app]. apply IH; [pose proof (blen_nonneg _ l); lia|lia].
    + cbn [app in_order]. split; [lia|]. apply IH; lia.
    + apply offs_in_order; [lia|lia|]. intros f Hf1. apply IH; lia.
Qed.

(* ------------------------------------------------------------------ *)
(* Messages which begin with plain data, and what follows it *)
Theorem trip_after cm pr al e v l d :
  let i := k_io e in
  (forall n, is_addr i (al n)) -> Forall (call_ok i pr (k_mem e)) (OpPlain v :: l) ->
  Forall (foreign e) (OpPlain v :: l) -> chunk v <> [] ->
  w_ops i pr al wd_empty (OpPlain v :: l) = Ok d ->
  blen (wd_bytes d) < 2 ^ 31 -> Forall (fun b => holds (k_mem e) (fst b) (snd b)) (wd_heap d) ->
  0 < k_sgbase e -> k_sgbase e + align8 (wd_bufsize d) < 2 ^ (8 * psz i) ->
  in_order (fun _ => flat_size i) 0 (wd_offsets d) (blen (wd_bytes d)) /\ 0 <= wd_bufsize d /\
  exists g tail, k_send e (wd_bytes d) (wd_offsets d) (wd_bufsize d) = Some g /\
    m_data g = chunk v ++ tail /\ blen (m_data g) = blen (wd_bytes d) /\ m_sgbase g = k_sgbase e /\
    (forall st, reads cm e pr g (mk_reader st (blen (m_data g)) (blen (chunk v)) (wd_offsets d)) l) /\
    reads cm e pr g (reader_init 0 (blen (m_data g)) (wd_offsets d)) (OpPlain v :: l).
Proof.
  intros i Hal Hok Hfor Hv E0 Hsize Hheap Hpos Htop.
  destruct (ops_added i pr al (k_mem e) (OpPlain v :: l) wd_empty Hal Hok) as (d0 & pss & bl & E1 & (B1 & B2 & B3) & H1 & D1 & G1).
  assert (d0 = d) by congruence. subst d0. clear E1.
  cbn [wd_empty wd_bytes wd_offsets wd_bufsize wd_heap app] in B1, B2, B3, H1.
  change (blen (@nil Z)) with 0 in B1, B2. rewrite app_nil_r in H1. rewrite H1 in Hheap.
  specialize (G1 Hheap).
  inversion D1 as [|x1 ps l1 pss1 D2 D3]; subst x1 l1 pss. cbn [describes] in D2. subst ps.
  inversion G1 as [|x y G2 G3]; subst x y. inversion G2 as [|x y G4 _]; subst x y.
  cbn [p_good] in G4. cbn [concat app] in B1, B2, B3.
  assert (Hc : 0 < blen (chunk v)).
  { pose proof (blen_nonneg _ (chunk v)). destruct (Z.eq_dec (blen (chunk v)) 0) as [Ez|]; [|lia].
    apply blen_zero in Ez. contradiction. }
  cbn [ps_bytes p_bytes p_count ps_offs p_offs app p_len ps_space p_space] in B1, B2, B3.
  rewrite Z.add_0_r in B1. rewrite Z.add_0_l in B2.
  set (q := concat pss1) in *.
  assert (Hpo : Forall (p_ok e) q).
  { apply (good_ok e (k_mem e)); [reflexivity|]. unfold q. clear - G3.
    induction G3; cbn [concat]; [constructor|]. apply Forall_app; split; assumption. }
  assert (Hlen : blen (wd_bytes d) = blen (chunk v) + ps_len i q)
    by (rewrite B1, blen_app, ps_bytes_len; reflexivity).
  pose proof (ps_count_len i q) as Hcl. pose proof (ps_space_nonneg q).
  assert (Hord : in_order (fun _ => flat_size i) 0 (wd_offsets d) (blen (wd_bytes d))).
  { rewrite B2, Hlen. apply ps_offs_in_order; lia. }
  assert (Hfew : blen (wd_offsets d) < 2 ^ 31).
  { rewrite B2. unfold blen at 1. rewrite ps_offs_length. lia. }
  assert (Hinj : forall j k o, nth_error (wd_offsets d) j = Some o ->
                 nth_error (wd_offsets d) k = Some o -> j = k).
  { intros j k o Hj Hk. rewrite B2 in Hj, Hk.
    pose proof (ps_offs_nodup i q (blen (chunk v))) as ND. rewrite NoDup_nth_error in ND.
    apply ND; [apply nth_error_Some|]; congruence. }
  pose proof (align8_spec (wd_bufsize d)).
  destruct (pieces_run e (wd_offsets d) (wd_bufsize d) Hinj Hpos Htop Hfew q
    {| ks_data := wd_bytes d; ks_sg := []; ks_min := 0; ks_last := 0; ks_last_min := 0 |}
    0%nat (chunk v) []) as (s1 & R1 & K1 & K2); auto; cbn [ks_min ks_sg]; try lia.
  { change (blen (@nil Z)) with 0. lia. }
  cbn [ks_sg app] in K1, K2. change (blen (@nil Z)) with 0 in K1, K2.
  unfold run in R1. cbn [skipn] in R1. change (Z.of_nat 0) with 0 in *.
  split; [exact Hord|]. split; [lia|].
  unfold k_send. rewrite R1.
  set (g := {| m_data := ks_data s1; m_sgbase := k_sgbase e; m_sg := ks_sg s1 |}).
  exists g, (ps_tr e 0 0 q).
  assert (Hgl : blen (m_data g) = blen (wd_bytes d)).
  { cbn [g m_data]. rewrite K1, blen_app, ps_tr_len, Hlen. reflexivity. }
  assert (Hsl : blen (m_sg g) = ps_space q) by (cbn [g m_sg]; rewrite K2; apply ps_sg_len; exact Hpo).
  assert (Hlow : low_message i g).
  { unfold low_message. rewrite Hsl. cbn [g m_sgbase]. lia. }
  assert (Hs31 : blen (m_data g) < 2 ^ 31) by (rewrite Hgl; exact Hsize).
  inversion Hok as [|x y O1 O2]; subst x y. inversion Hfor as [|x y F1 F2]; subst x y.
  split; [reflexivity|]. split; [exact K1|]. split; [exact Hgl|]. split; [reflexivity|]. split.
  - intros st.
    destruct (read_ops cm i pr e g st eq_refl eq_refl Hpos Hlow Hs31) with (l := l)
      (pss := pss1) (n := 0) (pos := 0) (pre := chunk v) (sg0 := @nil Z) as (rs & R2 & R3); auto.
    exists rs. eexists. fold i. split; [|split; [exact R3|split; [|]]].
    + rewrite B2. exact R2.
    + reflexivity.
    + reflexivity.
  - destruct (read_ops cm i pr e g 0 eq_refl eq_refl Hpos Hlow Hs31) with (l := OpPlain v :: l)
      (pss := [PData (chunk v)] :: pss1) (n := 0) (pos := 0) (pre := @nil Z) (sg0 := @nil Z)
      as (rs & R2 & R3); auto.
    exists rs. eexists. fold i. split; [|split; [exact R3|split; [|]]].
    + rewrite <- R2. f_equal. unfold reader_init, mk_reader.
      cbn [concat app ps_offs p_offs p_len]. fold q. change (blen (@nil Z)) with 0.
      rewrite Z.add_0_l, B2. reflexivity.
    + reflexivity.
    + reflexivity.
Qed.

(* ------------------------------------------------------------------ *)
(* The driver finds the message *)
Lemma table_count i offs a : fst (CmdSpec.table i offs a) / psz i = Z.of_nat (length offs).
Proof.
  destruct offs as [|o r]; [destruct i; reflexivity|]. cbn [CmdSpec.table fst].
  rewrite Nat2Z.inj_mul. replace (Z.of_nat (CmdSpec.word i)) with (psz i) by (destruct i; reflexivity).
  apply Z.div_mul. destruct i; vm_compute; discriminate.
Qed.
Lemma accept_one e c t reply x (data : bytes) (offs : list Z) pdata poffs bufsize g :
  let i := k_io e in
  CmdSpec.args_ok i c -> k_transaction (CmdSpec.meaning i c) = Some (reply, t, x) ->
  tr_buffer t = pdata -> tr_data_size t = blen data ->
  tr_offsets_size t = fst (CmdSpec.table i offs poffs) -> tr_offsets t = snd (CmdSpec.table i offs poffs) ->
  align8 x = align8 bufsize -> holds (k_mem e) pdata data -> holds (k_mem e) poffs (offsets_image i offs) ->
  in_order (fun _ => flat_size i) 0 offs (blen data) -> blen data < 2 ^ 31 ->
  k_send e data offs bufsize = Some g ->
  exists cmd, CmdModel.command i c = Ok cmd /\ k_accept e cmd = Some (reply, t, g, offs).
Proof.
  intros i Hargs Hk T1 T2 T3 T4 Hx H1 H2 Hord Hlen Hg.
  destruct (CmdProofs.command_says i c Hargs) as (cmd & Ec & Hp).
  exists cmd. split; [exact Ec|]. unfold k_accept. fold i.
  specialize (Hp []). rewrite app_nil_r in Hp. rewrite Hp, Hk, T1, T2, T3, T4, table_count, Nat2Z.id.
  assert (Ho : offsets_at i (k_mem e) (snd (CmdSpec.table i offs poffs)) (length offs) = offs).
  { destruct offs as [|o r]; [reflexivity|]. cbn [CmdSpec.table snd]. apply offsets_read; [|exact H2].
    destruct (in_order_le i _ 0 _ Hord) as (_ & O2 & _). eapply Forall_impl; [|exact O2]. cbn beta. intros y Hy.
    assert (2 ^ 32 <= 2 ^ (8 * psz i)) by (destruct i; vm_compute; discriminate). lia. }
  rewrite Ho. unfold holds in H1. rewrite H1, (k_send_size e data offs x bufsize Hx), Hg. reflexivity.
Qed.

Lemma bufsize_cases b : 0 <= b -> (b =? 0) = true /\ align8 0 = align8 b \/ (b =? 0) = false /\ align8 (CmdSpec.whole_words b) = align8 b.
Proof.
  intros H. destruct (Z.eqb_spec b 0) as [->|].
  - left. split; reflexivity.
  - right. split; [reflexivity|apply align8_twice].
Qed.

(* ------------------------------------------------------------------ *)
(* The receiver finds it too *)
Lemma decode_arriving i t a (data : bytes) (offs : list Z) x :
  CmdSpec.is_u32 (tr_code t) -> CmdSpec.is_u32 (tr_flags t) -> Z.testbit (tr_flags t) 3 = false ->
  tr_data_size t = blen data -> tr_offsets_size t = fst (CmdSpec.table i offs x) -> blen data < 2 ^ 31 ->
  in_order (fun _ => flat_size i) 0 offs (blen data) ->
  holds (ar_mem a) (ar_offsets a) (offsets_image i offs) ->
  0 < ar_buffer a -> ar_buffer a + blen data < 2 ^ (8 * psz i) ->
  CmdSpec.is_word i (ar_offsets a) -> CmdSpec.is_word i (ar_target a) ->
  CmdSpec.is_u32 (ar_pid a) -> CmdSpec.is_u32 (ar_euid a) ->
  decode_transaction_data i (ar_mem a) (arriving i t a) =
  {| tx_status := 0; tx_code := tr_code t; tx_flags := if Z.testbit (tr_flags t) 0 then TX_FLAG_ONEWAY else 0;
     tx_pid := ar_pid a; tx_euid := ar_euid a; tx_target := ar_target a; tx_size := blen data;
     tx_data := ar_buffer a; tx_objects := map (fun o => ar_buffer a + o) offs |}.
Proof.
  intros C1 C2 C3 T2 T3 Hlen Hord H2 A1 A2 A3 A4 A5 A6.
  assert (Hw : forall v, CmdSpec.is_word i v <-> 0 <= v < 2 ^ (8 * psz i)) by (intros v; destruct i; reflexivity).
  assert (H64 : 2 ^ 32 <= 2 ^ (8 * psz i)) by (destruct i; vm_compute; discriminate).
  pose proof (blen_nonneg _ data) as Hd.
  destruct (in_order_le i _ 0 _ Hord) as (_ & _ & O3).
  pose proof (sent_structure i 0 (tr_code t) 0 (blen data) (tr_flags t) offs x []) as K.
  cbv zeta in K. rewrite app_nil_r in K.
  specialize (K C1 ltac:(lia) C2 C3 Hord (ar_mem a) (ar_target a) (ar_cookie a) (ar_pid a) (ar_euid a)
    (ar_buffer a) (ar_offsets a)).
  assert (Hob : snd (fill_transaction_data i 0 (tr_code t) 0 (blen data) (tr_flags t) offs x) = offsets_image i offs)
    by (unfold fill_transaction_data; cbn [snd]; destruct offs; reflexivity).
  rewrite Hob in K. rewrite Hw in A3, A4.
  specialize (K H2 A3 ltac:(lia) A2 A5 A6).
  rewrite (usz_in i (ar_target a) A4) in K. rewrite <- K. f_equal.
  unfold arriving, deliver, fill_transaction_data. cbn [fst].
  match goal with |- context [tr_parse i (tr_image i ?t0)] =>
    rewrite <- (app_nil_r (tr_image i t0)), tr_parse_image; unfold tr_fits end.
  cbn [tr_target tr_cookie tr_code tr_flags tr_pid tr_euid tr_data_size tr_offsets_size tr_buffer tr_offsets].
  unfold CmdSpec.is_u32 in C1, C2.
  rewrite (u32_small _ C1), (u32_small _ C2), T2, T3.
  assert (Hp4 : psz i = 4 \/ psz i = 8) by (destruct i; auto).
  assert (Hfl : flat_size i = 8 + 2 * psz i) by reflexivity.
  rewrite (usz_in i (blen data)) by lia.
  f_equal. f_equal. symmetry.
  destruct offs as [|o r].
  - cbn [CmdSpec.table fst]. apply usz_in. lia.
  - cbn [CmdSpec.table fst]. rewrite Nat2Z.inj_mul.
    replace (Z.of_nat (CmdSpec.word i)) with (psz i) by (destruct i; reflexivity).
    unfold blen in *. apply usz_in. nia.
Qed.

Lemma received_is i g offs a tx :
  arrives i g offs a -> tx_data tx = ar_buffer a -> tx_size tx = blen (m_data g) ->
  tx_objects tx = map (fun o => ar_buffer a + o) offs -> received a tx = (g, offs).
Proof.
  intros (H1 & _ & H3 & H4 & _) E1 E2 E3. unfold received. rewrite E1, E2, E3, H3. cbn [fst snd].
  unfold holds in H1, H4. rewrite H1, H4. destruct g as [dt b sg]. cbn [m_data m_sgbase m_sg]. f_equal.
  rewrite map_map. rewrite <- (map_id offs) at 2. apply map_ext. intros o. lia.
Qed.

(* ------------------------------------------------------------------ *)
(* Requests *)
Lemma header_nonempty pr name hdr code :
  iface_ok pr name -> has_header pr code -> new_iface pr (Some name) = Ok hdr -> hdr <> [].
Proof.
  intros Hi Hc E Hn. subst hdr.
  destruct (header_roundtrip Strict pr name [] [] code Hi Hc) as (hdr & E1 & _ & H).
  assert (hdr = []) by congruence. subst hdr. destruct (H eq_refl) as (H1 & _). cbn [app] in H1.
  unfold set_data, read_rpc_header in H1. destruct pr.
  1-3: destruct (INTERNAL_TRANSACTIONS <? code); cbn in H1; discriminate.
  cbn in H1. discriminate.
Qed.

Lemma message_ok_ready e pr al l d pl :
  let i := k_io e in ready e pr al l d pl -> 0 <= wd_bufsize d ->
  in_order (fun _ => flat_size i) 0 (wd_offsets d) (blen (wd_bytes d)) ->
  CmdSpec.message_ok i (pl_data pl) (blen (wd_bytes d)) (wd_offsets d) (pl_offs pl) (wd_bufsize d).
Proof.
  intros i (_ & _ & _ & _ & H1 & _ & _ & _ & H2 & H3 & H4 & H5) Hb Hord. fold i in H2, H3, H5.
  destruct (in_order_le i _ 0 _ Hord) as (_ & _ & O3). pose proof (blen_nonneg _ (wd_bytes d)).
  pose proof (align8_spec (wd_bufsize d)).
  assert (Hf : 16 <= flat_size i) by (destruct i; vm_compute; discriminate).
  unfold blen in O3.
  split; [exact H2|]. split; [lia|]. split; [unfold blen in *; nia|]. split; [exact H3|]. split; [exact Hb|].
  assert (Hw : CmdSpec.is_word i (wd_bufsize d + 7) <-> 0 <= wd_bufsize d + 7 < 2 ^ (8 * psz i)) by (destruct i; reflexivity).
  apply Hw. lia.
Qed.

Theorem request_arrives cm e pr al name args hdr handle code oneway d pl :
  let i := k_io e in
  new_iface pr (Some name) = Ok hdr -> iface_ok pr name -> has_header pr code ->
  CmdSpec.is_u32 handle -> CmdSpec.is_u32 code ->
  ready e pr al (OpPlain (VRaw hdr) :: args) d pl ->
  exists cmd t g, CmdModel.command i (request_call handle code (negb oneway) d pl) = Ok cmd /\
    k_accept e cmd = Some (false, t, g, wd_offsets d) /\ tr_target t = handle /\
    forall a, arrives i g (wd_offsets d) a ->
    exists x, receive cm i pr a (BR_TRANSACTION i) (arriving i t a) = Ok (Some x) /\
      x = {| in_target := ar_target a; in_pid := ar_pid a; in_euid := ar_euid a; in_code := code;
             in_flags := if oneway then 1 else 0; in_iface := Some name; in_data := g; in_args := in_args x |} /\
      reads cm e pr g (in_args x) args.
Proof.
  intros i Hn Hi Hh Hha Hco Hr. pose proof Hr as (R1 & R2 & R3 & R4 & R5 & R6 & R7 & R8 & R9 & R10 & R11 & R12).
  fold i in R1, R2, R4, R7, R9, R10, R12.
  pose proof (header_nonempty pr name hdr code Hi Hh Hn) as Hne.
  destruct (trip_after cm pr al e (VRaw hdr) args d R1 R2 R3 Hne R4 R5 R8 R11 ltac:(fold i; lia))
    as (Hord & Hb & g & tail & Hg & Gd & Gl & Gb & Grd & _).
  fold i in Hord. cbn [chunk] in Gd, Grd.
  set (t := CmdSpec.reply_is (if oneway then 1 else 16) (blen (wd_bytes d)) (fst (CmdSpec.table i (wd_offsets d) (pl_offs pl)))
    (pl_data pl) (snd (CmdSpec.table i (wd_offsets d) (pl_offs pl))) code handle).
  assert (Hm : exists x, k_transaction (CmdSpec.meaning i (request_call handle code (negb oneway) d pl)) = Some (false, t, x) /\
    align8 x = align8 (wd_bufsize d)).
  { unfold request_call. cbn [CmdSpec.meaning].
    replace (if negb oneway then 16 else 1) with (if oneway then 1 else 16) by (destruct oneway; reflexivity).
    destruct (bufsize_cases (wd_bufsize d) Hb) as [[-> E]|[-> E]]; eexists; (split; [reflexivity|exact E]). }
  destruct Hm as (xs & Hm & Hal).
  destruct (accept_one e (request_call handle code (negb oneway) d pl) t false xs (wd_bytes d) (wd_offsets d)
    (pl_data pl) (pl_offs pl) (wd_bufsize d) g) as (cmd & Ec & Ha); auto.
  { cbn [request_call CmdSpec.args_ok]. split; [exact Hha|]. split; [exact Hco|].
    exact (message_ok_ready e pr al _ d pl Hr Hb Hord). }
  exists cmd, t, g. split; [exact Ec|]. split; [exact Ha|]. split; [reflexivity|].
  intros a Hv. pose proof Hv as (V1 & V2 & V3 & V4 & V5 & V6 & V7 & V8 & V9 & V10).
  assert (Et : tr_flags t = if oneway then 1 else 16) by reflexivity.
  unfold receive.
  assert (Ed : DriverModel.decode_cmd i (ar_mem a) (BR_TRANSACTION i) (arriving i t a) =
    DriverModel.RTransaction (decode_transaction_data i (ar_mem a) (arriving i t a))).
  { destruct i; reflexivity. }
  rewrite Ed. clear Ed.
  rewrite (decode_arriving i t a (m_data g) (wd_offsets d) (pl_offs pl));
    [|exact Hco|rewrite Et; destruct oneway; split; vm_compute; congruence|rewrite Et; destruct oneway; reflexivity
     |cbn [t CmdSpec.reply_is tr_data_size]; congruence|reflexivity|lia|rewrite Gl; exact Hord|exact V2|exact V5|exact V6|exact V7|exact V8|exact V9|exact V10].
  assert (Hpos : 0 < blen (m_data g)).
  { rewrite Gd, blen_app. pose proof (blen_nonneg _ tail). pose proof (blen_nonneg _ hdr).
    destruct (Z.eq_dec (blen hdr) 0) as [Ez|]; [|lia]. apply blen_zero in Ez. contradiction. }
  unfold has_data. cbn [tx_data tx_size].
  destruct (Z.eqb_spec (ar_buffer a) 0); [lia|]. destruct (Z.eqb_spec (blen (m_data g)) 0); [lia|]. cbn [negb andb].
  match goal with |- context [received a ?tx] => rewrite (received_is i g (wd_offsets d) a tx Hv eq_refl eq_refl eq_refl) end.
  cbn [tx_code tx_target tx_pid tx_euid tx_flags].
  destruct (header_roundtrip cm pr name tail (wd_offsets d) code Hi Hh) as (hdr1 & E1 & _ & H1).
  assert (hdr1 = hdr) by congruence. subst hdr1.
  specialize (H1 ltac:(rewrite <- Gd; lia)). destruct H1 as (H1 & H2).
  rewrite <- Gd in H1, H2. change (tr_code t) with code. rewrite H1. cbn [bind].
  eexists. split; [reflexivity|]. cbn [in_args]. split.
  - f_equal. rewrite Et. destruct oneway; reflexivity.
  - rewrite H2. replace (blen hdr + blen tail) with (blen (m_data g)) by (rewrite Gd, blen_app; reflexivity).
    apply Grd.
Qed.

(* Replies *)
Lemma well_nonempty i pr al m l d :
  (forall n, is_addr i (al n)) -> Forall (call_ok i pr m) l -> starts_well l -> l <> [] ->
  w_ops i pr al wd_empty l = Ok d -> 0 < blen (wd_bytes d).
Proof.
  intros Hal Hok Hs Hne E.
  destruct (ops_added i pr al m l wd_empty Hal Hok) as (d0 & pss & bl & E1 & (B1 & _) & _ & D1 & _).
  assert (d0 = d) by congruence. subst d0. cbn [wd_empty wd_bytes Datatypes.app] in B1.
  rewrite B1, ps_bytes_len. clear E E1 B1.
  destruct D1 as [|o ps l pss D1 _]; [contradiction|].
  pose proof (flat_size_pos i) as Hf. cbn [concat].
  assert (Hps : 0 < ps_len i ps).
  { destruct o as [v|[lo|]|[h|]|fd dupfd|ptr size pa|slack f pa|b count elemsize|s|ls|m1 ptr t pa|m1 ptr count t];
      cbn [starts_well describes] in *; try contradiction; subst ps; cbn [ps_len p_len]; try lia.
    - rewrite append_value_eq in Hs. cbn [Datatypes.app] in Hs.
      pose proof (blen_nonneg _ (chunk v)). destruct (Z.eq_dec (blen (chunk v)) 0) as [Ez|]; [|lia].
      apply blen_zero in Ez. congruence.
    - match goal with |- context [ps_len i ?x] => pose proof (ps_len_nonneg i x) end. lia. }
  clear D1. generalize dependent (concat pss). intros r.
  induction ps as [|p ps IH]; cbn [ps_len Datatypes.app] in *; [lia|].
  pose proof (ps_len_nonneg i r). 
  assert (Ha : forall a b, ps_len i (a ++ b) = ps_len i a + ps_len i b).
  { clear. induction a as [|x a IHa]; intros b; cbn [ps_len Datatypes.app]; [lia|]. rewrite IHa. lia. }
  rewrite Ha. pose proof (ps_len_nonneg i ps). lia.
Qed.

Lemma in_order_delivered e pr al l d :
  let i := k_io e in
  (forall n, is_addr i (al n)) -> Forall (call_ok i pr (k_mem e)) l -> w_ops i pr al wd_empty l = Ok d ->
  in_order (fun _ => flat_size i) 0 (wd_offsets d) (blen (wd_bytes d)) /\ 0 <= wd_bufsize d.
Proof.
  intros i Hal Hok E.
  destruct (ops_added i pr al (k_mem e) l wd_empty Hal Hok) as (d0 & pss & bl & E1 & (B1 & B2 & B3) & _).
  assert (d0 = d) by congruence. subst d0.
  cbn [wd_empty wd_bytes wd_offsets wd_bufsize Datatypes.app] in B1, B2, B3. change (blen (@nil Z)) with 0 in B1, B2.
  rewrite B1, B2, B3, ps_bytes_len. pose proof (ps_space_nonneg (concat pss)). pose proof (ps_len_nonneg i (concat pss)).
  split; [|lia]. apply ps_offs_in_order; lia.
Qed.

Theorem reply_arrives_nonempty cm e pr al ops d pl :
  let i := k_io e in
  ready e pr al ops d pl -> starts_well ops ->
  exists cmd t g, CmdModel.command i (reply_call d pl) = Ok cmd /\
    k_accept e cmd = Some (true, t, g, wd_offsets d) /\
    reads cm e pr g (reader_init 0 (blen (m_data g)) (wd_offsets d)) ops /\
    (ops <> [] -> 0 < blen (m_data g)) /\
    forall a, arrives i g (wd_offsets d) a ->
      reply_answer i a (BR_REPLY i) (arriving i t a) =
      Some {| ClientModel.an_status := 0;
              ClientModel.an_reply := match ops with [] => None | _ => Some (g, wd_offsets d) end |}.
Proof.
  intros i Hr Hst. pose proof Hr as (R1 & R2 & R3 & R4 & R5 & R6 & R7 & R8 & R9 & R10 & R11 & R12).
  fold i in R1, R2, R4, R7, R9, R10, R12.
  destruct (in_order_delivered e pr al ops d R1 R2 R4) as (Hord & Hb). fold i in Hord.
  destruct (delivered pr al e ops d R1 R2 Hst R4 R5 R8 R11 ltac:(fold i; lia))
    as (g & pss & Hg & D1 & G1 & K1 & K2 & Gb & Hlow & Gl & Ho & _). fold i in D1, G1, Hlow, Ho.
  set (t := CmdSpec.reply_is 0 (blen (wd_bytes d)) (fst (CmdSpec.table i (wd_offsets d) (pl_offs pl)))
    (pl_data pl) (snd (CmdSpec.table i (wd_offsets d) (pl_offs pl))) 0 0).
  assert (Hm : exists x, k_transaction (CmdSpec.meaning i (reply_call d pl)) = Some (true, t, x) /\
    align8 x = align8 (wd_bufsize d)).
  { unfold reply_call. cbn [CmdSpec.meaning].
    destruct (bufsize_cases (wd_bufsize d) Hb) as [[-> E]|[-> E]]; eexists; (split; [reflexivity|exact E]). }
  destruct Hm as (xs & Hm & Hal).
  destruct (accept_one e (reply_call d pl) t true xs (wd_bytes d) (wd_offsets d)
    (pl_data pl) (pl_offs pl) (wd_bufsize d) g) as (cmd & Ec & Ha); auto.
  { cbn [reply_call CmdSpec.args_ok]. exact (message_ok_ready e pr al _ d pl Hr Hb Hord). }
  exists cmd, t, g. split; [exact Ec|]. split; [exact Ha|]. split.
  { destruct (read_ops cm i pr e g 0 eq_refl Gb R11 Hlow ltac:(rewrite Gl; exact R5) ops
      pss 0 0 [] [] R2 R3 D1 G1 K1 K2 eq_refl) as (rs & Q2 & Q3).
    exists rs. eexists. split; [|split; [exact Q3|]].
    - fold i. rewrite <- Q2. f_equal. unfold reader_init, mk_reader. rewrite Ho. reflexivity.
    - split; reflexivity. }
  split; [intros Hne; rewrite Gl; exact (well_nonempty i pr al (k_mem e) ops d R1 R2 Hst Hne R4)|].
  intros a Hv. pose proof Hv as (V1 & V2 & V3 & V4 & V5 & V6 & V7 & V8 & V9 & V10).
  unfold reply_answer.
  assert (Ed : DriverModel.decode_cmd i (ar_mem a) (BR_REPLY i) (arriving i t a) =
    DriverModel.RReply (decode_transaction_data i (ar_mem a) (arriving i t a))).
  { destruct i; reflexivity. }
  rewrite Ed. clear Ed.
  rewrite (decode_arriving i t a (m_data g) (wd_offsets d) (pl_offs pl));
    [|split; vm_compute; congruence|split; vm_compute; congruence|reflexivity
     |cbn [t CmdSpec.reply_is tr_data_size]; congruence|reflexivity|lia|rewrite Gl; exact Hord|exact V2|exact V5|exact V6|exact V7|exact V8|exact V9|exact V10].
  cbn [tx_status]. change (0 =? - DriverModel.EAGAIN) with false. change (0 =? DriverModel.STATUS_FAILED) with false.
  change (0 =? DriverModel.STATUS_DEAD_OBJECT) with false. cbn [orb].
  unfold has_data. cbn [tx_data tx_size]. destruct (Z.eqb_spec (ar_buffer a) 0); [lia|]. rewrite Gl.
  destruct ops as [|o ops].
  - cbn [w_ops] in R4. injection R4 as <-. reflexivity.
  - assert (Hp : 0 < blen (wd_bytes d)) by (apply (well_nonempty i pr al (k_mem e) (o :: ops) d R1 R2 Hst); [discriminate|exact R4]).
    destruct (Z.eqb_spec (blen (wd_bytes d)) 0); [lia|]. cbn [negb andb]. f_equal. f_equal. f_equal.
    apply (received_is i g (wd_offsets d)); auto.
Qed.

Theorem reply_arrives cm e pr al ops d pl :
  let i := k_io e in
  ready e pr al ops d pl -> starts_well ops ->
  exists cmd t g, CmdModel.command i (reply_call d pl) = Ok cmd /\
    k_accept e cmd = Some (true, t, g, wd_offsets d) /\
    reads cm e pr g (reader_init 0 (blen (m_data g)) (wd_offsets d)) ops /\
    forall a, arrives i g (wd_offsets d) a ->
      reply_answer i a (BR_REPLY i) (arriving i t a) =
      Some {| ClientModel.an_status := 0;
              ClientModel.an_reply := match ops with [] => None | _ => Some (g, wd_offsets d) end |}.
Proof.
  intros i H1 H2. destruct (reply_arrives_nonempty cm e pr al ops d pl H1 H2) as (cmd & t & g & A & B & C & _ & D).
  exists cmd, t, g. auto.
Qed.

(* A status instead of a reply *)
Theorem status_arrives e addr s :
  let i := k_io e in
  - 2 ^ 31 <= s < 2 ^ 31 -> holds (k_mem e) addr (le 4 s) -> CmdSpec.is_word i addr ->
  exists cmd t g, CmdModel.command i (CmdModel.CReplyStatus addr) = Ok cmd /\
    k_accept e cmd = Some (true, t, g, []) /\
    forall a, arrives i g [] a ->
      reply_answer i a (BR_REPLY i) (arriving i t a) =
      Some {| ClientModel.an_status := seen_status s; ClientModel.an_reply := None |}.
Proof.
  intros i Hs Hm Hw.
  set (t := CmdSpec.reply_is 8 4 0 addr 0 0 0).
  set (g := {| m_data := le 4 s; m_sgbase := k_sgbase e; m_sg := [] |}).
  destruct (CmdProofs.command_says i (CmdModel.CReplyStatus addr) Hw) as (cmd & Ec & Hp).
  specialize (Hp []). rewrite app_nil_r in Hp. cbn [CmdSpec.meaning] in Hp.
  exists cmd, t, g. split; [exact Ec|]. split.
  - unfold k_accept. fold i. rewrite Hp. cbn [k_transaction]. fold t.
    change (tr_offsets_size t) with 0. rewrite Z.div_0_l by (destruct i; vm_compute; discriminate).
    cbn [Z.to_nat offsets_at]. change (tr_buffer t) with addr. change (tr_data_size t) with 4.
    unfold holds in Hm. rewrite blen_le in Hm. change (Z.of_nat 4) with 4 in Hm. rewrite Hm.
    unfold offsets_at. cbn [seq map]. reflexivity.
  - intros a (V1 & V2 & V3 & V4 & V5 & V6 & V7 & V8 & V9 & V10). cbn [g m_data] in V1, V6.
    unfold reply_answer.
    assert (Ed : DriverModel.decode_cmd i (ar_mem a) (BR_REPLY i) (arriving i t a) =
      DriverModel.RReply (decode_transaction_data i (ar_mem a) (arriving i t a))).
    { destruct i; reflexivity. }
    rewrite Ed. clear Ed.
    assert (H8 : 0 <= ar_buffer a < 2 ^ (8 * psz i)).
    { pose proof (blen_nonneg _ (le 4 s)). lia. }
    assert (K : exists tx, decode_transaction_data i (ar_mem a) (arriving i t a) = tx /\ tx_status tx = s /\ tx_size tx = 0).
    { eexists. split; [reflexivity|]. unfold decode_transaction_data, arriving.
      match goal with |- context [tr_parse i (tr_image i ?t0)] =>
        rewrite <- (app_nil_r (tr_image i t0)), tr_parse_image end.
      unfold tr_fits.
      cbn [tr_target tr_cookie tr_code tr_flags tr_pid tr_euid tr_data_size tr_offsets_size tr_buffer tr_offsets t CmdSpec.reply_is].
      change (u32 8) with 8. change (Z.testbit 8 3) with true. cbv iota. cbn [tx_status tx_size].
      rewrite usz_in by exact H8. split; [|reflexivity].
      unfold holds in V1. rewrite blen_le in V1. change (Z.of_nat 4) with 4 in V1. rewrite V1.
      rewrite unle_le. change (8 * Z.of_nat 4) with 32. apply sgn_u32. exact Hs. }
    destruct K as (tx & -> & K1 & K2). unfold has_data. rewrite K1, K2. cbn [Z.eqb negb].
    rewrite andb_false_r. reflexivity.
Qed.
