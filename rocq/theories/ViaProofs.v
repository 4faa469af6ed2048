(* Proofs about calls which go through proxies *)
From Verif Require Import Base BaseLemmas UtfModel WriterModel ReaderModel CodecSpec
  CodecProofs CodecSafety ObjModel ObjReader KernelModel ObjSpec ObjProofs ObjInvariant
  TreeProofs PieceProofs HidlSpec HidlWriter HidlOps HidlPlaced HidlStruct HidlRead HidlRound HidlTrip
  TxModel TxSpec TxProofs RpcModel RpcSpec RpcProofs FwdSpec FwdProofs WholeModel WholeSpec WholeProofs ViaModel ViaSpec.
From Verif Require ProxyConv DriverModel CmdModel CmdSpec CmdProofs ClientModel.

(* ------------------------------------------------------------------ *)
(* A message on its way *)
Definition travelling (i : io) (pr : protocol) (m : memory) (r : hops) (its : list item) (g : message) (offs : list Z) : Prop :=
  0 < m_sgbase g /\ m_sgbase g + align8 (ps_space (is_ps its)) < 2 ^ (8 * psz i) /\
  Forall (item_ok i pr m (m_sgbase g)) its /\ Forall (it_end r) its /\ its_start its /\
  m_data g = is_tr i 0 0 its /\ m_sg g = is_sg 0 its /\ offs = ps_offs i 0 (is_ps its) /\
  low_message i g /\ blen (m_data g) < 2 ^ 31 /\ Forall (hop_ok i (ps_space (is_ps its))) r.

(* What can be given to the driver as it is *)
Definition sendable (e : kenv) (d : wdata) (g : message) : Prop :=
  k_send e (wd_bytes d) (wd_offsets d) (wd_bufsize d) = Some g /\
  in_order (fun _ => flat_size (k_io e)) 0 (wd_offsets d) (blen (wd_bytes d)) /\
  0 <= wd_bufsize d /\ wd_bufsize d + 7 < 2 ^ (8 * psz (k_io e)) /\
  blen (wd_bytes d) < 2 ^ 31 /\ blen (m_data g) = blen (wd_bytes d).

Lemma room i b size : 0 < b -> b + align8 size < 2 ^ (8 * psz i) -> 0 <= size -> size + 7 < 2 ^ (8 * psz i).
Proof.
  intros H1 H2 H3. unfold align8 in H2.
  assert (E : exists k, 2 ^ (8 * psz i) = 8 * k) by (destruct i; [exists (2 ^ 29)|exists (2 ^ 61)]; reflexivity).
  destruct E as (k & E). rewrite E in *. lia.
Qed.

Lemma hop_step i pr m e c r its g offs :
  travelling i pr m ((e, c) :: r) its g offs -> holds (k_mem e) (m_sgbase g) (m_sg g) ->
  k_io e = i /\
  exists d g2 its2, append_contents i pr c wd_empty (m_data g) offs 0 = Ok d /\ sendable e d g2 /\
    blen (wd_bytes d) = blen (m_data g) /\ travelling i pr m r its2 g2 (wd_offsets d) /\ Forall2 (moved e c) its its2 /\
    map (it_kind i) its2 = map (it_kind i) its.
Proof.
  intros (Hb & Htop & Hok & Hend & Hst & Hd & Hsg & Ho & Hlow & Hsize & Hhops) Hm.
  inversion Hhops as [|y z Hh Hhs]; subst y z. destruct Hh as (H1 & H2 & H3 & H4). cbn [fst snd] in *.
  split; [exact H1|].
  pose proof (align8_spec (ps_space (is_ps its))) as Ha. rewrite Hsg in Hm.
  destruct (contents_forwarded i pr m c e H1 H4 (m_sgbase g) its (m_data g) Hb Hok Hd Hm)
    as (ps2 & its2 & d2 & E1 & E2 & E3 & (S1 & S2 & S3 & S4) & (S5 & S6 & S7 & S8) & E6 & E7 & E8 & E9 & E10 & E11 & E12 & E13); [lia|].
  destruct (E7 Hst) as [Hfirst Hst2]. rewrite <- Ho in E1.
  assert (Hl2 : blen (wd_bytes d2) = blen (m_data g)).
  { rewrite E11, ps_bytes_len, S3, Hd, (is_tr_len i pr m (m_sgbase g)) by exact Hok. reflexivity. }
  destruct (pieces_delivered e ps2 d2) as (g2 & G1 & G2 & G3 & G4 & G5 & G6);
    rewrite ?H1; auto; [lia|rewrite E13, S2; exact H3|]. rewrite H1 in *.
  assert (Hend2 : Forall (it_end r) its2).
  { clear - E10 Hend. induction E10 as [|x y l l2 M E10 IH]; constructor; inversion Hend; subst; [|auto].
    eapply moved_end; eassumption. }
  pose proof (ps_space_nonneg ps2) as Hn.
  exists d2, g2, its2. split; [exact E1|]. split; [|split; [exact Hl2|split; [|split; [exact E10|exact E9]]]].
  - unfold sendable. rewrite H1. split; [exact G1|]. split; [rewrite E11, E12, ps_bytes_len; apply ps_offs_in_order; lia|].
    split; [lia|]. split; [rewrite E13, S2; apply (room i (k_sgbase e)); [exact H2|exact H3|lia]|].
    split; [lia|exact G6].
  - unfold travelling. rewrite G4. split; [exact H2|]. split; [rewrite S6; exact H3|]. split; [exact E8|].
    split; [exact Hend2|]. split; [exact Hst2|]. split; [congruence|]. split; [congruence|].
    split; [rewrite E12, S4, S8; reflexivity|]. split; [exact G5|]. split; [lia|]. rewrite S6. exact Hhs.
Qed.

Lemma all_moved_passed i pr m base e c r g its its2 rs :
  Forall (item_ok i pr m base) its -> Forall2 (moved e c) its its2 ->
  Forall2 (it_passed i r g) its2 rs -> Forall2 (it_passed i ((e, c) :: r) g) its rs.
Proof.
  intros Hok E10. revert rs Hok. induction E10 as [|x y l l2 M E10 IH]; intros rs Hok R4; inversion R4; subst; constructor;
    inversion Hok; subst; [|auto].
  eapply moved_passed; eassumption.
Qed.

(* The first message *)
Lemma first_travels e pr al l d pl r :
  let i := k_io e in
  ready_for e pr al l d pl r -> starts_well l ->
  exists g its, sendable e d g /\ travelling i pr (k_mem e) r its g (wd_offsets d) /\
    map (it_kind i) its = map (rkind_of i) l /\
    (forall g2 rs, Forall2 (it_passed i r g2) its rs -> Forall2 (passed i e r g2) l rs) /\
    match l with OpPlain v :: _ => exists e0 ps rest, its = IOp e0 (OpPlain v) ps :: rest | _ => True end.
Proof.
  intros i (Hal & Hok & Hfor & E1 & Hsize & _ & Hheap & Hpos & Htop & Hhops) Hst. fold i in Hal, Hok, E1, Htop, Hhops.
  destruct (delivered pr al e l d Hal Hok Hst E1 Hsize Hheap Hpos Htop)
    as (g & pss & Hg & D1 & G1 & K1 & K2 & Hb & Hlow & Hgl & Ho & Hbuf & Hl).
  destruct (in_order_delivered e pr al l d Hal Hok E1) as (Hord & Hb0).
  destruct (first_items_spec e pr l pss r Hok Hfor D1 G1) as (I1 & I2 & I3 & I4 & I5 & I6 & I7 & I8 & I9).
  set (its := first_items e pr l pss) in *. fold i in I2, I3, I5, I7, I9.
  exists g, its. split; [|split; [|split; [exact I5|split; [exact I9|]]]].
  - unfold sendable. fold i. split; [exact Hg|]. split; [exact Hord|]. split; [exact Hb0|].
    split; [apply (room i (k_sgbase e)); assumption|]. split; [exact Hsize|exact Hgl].
  - unfold travelling. rewrite Hb, I1, <- Hbuf. do 2 (split; [assumption|]). split; [exact I7|]. split; [exact I8|].
    split; [apply I6; exact Hst|]. split; [rewrite I3; exact K1|]. split; [rewrite I4; exact K2|].
    split; [rewrite I2; exact Ho|]. split; [exact Hlow|]. split; [rewrite Hgl; exact Hsize|exact Hhops].
  - destruct l as [|[v| | | | | | | | | |] l]; try exact Logic.I. inversion D1; subst.
    eexists _, _, _. reflexivity.
Qed.

(* What is read at the end, after plain data *)
Lemma last_reads i pr m cm its g offs st e v ps :
  travelling i pr m [] (IOp e (OpPlain v) ps :: its) g offs ->
  exists rs, read_items cm i pr g (mk_reader st (blen (m_data g)) (blen (chunk v)) offs) (map (it_kind i) its)
      = Ok (rs, mk_reader st (blen (m_data g)) (blen (m_data g)) []) /\
    Forall2 (it_passed i [] g) its rs.
Proof.
  intros (Hb & Htop & Hok & Hend & Hst & Hd & Hsg & Ho & Hlow & Hsize & Hhops).
  inversion Hok as [|y z J Hok2]; subst y z. destruct J as (J1 & J2 & J3 & J4 & J5 & J6 & J7). inversion Hend as [|y z _ Hend2]; subst y z.
  cbn [describes] in J6. subst ps. cbn [is_tr it_tr it_ps ps_tr p_tr ps_count ps_space p_count p_space is_sg it_sg ps_sg p_sg] in Hd, Hsg.
  rewrite ?app_nil_r in Hd. cbn [Datatypes.app] in Hsg.
  unfold is_ps in Ho. cbn [map concat it_ps Datatypes.app ps_offs p_offs p_len] in Ho. fold (is_ps its) in Ho.
  assert (Hfor : Forall it_foreign its).
  { eapply Forall_impl; [|exact Hend2]. intros [e1 o ps|[h|a] fl ex]; cbn [it_end it_foreign along]; auto. intros (h & H). discriminate H. }
  destruct (read_its i pr m cm g st its 0 0 (chunk v) [] Hb Hlow Hsize Hok2 Hfor Hd Hsg eq_refl) as (rs & R1 & R2).
  exists rs. split; [rewrite Ho; exact R1|].
  clear - Hok2 R2. induction R2 as [|x v l vs G R2 IH]; constructor; inversion Hok2; subst; [|auto].
  destruct x as [e1 o ps|p fl ex]; [|exact G]. destruct o; exact G.
Qed.
Lemma last_reads_all i pr m cm its g offs :
  travelling i pr m [] its g offs ->
  exists rs, read_items cm i pr g (reader_init 0 (blen (m_data g)) offs) (map (it_kind i) its)
      = Ok (rs, mk_reader 0 (blen (m_data g)) (blen (m_data g)) []) /\
    Forall2 (it_passed i [] g) its rs.
Proof.
  intros (Hb & Htop & Hok & Hend & Hst & Hd & Hsg & Ho & Hlow & Hsize & Hhops).
  assert (Hfor : Forall it_foreign its).
  { eapply Forall_impl; [|exact Hend]. intros [e1 o ps|[h|a] fl ex]; cbn [it_end it_foreign along]; auto. intros (h & H). discriminate H. }
  destruct (read_its i pr m cm g 0 its 0 0 [] [] Hb Hlow Hsize Hok Hfor Hd Hsg eq_refl) as (rs & R1 & R2).
  exists rs. split; [rewrite <- R1; unfold reader_init, mk_reader; rewrite Ho; reflexivity|].
  clear - Hok R2. induction R2 as [|x v l vs G R2 IH]; constructor; inversion Hok; subst; [|auto].
  destruct x as [e1 o ps|p fl ex]; [|exact G]. destruct o; exact G.
Qed.
(* Plain data comes first *)
Lemma travelling_head i pr m r its g offs e v ps :
  travelling i pr m r (IOp e (OpPlain v) ps :: its) g offs -> exists tail, m_data g = chunk v ++ tail.
Proof.
  intros (_ & _ & Hok & _ & _ & Hd & _).
  inversion Hok as [|y z J Hok2]; subst y z. destruct J as (J1 & J2 & J3 & J4 & J5 & J6 & J7).
  cbn [describes] in J6. subst ps. cbn [is_tr it_tr it_ps ps_tr p_tr] in Hd. rewrite ?app_nil_r in Hd.
  eexists. exact Hd.
Qed.

(* ------------------------------------------------------------------ *)
(* One message of a request, from process to process *)
Lemma request_sent cm e pr (name hdr : bytes) tail handle code oneway d g pl :
  let i := k_io e in
  new_iface pr (Some name) = Ok hdr -> iface_ok pr name -> has_header pr code ->
  CmdSpec.is_u32 handle -> CmdSpec.is_u32 code -> sendable e d g -> in_memory e d pl -> m_data g = hdr ++ tail ->
  exists cmd t, CmdModel.command i (request_call handle code (negb oneway) d pl) = Ok cmd /\
    k_accept e cmd = Some (false, t, g, wd_offsets d) /\ tr_target t = handle /\
    forall a, arrives i g (wd_offsets d) a ->
    received_buffer i a (BR_TRANSACTION i) (arriving i t a) = Some (g, wd_offsets d) /\
    receive cm i pr a (BR_TRANSACTION i) (arriving i t a) =
      Ok (Some {| in_target := ar_target a; in_pid := ar_pid a; in_euid := ar_euid a; in_code := code;
             in_flags := if oneway then 1 else 0; in_iface := Some name; in_data := g;
             in_args := mk_reader (blen hdr) (blen (m_data g)) (blen hdr) (wd_offsets d) |}).
Proof.
  intros i Hn Hi Hh Hha Hco (Hg & Hord & Hb & Hb7 & Hsize & Gl) (M1 & M2 & M3 & M4) Gd.
  fold i in Hord, Hb7, M2, M3, M4.
  pose proof (header_nonempty pr name hdr code Hi Hh Hn) as Hne.
  set (t := CmdSpec.reply_is (if oneway then 1 else 16) (blen (wd_bytes d)) (fst (CmdSpec.table i (wd_offsets d) (pl_offs pl)))
    (pl_data pl) (snd (CmdSpec.table i (wd_offsets d) (pl_offs pl))) code handle).
  assert (Hm : exists x, k_transaction (CmdSpec.meaning i (request_call handle code (negb oneway) d pl)) = Some (false, t, x) /\
    align8 x = align8 (wd_bufsize d)).
  { unfold request_call. cbn [CmdSpec.meaning].
    replace (if negb oneway then 16 else 1) with (if oneway then 1 else 16) by (destruct oneway; reflexivity).
    destruct (bufsize_cases (wd_bufsize d) Hb) as [[-> E]|[-> E]]; eexists; (split; [reflexivity|exact E]). }
  destruct Hm as (xs & Hm & Hal).
  assert (Hmo : CmdSpec.message_ok i (pl_data pl) (blen (wd_bytes d)) (wd_offsets d) (pl_offs pl) (wd_bufsize d)).
  { destruct (in_order_le i _ 0 _ Hord) as (_ & _ & O3). pose proof (blen_nonneg _ (wd_bytes d)).
    assert (Hf : 16 <= flat_size i) by (destruct i; vm_compute; discriminate).
    unfold blen in O3.
    split; [exact M3|]. split; [lia|]. split; [unfold blen in *; nia|]. split; [exact M4|]. split; [exact Hb|].
    assert (Hw : CmdSpec.is_word i (wd_bufsize d + 7) <-> 0 <= wd_bufsize d + 7 < 2 ^ (8 * psz i)) by (destruct i; reflexivity).
    apply Hw. lia. }
  destruct (accept_one e (request_call handle code (negb oneway) d pl) t false xs (wd_bytes d) (wd_offsets d)
    (pl_data pl) (pl_offs pl) (wd_bufsize d) g) as (cmd & Ec & Ha); auto.
  { cbn [request_call CmdSpec.args_ok]. split; [exact Hha|]. split; [exact Hco|]. exact Hmo. }
  exists cmd, t. split; [exact Ec|]. split; [exact Ha|]. split; [reflexivity|].
  intros a Hv. pose proof Hv as (V1 & V2 & V3 & V4 & V5 & V6 & V7 & V8 & V9 & V10).
  assert (Et : tr_flags t = if oneway then 1 else 16) by reflexivity.
  unfold receive, received_buffer.
  assert (Ed : DriverModel.decode_cmd i (ar_mem a) (BR_TRANSACTION i) (arriving i t a) =
    DriverModel.RTransaction (decode_transaction_data i (ar_mem a) (arriving i t a))).
  { destruct i; reflexivity. }
  rewrite Ed. clear Ed.
  rewrite (decode_arriving i t a (m_data g) (wd_offsets d) (pl_offs pl));
    [|exact Hco|rewrite Et; destruct oneway; split; vm_compute; congruence|rewrite Et; destruct oneway; reflexivity
     |cbn [t CmdSpec.reply_is tr_data_size]; congruence|reflexivity|lia|rewrite Gl; exact Hord|exact V2|exact V5|exact V6|exact V7|exact V8|exact V9|exact V10].
  assert (Hpos : 0 < blen (m_data g)).
  { rewrite Gd, blen_app. pose proof (blen_nonneg _ tail). pose proof (blen_nonneg _ hdr).
    destruct (Z.eq_dec (blen hdr) 0) as [Ez|]; [|lia]. apply blen_zero in Ez. contradiction. }
  unfold has_data. cbn [tx_data tx_size].
  destruct (Z.eqb_spec (ar_buffer a) 0); [lia|]. destruct (Z.eqb_spec (blen (m_data g)) 0); [lia|]. cbn [negb andb].
  match goal with |- context [received a ?tx] => rewrite (received_is i g (wd_offsets d) a tx Hv eq_refl eq_refl eq_refl) end.
  cbn [tx_code tx_target tx_pid tx_euid tx_flags]. split; [reflexivity|].
  destruct (header_roundtrip cm pr name tail (wd_offsets d) code Hi Hh) as (hdr1 & E1 & _ & H1).
  assert (hdr1 = hdr) by congruence. subst hdr1.
  specialize (H1 ltac:(rewrite <- Gd; lia)). destruct H1 as (H1 & H2).
  rewrite <- Gd in H1, H2. change (tr_code t) with code. rewrite H1. cbn [bind].
  rewrite H2. replace (blen hdr + blen tail) with (blen (m_data g)) by (rewrite Gd, blen_app; reflexivity).
  rewrite Et. destruct oneway; reflexivity.
Qed.

Lemma request_contents cm i pr p x g offs :
  proxy_copies cm i pr p x (Some (g, offs)) = let* d := append_contents i pr (px_requests p) wd_empty (m_data g) offs 0 in Ok (Some d).
Proof.
  unfold proxy_copies, ProxyConv.forward_request, ProxyConv.converter_protocol, ProxyConv.request_to_local. destruct pr; reflexivity.
Qed.

Lemma request_through cm i pr m name hdr code (oneway : bool) r : forall x g offs e0 ps its (P : incoming -> Prop),
  new_iface pr (Some name) = Ok hdr -> iface_ok pr name -> has_header pr code -> CmdSpec.is_u32 code ->
  Forall (fun p => CmdSpec.is_u32 (px_handle p)) r ->
  travelling i pr m (request_hops r) (IOp e0 (OpPlain (VRaw hdr)) ps :: its) g offs ->
  in_code x = code -> in_flags x = (if oneway then 1 else 0) -> in_iface x = Some name -> in_data x = g ->
  in_args x = mk_reader (blen hdr) (blen (m_data g)) (blen hdr) offs ->
  (forall x2 g2, in_code x2 = code -> in_flags x2 = (if oneway then 1 else 0) -> in_iface x2 = Some name -> in_data x2 = g2 ->
    (exists rs p1, read_items cm i pr g2 (in_args x2) (map (it_kind i) its) = Ok (rs, p1) /\
      Forall2 (it_passed i (request_hops r) g2) its rs /\ r_ptr p1 = blen (m_data g2) /\ r_objects p1 = []) -> P x2) ->
  request_passes cm i pr r x (Some (g, offs)) P.
Proof.
  induction r as [|p r IH]; intros x g offs e0 ps its P Hn Hi Hh Hco Hha T X1 X2 X3 X4 X5 HP.
  - cbn [request_passes request_hops map] in *. apply (HP x g); auto. rewrite X5.
    destruct (last_reads i pr m cm its g offs (blen hdr) e0 (VRaw hdr) ps T) as (rs & R1 & R2).
    exists rs. eexists. split; [exact R1|]. split; [exact R2|]. split; reflexivity.
  - cbn [request_passes]. intros Hm. cbn [still_there] in Hm. inversion Hha as [|y z Hha1 Hha2]; subst y z.
    change (request_hops (p :: r)) with ((px_out p, px_requests p) :: request_hops r) in *.
    destruct (hop_step i pr m _ _ _ _ g offs T Hm) as (Hio & d & g2 & its2 & E1 & Hs & Hl & T2 & Hmv & Hk).
    exists d. rewrite request_contents, E1. split; [reflexivity|].
    intros pl Hpl. revert Hio. inversion Hmv as [|a0 b0 l1 l2 Hmv1 Hmv2]; subst. intros Hio.
    destruct b0 as [e2 o2 ps2|]; cbn [moved] in Hmv1; [|contradiction]. destruct Hmv1 as [-> Hfd].
    destruct (travelling_head i pr m _ _ _ _ _ _ _ T2) as (tail & Gd). cbn [chunk] in Gd.
    destruct (request_sent cm (px_out p) pr name hdr tail (px_handle p) (in_code x) oneway d g2 pl Hn Hi Hh Hha1 Hco Hs Hpl Gd)
      as (cmd & t & Ec & Ea & Et & Hx). rewrite Hio in Ec, Hx.
    unfold proxy_calls. rewrite X2. replace (Z.testbit (if oneway then 1 else 0) 0) with oneway by (destruct oneway; reflexivity).
    exists cmd, t, g2. split; [exact Ec|]. split; [exact Ea|]. split; [exact Et|].
    intros a Ha. destruct (Hx a Ha) as (Hbf & Hrx). eexists. eexists. split; [exact Hrx|]. split; [exact Hbf|].
    apply (IH _ g2 (wd_offsets d) e2 ps2 l2 P); auto.
    intros x2 g3 Y1 Y2 Y3 Y4 (rs & p1 & R1 & R2 & R3 & R4). apply (HP x2 g3); auto.
    exists rs, p1. cbn [map] in Hk. assert (Hk2 : map (it_kind i) l2 = map (it_kind i) its) by congruence.
    rewrite Hk2 in R1. split; [exact R1|]. split; [|split; assumption].
    destruct T as (_ & _ & Hok & _). inversion Hok; subst. eapply all_moved_passed; eassumption.
Qed.

(* ------------------------------------------------------------------ *)
(* Replies *)
Lemma reply_sent e d g pl :
  let i := k_io e in
  sendable e d g -> in_memory e d pl ->
  exists cmd t, CmdModel.command i (reply_call d pl) = Ok cmd /\
    k_accept e cmd = Some (true, t, g, wd_offsets d) /\
    forall a, arrives i g (wd_offsets d) a ->
    reply_answer i a (BR_REPLY i) (arriving i t a) =
      Some {| ClientModel.an_status := 0;
              ClientModel.an_reply := if blen (m_data g) =? 0 then None else Some (g, wd_offsets d) |}.
Proof.
  intros i (Hg & Hord & Hb & Hb7 & Hsize & Gl) (M1 & M2 & M3 & M4).
  fold i in Hord, Hb7, M2, M3, M4.
  set (t := CmdSpec.reply_is 0 (blen (wd_bytes d)) (fst (CmdSpec.table i (wd_offsets d) (pl_offs pl)))
    (pl_data pl) (snd (CmdSpec.table i (wd_offsets d) (pl_offs pl))) 0 0).
  assert (Hm : exists x, k_transaction (CmdSpec.meaning i (reply_call d pl)) = Some (true, t, x) /\
    align8 x = align8 (wd_bufsize d)).
  { unfold reply_call. cbn [CmdSpec.meaning].
    destruct (bufsize_cases (wd_bufsize d) Hb) as [[-> E]|[-> E]]; eexists; (split; [reflexivity|exact E]). }
  destruct Hm as (xs & Hm & Hal).
  destruct (accept_one e (reply_call d pl) t true xs (wd_bytes d) (wd_offsets d)
    (pl_data pl) (pl_offs pl) (wd_bufsize d) g) as (cmd & Ec & Ha); auto.
  { cbn [reply_call CmdSpec.args_ok].
    destruct (in_order_le i _ 0 _ Hord) as (_ & _ & O3). pose proof (blen_nonneg _ (wd_bytes d)).
    assert (Hf : 16 <= flat_size i) by (destruct i; vm_compute; discriminate).
    unfold blen in O3.
    split; [exact M3|]. split; [lia|]. split; [unfold blen in *; nia|]. split; [exact M4|]. split; [exact Hb|].
    assert (Hw : CmdSpec.is_word i (wd_bufsize d + 7) <-> 0 <= wd_bufsize d + 7 < 2 ^ (8 * psz i)) by (destruct i; reflexivity).
    apply Hw. lia. }
  exists cmd, t. split; [exact Ec|]. split; [exact Ha|].
  intros a Hv. pose proof Hv as (V1 & V2 & V3 & V4 & V5 & V6 & V7 & V8 & V9 & V10).
  unfold reply_answer.
  assert (Ed : DriverModel.decode_cmd i (ar_mem a) (BR_REPLY i) (arriving i t a) =
    DriverModel.RReply (decode_transaction_data i (ar_mem a) (arriving i t a))).
  { destruct i; reflexivity. }
  rewrite Ed. clear Ed.
  rewrite (decode_arriving i t a (m_data g) (wd_offsets d) (pl_offs pl));
    [|split; vm_compute; congruence|split; vm_compute; congruence|reflexivity
     |cbn [t CmdSpec.reply_is tr_data_size]; congruence|reflexivity|lia|rewrite Gl; exact Hord|exact V2|exact V5|exact V6|exact V7|exact V8|exact V9|exact V10].
  cbn [tx_status]. change (0 =? - DriverModel.EAGAIN) with false. change (0 =? DriverModel.STATUS_FAILED) with false.
  change (0 =? DriverModel.STATUS_DEAD_OBJECT) with false. cbn [orb].
  unfold has_data. cbn [tx_data tx_size]. destruct (Z.eqb_spec (ar_buffer a) 0); [lia|].
  destruct (blen (m_data g) =? 0) eqn:Ez; cbn [negb andb]; [reflexivity|]. f_equal. f_equal. f_equal.
  apply (received_is i g (wd_offsets d)); auto.
Qed.

(* [r]: the proxies in the order in which the reply gets to them *)
Definition back (r : list proxy) : hops := map (fun p => (px_back p, px_replies p)) r.

Lemma reply_contents i pr p s g offs :
  proxy_reply i pr p {| ClientModel.an_status := s; ClientModel.an_reply := Some (g, offs) |} =
  let* d := append_contents i pr (px_replies p) wd_empty (m_data g) offs 0 in Ok (Some d).
Proof. reflexivity. Qed.

Lemma reply_through cm i pr m r : forall g offs its (P : ClientModel.answer -> Prop),
  travelling i pr m (back r) its g offs -> 0 < blen (m_data g) ->
  (forall g2 offs2, 0 < blen (m_data g2) ->
    (exists rs p1, read_items cm i pr g2 (reader_init 0 (blen (m_data g2)) offs2) (map (it_kind i) its) = Ok (rs, p1) /\
      Forall2 (it_passed i (back r) g2) its rs /\ r_ptr p1 = blen (m_data g2) /\ r_objects p1 = []) ->
    P {| ClientModel.an_status := 0; ClientModel.an_reply := Some (g2, offs2) |}) ->
  reply_passes i pr r {| ClientModel.an_status := 0; ClientModel.an_reply := Some (g, offs) |} P.
Proof.
  induction r as [|p r IH]; intros g offs its P T Hpos HP.
  - cbn [reply_passes back map] in *. apply HP; [exact Hpos|].
    destruct (last_reads_all i pr m cm its g offs T) as (rs & R1 & R2).
    exists rs. eexists. split; [exact R1|]. split; [exact R2|]. split; reflexivity.
  - cbn [reply_passes]. cbn [ClientModel.an_reply still_there]. intros Hm.
    change (back (p :: r)) with ((px_back p, px_replies p) :: back r) in *.
    destruct (hop_step i pr m _ _ _ _ g offs T Hm) as (Hio & d & g2 & its2 & E1 & Hs & Hl & T2 & Hmv & Hk).
    exists (Some d). rewrite reply_contents, E1. split; [reflexivity|]. intros pl addr Hpl. cbn [proxy_response].
    destruct (reply_sent (px_back p) d g2 pl Hs Hpl) as (cmd & t & Ec & Ea & Hx). rewrite Hio in Ec, Hx.
    exists cmd, t, g2, (wd_offsets d). split; [exact Ec|]. split; [exact Ea|]. intros a Ha. eexists. split; [exact (Hx a Ha)|].
    assert (Hpos2 : 0 < blen (m_data g2)) by (destruct Hs as (_ & _ & _ & _ & _ & ->); rewrite Hl; exact Hpos).
    destruct (Z.eqb_spec (blen (m_data g2)) 0); [lia|].
    apply (IH g2 (wd_offsets d) its2 P T2 Hpos2). intros g3 offs3 Y1 (rs & p1 & R1 & R2 & R3 & R4). apply HP; [exact Y1|].
    exists rs, p1. rewrite Hk in R1. split; [exact R1|]. split; [|split; assumption].
    destruct T as (_ & _ & Hok & _). eapply all_moved_passed; eassumption.
Qed.

(* Statuses *)
Definition next_status (s : Z) : Z := seen_status (if 0 <? s then -14 else s).
Lemma next_status_twice s : next_status (next_status s) = next_status s.
Proof.
  unfold next_status, seen_status. destruct (Z.ltb_spec 0 s); [reflexivity|].
  destruct (Z.eqb_spec s (-11)); [reflexivity|]. destruct (Z.eqb_spec s 1); [lia|]. destruct (Z.eqb_spec s 2); [lia|].
  cbn [orb]. destruct (Z.ltb_spec 0 s); [lia|]. destruct (Z.eqb_spec s (-11)); [lia|]. destruct (Z.eqb_spec s 1); [lia|].
  destruct (Z.eqb_spec s 2); [lia|]. reflexivity.
Qed.
Lemma status_range s : - 2 ^ 31 <= s < 2 ^ 31 -> - 2 ^ 31 <= seen_status s < 2 ^ 31.
Proof. unfold seen_status. destruct ((s =? -11) || (s =? 1) || (s =? 2)); lia. Qed.

Lemma status_through i pr r : forall s (P : ClientModel.answer -> Prop),
  Forall (fun p => k_io (px_back p) = i) r ->
  - 2 ^ 31 <= s < 2 ^ 31 ->
  P {| ClientModel.an_status := match r with [] => s | _ => next_status s end; ClientModel.an_reply := None |} ->
  reply_passes i pr r {| ClientModel.an_status := s; ClientModel.an_reply := None |} P.
Proof.
  induction r as [|p r IH]; intros s P Hio Hs HP; [exact HP|].
  inversion Hio as [|y z Hio1 Hio2]; subst y z.
  cbn [reply_passes]. intros _. exists None. split; [reflexivity|]. intros pl addr [Hm Hw]. cbn [proxy_response].
  unfold proxy_status in Hm. cbn [ClientModel.an_status] in Hm.
  set (s1 := if 0 <? s then - DriverModel.EFAULT else s) in *.
  assert (Hs1 : - 2 ^ 31 <= s1 < 2 ^ 31) by (unfold s1; change (- DriverModel.EFAULT) with (-14); destruct (0 <? s); lia).
  destruct (status_arrives (px_back p) addr s1 Hs1 Hm) as (cmd & t & g & Ec & Ea & Hx); [rewrite Hio1; exact Hw|].
  rewrite Hio1 in Ec, Hx. exists cmd, t, g, []. split; [exact Ec|]. split; [exact Ea|].
  intros a Ha. eexists. split; [exact (Hx a Ha)|]. change (seen_status s1) with (next_status s).
  apply IH; [exact Hio2|apply status_range; exact Hs1|].
  destruct r; [exact HP|]. rewrite next_status_twice. exact HP.
Qed.
