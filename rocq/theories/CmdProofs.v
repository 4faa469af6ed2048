(* Proofs about CmdModel *)
From Verif Require Import Base BaseLemmas UtfModel WriterModel ReaderModel ObjModel ObjProofs ObjReader KernelModel TxModel TxProofs CmdModel CmdSpec.
Local Arguments firstn : simpl never.
Local Arguments skipn : simpl never.

(* ------------------------------------------------------------------ *)
(* Writing *)
Lemma skipn_skipn' {A} (l : list A) a b : skipn a (skipn b l) = skipn (b + a) l.
Proof.
  revert l. induction b; intros l; [reflexivity|]. destruct l; [rewrite !skipn_nil; reflexivity|].
  change (skipn (S b) (a0 :: l)) with (skipn b l). change (skipn (S b + a) (a0 :: l)) with (skipn (b + a) l). apply IHb.
Qed.
Lemma firstn_step {A} (l : list A) a n : (firstn a l ++ firstn n (skipn a l))%list = firstn (a + n) l.
Proof.
  revert l. induction a; intros l; [reflexivity|]. destruct l; [rewrite skipn_nil, !firstn_nil; reflexivity|].
  change (skipn (S a) (a0 :: l)) with (skipn a l). change (firstn (S a) (a0 :: l)) with (a0 :: firstn a l).
  change (firstn (S a + n) (a0 :: l)) with (a0 :: firstn (a + n) l). rewrite <- IHa. reflexivity.
Qed.
(* What is added to what has been taken *)
Definition more (data : bytes) (c t n : nat) : nat := Nat.min n (length data - c - t).
Lemma writes_step once data a l c t got :
  writes once data (a :: l) c t got =
  match a with
  | Took n again =>
    let got := (got ++ firstn (more data c t n) (skipn (c + t) data))%list in
    if once || negb again then Returns 0 got else writes once data l (c + (t + more data c t n)) 0 got
  | Error e n =>
    let got := (got ++ firstn (more data c t n) (skipn (c + t) data))%list in
    if Z.pos e =? EINTR then writes once data l c (t + more data c t n) got
    else if Z.pos e =? EAGAIN then writes once data l c 0 got
    else Returns (Z.neg e) got
  end.
Proof. cbn [writes]. unfold rest, more. rewrite !skipn_skipn', !skipn_length. reflexivity. Qed.
Definition taken_of (r : result) : bytes := match r with Waits b | Returns _ b => b end.
Lemma writes_prefix once data l : forall c t tk,
  no_repeat tk l -> (tk = false -> t = 0)%nat ->
  exists m, taken_of (writes once data l c t (firstn (c + t) data)) = firstn m data.
Proof.
  induction l as [|a l IH]; intros c t tk H Ht; [eexists; reflexivity|].
  rewrite writes_step. destruct a as [n again|e n]; cbn [no_repeat] in H; cbv zeta; rewrite firstn_step.
  - destruct (once || negb again); [eexists; reflexivity|].
    replace (c + t + more data c t n)%nat with (c + (t + more data c t n) + 0)%nat by lia.
    apply (IH _ _ false); [exact H|reflexivity].
  - destruct H as [Ha H]. destruct (Z.eqb_spec (Z.pos e) EINTR) as [E|E].
    + rewrite <- Nat.add_assoc. apply (IH _ _ _ H). cbn [andb]. intros F. apply orb_false_iff in F. destruct F as [F1 F2].
      apply negb_false_iff, Nat.eqb_eq in F2. rewrite (Ht F1), F2. reflexivity.
    + destruct (Z.eqb_spec (Z.pos e) EAGAIN) as [E1|E1].
      * specialize (Ha E1). apply orb_false_iff in Ha. destruct Ha as [F1 F2].
        apply negb_false_iff, Nat.eqb_eq in F2. rewrite (Ht F1), F2. cbn [more Nat.min]. rewrite !Nat.add_0_r.
        specialize (IH c 0%nat _ H ltac:(reflexivity)). rewrite Nat.add_0_r in IH. exact IH.
      * eexists; reflexivity.
Qed.
Lemma writes_all tx data l : forall c t tk,
  no_repeat tk l -> (tk = false -> t = 0)%nat -> (c + t <= length data)%nat ->
  takes_all tx (length data - (c + t)) l ->
  forall ret got, writes (negb tx) data l c t (firstn (c + t) data) = Returns ret got -> 0 <= ret -> got = data.
Proof.
  induction l as [|a l IH]; intros c t tk H Ht Hc Hall ret got; [discriminate|].
  rewrite writes_step. destruct a as [n again|e n]; cbn [no_repeat] in H; cbn [takes_all] in Hall; cbv zeta; rewrite firstn_step.
  - destruct Hall as [Hn Hall]. destruct (negb tx || negb again) eqn:E.
    + intros [= <- <-] _. rewrite <- negb_andb in E. apply negb_true_iff in E. specialize (Hn E).
      apply firstn_all2. unfold more. lia.
    + replace (c + t + more data c t n)%nat with (c + (t + more data c t n) + 0)%nat by lia.
      apply (IH _ _ false); [exact H|reflexivity|unfold more; lia|].
      replace (length data - (c + (t + more data c t n) + 0))%nat with (length data - (c + t) - n)%nat by (unfold more; lia).
      exact Hall.
  - destruct H as [Ha H]. destruct (Z.eqb_spec (Z.pos e) EINTR) as [E|E].
    + rewrite <- Nat.add_assoc. apply (IH _ _ _ H).
      * cbn [andb]. intros F. apply orb_false_iff in F. destruct F as [F1 F2].
        apply negb_false_iff, Nat.eqb_eq in F2. rewrite (Ht F1), F2. reflexivity.
      * unfold more. lia.
      * replace (length data - (c + (t + more data c t n)))%nat with (length data - (c + t) - n)%nat by (unfold more; lia).
        exact Hall.
    + destruct (Z.eqb_spec (Z.pos e) EAGAIN) as [E1|E1].
      * specialize (Ha E1). apply orb_false_iff in Ha. destruct Ha as [F1 F2].
        apply negb_false_iff, Nat.eqb_eq in F2. subst n. specialize (Ht F1). subst t.
        cbn [more Nat.min]. rewrite !Nat.add_0_r in *.
        specialize (IH c 0%nat _ H ltac:(reflexivity)). rewrite !Nat.add_0_r in IH. apply IH; [exact Hc|].
        rewrite Nat.sub_0_r in Hall. exact Hall.
      * intros [= <- <-] Hr. lia.
Qed.

Theorem in_order c data l :
  no_repeat false l -> exists r, data = (taken_of (perform c data l) ++ r)%list.
Proof.
  intros H. assert (K : exists once, perform c data l = writes once data l 0 0 (firstn (0 + 0) data)).
  { destruct c; [exists true..|exists false]; reflexivity. }
  destruct K as [once K]. rewrite K. destruct (writes_prefix once data l 0 0 false H ltac:(reflexivity)) as [m E].
  rewrite E. exists (skipn m data). symmetry. apply firstn_skipn.
Qed.
Theorem whole c data l ret got :
  no_repeat false l -> takes_all (is_transaction c) (length data) l ->
  perform c data l = Returns ret got -> 0 <= ret -> got = data.
Proof.
  intros H Hall Hp Hr. assert (K : perform c data l = writes (negb (is_transaction c)) data l 0 0 (firstn (0 + 0) data)).
  { destruct c; reflexivity. }
  rewrite K in Hp. apply (writes_all _ data l 0 0 false H ltac:(reflexivity) ltac:(lia)) in Hp; auto.
  rewrite Nat.sub_0_r. exact Hall.
Qed.
(* The driver takes less than it was offered and reports success *)
Theorem short c data n : is_transaction c = false -> (n < length data)%nat -> forall again,
  perform c data [Took n again] = Returns 0 (firstn n data) /\ firstn n data <> data.
Proof.
  intros Hc Hn again. split.
  - assert (K : perform c data [Took n again] = writes true data [Took n again] 0 0 []) by (destruct c; try discriminate; reflexivity).
    rewrite K, writes_step. cbn [orb]. unfold more. rewrite Nat.min_l by lia. reflexivity.
  - intros E. apply (f_equal (@length Z)) in E. rewrite firstn_length in E. lia.
Qed.
(* It asks to try again after it has taken something *)
Theorem repeated c data n : (0 < n <= length data)%nat ->
  perform c data [Error 11 n; Took (length data) false] = Returns 0 (firstn n data ++ data).
Proof.
  intros Hn. assert (K : exists once, perform c data [Error 11 n; Took (length data) false] = writes once data [Error 11 n; Took (length data) false] 0 0 []).
  { destruct c; [exists true..|exists false]; reflexivity. }
  destruct K as [once K]. rewrite K, writes_step. change (Z.pos 11 =? EINTR) with false. change (Z.pos 11 =? EAGAIN) with true.
  cbv zeta iota. rewrite writes_step. cbv zeta. cbn [negb]. rewrite orb_true_r. unfold more. rewrite !Nat.sub_0_r, Nat.min_l, Nat.min_id by lia.
  change (skipn (0 + 0) data) with data. rewrite firstn_all. reflexivity.
Qed.

(* ------------------------------------------------------------------ *)
(* Commands *)
Lemma number_at (pre s suf : bytes) a n : length pre = a -> length s = n -> number (pre ++ s ++ suf) a n = unle s.
Proof.
  intros <- <-. unfold number. rewrite skipn_app, skipn_all, Nat.sub_diag. change (skipn 0 ?x) with x. cbn [app].
  rewrite firstn_app, firstn_all, Nat.sub_diag. change (firstn 0 ?x) with (@nil Z). rewrite app_nil_r. reflexivity.
Qed.
Lemma number_first (s suf : bytes) n : length s = n -> number (s ++ suf) 0 n = unle s.
Proof. exact (number_at [] s suf 0 n eq_refl). Qed.
Lemma length_le n v : length (le n v) = n.
Proof. pose proof (blen_le n v) as H. unfold blen in H. lia. Qed.
Lemma word_psize i : word i = psize i. Proof. destruct i; reflexivity. Qed.
Lemma word_le i v : is_word i v -> unle (le (psize i) v) = v.
Proof. intros H. rewrite unle_le. apply Z.mod_small. destruct i; exact H. Qed.
Lemma u32_le v : is_u32 v -> unle (le 4 v) = v.
Proof. intros H. rewrite unle_le. apply Z.mod_small. exact H. Qed.
Lemma u32_id v : is_u32 v -> u32 v = v.
Proof. intros H. apply Z.mod_small. exact H. Qed.
Lemma u32_word i v : is_u32 v -> is_word i v.
Proof. unfold is_u32, is_word. destruct i; cbn; lia. Qed.

(* The code is taken apart *)
Lemma parse_code i dir size nr p r :
  0 <= dir < 4 -> 0 <= size < 16384 -> 0 <= nr < 256 -> Z.of_nat (length p) = size ->
  parse i (le 4 (dir * 2 ^ 30 + size * 2 ^ 16 + 99 * 2 ^ 8 + nr) ++ p ++ r) =
  match argument i dir size nr p with Some k => Some (k, r) | None => None end.
Proof.
  intros Hd Hs Hn Hp. unfold parse.
  set (code := dir * 2 ^ 30 + size * 2 ^ 16 + 99 * 2 ^ 8 + nr).
  assert (N : number (le 4 code ++ p ++ r) 0 4 = code).
  { rewrite number_first by apply length_le. apply u32_le. unfold is_u32, code. lia. }
  rewrite N. clear N.
  assert (E1 : code mod 256 = nr).
  { unfold code. replace (dir * 2 ^ 30 + size * 2 ^ 16 + 99 * 2 ^ 8 + nr) with (nr + (dir * 2 ^ 22 + size * 2 ^ 8 + 99) * 256) by lia.
    rewrite Z.mod_add by lia. apply Z.mod_small. lia. }
  assert (E2 : code / 256 mod 256 = 99).
  { unfold code. replace (dir * 2 ^ 30 + size * 2 ^ 16 + 99 * 2 ^ 8 + nr) with (nr + (dir * 2 ^ 22 + size * 2 ^ 8 + 99) * 256) by lia.
    rewrite Z.div_add by lia. rewrite Z.div_small by lia.
    replace (0 + (dir * 2 ^ 22 + size * 2 ^ 8 + 99)) with (99 + (dir * 2 ^ 14 + size) * 256) by lia.
    rewrite Z.mod_add by lia. reflexivity. }
  assert (E3 : code / 65536 mod 16384 = size).
  { unfold code. replace (dir * 2 ^ 30 + size * 2 ^ 16 + 99 * 2 ^ 8 + nr) with ((99 * 2 ^ 8 + nr) + (dir * 2 ^ 14 + size) * 65536) by lia.
    rewrite Z.div_add by lia. rewrite Z.div_small by lia. rewrite Z.add_0_l.
    replace (dir * 2 ^ 14 + size) with (size + dir * 16384) by lia. rewrite Z.mod_add by lia. apply Z.mod_small. lia. }
  assert (E4 : code / 1073741824 = dir).
  { unfold code. replace (dir * 2 ^ 30 + size * 2 ^ 16 + 99 * 2 ^ 8 + nr) with ((size * 2 ^ 16 + 99 * 2 ^ 8 + nr) + dir * 1073741824) by lia.
    rewrite Z.div_add by lia. rewrite Z.div_small by lia. reflexivity. }
  cbv zeta. rewrite E1, E2, E3, E4. clear E1 E2 E3 E4.
  assert (P : skipn 4 (le 4 code ++ p ++ r) = (p ++ r)%list).
  { rewrite skipn_app, length_le. rewrite skipn_all2 by (rewrite length_le; lia). reflexivity. }
  assert (Q : firstn (Z.to_nat size) (p ++ r) = p).
  { rewrite <- Hp, Nat2Z.id, firstn_app, firstn_all, Nat.sub_diag. change (firstn 0 r) with (@nil Z). apply app_nil_r. }
  rewrite P, Q.
  assert (R : skipn (4 + Z.to_nat size) (le 4 code ++ p ++ r) = r).
  { rewrite <- skipn_skipn', P. rewrite <- Hp, Nat2Z.id, skipn_app, skipn_all, Nat.sub_diag. reflexivity. }
  rewrite R. rewrite !app_length, length_le, Hp.
  replace (4 <=? 4 + (length p + length r))%nat with true by (symmetry; apply Nat.leb_le; lia). rewrite !Z.eqb_refl. reflexivity.
Qed.

Lemma transaction_image i t r :
  is_u32 (tr_target t) -> tr_cookie t = 0 -> is_u32 (tr_code t) -> is_u32 (tr_flags t) -> tr_pid t = 0 -> tr_euid t = 0 ->
  is_word i (tr_data_size t) -> is_word i (tr_offsets_size t) -> is_word i (tr_buffer t) -> is_word i (tr_offsets t) ->
  transaction i (tr_image i t ++ r) = t.
Proof.
  destruct t as [a b c d e f g h k l].
  cbn [tr_target tr_cookie tr_code tr_flags tr_pid tr_euid tr_data_size tr_offsets_size tr_buffer tr_offsets].
  intros Ha -> Hc Hd -> -> Hg Hh Hk Hl. unfold transaction, tr_image.
  cbn [tr_target tr_cookie tr_code tr_flags tr_pid tr_euid tr_data_size tr_offsets_size tr_buffer tr_offsets].
  cbv zeta. rewrite <- !app_assoc. change (word i) with (psize i).
  f_equal.
  - destruct i.
    + rewrite number_first by apply length_le. apply u32_le, Ha.
    + unfold number. change (firstn 4 (skipn 0 (le (psize Io64) a ++ ?x))) with (le 4 a). apply u32_le, Ha.
  - rewrite number_at by apply length_le. apply word_le. unfold is_word; destruct i; cbn; lia.
  - rewrite (app_assoc (le _ _)). rewrite number_at by (rewrite ?app_length, ?length_le; lia). apply u32_le, Hc.
  - rewrite 2 (app_assoc _ _ (_ ++ _)). rewrite number_at by (rewrite ?app_length, ?length_le; lia). apply u32_le, Hd.
  - rewrite 3 (app_assoc _ _ (_ ++ _)). rewrite number_at by (rewrite ?app_length, ?length_le; lia). reflexivity.
  - rewrite 4 (app_assoc _ _ (_ ++ _)). rewrite number_at by (rewrite ?app_length, ?length_le; lia). reflexivity.
  - rewrite 5 (app_assoc _ _ (_ ++ _)). rewrite number_at by (rewrite ?app_length, ?length_le; lia). apply word_le, Hg.
  - rewrite 6 (app_assoc _ _ (_ ++ _)). rewrite number_at by (rewrite ?app_length, ?length_le; lia). apply word_le, Hh.
  - rewrite 7 (app_assoc _ _ (_ ++ _)). rewrite number_at by (rewrite ?app_length, ?length_le; lia). apply word_le, Hk.
  - rewrite 8 (app_assoc _ _ (_ ++ _)). rewrite number_at by (rewrite ?app_length, ?length_le; lia). apply word_le, Hl.
Qed.

Lemma iow_shape nr size : bc_iow nr size = 1 * 2 ^ 30 + size * 2 ^ 16 + 99 * 2 ^ 8 + nr.
Proof. reflexivity. Qed.
Lemma io_shape nr : bc_io nr = 0 * 2 ^ 30 + 0 * 2 ^ 16 + 99 * 2 ^ 8 + nr.
Proof. unfold bc_io. lia. Qed.
Lemma in_array_ok n b : Z.of_nat (length b) <= n -> in_array n b = Ok b.
Proof. intros H. unfold in_array, blen. replace (Z.of_nat (length b) <=? n) with true; [reflexivity|]. symmetry. apply Z.leb_le. exact H. Qed.
(* A command which is made of a code and its argument *)
Definition says (i : io) (r : res bytes) (k : kcmd) : Prop :=
  exists data, r = Ok data /\ forall t, parse i (data ++ t) = Some (k, t).
Lemma says_iow i nr size p n k :
  0 <= nr < 256 -> 0 <= size < 16384 -> Z.of_nat (length p) = size -> 4 + size <= n ->
  argument i 1 size nr p = Some k -> says i (in_array n (le 4 (bc_iow nr size) ++ p)) k.
Proof.
  intros H1 H2 H3 H4 H5. exists (le 4 (bc_iow nr size) ++ p). split.
  - apply in_array_ok. rewrite app_length, length_le. lia.
  - intros t. rewrite iow_shape, <- app_assoc, parse_code by (auto; lia). rewrite H5. reflexivity.
Qed.
Lemma says_io i nr n k :
  0 <= nr < 256 -> 4 <= n -> argument i 0 0 nr [] = Some k -> says i (in_array n (le 4 (bc_io nr))) k.
Proof.
  intros H1 H4 H5. exists (le 4 (bc_io nr)). split.
  - apply in_array_ok. rewrite length_le. lia.
  - intros t. rewrite io_shape. rewrite <- (app_nil_l t) at 1. rewrite parse_code by (cbn [length]; lia). rewrite H5. reflexivity.
Qed.
Lemma number_all (s : bytes) n : length s = n -> number s 0 n = unle s.
Proof. intros H. rewrite <- (app_nil_r s) at 1. apply number_first, H. Qed.
Lemma number_last (pre s : bytes) a n : length pre = a -> length s = n -> number (pre ++ s) a n = unle s.
Proof. intros H1 H2. rewrite <- (app_nil_r s) at 1. apply number_at; assumption. Qed.

Lemma tr_image_length i t : length (tr_image i t) = (6 * word i + 16)%nat.
Proof. unfold tr_image. rewrite !app_length, !length_le. change (word i) with (psize i). lia. Qed.
Lemma filled i h code p n flags offs a :
  is_u32 h -> is_u32 code -> is_u32 flags -> is_word i p -> 0 <= n < 2 ^ 31 -> Z.of_nat (length offs) < 2 ^ 28 -> is_word i a ->
  forall r, transaction i (fst (fill_transaction_data i h code p n flags offs a) ++ r) =
  reply_is flags n (fst (table i offs a)) p (snd (table i offs a)) code h.
Proof.
  intros Hh Hc Hf Hp Hn Ho Ha r. unfold fill_transaction_data. cbn [fst].
  rewrite transaction_image.
  - unfold reply_is, table. rewrite (u32_id h Hh). destruct offs; [reflexivity|].
    cbn [fst snd]. f_equal. unfold blen. rewrite Nat2Z.inj_mul. destruct i; reflexivity.
  - cbn [tr_target]. rewrite (u32_id h Hh). exact Hh.
  - reflexivity.
  - exact Hc.
  - exact Hf.
  - reflexivity.
  - reflexivity.
  - cbn [tr_data_size]. unfold is_word. destruct i; cbn; lia.
  - cbn [tr_offsets_size]. unfold is_word, blen. destruct offs; [destruct i; cbn; lia|].
    set (m := length (z :: offs)) in *. destruct i; cbn [word psz]; lia.
  - exact Hp.
  - cbn [tr_offsets]. destruct offs; [|exact Ha]. unfold is_word. destruct i; cbn; lia.
Qed.
Lemma filled_length i h code p n flags offs a :
  length (fst (fill_transaction_data i h code p n flags offs a)) = (6 * word i + 16)%nat.
Proof. unfold fill_transaction_data. cbn [fst]. apply tr_image_length. Qed.

Lemma says_sg i nr tr extra t :
  (nr = 17 \/ nr = 18) -> length tr = (6 * word i + 16)%nat -> 0 <= extra -> is_word i (extra + 7) ->
  (forall r, transaction i (tr ++ r) = t) ->
  says i (in_array (MAX_BC_TRANSACTION_SG_SIZE + 4) (le 4 (bc_iow nr (tr_size i + psz i)) ++ tr ++ le (psize i) (align8 extra)))
    (if nr =? 17 then KTransactionSg t (whole_words extra) else KReplySg t (whole_words extra)).
Proof.
  intros Hn HL He1 He2 Ht.
  apply says_iow; [lia|destruct i; cbn; lia|rewrite app_length, HL, length_le; destruct i; reflexivity|destruct i; cbn; lia|].
  assert (E : number (tr ++ le (psize i) (align8 extra)) (6 * word i + 16) (word i) = whole_words extra).
  { rewrite number_last by (auto using length_le; apply length_le). apply word_le. unfold is_word, whole_words in *.
    pose proof (Z.div_mod (extra + 7) 8 ltac:(lia)). pose proof (Z.mod_pos_bound (extra + 7) 8 ltac:(lia)). lia. }
  rewrite <- E. rewrite <- (Ht (le (psize i) (align8 extra))).
  generalize (tr ++ le (psize i) (align8 extra)). intros p. destruct Hn as [-> | ->]; destruct i; reflexivity.
Qed.

Theorem command_says i c : args_ok i c -> says i (command i c) (meaning i c).
Proof.
  assert (L : forall v, Z.of_nat (length (le 4 v)) = 4) by (intros; rewrite length_le; reflexivity).
  destruct c; cbn [args_ok command meaning]; intros H.
  1-4: unfold driver_cmd_int32; apply says_iow; [lia|lia|apply L|lia|];
    destruct i; cbn; rewrite number_all by apply length_le; rewrite u32_le by exact H; reflexivity.
  1-2: unfold driver_handle_cookie, BC_REQUEST_DEATH_NOTIFICATION, BC_CLEAR_DEATH_NOTIFICATION, encode_handle_cookie;
    apply says_iow; [lia|destruct i; cbn; lia|rewrite app_length, !length_le; destruct i; reflexivity|destruct i; cbn; lia|];
    assert (E : forall p, p = le 4 handle ++ le (psize i) handle -> number p 0 4 = handle /\ number p 4 (word i) = handle)
      by (intros p ->; rewrite number_first by apply length_le; rewrite number_last by apply length_le;
          rewrite u32_le, word_le by auto using u32_word; auto);
    specialize (E _ eq_refl); destruct E as [E1 E2]; set (p := le 4 handle ++ le (psize i) handle) in *; clearbody p;
    destruct i; cbn -[number] in *; rewrite E1, E2; reflexivity.
  - unfold encode_cookie. apply says_iow; [lia|destruct i; cbn; lia|rewrite length_le; destruct i; reflexivity|destruct i; cbn; lia|].
    assert (E : number (le (psize i) handle) 0 (word i) = handle)
      by (rewrite number_all by apply length_le; auto using word_le, u32_word).
    set (p := le (psize i) handle) in *; clearbody p. destruct i; cbn -[number] in *; rewrite E; reflexivity.
  - unfold encode_ptr_cookie. apply says_iow; [lia|destruct i; cbn; lia|rewrite app_length, !length_le; destruct i; reflexivity|destruct i; cbn; lia|].
    assert (E : forall p, p = le (psize i) obj ++ le (psize i) 0 -> number p 0 (word i) = obj /\ number p (word i) (word i) = 0).
    { intros p ->. rewrite number_first by apply length_le. rewrite number_last by apply length_le.
      split; apply word_le; [exact H|]. unfold is_word. destruct i; cbn; lia. }
    specialize (E _ eq_refl); destruct E as [E1 E2]; set (p := le (psize i) obj ++ le (psize i) 0) in *; clearbody p.
    destruct i; cbn -[number] in *; rewrite E1, E2; reflexivity.
  - unfold encode_pointer. apply says_iow; [lia|destruct i; cbn; lia|rewrite length_le; destruct i; reflexivity|destruct i; cbn; lia|].
    assert (E : number (le (psize i) buffer) 0 (word i) = buffer)
      by (rewrite number_all by apply length_le; auto using word_le).
    set (p := le (psize i) buffer) in *; clearbody p. destruct i; cbn -[number] in *; rewrite E; reflexivity.
  - apply says_io; [lia|lia|destruct i; reflexivity].
  - apply says_io; [lia|lia|destruct i; reflexivity].
  - destruct H as [H H2]. unfold driver_cmd_data.
    assert (E : load payload 0 (ioc_size (BC_INCREFS_DONE i)) = Ok payload).
    { unfold load. replace (ioc_size (BC_INCREFS_DONE i)) with (blen payload) by (unfold blen; rewrite H; destruct i; reflexivity).
      rewrite Z.add_0_l, !Z.leb_refl. cbn [andb]. rewrite slice_all by reflexivity. reflexivity. }
    rewrite E. cbn [bind]. apply says_iow; [lia|destruct i; cbn; lia|rewrite H; destruct i; reflexivity|destruct i; cbn; lia|].
    destruct i; reflexivity.
  - destruct H as [H H2]. unfold driver_cmd_data.
    assert (E : load payload 0 (ioc_size (BC_ACQUIRE_DONE i)) = Ok payload).
    { unfold load. replace (ioc_size (BC_ACQUIRE_DONE i)) with (blen payload) by (unfold blen; rewrite H; destruct i; reflexivity).
      rewrite Z.add_0_l, !Z.leb_refl. cbn [andb]. rewrite slice_all by reflexivity. reflexivity. }
    rewrite E. cbn [bind]. apply says_iow; [lia|destruct i; cbn; lia|rewrite H; destruct i; reflexivity|destruct i; cbn; lia|].
    destruct i; reflexivity.
  - destruct H as [H H2]. unfold driver_cmd_data.
    assert (E : load payload 0 (ioc_size (BC_DEAD_BINDER_DONE i)) = Ok payload).
    { unfold load. replace (ioc_size (BC_DEAD_BINDER_DONE i)) with (blen payload) by (unfold blen; rewrite H; destruct i; reflexivity).
      rewrite Z.add_0_l, !Z.leb_refl. cbn [andb]. rewrite slice_all by reflexivity. reflexivity. }
    rewrite E. cbn [bind]. apply says_iow; [lia|destruct i; cbn; lia|rewrite H; destruct i; reflexivity|destruct i; cbn; lia|].
    destruct i; reflexivity.
  - unfold driver_reply_status, encode_status_reply.
    set (t := {| tr_target := 0; tr_cookie := 0; tr_code := 0; tr_flags := TF_STATUS_CODE; tr_pid := 0; tr_euid := 0;
      tr_data_size := 4; tr_offsets_size := 0; tr_buffer := status_addr; tr_offsets := 0 |}).
    apply says_iow; [lia|destruct i; cbn; lia|rewrite tr_image_length; destruct i; reflexivity|destruct i; cbn; lia|].
    assert (E : transaction i (tr_image i t ++ []) = t).
    { apply transaction_image; unfold is_u32, is_word; cbn; try (destruct i; cbn; lia); try lia; [split; reflexivity || discriminate|exact H]. }
    rewrite app_nil_r in E. set (p := tr_image i t) in *. clearbody p.
    change (reply_is 8 4 0 status_addr 0 0 0) with t. rewrite <- E. destruct i; reflexivity.
  - destruct H as (H1 & H2 & H3 & H4 & H5 & H6). unfold driver_reply_data, encode_reply, encode_reply_sg.
    pose proof (filled i 0 0 payload payload_len 0 offsets offs_addr ltac:(unfold is_u32; lia) ltac:(unfold is_u32; lia) ltac:(unfold is_u32; lia) H1 H2 H3 H4) as F.
    pose proof (filled_length i 0 0 payload payload_len 0 offsets offs_addr) as FL.
    destruct (fill_transaction_data i 0 0 payload payload_len 0 offsets offs_addr) as [tr ob]. cbn [fst] in *.
    destruct (extra_buffers =? 0).
    + apply says_iow; [lia|destruct i; cbn; lia|rewrite FL; destruct i; reflexivity|destruct i; cbn; lia|].
      specialize (F []). rewrite app_nil_r in F. rewrite <- F. destruct i; reflexivity.
    + apply (says_sg i 18); auto.
  - destruct H as (H0 & H00 & H1 & H2 & H3 & H4 & H5 & H6). unfold driver_transact, encode_transaction, encode_transaction_sg.
    set (fl := request_flags (if reply then 0 else TX_FLAG_ONEWAY)).
    assert (Ef : fl = if reply then 16 else 1) by (destruct reply; reflexivity).
    assert (Hf : is_u32 fl) by (rewrite Ef; unfold is_u32; destruct reply; lia).
    pose proof (filled i handle code payload payload_len fl offsets offs_addr H0 H00 Hf H1 H2 H3 H4) as F.
    pose proof (filled_length i handle code payload payload_len fl offsets offs_addr) as FL.
    destruct (fill_transaction_data i handle code payload payload_len fl offsets offs_addr) as [tr ob]. cbn [fst] in *.
    rewrite <- Ef. clear Ef. clearbody fl.
    destruct (extra_buffers =? 0).
    + apply says_iow; [lia|destruct i; cbn; lia|rewrite FL; destruct i; reflexivity|destruct i; cbn; lia|].
      specialize (F []). rewrite app_nil_r in F. rewrite <- F. destruct i; reflexivity.
    + apply (says_sg i 17); auto.
Qed.

(* Everything which a thread writes *)
Definition answered (i : io) (x : call * list answer) : Prop :=
  no_repeat false (snd x) /\ forall data, command i (fst x) = Ok data -> takes_all (is_transaction (fst x)) (length data) (snd x).
Theorem all_understood i l : forall got0 rets got,
  Forall (fun x => args_ok i (fst x)) l -> Forall (answered i) l ->
  thread i l got0 = Ok (rets, got) -> length rets = length l -> Forall (fun r => 0 <= r) rets ->
  exists b, got = (got0 ++ b)%list /\ understood i b (map (fun x => meaning i (fst x)) l).
Proof.
  induction l as [|[c a] l IH]; intros got0 rets got Ha Hb; cbn [thread].
  - intros [= <- <-] _ _. exists []. split; [rewrite app_nil_r; reflexivity|constructor].
  - inversion Ha as [|? ? A1 A2]; subst. inversion Hb as [|? ? B1 B2]; subst. cbn [fst] in A1.
    destruct (command_says i c A1) as (data & E & P). destruct B1 as [B1 B3]. cbn [fst snd] in B1, B3.
    rewrite E. cbn [bind]. destruct (perform c data a) as [b|ret b] eqn:Ep.
    { intros [= <- <-] F. discriminate. }
    destruct (thread i l (got0 ++ b)%list) as [[rs g]|f] eqn:Et; cbn [bind fst snd]; [|discriminate].
    intros [= <- <-] HL HF. inversion HF as [|? ? F1 F2]; subst. cbn [length] in HL.
    destruct (IH _ _ _ A2 B2 Et ltac:(lia) F2) as (b2 & G1 & G2).
    apply (whole c data a ret b B1 (B3 _ E)) in Ep; [|exact F1]. subst b.
    exists (data ++ b2)%list. split; [rewrite app_assoc; exact G1|]. cbn [map fst].
    econstructor; [apply P|exact G2].
Qed.
Theorem no_overflow i l : forall got0, Forall (fun x => args_ok i (fst x)) l -> exists rets got, thread i l got0 = Ok (rets, got).
Proof.
  induction l as [|[c a] l IH]; intros got0 Ha; cbn [thread]; [eauto|].
  inversion Ha as [|? ? A1 A2]; subst. destruct (command_says i c A1) as (data & E & _). rewrite E. cbn [bind].
  destruct (perform c data a) as [b|ret b]; [eauto|].
  destruct (IH (got0 ++ b)%list A2) as (rs & g & Et). rewrite Et. cbn [bind]. eauto.
Qed.
