(* Proofs about the bytes of messages *)
From Verif Require Import Base BaseLemmas UtfModel WriterModel ReaderModel CodecSpec UtfProofs CodecProofs
  ObjModel ObjSpec ObjProofs RpcModel RpcSpec RpcProofs TxModel WireSpec.

Lemma little_le n : forall v, little n v = le n v.
Proof. induction n as [|n IH]; intros v; cbn; [reflexivity|]. rewrite IH. reflexivity. Qed.

Lemma word_le i v : word i v = le (psize i) v.
Proof. destruct i; apply little_le. Qed.

Lemma repeat_eq {A} (x : A) a b : a = b -> repeat x a = repeat x b. Proof. intros ->. reflexivity. Qed.

Lemma align_mod n : 0 <= n -> align4 n - n = (- n) mod 4.
Proof. intros H. unfold align4. lia. Qed.

Lemma padded_string8 s : padded 0 (s ++ [0]) = string8_chunk s.
Proof.
  unfold padded, string8_chunk, zrepeat. rewrite <- app_assoc. f_equal.
  rewrite app_length. cbn [length]. change ([0] ++ ?l) with (0 :: l).
  pose proof (align_mod (blen s + 1)) as A. unfold blen in *.
  change (0 :: repeat 0 ?n) with (repeat 0 (S n)). apply repeat_eq.
  replace (Z.of_nat (length s + 1)) with (Z.of_nat (length s) + 1) by lia. lia.
Qed.

Lemma units_eq s : units s = utf16 s.
Proof. reflexivity. Qed.

Lemma flat_little u : flat_map (little 2) u = units_bytes u.
Proof. unfold units_bytes. induction u as [|x u IH]; [reflexivity|]. cbn [flat_map]. rewrite IH, little_le. reflexivity. Qed.

Lemma text16_chunk u : u <> [] -> text16 u = units_chunk u.
Proof.
  intros H. unfold text16. destruct u as [|x u]; [congruence|]. set (w := x :: u) in *. clearbody w.
  unfold units_chunk, padded. rewrite little_le. f_equal. rewrite flat_little.
  assert (E : units_bytes (w ++ [0]) = units_bytes w ++ [0; 0]).
  { unfold units_bytes. rewrite flat_map_app. reflexivity. }
  rewrite E, <- app_assoc. f_equal. rewrite app_length.
  pose proof (units_bytes_len w) as L. pose proof (blen_nonneg _ w). unfold zrepeat, blen in *. cbn [length].
  change ([0; 0] ++ repeat 0 ?n) with (repeat 0 (S (S n))). apply repeat_eq.
  pose proof (align_mod ((Z.of_nat (length w) + 1) * 2)) as A.
  replace (Z.of_nat (length (units_bytes w) + 2)) with ((Z.of_nat (length w) + 1) * 2) by lia. lia.
Qed.

Lemma plain_chunk v : value_ok v -> plain v = chunk v.
Proof.
  destruct v as [b|v|v|v|v|v|v|v|v|v|v|s|[s|]|[u|]|[d|]|[a|]|l|[s|]]; cbn [plain chunk value_ok]; intros H;
    rewrite ?little_le; try reflexivity.
  - apply padded_string8.
  - destruct H as [H1 H2]. rewrite utf8_prefix_utf8 by assumption. rewrite units_eq.
    destruct s as [|x s]; [reflexivity|]. apply text16_chunk.
    intros E. assert (L : length (utf16 (x :: s)) = 0%nat) by (rewrite E; reflexivity).
    unfold utf16 in L. cbn [flat_map] in L. rewrite app_length in L. unfold utf16_char in L.
    destruct (x <? 0x10000); cbn [length] in L; lia.
  - destruct u as [|x u]; [reflexivity|]. apply text16_chunk. discriminate.
  - unfold parcelable_chunk, blen. rewrite (Z.add_comm 4). reflexivity.
  - unfold byte_array_chunk. destruct a as [|x d]; [reflexivity|]. set (w := x :: d).
    unfold padded, blen, zrepeat. do 2 f_equal. apply repeat_eq. f_equal. symmetry. apply align_mod. lia.
  - unfold blen. rewrite padded_string8. reflexivity.
Qed.

Lemma binder_eq i a : linux_bytes i (Binder a) = flat_image i TYPE_BINDER (0x7f + 0x100) a 0.
Proof. unfold flat_image. cbn [linux_bytes]. rewrite !word_le. reflexivity. Qed.
Lemma handle_eq i a : linux_bytes i (Handle a) = flat_image i TYPE_HANDLE 0x100 (u32 a) 0.
Proof. unfold flat_image. cbn [linux_bytes]. rewrite !word_le. reflexivity. Qed.
Lemma file_eq i a : linux_bytes i (File a) = fd_image i a.
Proof. unfold fd_image, flat_image. cbn [linux_bytes]. rewrite !word_le. reflexivity. Qed.
Lemma null_eq i : linux_bytes i NoObject = flat_image i TYPE_BINDER 0 0 0.
Proof. unfold flat_image. cbn [linux_bytes]. rewrite !word_le. reflexivity. Qed.
Lemma buffer_eq i a n pa : linux_bytes i (Buffer a n (place_of pa)) = buffer_image i a n pa.
Proof. unfold buffer_image, ptr_image. destruct pa as [pa|]; cbn [linux_bytes place_of option_map]; rewrite !word_le; reflexivity. Qed.
Lemma files_eq i a n k : linux_bytes i (Files a n k) = fda_image i a n k.
Proof. unfold fda_image. cbn [linux_bytes]. rewrite !word_le. reflexivity. Qed.
Lemma buffer_none i a n : linux_bytes i (Buffer a n None) = buffer_image i a n None.
Proof. exact (buffer_eq i a n None). Qed.
Lemma buffer_some i a n k off : linux_bytes i (Buffer a n (Some (k, off))) = buffer_image i a n (Some {| pa_index := k; pa_offset := off |}).
Proof. exact (buffer_eq i a n (Some {| pa_index := k; pa_offset := off |})). Qed.

Lemma usz_small i v : 0 <= v < 2 ^ 32 -> usz i v = v.
Proof. intros H. unfold usz. apply Z.mod_small. destruct i; cbn [psz]; lia. Qed.

Lemma hidl_eq a n w : 0 <= w < 256 -> hidl a n w = hidl_image a n w.
Proof. intros H. unfold hidl, hidl_image. rewrite !little_le. change (le 1 w) with [w mod 256]. rewrite (Z.mod_small w) by lia. reflexivity. Qed.

Lemma one_string_eq l : flat_map one_string l = concat (map string_desc l).
Proof.
  induction l as [|[[a t]|] l IH]; cbn [flat_map map concat]; [reflexivity| |]; rewrite IH; unfold one_string, string_desc, blen;
    rewrite hidl_eq by lia; reflexivity.
Qed.

Lemma bufs_eq i : forall l d k n,
  16 * (Z.of_nat n + Z.of_nat (length l)) < 2 ^ 32 ->
  Forall (fun s => match s with Some (_, t) => Z.of_nat (length t) + 1 < 2 ^ 32 | None => True end) l ->
  exists d', w_string_bufs i d k (16 * Z.of_nat n) l = Ok d' /\
    wd_bytes d' = wd_bytes d ++ string_buffers i k n l /\ wd_heap d' = wd_heap d.
Proof.
  induction l as [|s l IH]; intros d k n Hn Hf; cbn [w_string_bufs string_buffers].
  - eexists. split; [reflexivity|]. rewrite app_nil_r. auto.
  - inversion Hf as [|? ? H1 H2]; subst. cbn [length] in Hn.
    assert (E : u32 (16 * Z.of_nat n + 16) = 16 * Z.of_nat (S n)) by (unfold u32; rewrite Z.mod_small by lia; lia).
    destruct s as [[a t]|]; rewrite w_buffer_eq; cbn [bind]; rewrite E.
    + assert (E1 : u32 (blen t + 1) = blen t + 1) by (unfold u32, blen; apply Z.mod_small; lia).
      rewrite E1, usz_small by (unfold blen; lia).
      destruct (IH (add_object d (buffer_image i a (blen t + 1) (Some {| pa_index := k; pa_offset := 16 * Z.of_nat n |}))
        (align8 (blen t + 1))) k (S n)) as (d' & R1 & R2 & R3); [lia|assumption|].
      exists d'. rewrite R1, R2, R3, buffer_some. unfold blen. split; [reflexivity|]. split; [|reflexivity].
      cbn [add_object add_data wd_set_bytes record_offset add_bufsize wd_bytes]. rewrite app_assoc. reflexivity.
    + rewrite usz_small by lia.
      destruct (IH (add_object d (buffer_image i 0 0 (Some {| pa_index := k; pa_offset := 16 * Z.of_nat n |}))
        (align8 0)) k (S n)) as (d' & R1 & R2 & R3); [lia|assumption|].
      exists d'. rewrite R1, R2, R3, buffer_some. split; [reflexivity|]. split; [|reflexivity].
      cbn [add_object add_data wd_set_bytes record_offset add_bufsize wd_bytes]. rewrite app_assoc. reflexivity.
Qed.

Ltac fin := eexists; split; [reflexivity|]; unfold add_object, add_data;
  cbn [wd_set_bytes record_offset add_bufsize heap_add wd_bytes wd_heap wd_offsets wd_nalloc];
  rewrite <- ?app_assoc, ?app_nil_r; split; [reflexivity|split; reflexivity].

(* new n: the addresses which the allocator returns next *)
Theorem layout i p (al : nat -> Z) d o b mem :
  (forall n, al n <> 0) ->
  made i p (fun n => al (wd_nalloc d + n)%nat) (Z.of_nat (length (wd_offsets d))) o b mem ->
  exists d', w_op i p al d o = Ok d' /\ wd_bytes d' = wd_bytes d ++ b /\ wd_heap d' = mem ++ wd_heap d.
Proof.
  intros Hal. destruct o as [v|[x|]|[h|]|fd dup|a size pa|slack [f|] pa|[data|] count elemsize|[[a t]|]|l|? ? ? ?|? ? ? ?];
    cbn [made w_op].
  - intros (Hv & -> & ->). unfold wd_plain. rewrite append_value_eq. cbn [bind]. rewrite plain_chunk by assumption.
    eexists. split; [reflexivity|]. split; reflexivity.
  - intros (-> & ->). rewrite w_local_eq. eexists. split; [reflexivity|]. split; [|reflexivity].
    rewrite binder_eq. unfold stability. destruct p; rewrite ?little_le; reflexivity.
  - intros (-> & ->). rewrite w_local_eq. eexists. split; [reflexivity|]. split; [|reflexivity].
    rewrite null_eq. unfold stability. destruct p; rewrite ?little_le; reflexivity.
  - intros (-> & ->). rewrite w_remote_eq, handle_eq. eexists. split; [reflexivity|]. split; reflexivity.
  - intros (-> & ->). rewrite w_remote_eq, null_eq. eexists. split; [reflexivity|]. split; reflexivity.
  - intros (-> & ->). rewrite w_fd_eq, file_eq. eexists. split; [reflexivity|]. split; reflexivity.
  - intros (Hs & -> & ->). rewrite w_buffer_eq. cbn [bind]. rewrite usz_small, buffer_eq by assumption.
    eexists. split; [reflexivity|]. split; reflexivity.
  - cbv zeta. intros (Ht & Hs & -> & ->). unfold w_fds. cbv zeta.
    set (total := 12 + 4 * Z.of_nat (length (fs_fds f) + length (fs_ints f))) in *.
    assert (E : 12 + 4 * (blen (fs_fds f) + blen (fs_ints f)) = total) by (unfold total, blen; lia).
    rewrite E. assert (0 <= total) by (unfold total; lia). clearbody total.
    unfold wd_plain. rewrite w_int64_eq. cbn [bind]. rewrite w_buffer_eq. cbn [bind].
    rewrite w_fda_eq; [|lia|destruct i; unfold fda_size, MAX_BINDER_OBJECT_SIZE; cbn [psz]; lia].
    cbn [pa_index pa_offset]. rewrite usz_small by lia. rewrite buffer_eq, files_eq. change (little 8 total) with (le 8 total).
    eexists. split; [reflexivity|]. split; [|reflexivity].
    unfold add_object, add_data. cbn [wd_set_bytes record_offset add_bufsize wd_bytes wd_offsets].
    rewrite <- !app_assoc. reflexivity.
  - intros (-> & ->). unfold w_fds, wd_plain. rewrite w_int64_eq. cbn [bind]. eexists. split; [reflexivity|]. split; reflexivity.
  - cbv zeta. intros (H1 & H2 & H3 & H4 & H5). unfold w_hidl_vec. cbv zeta.
    assert (E : u32 (count * elemsize) = count * elemsize) by (unfold u32; apply Z.mod_small; nia). rewrite E.
    unfold memdup_ptr. destruct H5 as [(H5 & -> & ->)|(H5 & -> & ->)].
    + rewrite H5. cbn [Z.eqb]. cbn [bind]. rewrite w_buffer_eq. cbn [bind]. rewrite w_buffer_eq. cbn [bind].
      rewrite !usz_small by lia. rewrite buffer_none, buffer_some, hidl_eq by lia.
      rewrite Nat.add_0_r.
      eexists. split; [reflexivity|]. split; [|reflexivity].
      unfold add_object, add_data. cbn [wd_set_bytes record_offset add_bufsize heap_add wd_bytes wd_offsets]. rewrite <- !app_assoc. reflexivity.
    + destruct (Z.eqb_spec (count * elemsize) 0) as [Ez|_]; [contradiction|].
      assert (L : load data 0 (count * elemsize) = Ok (firstn (Z.to_nat (count * elemsize)) data)).
      { apply load_ok. unfold blen, slice, ztake, zdrop. repeat split; try lia; try nia. }
      rewrite L. cbn [bind]. destruct (Z.eqb_spec (al (wd_nalloc d)) 0) as [Ez|_]; [destruct (Hal _ Ez)|].
      rewrite w_buffer_eq. cbn [bind]. rewrite w_buffer_eq. cbn [bind].
      rewrite !usz_small by nia. rewrite buffer_none, buffer_some, hidl_eq by lia.
      rewrite Nat.add_0_r. replace (wd_nalloc d + 1)%nat with (S (wd_nalloc d)) by lia.
      eexists. split; [reflexivity|]. split; [|reflexivity].
      unfold add_object, add_data. cbn [wd_set_bytes record_offset add_bufsize heap_add wd_bytes wd_offsets]. rewrite <- !app_assoc. reflexivity.
  - intros (H1 & -> & ->). unfold w_hidl_vec. cbv zeta. rewrite H1. cbn [memdup_ptr].
    cbn [bind]. change (u32 0) with 0. rewrite w_buffer_eq. cbn [bind]. rewrite w_buffer_eq. cbn [bind].
    rewrite !usz_small by lia. rewrite buffer_none, buffer_some, hidl_eq by lia. rewrite Nat.add_0_r.
    eexists. split; [reflexivity|]. split; [|reflexivity].
    unfold add_object, add_data. cbn [wd_set_bytes record_offset add_bufsize heap_add wd_bytes wd_offsets]. rewrite <- !app_assoc. reflexivity.
  - intros (H1 & -> & ->). unfold w_hidl_string. cbv zeta. cbn [cstr_ptr cstr_len].
    rewrite w_buffer_eq. cbn [bind]. rewrite w_buffer_eq. cbn [bind].
    rewrite !usz_small by (unfold blen; lia). rewrite buffer_none, buffer_some, hidl_eq by lia. rewrite Nat.add_0_r.
    eexists. split; [reflexivity|]. split; [|reflexivity].
    unfold add_object, add_data. cbn [wd_set_bytes record_offset add_bufsize heap_add wd_bytes wd_offsets]. rewrite <- !app_assoc. reflexivity.
  - intros (-> & ->). unfold w_hidl_string. cbv zeta. cbn [cstr_ptr cstr_len].
    rewrite w_buffer_eq. cbn [bind]. rewrite w_buffer_eq. cbn [bind].
    rewrite !usz_small by lia. rewrite buffer_none, buffer_some, hidl_eq by lia. rewrite Nat.add_0_r.
    eexists. split; [reflexivity|]. split; [|reflexivity].
    unfold add_object, add_data. cbn [wd_set_bytes record_offset add_bufsize heap_add wd_bytes wd_offsets]. rewrite <- !app_assoc. reflexivity.
  - destruct l as [|s l].
    + intros (-> & ->). unfold w_hidl_string_vec. change (blen (@nil cstring)) with 0. change (0 <? 0) with false. cbv iota zeta.
      rewrite w_buffer_eq. cbn [bind]. rewrite w_buffer_eq. cbn [bind].
      rewrite !usz_small by lia. rewrite buffer_none, buffer_some, hidl_eq by lia. rewrite Nat.add_0_r.
      eexists. split; [reflexivity|]. split; [|reflexivity].
      unfold add_object, add_data. cbn [wd_set_bytes record_offset add_bufsize heap_add wd_bytes wd_offsets]. rewrite <- !app_assoc. reflexivity.
    + set (w := s :: l). assert (Hw : 0 < blen w) by (unfold w, blen; cbn [length]; lia). clearbody w.
      intros (H1 & H2 & -> & ->). unfold w_hidl_string_vec. cbv zeta.
      destruct (Z.ltb_spec 0 (blen w)) as [_|]; [|lia].
      rewrite w_buffer_eq. cbn [bind]. rewrite w_buffer_eq. cbn [bind].
      rewrite !usz_small by (unfold blen in *; lia).
      match goal with |- context [w_string_bufs i ?D ?K 0 w] =>
        destruct (bufs_eq i w D K 0) as (d' & R1 & R2 & R3); [exact H1|assumption|] end.
      change (16 * Z.of_nat 0) with 0 in R1. rewrite R1. exists d'. split; [reflexivity|].
      rewrite R2, R3, buffer_none, buffer_some, hidl_eq by lia. rewrite one_string_eq.
      rewrite Nat.add_0_r. replace (wd_nalloc d + 1)%nat with (S (wd_nalloc d)) by lia.
      split; [|reflexivity].
      unfold add_object, add_data. cbn [wd_set_bytes record_offset add_bufsize heap_add wd_bytes wd_offsets]. rewrite <- !app_assoc.
      repeat f_equal. rewrite blen_app. reflexivity.
  - intros [].
  - intros [].
Qed.

Theorem headers p s : iface_chars p (match p with Hidl => s | _ => utf8 s end) s ->
  new_iface p (Some (match p with Hidl => s | _ => utf8 s end)) = Ok (header p s).
Proof.
  intros H. cbn [new_iface]. rewrite (header_written p [] _ s H), append_values_eq. f_equal. cbn [app].
  assert (T : p <> Hidl -> text16 (units s) = chunk (VString16 (Some s))).
  { intros Hp. destruct p; try congruence; cbn [iface_chars] in H; apply (plain_chunk (VString16 (Some s))); cbn [value_ok]; tauto. }
  destruct p; cbn [header header_values flat_map]; rewrite app_nil_r, ?T by discriminate; try reflexivity.
  rewrite padded_string8. reflexivity.
Qed.

Lemma image_eq i target code flags size n data offs :
  tr_image i {| tr_target := target; tr_cookie := 0; tr_code := code; tr_flags := flags; tr_pid := 0; tr_euid := 0;
    tr_data_size := size; tr_offsets_size := n * psz i; tr_buffer := data; tr_offsets := offs |} =
  transaction i target code flags size n data offs.
Proof. unfold tr_image, transaction. cbn [tr_target tr_cookie tr_code tr_flags tr_pid tr_euid tr_data_size tr_offsets_size tr_buffer tr_offsets].
  destruct i; reflexivity. Qed.

Lemma fill_eq i h code data size flags offs at_ :
  fill_transaction_data i h code data size flags offs at_ =
  (transaction i (h mod 2 ^ 32) code flags size (Z.of_nat (length offs)) data (match offs with [] => 0 | _ => at_ end),
   flat_map (word i) offs).
Proof.
  assert (F : forall l, offsets_image i l = flat_map (word i) l).
  { unfold offsets_image. induction l as [|x l IH]; cbn [flat_map]; [reflexivity|]. rewrite IH, word_le. reflexivity. }
  unfold fill_transaction_data. destruct offs as [|x offs].
  - cbv zeta. exact (f_equal (fun x => (x, @nil Z)) (image_eq i (u32 h) code flags size 0 data 0)).
  - cbv zeta. rewrite image_eq, F. reflexivity.
Qed.
