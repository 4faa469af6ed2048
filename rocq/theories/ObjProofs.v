(* Each append call of the object writer adds a known piece of data, one
   object at a time *)
From Verif Require Import Base BaseLemmas UtfModel WriterModel ReaderModel CodecSpec
  CodecProofs ObjModel ObjReader KernelModel ObjSpec.

Lemma psize_psz i : Z.of_nat (psize i) = psz i.
Proof. destruct i; reflexivity. Qed.

Lemma psz_pos i : psz i = 4 \/ psz i = 8.
Proof. destruct i; cbn; lia. Qed.

Lemma blen_flat i t f o c : blen (flat_image i t f o c) = flat_size i.
Proof.
  unfold flat_image, flat_size. rewrite !blen_app, !blen_le, !psize_psz. lia.
Qed.

Lemma blen_ptr i f b l p o : blen (ptr_image i f b l p o) = ptr_size i.
Proof. unfold ptr_image, ptr_size. rewrite !blen_app, !blen_le, !psize_psz. lia. Qed.

Lemma blen_fda i n p o : blen (fda_image i n p o) = fda_size i.
Proof. unfold fda_image, fda_size. rewrite !blen_app, !blen_le, !psize_psz. lia. Qed.

(* Data is added without an object *)
Definition add_data (d : wdata) (l : bytes) : wdata := wd_set_bytes d (wd_bytes d ++ l).

(* An object is added: its image and the number of bytes which its buffer needs *)
Definition add_object (d : wdata) (image : bytes) (need : Z) : wdata :=
  add_bufsize (record_offset (add_data d image) (blen (wd_bytes d))) need.

Lemma store_at_end buf n s :
  blen s <= n ->
  store (set_size buf (blen buf + n)) (blen buf) s =
  Ok (buf ++ s ++ zrepeat uninit (n - blen s)).
Proof.
  intros H. pose proof (blen_nonneg _ s). rewrite set_size_grow by lia.
  replace (blen buf) with (blen buf + 0) at 1 by lia.
  rewrite store_tail by (rewrite ?blen_zrepeat; lia).
  rewrite poke_first by lia. reflexivity.
Qed.

Lemma set_size_cut buf s n r :
  n = blen s -> set_size (buf ++ s ++ r) (blen buf + n) = buf ++ s.
Proof.
  intros ->. unfold set_size. rewrite !blen_app.
  pose proof (blen_nonneg _ r).
  destruct (Z.leb_spec (blen buf + blen s) (blen buf + (blen s + blen r))); [|lia].
  rewrite app_assoc. apply ztake_app_exact. rewrite blen_app; lia.
Qed.

Lemma add_bufsize_0 d : add_bufsize d 0 = d.
Proof. destruct d; unfold add_bufsize; cbn. f_equal; lia. Qed.

Definition local_flat (i : io) (o : option local) : bytes :=
  match o with
  | Some o => flat_image i TYPE_BINDER (0x7f + 0x100) (lo_ptr o) 0
  | None => flat_image i TYPE_BINDER 0 0 0
  end.

Definition local_image (i : io) (pr : protocol) (o : option local) : bytes :=
  local_flat i o ++
  match pr with
  | Aidl3 => le 4 (match o with Some o => lo_stability o | None => 0 end)
  | _ => []
  end.

Lemma blen_local i pr o : blen (local_image i pr o) = flat_size i + flat_extra pr.
Proof.
  unfold local_image, local_flat. destruct o, pr; cbn [flat_extra];
    rewrite blen_app, blen_flat, ?blen_le, ?blen_nil; lia.
Qed.

Lemma flat_fits i pr : flat_size i + flat_extra pr <= MAX_BINDER_OBJECT_SIZE.
Proof. destruct i, pr; vm_compute; discriminate. Qed.

Lemma flat_size_pos i : 0 < flat_size i. Proof. destruct i; vm_compute; auto. Qed.

Lemma encode_local_eq i pr buf o n :
  flat_size i + flat_extra pr <= n ->
  encode_local_object i pr (set_size buf (blen buf + n)) (blen buf) o =
  Ok (buf ++ local_image i pr o ++ zrepeat uninit (n - blen (local_image i pr o)),
      flat_size i + flat_extra pr).
Proof.
  intros Hn. unfold encode_local_object.
  change (match o with
          | Some o => flat_image i TYPE_BINDER (0x7f + 0x100) (lo_ptr o) 0
          | None => flat_image i TYPE_BINDER 0 0 0 end) with (local_flat i o).
  assert (Hfl : blen (local_flat i o) = flat_size i) by (destruct o; apply blen_flat).
  pose proof (flat_size_pos i).
  assert (He : 0 <= flat_extra pr) by (destruct pr; cbn; lia).
  rewrite store_at_end by lia. cbn [bind].
  destruct pr; cbn [flat_extra] in *;
    try (cbn [bind]; unfold local_image; rewrite app_nil_r; reflexivity).
  rewrite app_assoc.
  replace (blen buf + flat_size i) with (blen (buf ++ local_flat i o) + 0) by (rewrite blen_app; lia).
  rewrite store_tail by (rewrite ?blen_zrepeat, ?blen_le; lia).
  rewrite poke_first by (rewrite blen_le; lia). cbn [bind].
  do 2 f_equal. unfold local_image.
  rewrite <- !app_assoc. rewrite !blen_app, !blen_le, Hfl. do 4 f_equal. lia.
Qed.

Lemma w_local_eq i pr d o :
  w_local_object i pr d o =
  Ok (match o with
      | Some _ => add_object d (local_image i pr o) 0
      | None => add_data d (local_image i pr o)
      end).
Proof.
  unfold w_local_object. rewrite encode_local_eq by apply flat_fits. cbn [bind].
  rewrite set_size_cut by (symmetry; apply blen_local).
  destruct o; unfold add_object; rewrite ?add_bufsize_0; reflexivity.
Qed.

Definition remote_image (i : io) (h : option Z) : bytes :=
  match h with
  | Some h => flat_image i TYPE_HANDLE 0x100 (u32 h) 0
  | None => flat_image i TYPE_BINDER 0 0 0
  end.

Lemma w_remote_eq i d o :
  w_remote_object i d o =
  Ok (match o with
      | Some _ => add_object d (remote_image i o) 0
      | None => add_data d (remote_image i o)
      end).
Proof.
  unfold w_remote_object, encode_remote_object.
  assert (Hl : blen (remote_image i o) = flat_size i) by (destruct o; apply blen_flat).
  change (match o with
          | Some handle => flat_image i TYPE_HANDLE 0x100 (u32 handle) 0
          | None => flat_image i TYPE_BINDER 0 0 0 end) with (remote_image i o).
  rewrite store_at_end by (rewrite Hl; destruct i; vm_compute; discriminate). cbn [bind].
  rewrite set_size_cut by (symmetry; exact Hl).
  destruct o; unfold add_object; rewrite ?add_bufsize_0; reflexivity.
Qed.

Definition fd_image (i : io) (fd : Z) : bytes :=
  flat_image i TYPE_FD (0x7f + 0x100) (u32 fd) 0.

Lemma w_fd_eq i d fd dupfd :
  w_fd i d fd dupfd = Ok (add_object d (fd_image i (if dupfd <? 0 then fd else dupfd)) 0).
Proof.
  unfold w_fd.
  assert (E : forall f, encode_fd_object i
      (set_size (wd_bytes d) (blen (wd_bytes d) + MAX_BINDER_OBJECT_SIZE)) (blen (wd_bytes d)) f =
    Ok (wd_bytes d ++ fd_image i f ++
        zrepeat uninit (MAX_BINDER_OBJECT_SIZE - blen (fd_image i f)), flat_size i)).
  { intros f. unfold encode_fd_object. fold (fd_image i f).
    rewrite store_at_end; [reflexivity|].
    unfold fd_image; rewrite blen_flat; destruct i; vm_compute; discriminate. }
  rewrite !E.
  replace (if dupfd <? 0 then _ else _) with
    (Ok (wd_bytes d ++ fd_image i (if dupfd <? 0 then fd else dupfd) ++
        zrepeat uninit (MAX_BINDER_OBJECT_SIZE -
          blen (fd_image i (if dupfd <? 0 then fd else dupfd))), flat_size i))
    by (destruct (dupfd <? 0); reflexivity).
  cbn [bind]. rewrite set_size_cut by (unfold fd_image; rewrite blen_flat; reflexivity).
  unfold add_object; rewrite add_bufsize_0; reflexivity.
Qed.

Definition buffer_image (i : io) (ptr size : Z) (pa : option parent) : bytes :=
  match pa with
  | Some p => ptr_image i 1 ptr size (pa_index p) (pa_offset p)
  | None => ptr_image i 0 ptr size 0 0
  end.

Lemma blen_buffer i ptr size pa : blen (buffer_image i ptr size pa) = ptr_size i.
Proof. destruct pa; apply blen_ptr. Qed.

Lemma w_buffer_eq i d ptr size pa :
  w_buffer_object i d ptr size pa =
  Ok (blen (wd_offsets d),
      add_object d (buffer_image i ptr (usz i size) pa) (align8 (usz i size))).
Proof.
  unfold w_buffer_object, encode_buffer_object. cbv zeta.
  change (match pa with
          | Some p => ptr_image i 1 ptr (usz i size) (pa_index p) (pa_offset p)
          | None => ptr_image i 0 ptr (usz i size) 0 0 end)
    with (buffer_image i ptr (usz i size) pa).
  rewrite store_at_end by (rewrite blen_buffer; destruct i; vm_compute; discriminate).
  cbn [bind]. rewrite set_size_cut by (symmetry; apply blen_buffer). reflexivity.
Qed.

Lemma w_fda_eq i slack d n pa :
  0 <= slack -> fda_size i <= MAX_BINDER_OBJECT_SIZE + slack ->
  w_fda_object i slack d n pa =
  Ok (add_object d (fda_image i n (pa_index pa) (pa_offset pa)) 0).
Proof.
  intros H0 H. unfold w_fda_object, encode_fda_object. cbv zeta.
  replace (blen (wd_bytes d) + MAX_BINDER_OBJECT_SIZE + slack)
    with (blen (wd_bytes d) + (MAX_BINDER_OBJECT_SIZE + slack)) by lia.
  rewrite store_at_end by (rewrite blen_fda; lia). cbn [bind].
  rewrite set_size_cut by (symmetry; apply blen_fda).
  unfold add_object; rewrite add_bufsize_0; reflexivity.
Qed.

Lemma w_fda_overflow i slack d n pa :
  0 <= slack -> MAX_BINDER_OBJECT_SIZE + slack < fda_size i ->
  w_fda_object i slack d n pa = Fault OutOfBounds.
Proof.
  intros H0 H. unfold w_fda_object, encode_fda_object, store. cbv zeta.
  pose proof (blen_nonneg _ (wd_bytes d)).
  unfold MAX_BINDER_OBJECT_SIZE in *.
  rewrite <- Z.add_assoc, set_size_grow by lia.
  rewrite blen_app, blen_zrepeat, blen_fda.
  replace ((0 <=? blen (wd_bytes d)) && _) with false; [reflexivity|]. lia.
Qed.

Lemma wd_plain_eq d v : wd_plain d (fun b => append_value b v) = Ok (add_data d (chunk v)).
Proof. unfold wd_plain. rewrite append_value_eq. reflexivity. Qed.

Lemma wd_int64_eq d v : wd_plain d (fun b => w_int64 b v) = Ok (add_data d (le 8 v)).
Proof. unfold wd_plain. rewrite w_int64_eq. reflexivity. Qed.

(* ------------------------------------------------------------------ *)
(* Objects stay where they are when something is appended *)

Lemma kfield_app b l off n :
  0 <= off -> off + n <= blen b -> kfield (b ++ l) off n = kfield b off n.
Proof.
  intros H0 H1. unfold kfield. destruct (Z.leb_spec 0 n).
  - rewrite slice_app_l by lia. reflexivity.
  - unfold slice. rewrite !ztake_neg by lia. reflexivity.
Qed.

Definition osize (i : io) (w : want) : Z := k_object_size i (want_type w).

Lemma osize_eq i w :
  osize i w = match w with
              | WBuffer _ => ptr_size i
              | WFda _ => fda_size i
              | _ => flat_size i
              end.
Proof. destruct w; reflexivity. Qed.

Lemma finds_app i b l off w :
  0 <= off -> off + osize i w <= blen b -> finds i b off w -> finds i (b ++ l) off w.
Proof.
  intros H0 H1 [Ht Hf]. rewrite osize_eq in H1.
  pose proof (psz_pos i) as Hp. unfold flat_size, ptr_size, fda_size in H1.
  assert (L : 16 <= match w with WBuffer _ => 8 + 4 * psz i | WFda _ => 8 + 3 * psz i
                            | _ => 8 + 2 * psz i end)
    by (destruct w; lia).
  split.
  - unfold k_type in *. rewrite kfield_app by lia. exact Ht.
  - destruct w; rewrite kfield_app; first [exact Hf | lia].
Qed.

Lemma objects_at_app i b l from offs ws :
  0 <= from -> objects_at i b from offs ws -> objects_at i (b ++ l) from offs ws.
Proof.
  revert from ws; induction offs as [|o os IH]; intros from ws H0 H; destruct ws as [|w ws];
    cbn [objects_at] in *; try contradiction; auto.
  destruct H as (H1 & H2 & H3 & H4). pose proof (blen_nonneg _ l).
  fold (osize i w) in *.
  assert (0 < osize i w) by (rewrite osize_eq; destruct i, w; vm_compute; auto).
  split; [lia|]. split; [apply finds_app; auto; lia|].
  split; [rewrite blen_app; lia|]. apply IH; [lia|assumption].
Qed.

(* One more object at the end *)
Lemma objects_at_snoc i b l from offs ws o w :
  0 <= from -> from <= blen b ->
  objects_at i b from offs ws ->
  o = blen b ->
  finds i (b ++ l) o w -> osize i w <= blen l ->
  objects_at i (b ++ l) from (offs ++ [o]) (ws ++ [w]).
Proof.
  intros H0 Hfb H -> Hf Hl.
  revert from ws H0 Hfb H; induction offs as [|x os IH]; intros from ws H0 Hfb H;
    destruct ws as [|y ws]; cbn [objects_at app] in *; try contradiction.
  - split; [assumption|]. split; [assumption|]. split; [|exact I].
    fold (osize i w). rewrite blen_app; lia.
  - destruct H as (H1 & H2 & H3 & H4). pose proof (blen_nonneg _ l).
    fold (osize i y) in *.
    assert (0 < osize i y) by (rewrite osize_eq; destruct i, y; vm_compute; auto).
    split; [assumption|]. split; [apply finds_app; auto; lia|].
    split; [rewrite blen_app; lia|]. apply IH; auto; lia.
Qed.

(* ------------------------------------------------------------------ *)
(* The invariant of the writer *)

Definition wd_good (i : io) (d : wdata) (ws : list want) : Prop :=
  objects_at i (wd_bytes d) 0 (wd_offsets d) ws /\
  wd_bufsize d = space_needed i (wd_bytes d) (wd_offsets d).

Lemma buffer_space_app i b l off w :
  0 <= off -> off + osize i w <= blen b -> k_type b off = want_type w ->
  buffer_space i (b ++ l) off = buffer_space i b off.
Proof.
  intros H0 H1 Ht. pose proof (psz_pos i) as Hp.
  rewrite osize_eq in H1. unfold flat_size, ptr_size, fda_size in H1.
  unfold buffer_space.
  assert (E : k_type (b ++ l) off = k_type b off).
  { unfold k_type. apply kfield_app; destruct w; lia. }
  rewrite E, Ht. destruct w; try reflexivity.
  cbn [k_ptr kp_length]. rewrite kfield_app by lia. reflexivity.
Qed.

Lemma space_app i b l from offs ws :
  0 <= from -> objects_at i b from offs ws ->
  space_needed i (b ++ l) offs = space_needed i b offs.
Proof.
  revert from ws; induction offs as [|o os IH]; intros from ws H0 H; destruct ws as [|w ws];
    cbn [objects_at] in *; try contradiction; auto.
  destruct H as (H1 & [H2 _] & H3 & H4). unfold space_needed in *. cbn [map zsum].
  fold (osize i w) in *.
  assert (0 < osize i w) by (rewrite osize_eq; destruct i, w; vm_compute; auto).
  rewrite (buffer_space_app i b l o w) by (auto; lia).
  rewrite (IH (o + osize i w) ws) by (auto; lia). reflexivity.
Qed.

Lemma zsum_app l m : zsum (l ++ m) = zsum l + zsum m.
Proof. induction l as [|x l IH]; cbn; [reflexivity|rewrite IH; lia]. Qed.

Lemma good_data i d ws l : wd_good i d ws -> wd_good i (add_data d l) ws.
Proof.
  intros [H1 H2]. unfold add_data, wd_set_bytes. split; cbn [wd_bytes wd_offsets wd_bufsize].
  - apply objects_at_app; [lia|assumption].
  - rewrite (space_app i _ l 0 _ ws) by (auto; lia). assumption.
Qed.

(* The image of an object and what is found there *)
Definition image_of (i : io) (image : bytes) (need : Z) (w : want) : Prop :=
  osize i w <= blen image /\
  (forall b, finds i (b ++ image) (blen b) w) /\
  (forall b, buffer_space i (b ++ image) (blen b) = need).

Lemma good_object i d ws image need w :
  image_of i image need w -> wd_good i d ws ->
  wd_good i (add_object d image need) (ws ++ [w]).
Proof.
  intros (Hl & Hf & Hs) [H1 H2]. unfold add_object, add_data, add_bufsize, record_offset, wd_set_bytes. split;
    cbn [wd_bytes wd_offsets wd_bufsize].
  - apply objects_at_snoc; auto; [lia|apply blen_nonneg].
  - unfold space_needed. rewrite map_app, zsum_app. cbn [map zsum].
    rewrite Hs. pose proof (space_app i _ image 0 _ ws ltac:(lia) H1) as E.
    unfold space_needed in E, H2. rewrite E, H2. lia.
Qed.

Lemma heap_add_good i al d ws c : wd_good i d ws -> wd_good i (heap_add al d c) ws.
Proof. intros H; exact H. Qed.

(* Fields of the images *)
Lemma kfield_at (b l m r : bytes) o n :
  o = blen b + blen l -> n = blen m -> kfield (b ++ l ++ m ++ r) o n = unle m.
Proof.
  intros -> ->. unfold kfield. rewrite app_assoc. rewrite slice_app_exact; auto.
  rewrite blen_app; reflexivity.
Qed.

Lemma unle_lep i v : unle (le (psize i) v) = usz i v.
Proof. rewrite unle_le, psize_psz. reflexivity. Qed.

Lemma unle_le4 v : unle (le 4 v) = u32 v.
Proof. rewrite unle_le. reflexivity. Qed.

Lemma flat_type i t f o c b r :
  k_type (b ++ flat_image i t f o c ++ r) (blen b) = u32 t.
Proof.
  unfold k_type, flat_image. rewrite <- !app_assoc.
  rewrite <- (app_nil_l (le 4 t ++ _)).
  rewrite (kfield_at b []) by (rewrite ?blen_nil, ?blen_le; lia). apply unle_le4.
Qed.

Lemma flat_value i t f o c b r :
  kfield (b ++ flat_image i t f o c ++ r) (blen b + 8) (psz i) = usz i o.
Proof.
  unfold flat_image. rewrite <- !app_assoc. rewrite (app_assoc (le 4 t)).
  rewrite kfield_at by (rewrite ?blen_app, ?blen_le, ?psize_psz; lia).
  apply unle_lep.
Qed.

Lemma flat_value32 i t f o c b r :
  0 <= o < 2 ^ 32 -> kfield (b ++ flat_image i t f o c ++ r) (blen b + 8) 4 = o.
Proof.
  intros Ho. unfold flat_image. rewrite <- !app_assoc. rewrite (app_assoc (le 4 t)).
  assert (E : exists z, le (psize i) o = le 4 o ++ z).
  { destruct i; cbn [psize]; [exists []; rewrite app_nil_r; reflexivity|].
    exists (le 4 (o / 2 ^ 32)).
    unfold le; cbn. rewrite !Z.div_div by lia. reflexivity. }
  destruct E as [z ->]. rewrite <- (app_assoc (le 4 o)).
  rewrite kfield_at by (rewrite ?blen_app, ?blen_le; lia).
  rewrite unle_le4. unfold u32. apply Z.mod_small; assumption.
Qed.

Lemma ptr_fields i f b l p o x r :
  k_type (x ++ ptr_image i f b l p o ++ r) (blen x) = TYPE_PTR /\
  k_ptr i (x ++ ptr_image i f b l p o ++ r) (blen x) =
  {| kp_flags := u32 f; kp_buffer := usz i b; kp_length := usz i l;
     kp_parent := usz i p; kp_poff := usz i o |}.
Proof.
  unfold k_type, k_ptr, ptr_image. rewrite <- !app_assoc. split.
  - rewrite <- (app_nil_l (le 4 TYPE_PTR ++ _)).
    rewrite (kfield_at x []) by (rewrite ?blen_nil, ?blen_le; lia).
    rewrite unle_le4. reflexivity.
  - f_equal.
    + rewrite (kfield_at x (le 4 TYPE_PTR)) by (rewrite ?blen_le; lia). apply unle_le4.
    + rewrite (app_assoc (le 4 TYPE_PTR)).
      rewrite kfield_at by (rewrite ?blen_app, ?blen_le, ?psize_psz; lia). apply unle_lep.
    + rewrite (app_assoc (le 4 TYPE_PTR)), (app_assoc (le 4 TYPE_PTR ++ _)).
      rewrite kfield_at by (rewrite ?blen_app, ?blen_le, ?psize_psz; lia). apply unle_lep.
    + rewrite (app_assoc (le 4 TYPE_PTR)), (app_assoc (le 4 TYPE_PTR ++ _)),
        (app_assoc ((le 4 TYPE_PTR ++ _) ++ _)).
      rewrite kfield_at by (rewrite ?blen_app, ?blen_le, ?psize_psz; lia). apply unle_lep.
    + rewrite (app_assoc (le 4 TYPE_PTR)), (app_assoc (le 4 TYPE_PTR ++ _)),
        (app_assoc ((le 4 TYPE_PTR ++ _) ++ _)),
        (app_assoc (((le 4 TYPE_PTR ++ _) ++ _) ++ _)).
      rewrite kfield_at by (rewrite ?blen_app, ?blen_le, ?psize_psz; lia). apply unle_lep.
Qed.

Lemma fda_fields i n p o x r :
  k_type (x ++ fda_image i n p o ++ r) (blen x) = TYPE_FDA /\
  kfield (x ++ fda_image i n p o ++ r) (blen x + 8) (psz i) = usz i n /\
  kfield (x ++ fda_image i n p o ++ r) (blen x + 8 + psz i) (psz i) = usz i p /\
  kfield (x ++ fda_image i n p o ++ r) (blen x + 8 + 2 * psz i) (psz i) = usz i o.
Proof.
  unfold k_type, fda_image. rewrite <- !app_assoc. repeat split.
  - rewrite <- (app_nil_l (le 4 TYPE_FDA ++ _)).
    rewrite (kfield_at x []) by (rewrite ?blen_nil, ?blen_le; lia).
    rewrite unle_le4. reflexivity.
  - rewrite (app_assoc (le 4 TYPE_FDA)).
    rewrite kfield_at by (rewrite ?blen_app, ?blen_le, ?psize_psz; lia). apply unle_lep.
  - rewrite (app_assoc (le 4 TYPE_FDA)), (app_assoc (le 4 TYPE_FDA ++ _)).
    rewrite kfield_at by (rewrite ?blen_app, ?blen_le, ?psize_psz; lia). apply unle_lep.
  - rewrite (app_assoc (le 4 TYPE_FDA)), (app_assoc (le 4 TYPE_FDA ++ _)),
      (app_assoc ((le 4 TYPE_FDA ++ _) ++ _)).
    rewrite kfield_at by (rewrite ?blen_app, ?blen_le, ?psize_psz; lia). apply unle_lep.
Qed.

Lemma flat_not_ptr i image t b :
  k_type (b ++ image) (blen b) = t -> t <> TYPE_PTR -> buffer_space i (b ++ image) (blen b) = 0.
Proof.
  intros H1 H2. unfold buffer_space. rewrite H1.
  destruct (Z.eqb_spec t TYPE_PTR); [contradiction|reflexivity].
Qed.

Lemma image_local i pr o : image_of i (local_image i pr (Some o)) 0 (WBinder (lo_ptr o)).
Proof.
  unfold image_of, local_image, local_flat.
  split; [|split].
  - rewrite osize_eq, blen_app, blen_flat.
    match goal with |- context [blen ?x] => pose proof (blen_nonneg _ x) end. lia.
  - intros b. split; [rewrite flat_type; reflexivity|apply flat_value].
  - intros b. eapply flat_not_ptr; [apply flat_type|]. vm_compute; discriminate.
Qed.

Lemma u32_range v : 0 <= u32 v < 2 ^ 32.
Proof. unfold u32. apply Z.mod_pos_bound. lia. Qed.

Lemma image_remote i h : image_of i (remote_image i (Some h)) 0 (WHandle h).
Proof.
  unfold image_of, remote_image. split; [|split].
  - rewrite osize_eq, blen_flat; lia.
  - intros b. rewrite <- (app_nil_r (flat_image i _ _ _ _)).
    split; [rewrite flat_type; reflexivity|apply flat_value32, u32_range].
  - intros b. rewrite <- (app_nil_r (flat_image i _ _ _ _)).
    eapply flat_not_ptr; [apply flat_type|]. vm_compute; discriminate.
Qed.

Lemma image_fd i fd : image_of i (fd_image i fd) 0 (WFd fd).
Proof.
  unfold image_of, fd_image. split; [|split].
  - rewrite osize_eq, blen_flat; lia.
  - intros b. rewrite <- (app_nil_r (flat_image i _ _ _ _)).
    split; [rewrite flat_type; reflexivity|apply flat_value32, u32_range].
  - intros b. rewrite <- (app_nil_r (flat_image i _ _ _ _)).
    eapply flat_not_ptr; [apply flat_type|]. vm_compute; discriminate.
Qed.

Lemma usz_idem i v : usz i (usz i v) = usz i v.
Proof. unfold usz. destruct i; cbn; lia. Qed.

Lemma buffer_image_ptr i ptr size pa :
  exists f p o, buffer_image i ptr size pa = ptr_image i f ptr size p o.
Proof. destruct pa; cbn; eauto. Qed.

Lemma image_buffer i ptr size pa :
  image_of i (buffer_image i ptr (usz i size) pa) (align8 (usz i size)) (WBuffer size).
Proof.
  destruct (buffer_image_ptr i ptr (usz i size) pa) as (f & p & o & ->).
  unfold image_of. split; [|split].
  - rewrite osize_eq, blen_ptr; lia.
  - intros b. rewrite <- (app_nil_r (ptr_image i _ _ _ _ _)).
    destruct (ptr_fields i f ptr (usz i size) p o b []) as [E1 E2].
    split; [exact E1|].
    apply (f_equal kp_length) in E2. cbn [k_ptr kp_length] in E2. rewrite E2. apply usz_idem.
  - intros b. rewrite <- (app_nil_r (ptr_image i _ _ _ _ _)).
    destruct (ptr_fields i f ptr (usz i size) p o b []) as [E1 E2].
    unfold buffer_space. rewrite E1, Z.eqb_refl.
    rewrite E2. cbn [kp_length]. rewrite usz_idem. reflexivity.
Qed.

Lemma image_fda i n p o : image_of i (fda_image i n p o) 0 (WFda n).
Proof.
  unfold image_of. split; [|split].
  - rewrite osize_eq, blen_fda; lia.
  - intros b. rewrite <- (app_nil_r (fda_image i _ _ _)).
    destruct (fda_fields i n p o b []) as (E1 & E2 & _). split; assumption.
  - intros b. rewrite <- (app_nil_r (fda_image i _ _ _)).
    destruct (fda_fields i n p o b []) as (E1 & E2 & _).
    eapply flat_not_ptr; [exact E1|]. vm_compute; discriminate.
Qed.

Lemma good_buffer i d ws ptr size pa :
  wd_good i d ws ->
  exists d1, w_buffer_object i d ptr size pa = Ok (blen (wd_offsets d), d1) /\
    wd_good i d1 (ws ++ [WBuffer size]).
Proof.
  intros H. rewrite w_buffer_eq. eexists. split; [reflexivity|].
  apply good_object; [apply image_buffer|assumption].
Qed.
