(* Reading what the driver delivers *)
From Verif Require Import Base BaseLemmas UtfModel WriterModel ReaderModel CodecSpec
  CodecProofs CodecSafety ObjModel ObjReader KernelModel ObjSpec ObjProofs ObjInvariant
  TreeProofs PieceProofs HidlSpec HidlWriter HidlOps HidlPlaced HidlStruct.

Definition mk_reader (s e p : Z) (os : list Z) : reader :=
  {| r_start := s; r_end := e; r_ptr := p; r_objects := os |}.

Lemma field32_in g off :
  0 <= off -> off + 4 <= blen (m_data g) -> field32 g off = Ok (kfield (m_data g) off 4).
Proof. intros H1 H2. unfold field32. rewrite load_inside by lia. reflexivity. Qed.
Lemma fieldp_in i g off :
  0 <= off -> off + psz i <= blen (m_data g) -> fieldp i g off = Ok (kfield (m_data g) off (psz i)).
Proof. intros H1 H2. unfold fieldp. rewrite load_inside by lia. reflexivity. Qed.

Definition pa_off (pa : option parent) : Z := match pa with Some p => pa_offset p | None => 0 end.
Definition pa_is (pa : option parent) : bool := match pa with Some _ => true | None => false end.

Lemma rd_buffer_at i g s e pre a l pa post os :
  m_data g = pre ++ buffer_image i a l pa ++ post ->
  rd_buffer_object i g (mk_reader s e (blen pre) (blen pre :: os)) =
  ok {| bo_data := usz i a; bo_size := usz i l; bo_parent_offset := usz i (pa_off pa);
        bo_has_parent := pa_is pa |} (mk_reader s e (blen pre + ptr_size i) os).
Proof.
  intros Hd. unfold rd_buffer_object, can_read_object. cbn [mk_reader r_objects r_ptr].
  rewrite Z.eqb_refl. unfold decode_buffer_object.
  pose proof (psz_pos i). assert (Hps : ptr_size i = 8 + 4 * psz i) by reflexivity.
  pose proof (blen_nonneg _ pre). pose proof (blen_nonneg _ post).
  assert (Hlen : blen (m_data g) = blen pre + ptr_size i + blen post)
    by (rewrite Hd, !blen_app, blen_buffer; lia).
  destruct (Z.ltb_spec (blen pre) (blen (m_data g))); [|lia].
  destruct (Z.leb_spec (ptr_size i) (blen (m_data g) - blen pre)); [|lia].
  rewrite !field32_in, !fieldp_in by lia. cbn [bind].
  assert (F : exists f x, f = (if pa_is pa then 1 else 0) /\
     buffer_image i a l pa = ptr_image i f a l x (pa_off pa)).
  { unfold buffer_image. destruct pa as [q|]; cbn [pa_is pa_off]; eauto. }
  destruct F as (f & x & Ef & Eb). rewrite Hd, Eb.
  destruct (ptr_fields i f a l x (pa_off pa) pre post) as [Et Ep].
  unfold k_type in Et. rewrite Et, Z.eqb_refl. 
  pose proof (f_equal kp_flags Ep) as E1. pose proof (f_equal kp_buffer Ep) as E2.
  pose proof (f_equal kp_length Ep) as E3. pose proof (f_equal kp_poff Ep) as E5.
  cbn [k_ptr kp_flags kp_buffer kp_length kp_poff] in E1, E2, E3, E5. clear Ep.
  rewrite E1, E2, E3, E5. cbn [bind]. unfold ok, r_eat. cbn [mk_reader r_start r_end r_ptr r_objects tl].
  replace (Z.testbit (u32 f) 0) with (pa_is pa) by (subst f; destruct pa; reflexivity).
  reflexivity.
Qed.

(* The reader is in front of these objects *)
Definition at_objs (i : io) (g : message) (s e : Z) (rest : list Z) (pre : bytes) (imgs : list bytes)
  (post : bytes) (p : reader) : Prop :=
  m_data g = pre ++ concat imgs ++ post /\
  p = mk_reader s e (blen pre) (offs (blen pre) (ptr_size i) (length imgs) ++ rest).

Lemma at_objs_step i g s e rest pre a l pa imgs post p :
  at_objs i g s e rest pre (buffer_image i a l pa :: imgs) post p ->
  exists p1, rd_buffer_object i g p =
    Ok (Some {| bo_data := usz i a; bo_size := usz i l; bo_parent_offset := usz i (pa_off pa);
                bo_has_parent := pa_is pa |}, p1) /\
    at_objs i g s e rest (pre ++ buffer_image i a l pa) imgs post p1.
Proof.
  intros [Hd ->]. cbn [concat length offs app] in *. rewrite <- app_assoc in Hd.
  eexists. split; [exact (rd_buffer_at _ _ _ _ _ _ _ _ _ _ Hd)|].
  split; [rewrite <- app_assoc; exact Hd|]. rewrite blen_app, blen_buffer. reflexivity.
Qed.

Lemma at_objs_end i g s e rest pre post p :
  at_objs i g s e rest pre [] post p -> p = mk_reader s e (blen pre) rest.
Proof. intros [_ ->]. reflexivity. Qed.

Lemma emit_buffers i t : forall n pa,
  Forall (fun b => exists a l pa, b = buffer_image i a l pa) (t_emit i n pa t).
Proof.
  induction t as [a d ks IH] using tree_ind2. intros n pa. rewrite t_emit_node.
  constructor; [eauto|]. generalize (n + 1).
  induction IH as [|[c t1] ks Ht Hks IHks]; intros q; cbn [f_emit]; [constructor|].
  cbn [snd] in Ht. apply Forall_app. split; [apply Ht|apply IHks].
Qed.
Lemma f_emit_buffers i self ks : forall n,
  Forall (fun b => exists a l pa, b = buffer_image i a l pa) (f_emit i self n ks).
Proof.
  induction ks as [|[c t1] ks IHks]; intros q; cbn [f_emit]; [constructor|].
  apply Forall_app. split; [apply emit_buffers|apply IHks].
Qed.

Lemma skip_at i g s e rest imgs : forall pre post p,
  Forall (fun b => exists a l pa, b = buffer_image i a l pa) imgs ->
  at_objs i g s e rest pre imgs post p ->
  rd_skip i g p (length imgs) = ok tt (mk_reader s e (blen pre + blen (concat imgs)) rest).
Proof.
  induction imgs as [|b imgs IH]; intros pre post p Hb Hat; cbn [length rd_skip concat].
  - rewrite (at_objs_end _ _ _ _ _ _ _ _ Hat). rewrite blen_nil, Z.add_0_r. reflexivity.
  - inversion Hb as [|x y Hb1 Hb2]; subst x y. destruct Hb1 as (a & l & pa & ->).
    destruct (at_objs_step _ _ _ _ _ _ _ _ _ _ _ _ Hat) as (p1 & E1 & A1).
    rewrite E1. cbn [bind]. rewrite (IH _ _ _ Hb2 A1). rewrite !blen_app, Z.add_assoc. reflexivity.
Qed.

(* ------------------------------------------------------------------ *)
(* Vectors and strings *)

Lemma hidl_count p c o rest : slice (hidl_image p c o ++ rest) 8 4 = le 4 c.
Proof.
  unfold hidl_image. rewrite <- !app_assoc. apply slice_app_exact; rewrite blen_le; reflexivity.
Qed.

Lemma tload_ptr_at i g a t :
  low_message i g -> in_message g a (psz i) ->
  mread (gmem g) a (psz i) = le (psize i) (t_addr t) -> placed i g t ->
  tload_ptr i g a = Ok (t_addr t).
Proof.
  intros Hl Hi H Hp. unfold tload_ptr. rewrite tload_in by exact Hi. cbn [bind].
  f_equal. exact (slot_ptr i g a t Hl H Hp).
Qed.

Lemma hidl_at i g A p c o t1 :
  low_message i g -> placed i g (Node A (hidl_image p c o) [(0, t1)]) ->
  in_message g A 16 /\ tload_ptr i g A = Ok (t_addr t1) /\ tload32 g (A + 8) = Ok (u32 c) /\
  placed i g t1.
Proof.
  intros Hl Hp. pose proof (psz_pos i).
  destruct (proj1 (placed_node _ _ _ _ _) Hp) as (P1 & P2 & (P3 & P4 & _)).
  rewrite blen_hidl in P1. split; [exact P1|]. rewrite Z.add_0_r in P3.
  split; [apply tload_ptr_at; auto; unfold in_message in *; lia|]. split; [|exact P4].
  destruct (placed_part i g A _ _ 8 4 Hp) as [Q1 Q2];
    [lia|lia|rewrite blen_hidl; lia|intros c1 t2 [E|[]]; injection E as <- _; lia|].
  unfold tload32. rewrite tload_in by exact Q1. cbn [bind]. f_equal.
  rewrite Q2, <- (app_nil_r (hidl_image p c o)), hidl_count. apply unle_le4.
Qed.

Lemma placed_low i g t :
  low_message i g -> placed i g t ->
  0 <= t_addr t < 2 ^ (8 * psz i) /\ blen (t_data t) < 2 ^ (8 * psz i) /\ m_sgbase g <= t_addr t.
Proof.
  intros [L1 L2] Hp. destruct t as [a d ks].
  destruct (proj1 (placed_node _ _ _ _ _) Hp) as ((P1 & P2 & P3) & _). cbn [t_addr t_data]. lia.
Qed.

Lemma usz_in i v : 0 <= v < 2 ^ (8 * psz i) -> usz i v = v.
Proof. intros H. unfold usz. apply Z.mod_small; exact H. Qed.

Lemma c_text_id t : ~ In 0 t -> c_text t = t.
Proof.
  induction t as [|x t IH]; intros H; cbn [c_text]; [reflexivity|].
  destruct (Z.eqb_spec x 0) as [->|Hx]; [exfalso; apply H; left; reflexivity|].
  f_equal. apply IH. intros H1; apply H; right; exact H1.
Qed.

Lemma string_at i g a2 t len :
  low_message i g -> placed i g (leaf a2 (t ++ [0])) -> ~ In 0 t -> len = blen t ->
  tload g (a2 + len) 1 = Ok [0] /\ tload g a2 len = Ok t.
Proof.
  intros Hl Hp Hz ->. apply placed_leaf in Hp. destruct Hp as [H1 H2].
  pose proof (blen_nonneg _ t).
  rewrite blen_app in H1, H2. change (blen [0]) with 1 in H1, H2.
  split.
  - rewrite tload_in by (eapply in_message_sub; [exact H1|lia..]). f_equal.
    rewrite (mread_sub _ _ _ _ (blen t) 1 H2) by lia.
    rewrite <- (app_nil_r [0]). apply slice_app_exact; reflexivity.
  - rewrite tload_in by (unfold in_message in *; lia). f_equal.
    pose proof (mread_sub _ _ _ _ 0 (blen t) H2) as E. rewrite Z.add_0_r in E. rewrite E by lia.
    unfold slice. rewrite zdrop_neg by lia. apply ztake_app_exact. reflexivity.
Qed.

Lemma check_string_at i g str a2 t off :
  low_message i g -> placed i g (leaf a2 (t ++ [0])) -> ~ In 0 t -> blen t + 1 < 2 ^ 32 ->
  tload_ptr i g str = Ok a2 -> tload32 g (str + 8) = Ok (u32 (blen t)) ->
  0 <= off < 2 ^ 32 ->
  check_string i g str {| bo_data := usz i a2; bo_size := usz i (blen (t ++ [0]));
     bo_parent_offset := usz i off; bo_has_parent := true |} off = Ok (Some t).
Proof.
  intros Hl Hp Hz Hn H1 H2 Hoff. pose proof (pow_psz i). pose proof (blen_nonneg _ t).
  unfold check_string. cbn [bo_has_parent bo_parent_offset bo_data bo_size].
  rewrite (usz_in i off) by lia. rewrite Z.eqb_refl. cbn [andb].
  rewrite H1, H2. cbn [bind].
  destruct (placed_low i g _ Hl Hp) as (L1 & L2 & L3). cbn [leaf t_addr t_data] in *.
  assert (Eb : blen (t ++ [0]) = blen t + 1) by (rewrite blen_app; reflexivity).
  rewrite (usz_in i a2) by lia. rewrite Eb, usz_in by lia.
  rewrite (u32_small (blen t)) by lia. rewrite u32_small by lia. rewrite !Z.eqb_refl. cbn [andb].
  destruct (string_at i g a2 t (blen t) Hl Hp Hz eq_refl) as [S1 S2].
  rewrite S1, S2. cbn [bind]. change (unle [0] =? 0) with true. cbv iota.
  rewrite c_text_id by exact Hz. reflexivity.
Qed.

(* Descriptors of strings *)
Fixpoint lens (g : message) (i : io) (S k : Z) (l : list cstring) : Prop :=
  match l with
  | [] => True
  | s :: r =>
    in_message g (S + 16 * k) 16 /\ tload32 g (S + 16 * k + 8) = Ok (u32 (blen (cstr_text s))) /\
    lens g i S (k + 1) r
  end.

Lemma lens_at i g A q base m l : forall pre k kids,
  placed i g (Node A (pre ++ concat (map string_desc l)) (f_reloc base q kids)) ->
  Forall (string_ok i m) l -> blen pre = 16 * k -> 0 <= k ->
  (forall c t, In (c, t) kids -> exists j, c = 16 * j) ->
  lens g i A k l.
Proof.
  pose proof (psz_pos i) as Hps.
  induction l as [|s l IH]; intros pre k kids Hp Hl Hpre Hk Hkids; cbn [lens]; [exact I|].
  inversion Hl as [|x y Hs Hr]; subst x y. destruct s as [[a t]|]; [|destruct Hs].
  cbn [map concat string_desc cstr_text] in *.
  destruct (proj1 (placed_node _ _ _ _ _) Hp) as (P1 & _).
  rewrite !blen_app, blen_hidl, descs_len in P1. pose proof (blen_nonneg _ l).
  split; [eapply in_message_sub; [exact P1|lia..]|]. split.
  - destruct (placed_part i g A _ _ (16 * k + 8) 4 Hp) as [Q1 Q2];
      [lia|lia|rewrite !blen_app, blen_hidl, descs_len; lia| |].
    + intros c t1 Hin. apply f_reloc_in in Hin. destruct Hin as [t2 Hin].
      destruct (Hkids _ _ Hin) as [j ->]. lia.
    + rewrite Z.add_assoc in Q1, Q2. unfold tload32. rewrite tload_in by exact Q1. cbn [bind].
      f_equal. rewrite Q2. rewrite slice_app_r by lia.
      replace (16 * k + 8 - blen pre) with 8 by lia. rewrite hidl_count. apply unle_le4.
  - eapply IH with (pre := pre ++ hidl_image a (blen t) 1);
      [rewrite <- app_assoc; exact Hp|exact Hr|rewrite blen_app, blen_hidl; lia|lia|exact Hkids].
Qed.

Lemma str_kids_mult l : forall k c t, In (c, t) (str_kids (16 * k) l) -> exists j, c = 16 * j.
Proof.
  induction l as [|s l IH]; intros k c t H; cbn [str_kids] in H; [destruct H|].
  destruct H as [E|H]; [exists k; congruence|].
  replace (16 * k + 16) with (16 * (k + 1)) in H by lia. eauto.
Qed.

Lemma strings_at i g A base m self s e rest l : forall k q n pre post p,
  low_message i g -> Forall (string_ok i m) l ->
  placed_kids i g A (f_reloc base q (str_kids (16 * k) l)) -> lens g i A k l ->
  0 <= k -> 16 * k + 16 * blen l < 2 ^ 32 ->
  at_objs i g s e rest pre (f_emit i self n (f_reloc base q (str_kids (16 * k) l))) post p ->
  rd_strings i g p A k (length l) =
  ok (map cstr_text l) (mk_reader s e (blen pre + Z.of_nat (length l) * ptr_size i) rest).
Proof.
  pose proof (psz_pos i) as Hps. intros k q n pre post p Hlow Hl0. revert Hl0. revert k q n pre post p.
  induction l as [|x l IH]; intros k q n pre post p Hl Hp Hlens Hk Hbound Hat;
    cbn [length rd_strings map].
  - cbn [str_kids f_reloc f_emit] in Hat. rewrite (at_objs_end _ _ _ _ _ _ _ _ Hat).
    rewrite Z.mul_0_l, Z.add_0_r. reflexivity.
  - inversion Hl as [|y z Hs Hr]; subst y z. destruct x as [[a t]|]; [|destruct Hs].
    cbn [string_ok] in Hs. destruct Hs as (S1 & S2 & S3 & S4 & S5).
    cbn [str_kids f_reloc placed_kids cstr_ptr cstr_text lens] in *.
    destruct Hp as (P1 & P2 & P3). destruct Hlens as (L1 & L2 & L3).
    unfold leaf in Hat, P1, P2. rewrite t_reloc_node in Hat, P1, P2.
    cbn [f_reloc t_addr f_emit] in *. rewrite t_emit_node in Hat. cbn [f_emit app] in Hat.
    destruct (at_objs_step _ _ _ _ _ _ _ _ _ _ _ _ Hat) as (p1 & E1 & A1).
    rewrite E1. cbn [bind]. cbn [pa_off mkpa pa_offset pa_is].
    rewrite blen_cons in Hbound. pose proof (blen_nonneg _ l).
    rewrite (check_string_at i g (A + 16 * k) (base + q) t (16 * k)); auto.
    2: { change (base + q) with (t_addr (leaf (base + q) (t ++ [0]))).
         apply tload_ptr_at; auto. unfold in_message in *; lia. }
    2: lia.
    cbn [bind].
    replace (16 * k + 16) with (16 * (k + 1)) in * by lia.
    rewrite (IH (k + 1) _ _ _ _ p1 Hr P3 L3 ltac:(lia) ltac:(lia) A1). cbn [bind ok].
    rewrite blen_app, blen_buffer. unfold ok, mk_reader. do 3 f_equal. lia.
Qed.
