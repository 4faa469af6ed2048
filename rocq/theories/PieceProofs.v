(* What the writer adds, as a list of pieces: plain data, flat objects and trees of
   buffers; what the driver makes of them *)
From Verif Require Import Base BaseLemmas UtfModel WriterModel ReaderModel CodecSpec
  CodecProofs CodecSafety ObjModel ObjReader KernelModel ObjSpec ObjProofs TreeProofs.

Inductive piece : Type :=
| PData (l : bytes)
| PFlat (type flags obj : Z)
| PTree (t : tree).

Definition p_bytes (i : io) (n : Z) (p : piece) : bytes :=
  match p with
  | PData l => l
  | PFlat t f o => flat_image i t f o 0
  | PTree t => concat (t_emit i n None t)
  end.

(* Number of objects *)
Definition p_count (p : piece) : nat :=
  match p with PData _ => O | PFlat _ _ _ => 1%nat | PTree t => t_count t end.

Definition p_space (p : piece) : Z :=
  match p with PTree t => t_space t | _ => 0 end.

Definition p_len (i : io) (p : piece) : Z :=
  match p with
  | PData l => blen l
  | PFlat _ _ _ => flat_size i
  | PTree t => Z.of_nat (t_count t) * ptr_size i
  end.

Lemma p_bytes_len i n p : blen (p_bytes i n p) = p_len i p.
Proof.
  destruct p; cbn [p_bytes p_len]; [reflexivity|apply blen_flat|].
  apply blen_concat_emit_t.
Qed.

(* Offsets of [cnt] objects of the given size *)
Fixpoint offs (p size : Z) (cnt : nat) : list Z :=
  match cnt with O => [] | S c => p :: offs (p + size) size c end.

Lemma offs_nth size cnt : forall p j, (j < cnt)%nat ->
  nth_error (offs p size cnt) j = Some (p + Z.of_nat j * size).
Proof.
  induction cnt as [|cnt IH]; intros p j Hj; [lia|]. cbn [offs].
  destruct j as [|j]; cbn [nth_error]; [f_equal; lia|].
  rewrite IH by lia. f_equal; lia.
Qed.

Lemma offs_length size cnt : forall p, length (offs p size cnt) = cnt.
Proof. induction cnt as [|cnt IH]; intros p; cbn [offs length]; [reflexivity|]. rewrite IH; reflexivity. Qed.

Lemma offs_app size a b : forall p,
  offs p size (a + b) = offs p size a ++ offs (p + Z.of_nat a * size) size b.
Proof.
  induction a as [|a IH]; intros p; cbn [offs Nat.add app].
  - f_equal; lia.
  - rewrite IH. do 3 f_equal. lia.
Qed.

Definition p_offs (i : io) (at_ : Z) (p : piece) : list Z :=
  match p with
  | PData _ => []
  | PFlat _ _ _ => [at_]
  | PTree t => offs at_ (ptr_size i) (t_count t)
  end.

Lemma p_offs_length i a p : length (p_offs i a p) = p_count p.
Proof. destruct p; cbn [p_offs p_count]; auto using offs_length. Qed.

Fixpoint ps_bytes (i : io) (n : Z) (ps : list piece) : bytes :=
  match ps with
  | [] => []
  | p :: r => p_bytes i n p ++ ps_bytes i (n + Z.of_nat (p_count p)) r
  end.
Fixpoint ps_offs (i : io) (a : Z) (ps : list piece) : list Z :=
  match ps with [] => [] | p :: r => p_offs i a p ++ ps_offs i (a + p_len i p) r end.
Fixpoint ps_space (ps : list piece) : Z :=
  match ps with [] => 0 | p :: r => p_space p + ps_space r end.
Fixpoint ps_count (ps : list piece) : nat :=
  match ps with [] => O | p :: r => (p_count p + ps_count r)%nat end.
Fixpoint ps_len (i : io) (ps : list piece) : Z :=
  match ps with [] => 0 | p :: r => p_len i p + ps_len i r end.

Lemma ps_bytes_len i ps : forall n, blen (ps_bytes i n ps) = ps_len i ps.
Proof.
  induction ps as [|p r IH]; intros n; cbn [ps_bytes ps_len]; [reflexivity|].
  rewrite blen_app, p_bytes_len, IH. reflexivity.
Qed.
Lemma ps_offs_length i ps : forall a, length (ps_offs i a ps) = ps_count ps.
Proof.
  induction ps as [|p r IH]; intros n; cbn [ps_offs ps_count]; [reflexivity|].
  rewrite app_length, p_offs_length, IH. reflexivity.
Qed.
Lemma ps_bytes_app i ps qs : forall n,
  ps_bytes i n (ps ++ qs) = ps_bytes i n ps ++ ps_bytes i (n + Z.of_nat (ps_count ps)) qs.
Proof.
  induction ps as [|p r IH]; intros n; cbn [ps_bytes ps_count app].
  - f_equal; lia.
  - rewrite IH, app_assoc. do 2 f_equal. lia.
Qed.
Lemma ps_offs_app i ps qs : forall a,
  ps_offs i a (ps ++ qs) = ps_offs i a ps ++ ps_offs i (a + ps_len i ps) qs.
Proof.
  induction ps as [|p r IH]; intros n; cbn [ps_offs ps_len app].
  - f_equal; lia.
  - rewrite IH, app_assoc. do 2 f_equal. lia.
Qed.
Lemma ps_space_app ps qs : ps_space (ps ++ qs) = ps_space ps + ps_space qs.
Proof. induction ps as [|p r IH]; cbn [ps_space app]; lia. Qed.
Lemma ps_count_app ps qs : ps_count (ps ++ qs) = (ps_count ps + ps_count qs)%nat.
Proof. induction ps as [|p r IH]; cbn [ps_count app]; lia. Qed.
Lemma ps_space_nonneg ps : 0 <= ps_space ps.
Proof.
  induction ps as [|p r IH]; cbn [ps_space]; [lia|]. destruct p; cbn [p_space]; try lia.
  pose proof (t_space_nonneg t). lia.
Qed.

(* d1 is d with the pieces added *)
Definition added (i : io) (d d1 : wdata) (ps : list piece) : Prop :=
  wd_bytes d1 = wd_bytes d ++ ps_bytes i (blen (wd_offsets d)) ps /\
  wd_offsets d1 = wd_offsets d ++ ps_offs i (blen (wd_bytes d)) ps /\
  wd_bufsize d1 = wd_bufsize d + ps_space ps.

Lemma added_nil i d : added i d d [].
Proof. unfold added; cbn. rewrite !app_nil_r. split; [|split]; try reflexivity. lia. Qed.

Lemma added_trans i d1 d2 d3 ps qs :
  added i d1 d2 ps -> added i d2 d3 qs -> added i d1 d3 (ps ++ qs).
Proof.
  intros (A1 & A2 & A3) (B1 & B2 & B3). unfold added.
  rewrite ps_bytes_app, ps_offs_app, ps_space_app, B1, B2, B3, A1, A2, A3.
  rewrite !blen_app, ps_bytes_len.
  assert (E : blen (ps_offs i (blen (wd_bytes d1)) ps) = Z.of_nat (ps_count ps))
    by (unfold blen; rewrite ps_offs_length; reflexivity).
  rewrite E, <- !app_assoc. split; [|split]; try reflexivity. lia.
Qed.

Lemma added_data i d l : added i d (add_data d l) [PData l].
Proof.
  unfold added. cbn [add_data wd_set_bytes wd_bytes wd_offsets wd_bufsize ps_bytes p_bytes
    ps_offs p_offs ps_space p_space app]. rewrite !app_nil_r.
  split; [|split]; try reflexivity. lia.
Qed.

Lemma added_flat i d t f o : added i d (add_object d (flat_image i t f o 0) 0) [PFlat t f o].
Proof.
  unfold added. cbn [add_object add_bufsize record_offset add_data wd_set_bytes wd_bytes wd_offsets
    wd_bufsize ps_bytes p_bytes ps_offs p_offs ps_space p_space app]. rewrite !app_nil_r.
  split; [|split]; try reflexivity.
Qed.

(* Objects of a tree, added one at a time *)
Definition grown (i : io) (d d1 : wdata) (imgs : list bytes) (space : Z) : Prop :=
  wd_bytes d1 = wd_bytes d ++ concat imgs /\
  wd_offsets d1 = wd_offsets d ++ offs (blen (wd_bytes d)) (ptr_size i) (length imgs) /\
  wd_bufsize d1 = wd_bufsize d + space.

Lemma grown_nil i d : grown i d d [] 0.
Proof. unfold grown; cbn. rewrite !app_nil_r. split; [|split]; try reflexivity. lia. Qed.

Lemma grown_trans i d1 d2 d3 a b n m :
  blen (concat a) = blen a * ptr_size i ->
  grown i d1 d2 a n -> grown i d2 d3 b m -> grown i d1 d3 (a ++ b) (n + m).
Proof.
  intros Hl (A1 & A2 & A3) (B1 & B2 & B3). unfold grown.
  rewrite B1, B2, B3, A1, A2, A3, concat_app, app_length, offs_app, blen_app, Hl.
  rewrite <- !app_assoc. split; [|split]; try reflexivity. lia.
Qed.

Lemma grown_heap i al d d1 imgs n c : grown i (heap_add al d c) d1 imgs n -> grown i d d1 imgs n.
Proof. intros H; exact H. Qed.

Lemma grown_buffer i d a l pa :
  0 <= l < 2 ^ (8 * psz i) ->
  exists d1, w_buffer_object i d a l pa = Ok (blen (wd_offsets d), d1) /\
    grown i d d1 [buffer_image i a l pa] (align8 l) /\
    wd_heap d1 = wd_heap d /\ wd_nalloc d1 = wd_nalloc d.
Proof.
  intros Hl. rewrite w_buffer_eq. unfold usz. rewrite Z.mod_small by lia.
  eexists. split; [reflexivity|]. split; [|split; reflexivity].
  unfold grown. cbn [add_object add_bufsize record_offset add_data wd_set_bytes wd_bytes wd_offsets
    wd_bufsize concat length offs]. rewrite app_nil_r. split; [|split]; reflexivity.
Qed.

Lemma grown_tree i d d1 t :
  grown i d d1 (t_emit i (blen (wd_offsets d)) None t) (t_space t) -> added i d d1 [PTree t].
Proof.
  intros (A1 & A2 & A3). unfold added.
  cbn [ps_bytes p_bytes ps_offs p_offs ps_space p_space]. rewrite !app_nil_r.
  destruct (blen_concat_emit_t i t (blen (wd_offsets d)) None) as [_ E]. rewrite E in A2.
  split; [|split]; auto. lia.
Qed.

(* ------------------------------------------------------------------ *)
(* What the driver makes of the pieces *)

Lemma flat_low i t f o c b r :
  kfield (b ++ flat_image i t f o c ++ r) (blen b + 8) 4 = u32 o.
Proof.
  unfold flat_image. rewrite <- !app_assoc. rewrite (app_assoc (le 4 t)).
  assert (E : exists z, le (psize i) o = le 4 o ++ z).
  { destruct i; cbn [psize]; [exists []; rewrite app_nil_r; reflexivity|].
    exists (le 4 (o / 2 ^ 32)).
    unfold le; cbn. rewrite !Z.div_div by lia. reflexivity. }
  destruct E as [z ->]. rewrite <- (app_assoc (le 4 o)).
  rewrite kfield_at by (rewrite ?blen_app, ?blen_le; lia). apply unle_le4.
Qed.

Lemma flat_flags i t f o c b r :
  kfield (b ++ flat_image i t f o c ++ r) (blen b + 4) 4 = u32 f.
Proof.
  unfold flat_image. rewrite <- !app_assoc.
  rewrite (kfield_at b (le 4 t)) by (rewrite ?blen_le; lia). apply unle_le4.
Qed.

(* The translation of a flat object *)
Definition flat_tr (e : kenv) (t f o : Z) : bytes :=
  let i := k_io e in
  if (t =? TYPE_BINDER) || (t =? TYPE_WEAK_BINDER) then
    flat_image i (if t =? TYPE_BINDER then TYPE_HANDLE else TYPE_WEAK_HANDLE)
      (u32 f) (u32 (k_node e (usz i o))) 0
  else if (t =? TYPE_HANDLE) || (t =? TYPE_WEAK_HANDLE) then
    match k_ref e (u32 o) with
    | Some h2 => flat_image i t (u32 f) (u32 h2) 0
    | None => flat_image i (if t =? TYPE_HANDLE then TYPE_BINDER else TYPE_WEAK_BINDER)
                (u32 f) (k_own e (u32 o)) 0
    end
  else flat_image i t (u32 f) (u32 (k_fd e (sgn 32 (u32 o)))) 0.

Definition flat_type_ok (t : Z) : Prop := In t [TYPE_BINDER; TYPE_HANDLE; TYPE_FD].

Definition p_tr (e : kenv) (n pos : Z) (p : piece) : bytes :=
  match p with
  | PData l => l
  | PFlat t f o => flat_tr e t f o
  | PTree t => concat (t_emit (k_io e) n None (t_reloc (k_sgbase e) pos t))
  end.
Definition p_sg (e : kenv) (pos : Z) (p : piece) : bytes :=
  match p with PTree t => t_image (k_io e) (k_sgbase e) pos t | _ => [] end.

Definition p_ok (e : kenv) (p : piece) : Prop :=
  match p with
  | PData l => blen l mod 4 = 0
  | PFlat t f o => flat_type_ok t
  | PTree t => tree_ok (k_io e) (k_mem e) t
  end.

Fixpoint ps_tr (e : kenv) (n pos : Z) (ps : list piece) : bytes :=
  match ps with
  | [] => []
  | p :: r => p_tr e n pos p ++ ps_tr e (n + Z.of_nat (p_count p)) (pos + p_space p) r
  end.
Fixpoint ps_sg (e : kenv) (pos : Z) (ps : list piece) : bytes :=
  match ps with
  | [] => []
  | p :: r => p_sg e pos p ++ ps_sg e (pos + p_space p) r
  end.

Lemma flat_tr_len e t f o : blen (flat_tr e t f o) = flat_size (k_io e).
Proof.
  unfold flat_tr. destruct (_ || _); [apply blen_flat|].
  destruct (_ || _); [destruct (k_ref e (u32 o)); apply blen_flat|apply blen_flat].
Qed.

Lemma p_tr_len e n pos p : blen (p_tr e n pos p) = p_len (k_io e) p.
Proof.
  destruct p; cbn [p_tr p_len]; [reflexivity|apply flat_tr_len|].
  destruct (blen_concat_emit_t (k_io e) (t_reloc (k_sgbase e) pos t) n None) as [-> _].
  rewrite t_count_reloc. reflexivity.
Qed.
Lemma p_sg_len e pos p : p_ok e p -> blen (p_sg e pos p) = p_space p.
Proof.
  destruct p; cbn [p_sg p_space p_ok]; try reflexivity. intros H. eapply t_image_len; eauto.
Qed.
Lemma p_len_mod e p : p_ok e p -> p_len (k_io e) p mod 4 = 0.
Proof.
  destruct p; cbn [p_len p_ok].
  - auto.
  - intros _. unfold flat_size. destruct (psz_pos (k_io e)) as [-> | ->]; reflexivity.
  - intros _. unfold ptr_size. destruct (psz_pos (k_io e)) as [E|E]; rewrite E; lia.
Qed.

Section Run.
  Variable e : kenv.
  Variable offsets : list Z.
  Variable bufsize : Z.
  Let i := k_io e.
  Let base := k_sgbase e.
  Hypothesis offsets_inj : forall j k o,
    nth_error offsets j = Some o -> nth_error offsets k = Some o -> j = k.
  Hypothesis base_pos : 0 < base.
  Hypothesis base_top : base + align8 bufsize < 2 ^ (8 * psz i).
  Hypothesis offsets_few : blen offsets < 2 ^ 31.

  Lemma flat_step s n pre t f o post :
    ks_data s = pre ++ flat_image i t f o 0 ++ post -> flat_type_ok t ->
    blen pre mod 4 = 0 -> ks_min s <= blen pre ->
    exists s1, k_step e offsets bufsize n (blen pre) s = Some s1 /\
      ks_data s1 = pre ++ flat_tr e t f o ++ post /\ ks_sg s1 = ks_sg s /\
      ks_min s1 = blen pre + flat_size i.
  Proof.
    intros Hd Ht H4 Hmin. unfold k_step. fold i. rewrite Hd.
    pose proof (flat_type i t f o 0 pre post) as Et.
    pose proof (blen_nonneg _ pre). pose proof (blen_nonneg _ post). pose proof (psz_pos i).
    assert (Ht32 : u32 t = t).
    { destruct Ht as [<-|[<-|[<-|[]]]]; reflexivity. }
    rewrite Ht32 in Et.
    assert (Hos : k_object_size i t = flat_size i).
    { destruct Ht as [<-|[<-|[<-|[]]]]; reflexivity. }
    assert (Hg : k_get_object i (pre ++ flat_image i t f o 0 ++ post) (blen pre) = flat_size i).
    { unfold k_get_object. rewrite Et, Hos, !blen_app, blen_flat.
      assert (flat_size i = 8 + 2 * psz i) by reflexivity.
      replace ((0 <=? blen pre) && _ && _) with true by lia.
      destruct (Z.leb_spec (blen pre + flat_size i) (blen pre + (flat_size i + blen post))); [reflexivity|lia]. }
    rewrite Hg, Et.
    pose proof (flat_size_pos i).
    destruct (Z.eqb_spec (flat_size i) 0); [lia|].
    destruct (Z.ltb_spec (blen pre) (ks_min s)); [lia|]. cbn [orb].
    replace (t =? TYPE_PTR) with false by (destruct Ht as [<-|[<-|[<-|[]]]]; reflexivity).
    replace (t =? TYPE_FDA) with false by (destruct Ht as [<-|[<-|[<-|[]]]]; reflexivity).
    eexists. split; [reflexivity|]. unfold k_do_flat. fold i. cbn [ks_data ks_sg ks_min].
    split; [|split; reflexivity].
    rewrite Et. fold i.
    rewrite flat_value, flat_low, flat_flags.
    match goal with |- poke _ _ ?x = _ => change x with (flat_tr e t f o) end.
    rewrite (poke_app _ _ (flat_image i t f o 0)); [reflexivity|reflexivity|].
    rewrite flat_tr_len, blen_flat. reflexivity.
  Qed.

  (* The first object isn't a buffer at offset 0 *)
  Fixpoint first_ok (ps : list piece) : Prop :=
    match ps with
    | [] => True
    | PData l :: r => l <> [] \/ first_ok r
    | PFlat _ _ _ :: _ => True
    | PTree _ :: _ => False
    end.

  Lemma pieces_run_first ps : forall s n pre offs0,
    ks_data s = pre ++ ps_bytes i (Z.of_nat n) ps ->
    offsets = offs0 ++ ps_offs i (blen pre) ps -> length offs0 = n ->
    blen pre mod 4 = 0 -> 0 < blen pre \/ first_ok ps -> ks_min s <= blen pre ->
    Forall (p_ok e) ps ->
    blen (ks_sg s) + ps_space ps <= align8 bufsize ->
    exists s1, run e offsets bufsize n s = Some s1 /\
      ks_data s1 = pre ++ ps_tr e (Z.of_nat n) (blen (ks_sg s)) ps /\
      ks_sg s1 = ks_sg s ++ ps_sg e (blen (ks_sg s)) ps.
  Proof.
    induction ps as [|p r IH]; intros s n pre offs0 Hd Ho Hn H4 Hpos Hmin Hok Hsp.
    - cbn [ps_bytes ps_offs ps_tr ps_sg] in *. exists s. rewrite !app_nil_r in *.
      split; [|split; auto]. unfold run. rewrite Ho, <- Hn, skipn_all. reflexivity.
    - cbn [ps_bytes ps_offs ps_tr ps_sg ps_space] in *.
      inversion Hok as [|x y Hp Hr]; subst x y.
      pose proof (ps_space_nonneg r) as Hsr.
      assert (Hmod := p_len_mod e p Hp). fold i in Hmod.
      assert (Hnext : forall s1, ks_data s1 = (pre ++ p_tr e (Z.of_nat n) (blen (ks_sg s)) p) ++
            ps_bytes i (Z.of_nat (n + p_count p)) r ->
          ks_sg s1 = ks_sg s ++ p_sg e (blen (ks_sg s)) p ->
          ks_min s1 <= blen pre + p_len i p ->
          exists s2, run e offsets bufsize (n + p_count p) s1 = Some s2 /\
            ks_data s2 = pre ++ p_tr e (Z.of_nat n) (blen (ks_sg s)) p ++
              ps_tr e (Z.of_nat n + Z.of_nat (p_count p)) (blen (ks_sg s) + p_space p) r /\
            ks_sg s2 = ks_sg s ++ p_sg e (blen (ks_sg s)) p ++ ps_sg e (blen (ks_sg s) + p_space p) r).
      { intros s1 D1 S1 M1.
        assert (Hpl : blen (pre ++ p_tr e (Z.of_nat n) (blen (ks_sg s)) p) = blen pre + p_len i p)
          by (rewrite blen_app, p_tr_len; reflexivity).
        assert (Hsl : blen (ks_sg s1) = blen (ks_sg s) + p_space p)
          by (rewrite S1, blen_app, p_sg_len; auto).
        assert (0 <= p_len i p) by (rewrite <- (p_bytes_len i 0); apply blen_nonneg).
        destruct (IH s1 (n + p_count p)%nat _ (offs0 ++ p_offs i (blen pre) p) D1) as (s2 & R2 & D2 & S2).
        { rewrite Hpl, <- app_assoc. exact Ho. }
        { rewrite app_length, p_offs_length. lia. }
        { rewrite Hpl. lia. }
        { rewrite Hpl. pose proof (blen_nonneg _ pre).
          destruct Hpos as [Hpos|Hf]; [left; lia|]. destruct p as [l|t f o|t]; cbn [first_ok] in Hf.
          - destruct Hf as [Hl|Hf]; [left|right; exact Hf]. cbn [p_len].
            pose proof (blen_nonneg _ l). destruct (Z.eq_dec (blen l) 0) as [Ez|]; [|lia].
            apply blen_zero in Ez. contradiction.
          - left. cbn [p_len]. pose proof (flat_size_pos i). lia.
          - contradiction. }
        { lia. }
        { exact Hr. }
        { lia. }
        exists s2. split; [exact R2|]. rewrite D2, S2, Hsl, S1, <- !app_assoc.
        rewrite Nat2Z.inj_add. split; reflexivity. }
      rewrite Nat2Z.inj_add in Hnext.
      destruct p as [l|t f o|t]; cbn [p_bytes p_offs p_count p_len p_ok p_space] in *.
      + rewrite Nat.add_0_r in Hnext. apply Hnext; cbn [p_tr p_sg].
        * rewrite <- app_assoc. exact Hd.
        * rewrite app_nil_r; reflexivity.
        * pose proof (blen_nonneg _ l). lia.
      + destruct (flat_step s (Z.of_nat n) pre t f o _ Hd Hp H4 Hmin) as (s1 & E1 & D1 & S1 & M1).
        destruct (Hnext s1) as (s2 & R2 & D2 & S2).
        * rewrite <- app_assoc. exact D1.
        * cbn [p_sg]. rewrite app_nil_r. exact S1.
        * lia.
        * exists s2. split; [|split; assumption].
          assert (Hnth : nth_error offsets n = Some (blen pre)).
          { rewrite Ho, <- Hn. rewrite nth_error_app2 by lia. rewrite Nat.sub_diag. reflexivity. }
          rewrite (run_step e offsets bufsize n s s1 _ Hnth E1), <- Nat.add_1_r. exact R2.
      + assert (Hpos1 : 0 < blen pre) by (destruct Hpos as [Hpos|[]]; exact Hpos).
        assert (Hoa : offs_at e offsets n (blen pre) (t_count t)).
        { intros j Hj. rewrite Ho, <- Hn, nth_error_app2 by lia.
          replace (length offs0 + j - length offs0)%nat with j by lia.
          rewrite nth_error_app1 by (rewrite offs_length; lia). apply offs_nth; assumption. }
        destruct (tree_run e offsets bufsize offsets_inj base_pos base_top offsets_few
                    s n pre t _ Hd H4 Hpos1 Hmin Hoa Hp ltac:(lia)) as (s1 & E1 & D1 & S1 & M1).
        destruct (Hnext s1) as (s2 & R2 & D2 & S2).
        * rewrite <- app_assoc. exact D1.
        * exact S1.
        * exact M1.
        * exists s2. split; [|split; assumption]. rewrite E1. exact R2.
  Qed.

  Lemma pieces_run ps s n pre offs0 :
    ks_data s = pre ++ ps_bytes i (Z.of_nat n) ps ->
    offsets = offs0 ++ ps_offs i (blen pre) ps -> length offs0 = n ->
    blen pre mod 4 = 0 -> 0 < blen pre -> ks_min s <= blen pre ->
    Forall (p_ok e) ps ->
    blen (ks_sg s) + ps_space ps <= align8 bufsize ->
    exists s1, run e offsets bufsize n s = Some s1 /\
      ks_data s1 = pre ++ ps_tr e (Z.of_nat n) (blen (ks_sg s)) ps /\
      ks_sg s1 = ks_sg s ++ ps_sg e (blen (ks_sg s)) ps.
  Proof. intros H1 H2 H3 H4 H5. apply (pieces_run_first ps s n pre offs0 H1 H2 H3 H4). left. exact H5. Qed.
End Run.
