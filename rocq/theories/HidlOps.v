(* Each append call adds a definite list of pieces *)
From Verif Require Import Base BaseLemmas UtfModel WriterModel ReaderModel CodecSpec
  CodecProofs CodecSafety ObjModel ObjReader KernelModel ObjSpec ObjProofs ObjInvariant
  TreeProofs PieceProofs HidlSpec HidlWriter.

Fixpoint str_kids (off : Z) (l : list cstring) : list (Z * tree) :=
  match l with
  | [] => []
  | s :: r => (off, leaf (cstr_ptr s) (cstr_text s ++ [0])) :: str_kids (off + 16) r
  end.

Definition describes (i : io) (pr : protocol) (m : memory) (o : op) (ps : list piece) : Prop :=
  match o with
  | OpPlain v => ps = [PData (chunk v)]
  | OpLocal (Some o) =>
    ps = PFlat TYPE_BINDER (0x7f + 0x100) (lo_ptr o) ::
         match pr with Aidl3 => [PData (le 4 (lo_stability o))] | _ => [] end
  | OpRemote (Some h) => ps = [PFlat TYPE_HANDLE 0x100 h]
  | OpFd fd dupfd => ps = [PFlat TYPE_FD (0x7f + 0x100) (u32 (if dupfd <? 0 then fd else dupfd))]
  | OpHidlString s =>
    exists v, ps = [PTree (Node v (hidl_image (cstr_ptr s) (cstr_len s) 1)
                       [(0, leaf (cstr_ptr s) (cstr_text s ++ [0]))])]
  | OpHidlVec b count elemsize =>
    exists v a, ps = [PTree (Node v (hidl_image a count 1)
      [(0, leaf a (match b with Some b => b | None => [] end))])]
  | OpHidlStringVec l =>
    exists v a, ps = [PTree (Node v (hidl_image a (blen l) 1)
      [(0, Node a (concat (map string_desc l)) (str_kids 0 l))])]
  | OpStruct m1 ptr t _ =>
    ps = [PTree (Node ptr (mread m ptr (wt_size t)) (t_fields i m t ptr 0))]
  | OpStructVec m1 ptr count t =>
    exists v, ps = [PTree (Node v (hidl_image ptr count 1)
      [(0, Node ptr (mread m ptr (count * wt_size t))
             (elems_kids (fun a o => t_fields i m t a o) ptr (wt_size t) 0 (Z.to_nat count)))])]
  | _ => False
  end.

Definition p_good (i : io) (m : memory) (p : piece) : Prop :=
  match p with
  | PData l => blen l mod 4 = 0
  | PFlat t f o => flat_type_ok t
  | PTree t => tree_ok i m t /\ slots_ok i t
  end.

Lemma le8_low i v : 0 <= v < 2 ^ (8 * psz i) -> ztake (psz i) (le 8 v) = le (psize i) v.
Proof.
  intros H. destruct i; cbn [psz psize] in *.
  - replace (le 8 v) with (le 4 v ++ le 4 (v / 2 ^ 32)).
    + apply ztake_app_exact. rewrite blen_le. reflexivity.
    + unfold le; cbn. rewrite !Z.div_div by lia. reflexivity.
  - unfold ztake. apply firstn_all2. pose proof (blen_le 8 v). unfold blen in *. lia.
Qed.

Lemma blen_hidl p c o : blen (hidl_image p c o) = 16.
Proof. unfold hidl_image. rewrite !blen_app, !blen_le, blen_zrepeat. reflexivity. Qed.

Lemma hidl_slot i p c o rest :
  0 <= p < 2 ^ (8 * psz i) -> slice (hidl_image p c o ++ rest) 0 (psz i) = le (psize i) p.
Proof.
  intros H. unfold slice, hidl_image. change (zdrop 0 ?l) with l. rewrite <- !app_assoc.
  rewrite ztake_app_l by (rewrite blen_le; pose proof (psz_pos i); lia). apply le8_low; assumption.
Qed.

Lemma node_holds i m a d :
  is_addr i a -> holds m a d -> blen d < 2 ^ (8 * psz i) -> node_ok i m a d.
Proof. intros [H1 H2] H3 H4. unfold node_ok, holds in *. split; [assumption|]. split; [left; lia|lia]. Qed.

Lemma null_ok i m : node_ok i m 0 [].
Proof.
  unfold node_ok. rewrite blen_nil. split; [reflexivity|]. split; [right; reflexivity|].
  pose proof (pow_psz i). lia.
Qed.

Lemma hidl_root i m v p c t1 :
  is_addr i v -> holds m v (hidl_image p c 1) -> t_addr t1 = p -> 0 <= p < 2 ^ (8 * psz i) ->
  tree_ok i m t1 -> slots_ok i t1 ->
  p_good i m (PTree (Node v (hidl_image p c 1) [(0, t1)])).
Proof.
  intros H1 H2 H3 H4 H5 H6. pose proof (pow_psz i). pose proof (psz_pos i).
  split.
  - apply tree_ok_node. split; [apply node_holds; [assumption..|rewrite blen_hidl; lia]|].
    split; [|split; [assumption|exact I]]. cbn [kids_ok]. rewrite blen_hidl. split; [lia|]. split; [lia|exact I].
  - apply slots_ok_node. cbn [kslots_ok]. split; [|split; [assumption|exact I]].
    rewrite H3. rewrite <- (app_nil_r (hidl_image p c 1)). apply hidl_slot; assumption.
Qed.

Lemma leaf_good i m a d : node_ok i m a d -> tree_ok i m (leaf a d) /\ slots_ok i (leaf a d).
Proof. intros H. split; [|exact I]. apply tree_ok_node. split; [exact H|]. split; exact I. Qed.

(* Strings of a vector *)
Lemma descs_len l : blen (concat (map string_desc l)) = 16 * blen l.
Proof.
  induction l as [|s l IH]; [reflexivity|]. cbn [map concat]. rewrite blen_app, blen_cons, IH.
  replace (blen (string_desc s)) with 16; [lia|]. destruct s as [[a t]|]; symmetry; apply blen_hidl.
Qed.

Lemma str_kids_good i m l : forall off pre,
  Forall (string_ok i m) l -> blen pre = off ->
  kids_ok i off (off + 16 * blen l) (str_kids off l) /\
  forest_ok i m (str_kids off l) /\
  kslots_ok i (pre ++ concat (map string_desc l)) (str_kids off l).
Proof.
  pose proof (psz_pos i) as Hps. pose proof (pow_psz i) as Hpow.
  induction l as [|s l IH]; intros off pre Hl Hpre; cbn [str_kids kids_ok forest_ok kslots_ok].
  - auto.
  - inversion Hl as [|x y Hs Hr]; subst x y. destruct s as [[a t]|]; [|destruct Hs].
    cbn [string_ok] in Hs. destruct Hs as (S1 & S2 & S3 & S4 & S5).
    cbn [cstr_ptr cstr_text map concat string_desc].
    destruct (IH (off + 16) (pre ++ hidl_image a (blen t) 1) Hr) as (I1 & I2 & I3).
    { rewrite blen_app, blen_hidl. lia. }
    rewrite blen_cons. split; [|split].
    + split; [lia|]. pose proof (blen_nonneg _ l). split; [lia|].
      eapply kids_ok_lo; [|eapply kids_ok_hi; [|exact I1]]; lia.
    + split; [|exact I2]. apply leaf_good. apply node_holds; [assumption..|].
      rewrite blen_app, blen_cons, blen_nil. lia.
    + split; [|split; [exact I|]].
      * cbn [leaf t_addr]. unfold slice. rewrite zdrop_app_exact by congruence.
        apply (hidl_slot i a (blen t) 1). unfold is_addr in S1. lia.
      * rewrite <- app_assoc in I3. exact I3.
Qed.

Lemma string_bufs_added i l : forall m d index off,
  Forall (string_ok i m) l -> 0 <= off -> off + 16 * blen l <= 2 ^ 32 ->
  exists d1, w_string_bufs i d index off l = Ok d1 /\ forest_grown i d d1 index (str_kids off l).
Proof.
  pose proof (pow_psz i) as Hpow.
  induction l as [|s l IH]; intros m d index off Hl Ho Hb; cbn [w_string_bufs str_kids].
  - exists d. split; [reflexivity|apply forest_nil].
  - inversion Hl as [|x y Hs Hr]; subst x y. destruct s as [[a t]|]; [|destruct Hs].
    destruct Hs as (S1 & S2 & S3 & S4 & S5). cbn [cstr_ptr cstr_text].
    pose proof (blen_nonneg _ t). pose proof (blen_nonneg _ l). rewrite blen_cons in Hb.
    rewrite (u32_small (blen t + 1)) by lia.
    destruct (grown_buffer i d a (blen t + 1) (Some (mkpa index off)) ltac:(lia))
      as (d1 & E1 & G1 & K1).
    unfold mkpa in E1. rewrite E1. cbn [bind].
    assert (F1 : forest_grown i d d1 index [(off, leaf a (t ++ [0]))]).
    { apply forest_one; [|exact K1].
      replace (blen t + 1) with (blen (t ++ [0])) in G1 by (rewrite blen_app; reflexivity).
      apply (tree_grown i d d1 d1 a _ _ [] G1 K1 (forest_nil _ _ _)). }
    destruct (Z.eqb_spec (blen l) 0) as [E0|E0].
    + assert (l = []) by (destruct l; [reflexivity|rewrite blen_cons in E0; pose proof (blen_nonneg _ l); lia]).
      subst l. cbn [w_string_bufs str_kids]. exists d1. auto.
    + rewrite (u32_small (off + 16)) by lia.
      destruct (IH m d1 index (off + 16) Hr ltac:(lia) ltac:(lia)) as (d2 & E2 & G2).
      rewrite E2. exists d2. split; [reflexivity|].
      change ((off, leaf a (t ++ [0])) :: str_kids (off + 16) l)
        with ([(off, leaf a (t ++ [0]))] ++ str_kids (off + 16) l).
      eapply forest_app; eauto.
Qed.

Lemma root_added i d d1 a data ks l :
  l = blen data -> 0 <= l < 2 ^ (8 * psz i) ->
  (forall d0, grown i d d0 [buffer_image i a l None] (align8 l) -> kept d d0 ->
     w_buffer_object i d a l None = Ok (blen (wd_offsets d), d0) ->
     forest_grown i d0 d1 (blen (wd_offsets d)) ks) ->
  added i d d1 [PTree (Node a data ks)] /\ kept d d1.
Proof.
  intros -> Hl H.
  destruct (grown_buffer i d a (blen data) None Hl) as (d0 & E0 & G0 & K0).
  destruct (tree_grown i d d0 d1 a data None ks G0 K0 (H d0 G0 K0 E0)) as [G K].
  split; [apply grown_tree; exact G|exact K].
Qed.

Lemma op_added i pr al m d o :
  (forall n, is_addr i (al n)) -> call_ok i pr m o ->
  exists d1 ps blocks, w_op i pr al d o = Ok d1 /\ added i d d1 ps /\
    wd_heap d1 = blocks ++ wd_heap d /\ describes i pr m o ps /\
    (Forall (fun b => holds m (fst b) (snd b)) blocks -> Forall (p_good i m) ps).
Proof.
  intros Hal Hok. pose proof (pow_psz i) as Hpow. pose proof (psz_pos i) as Hps.
  destruct o as [v|[lo|]|[h|]|fd dupfd|ptr size pa|slack f pa|b count elemsize|s|l|m1 ptr t pa|m1 ptr count t];
    cbn [call_ok] in Hok; try contradiction; cbn [w_op describes].
  - (* plain *)
    destruct Hok as [_ Hp]. rewrite wd_plain_eq. exists (add_data d (chunk v)), [PData (chunk v)], [].
    split; [reflexivity|]. split; [apply added_data|]. split; [reflexivity|]. split; [reflexivity|].
    intros _. constructor; [|constructor]. apply chunk_aligned; assumption.
  - (* local *)
    rewrite w_local_eq.
    assert (A1 := added_flat i d TYPE_BINDER (0x7f + 0x100) (lo_ptr lo)).
    assert (Hf : p_good i m (PFlat TYPE_BINDER (0x7f + 0x100) (lo_ptr lo))) by (left; reflexivity).
    assert (Hcase : exists ps,
      ps = PFlat TYPE_BINDER (0x7f + 0x100) (lo_ptr lo) ::
           match pr with Aidl3 => [PData (le 4 (lo_stability lo))] | _ => [] end /\
      added i d (add_object d (local_image i pr (Some lo)) 0) ps /\ Forall (p_good i m) ps).
    { eexists. split; [reflexivity|].
      destruct pr;
        try (split; [unfold local_image, local_flat; rewrite app_nil_r; exact A1
                    |constructor; [exact Hf|constructor]]).
      split.
      - pose proof (added_trans _ _ _ _ _ _ A1 (added_data i _ (le 4 (lo_stability lo)))) as A2.
        replace (add_object d (local_image i Aidl3 (Some lo)) 0) with
          (add_data (add_object d (flat_image i TYPE_BINDER (0x7f + 0x100) (lo_ptr lo) 0) 0)
             (le 4 (lo_stability lo))); [exact A2|].
        unfold local_image, local_flat, add_object, add_data, add_bufsize, record_offset,
          wd_set_bytes; cbn. rewrite <- app_assoc. reflexivity.
      - constructor; [exact Hf|]. constructor; [|constructor]. reflexivity. }
    destruct Hcase as (ps & P1 & P2 & P3).
    exists (add_object d (local_image i pr (Some lo)) 0), ps, []. auto.
  - (* remote *)
    destruct Hok as [Hh Hpr]. rewrite w_remote_eq. eexists _, _, []. split; [reflexivity|].
    unfold remote_image. rewrite (u32_small h) by lia.
    split; [apply added_flat|]. split; [reflexivity|]. split; [reflexivity|].
    intros _. constructor; [right; left; reflexivity|constructor].
  - (* fd *)
    rewrite w_fd_eq. eexists _, _, []. split; [reflexivity|].
    split; [apply added_flat|]. split; [reflexivity|]. split; [reflexivity|].
    intros _. constructor; [right; right; left; reflexivity|constructor].
  - (* hidl vec *)
    unfold w_hidl_vec.
    assert (Hgo : forall buf d0 data blocks cnt,
      (exists c0, forall x, wd_heap (heap_add al d0 x) = (c0, x) :: blocks ++ wd_heap d /\ is_addr i c0 /\
         c0 = al (wd_nalloc d0)) ->
      wd_bytes d0 = wd_bytes d -> wd_offsets d0 = wd_offsets d -> wd_bufsize d0 = wd_bufsize d ->
      blen data < 2 ^ 32 -> 0 <= buf < 2 ^ (8 * psz i) ->
      (Forall (fun b => holds m (fst b) (snd b)) blocks -> node_ok i m buf data) ->
      exists d1 blocks1,
        (let* (index, d3) := w_buffer_object i (heap_add al d0 (hidl_image buf cnt 1))
            (al (wd_nalloc d0)) 16 None in
         let* (_, d4) := w_buffer_object i d3 buf (blen data)
            (Some {| pa_index := index; pa_offset := 0 |}) in Ok d4) = Ok d1 /\
        added i d d1 [PTree (Node (al (wd_nalloc d0)) (hidl_image buf cnt 1) [(0, leaf buf data)])] /\
        wd_heap d1 = blocks1 ++ wd_heap d /\
        (Forall (fun b => holds m (fst b) (snd b)) blocks1 ->
         Forall (p_good i m) [PTree (Node (al (wd_nalloc d0)) (hidl_image buf cnt 1) [(0, leaf buf data)])])).
    { intros buf d0 data blocks cnt (c0 & Hc0) B1 B2 B3 Hd Hbuf Hn.
      set (d2 := heap_add al d0 (hidl_image buf cnt 1)).
      destruct (grown_buffer i d2 (al (wd_nalloc d0)) 16 None ltac:(lia)) as (d3 & E3 & G3 & K3).
      rewrite E3. cbn [bind].
      destruct (grown_buffer i d3 buf (blen data) (Some (mkpa (blen (wd_offsets d2)) 0))
                  ltac:(pose proof (blen_nonneg _ data); lia)) as (d4 & E4 & G4 & K4).
      unfold mkpa in E4. rewrite E4. cbn [bind].
      destruct (Hc0 (hidl_image buf cnt 1)) as (C1 & C2 & C3).
      exists d4, ((al (wd_nalloc d0), hidl_image buf cnt 1) :: blocks).
      split; [reflexivity|].
      assert (F4 : forest_grown i d3 d4 (blen (wd_offsets d2)) [(0, leaf buf data)]).
      { apply forest_one; [|exact K4].
        apply (tree_grown i d3 d4 d4 buf data _ [] G4 K4 (forest_nil _ _ _)). }
      destruct (root_added i d2 d4 (al (wd_nalloc d0)) (hidl_image buf cnt 1) [(0, leaf buf data)] 16)
        as [A K].
      { symmetry; apply blen_hidl. } { lia. }
      { intros dd Gd Kd Ed. rewrite E3 in Ed. injection Ed as <-. exact F4. }
      split; [|split].
      - destruct A as (A1 & A2 & A3). unfold added.
        unfold d2 in A1, A2, A3. cbn [heap_add wd_bytes wd_offsets wd_bufsize] in A1, A2, A3.
        rewrite B1, B2, B3 in *. auto.
      - destruct K as [K _]. rewrite K. unfold d2. rewrite C1, C3. reflexivity.
      - intros HF. inversion HF as [|x y HF1 HF2]; subst x y. cbn [fst snd] in HF1.
        constructor; [|constructor].
        destruct (leaf_good i m buf data (Hn HF2)) as [L1 L2].
        apply hidl_root; auto. }
    destruct b as [b|].
    + destruct Hok as (H1 & H2 & H3 & H4 & H5).
      rewrite (u32_small (count * elemsize)) by nia. cbn [memdup_ptr].
      destruct (Z.eqb_spec (count * elemsize) 0) as [E0|E0].
      * assert (count = 0) by nia. subst count. cbn [bind]. cbv zeta.
        assert (b = []) by (destruct b; [reflexivity|rewrite blen_cons in H4; pose proof (blen_nonneg _ b); lia]).
        subst b.
        destruct (Hgo 0 d [] [] 0) as (d1 & bl & G1 & G2 & G3 & G4); auto; try lia.
        { exists (al (wd_nalloc d)). intros x. split; [reflexivity|]. auto. }
        { intros _. apply null_ok. }
        rewrite E0. change (blen (@nil Z)) with 0 in G1. change (0 =? 0) with true. cbv iota.
        rewrite G1. exists d1, [PTree (Node (al (wd_nalloc d)) (hidl_image 0 0 1) [(0, leaf 0 [])])], bl.
        split; [reflexivity|]. split; [exact G2|]. split; [exact G3|]. split; [|exact G4]. eauto.
      * rewrite load_inside by lia. cbn [bind]. cbv zeta.
        rewrite slice_all by (symmetry; assumption).
        assert (Hn0 : al (wd_nalloc d) <> 0) by (destruct (Hal (wd_nalloc d)); lia).
        destruct (Z.eqb_spec (al (wd_nalloc d)) 0); [lia|].
        destruct (Hgo (al (wd_nalloc d)) (heap_add al d b) b [(al (wd_nalloc d), b)] count)
          as (d1 & bl & G1 & G2 & G3 & G4); auto; try lia.
        { exists (al (S (wd_nalloc d))). intros x. split; [reflexivity|]. auto. }
        { destruct (Hal (wd_nalloc d)); lia. }
        { intros HF. inversion HF as [|x y HF1 HF2]; subst x y. apply node_holds; auto. lia. }
        rewrite H4 in G1. rewrite G1.
        eexists d1, _, bl. split; [reflexivity|]. split; [exact G2|]. split; [exact G3|].
        split; [|exact G4]. eauto.
    + subst count. cbn [Z.mul]. change (u32 0) with 0. cbn [memdup_ptr bind]. cbv zeta.
      destruct (Hgo 0 d [] [] 0) as (d1 & bl & G1 & G2 & G3 & G4); auto; try lia.
      { exists (al (wd_nalloc d)). intros x. split; [reflexivity|]. auto. }
      { rewrite blen_nil; lia. } { intros _. apply null_ok. }
      change (blen (@nil Z)) with 0 in G1. change (0 =? 0) with true. cbv iota.
      rewrite G1. eexists d1, _, bl.
      split; [reflexivity|]. split; [exact G2|]. split; [exact G3|]. split; [|exact G4]. eauto.
  - (* hidl string *)
    destruct s as [[a t]|]; [|contradiction]. destruct Hok as (S1 & S2 & S3 & S4 & S5).
    unfold w_hidl_string. cbn [cstr_ptr cstr_len cstr_text].
    set (d1 := heap_add al d (hidl_image a (blen t) 1)).
    destruct (grown_buffer i d1 (al (wd_nalloc d)) 16 None ltac:(lia)) as (d2 & E2 & G2 & K2).
    rewrite E2. cbn [bind]. pose proof (blen_nonneg _ t).
    destruct (grown_buffer i d2 a (blen t + 1) (Some (mkpa (blen (wd_offsets d1)) 0)) ltac:(lia))
      as (d3 & E3 & G3 & K3).
    unfold mkpa in E3. rewrite E3. cbn [bind].
    eexists d3, _, [(al (wd_nalloc d), hidl_image a (blen t) 1)]. split; [reflexivity|].
    assert (F3 : forest_grown i d2 d3 (blen (wd_offsets d1)) [(0, leaf a (t ++ [0]))]).
    { apply forest_one; [|exact K3].
      replace (blen t + 1) with (blen (t ++ [0])) in G3 by (rewrite blen_app; reflexivity).
      apply (tree_grown i d2 d3 d3 a _ _ [] G3 K3 (forest_nil _ _ _)). }
    destruct (root_added i d1 d3 (al (wd_nalloc d)) (hidl_image a (blen t) 1) [(0, leaf a (t ++ [0]))] 16)
      as [A K].
    { symmetry; apply blen_hidl. } { lia. }
    { intros dd Gd Kd Ed. rewrite E2 in Ed. injection Ed as <-. exact F3. }
    split; [exact A|]. split; [destruct K as [K _]; exact K|]. split; [eauto|].
    intros HF. inversion HF as [|x y HF1 HF2]; subst x y. cbn [fst snd] in HF1.
    constructor; [|constructor].
    destruct (leaf_good i m a (t ++ [0])) as [L1 L2].
    { apply node_holds; auto. rewrite blen_app, blen_cons, blen_nil. lia. }
    apply hidl_root; auto. destruct S1; lia.
  - (* string vec *)
    destruct Hok as [Hl Hn]. unfold w_hidl_string_vec. cbv zeta. pose proof (blen_nonneg _ l).
    destruct (Z.ltb_spec 0 (blen l)) as [Hc|Hc].
    + set (strs := al (wd_nalloc d)). set (descs := concat (map string_desc l)).
      set (d1 := heap_add al d descs). set (vec := al (wd_nalloc d1)).
      set (d2 := heap_add al d1 (hidl_image strs (blen l) 1)).
      destruct (grown_buffer i d2 vec 16 None ltac:(lia)) as (d3 & E3 & G3 & K3).
      rewrite E3. cbn [bind].
      destruct (grown_buffer i d3 strs (16 * blen l) (Some (mkpa (blen (wd_offsets d2)) 0))
                  ltac:(lia)) as (d4 & E4 & G4 & K4).
      unfold mkpa in E4. rewrite E4. cbn [bind].
      destruct (string_bufs_added i l m d4 (blen (wd_offsets d3)) 0 Hl ltac:(lia) ltac:(lia))
        as (d5 & E5 & G5).
      rewrite E5.
      eexists d5, _, [(vec, hidl_image strs (blen l) 1); (strs, descs)]. split; [reflexivity|].
      assert (Hdl : blen descs = 16 * blen l) by apply descs_len.
      assert (F5 : forest_grown i d3 d5 (blen (wd_offsets d2)) [(0, Node strs descs (str_kids 0 l))]).
      { rewrite <- Hdl in G4.
        destruct (tree_grown i d3 d4 d5 strs descs _ _ G4 K4 G5) as [G6 K6].
        apply forest_one; assumption. }
      destruct (root_added i d2 d5 vec (hidl_image strs (blen l) 1)
                  [(0, Node strs descs (str_kids 0 l))] 16) as [A K].
      { symmetry; apply blen_hidl. } { lia. }
      { intros dd Gd Kd Ed. rewrite E3 in Ed. injection Ed as <-. exact F5. }
      split; [exact A|]. split; [destruct K as [K _]; exact K|]. split; [eauto|].
      intros HF. inversion HF as [|x y HF1 HF2]; subst x y. cbn [fst snd] in HF1.
      inversion HF2 as [|x y HF3 HF4]; subst x y. cbn [fst snd] in HF3.
      constructor; [|constructor].
      destruct (str_kids_good i m l 0 [] Hl eq_refl) as (J1 & J2 & J3).
      apply hidl_root; auto.
      * apply Hal.
      * destruct (Hal (wd_nalloc d)). fold strs in H0, H1. lia.
      * apply tree_ok_node. split; [apply node_holds; auto; [apply Hal|lia]|].
        split; [|exact J2]. rewrite Hdl. exact J1.
    + assert (l = []) by (destruct l; [reflexivity|rewrite blen_cons in Hc; pose proof (blen_nonneg _ l); lia]).
      subst l. change (blen (@nil cstring)) with 0.
      set (d2 := heap_add al d (hidl_image 0 0 1)).
      destruct (grown_buffer i d2 (al (wd_nalloc d)) 16 None ltac:(lia)) as (d3 & E3 & G3 & K3).
      rewrite E3. cbn [bind].
      destruct (grown_buffer i d3 0 0 (Some (mkpa (blen (wd_offsets d2)) 0)) ltac:(lia))
        as (d4 & E4 & G4 & K4).
      unfold mkpa in E4. rewrite E4. cbn [bind].
      eexists d4, _, [(al (wd_nalloc d), hidl_image 0 0 1)]. split; [reflexivity|].
      assert (F4 : forest_grown i d3 d4 (blen (wd_offsets d2)) [(0, leaf 0 [])]).
      { apply forest_one; [|exact K4].
        apply (tree_grown i d3 d4 d4 0 [] _ [] G4 K4 (forest_nil _ _ _)). }
      destruct (root_added i d2 d4 (al (wd_nalloc d)) (hidl_image 0 0 1) [(0, leaf 0 [])] 16) as [A K].
      { symmetry; apply blen_hidl. } { lia. }
      { intros dd Gd Kd Ed. rewrite E3 in Ed. injection Ed as <-. exact F4. }
      split; [exact A|]. split; [destruct K as [K _]; exact K|]. split; [exists (al (wd_nalloc d)), 0; reflexivity|].
      intros HF. inversion HF as [|x y HF1 HF2]; subst x y. cbn [fst snd] in HF1.
      constructor; [|constructor]. destruct (leaf_good i m 0 [] (null_ok i m)) as [L1 L2].
      apply hidl_root; auto. lia.
  - (* struct *)
    destruct pa as [pa|]; [contradiction|]. destruct Hok as (-> & Hm & Hp & Ht & Hs).
    assert (Hsz : 0 <= wt_size t < 2 ^ 31)
      by (destruct t; apply type_ok_eq in Ht; destruct Ht; cbn [wt_size]; lia).
    unfold w_struct.
    destruct (grown_buffer i d ptr (wt_size t) None ltac:(lia)) as (d1 & E1 & G1 & K1).
    rewrite E1. cbn [bind].
    destruct (fields_added i m t Hm d1 ptr (blen (wd_offsets d)) 0 Ht Hs ltac:(lia) ltac:(lia))
      as (d2 & E2 & G2).
    rewrite E2. eexists d2, _, []. split; [reflexivity|].
    destruct (root_added i d d2 ptr (mread m ptr (wt_size t)) (t_fields i m t ptr 0) (wt_size t)) as [A K].
    { rewrite blen_mread; lia. } { lia. }
    { intros dd Gd Kd Ed. rewrite E1 in Ed. injection Ed as <-. exact G2. }
    split; [exact A|]. split; [destruct K as [K _]; exact K|]. split; [reflexivity|].
    intros _. constructor; [|constructor].
    destruct (fields_kids i m t Hm ptr (wt_size t) ptr 0 Ht Hs ltac:(lia) ltac:(lia) ltac:(lia))
      as (J1 & J2 & J3).
    split.
    + apply tree_ok_node. split; [|split; [|exact J2]].
      * unfold node_ok. rewrite mread_self, blen_mread by lia. split; [reflexivity|].
        destruct Hp. split; [left; lia|lia].
      * rewrite blen_mread by lia. exact J1.
    + apply slots_ok_node. exact J3.
  - (* struct vec *)
    destruct Hok as (-> & Hm & Hc & Ht & Hz & Hn & Hp & Hp2 & Hs).
    unfold w_struct_vec. cbv zeta.
    set (vec := al (wd_nalloc d)). set (d1 := heap_add al d (hidl_image ptr count 1)).
    assert (Hnn : 0 <= count * wt_size t) by (apply Z.mul_nonneg_nonneg; lia).
    assert (Hjj : forall j, 0 <= j < count -> 0 <= j * wt_size t <= count * wt_size t - wt_size t).
    { intros j Hj. split; [apply Z.mul_nonneg_nonneg; lia|].
      assert (j * wt_size t <= (count - 1) * wt_size t) by (apply Z.mul_le_mono_nonneg_r; lia). lia. }
    destruct (grown_buffer i d1 vec 16 None ltac:(lia)) as (d2 & E2 & G2 & K2).
    rewrite E2. cbn [bind].
    destruct (grown_buffer i d2 ptr (count * wt_size t) (Some (mkpa (blen (wd_offsets d1)) 0))
                ltac:(lia)) as (d3 & E3 & G3 & K3).
    unfold mkpa in E3. rewrite E3. cbn [bind].
    destruct (elems_added i (fun d a off => w_fields i m t d a (blen (wd_offsets d2)) off)
      (fun a o => t_fields i m t a o) (blen (wd_offsets d2)) (wt_size t) ptr (Z.to_nat count) d3 0%nat)
      as (d4 & E4 & G4).
    { intros d0 j Hj. pose proof (Hjj j ltac:(lia)).
      apply fields_added; [exact Hm|exact Ht|apply Hs; lia|lia|lia]. }
    { lia. } { cbn [Nat.add]. rewrite Z2Nat.id by lia. lia. }
    change (Z.of_nat 0) with 0 in E4. rewrite E4.
    eexists d4, _, [(vec, hidl_image ptr count 1)]. split; [reflexivity|].
    set (kids := elems_kids (fun a o => t_fields i m t a o) ptr (wt_size t) 0 (Z.to_nat count)) in *.
    assert (F4 : forest_grown i d2 d4 (blen (wd_offsets d1))
              [(0, Node ptr (mread m ptr (count * wt_size t)) kids)]).
    { assert (Hbl : blen (mread m ptr (count * wt_size t)) = count * wt_size t) by (apply blen_mread; lia).
      rewrite <- Hbl in G3.
      destruct (tree_grown i d2 d3 d4 ptr _ _ _ G3 K3 G4) as [G5 K5]. apply forest_one; assumption. }
    destruct (root_added i d1 d4 vec (hidl_image ptr count 1)
                [(0, Node ptr (mread m ptr (count * wt_size t)) kids)] 16) as [A K].
    { symmetry; apply blen_hidl. } { lia. }
    { intros dd Gd Kd Ed. rewrite E2 in Ed. injection Ed as <-. exact F4. }
    split; [exact A|]. split; [destruct K as [K _]; exact K|]. split; [eauto|].
    intros HF. inversion HF as [|x y HF1 HF2]; subst x y. cbn [fst snd] in HF1.
    constructor; [|constructor].
    assert (Hel : forall cnt k, Z.of_nat (k + cnt) <= count ->
      kids_ok i (Z.of_nat k * wt_size t) (Z.of_nat (k + cnt) * wt_size t)
        (elems_kids (fun a o => t_fields i m t a o) ptr (wt_size t) k cnt) /\
      forest_ok i m (elems_kids (fun a o => t_fields i m t a o) ptr (wt_size t) k cnt) /\
      kslots_ok i (mread m ptr (count * wt_size t))
        (elems_kids (fun a o => t_fields i m t a o) ptr (wt_size t) k cnt)).
    { induction cnt as [|cnt IHc]; intros k Hk; [cbn; auto|].
      unfold elems_kids. cbn [seq flat_map].
      destruct (IHc (S k) ltac:(lia)) as (J1 & J2 & J3).
      pose proof (Hjj (Z.of_nat k) ltac:(lia)) as M1.
      destruct (fields_kids i m t Hm ptr (count * wt_size t) (ptr + Z.of_nat k * wt_size t)
        (Z.of_nat k * wt_size t) Ht) as (Q1 & Q2 & Q3); [apply Hs; lia|reflexivity|lia|lia|].
      assert (Em : Z.of_nat k * wt_size t + wt_size t = Z.of_nat (S k) * wt_size t) by lia.
      split; [|split].
      - replace (k + S cnt)%nat with (S k + cnt)%nat by lia.
        eapply kids_ok_app; [exact Q1| | lia|]; rewrite Em; [exact J1|].
        apply Z.mul_le_mono_nonneg_r; lia.
      - apply forest_ok_app; assumption.
      - apply kslots_ok_app; assumption. }
    destruct (Hel (Z.to_nat count) 0%nat ltac:(lia)) as (J1 & J2 & J3). fold kids in J1, J2, J3.
    replace (Z.of_nat (0 + Z.to_nat count) * wt_size t) with (count * wt_size t) in J1 by (f_equal; lia).
    change (Z.of_nat 0 * wt_size t) with 0 in J1.
    apply hidl_root; auto.
    + apply Hal.
    + apply tree_ok_node. split; [|split; [|exact J2]].
      * unfold node_ok. rewrite mread_self, blen_mread by lia. split; [reflexivity|].
        split; [|lia]. destruct Hp as [Hp|[Hp _]]; [right; rewrite Hp; reflexivity|left; lia].
      * rewrite blen_mread by lia. exact J1.
Qed.
