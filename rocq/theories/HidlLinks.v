(* Parents of nested buffers *)
From Verif Require Import Base BaseLemmas UtfModel WriterModel ReaderModel CodecSpec
  CodecProofs CodecSafety ObjModel ObjReader KernelModel ObjSpec ObjProofs ObjInvariant
  TreeProofs PieceProofs HidlSpec HidlWriter HidlOps HidlPlaced HidlStruct HidlRead HidlTrip.

Section Links.
  Variables (i : io) (m : memory) (b : bytes) (offsets : list Z).
  Hypothesis few : blen offsets < 2 ^ 31.

  Definition link_at (k : nat) : Prop :=
    forall o, nth_error offsets k = Some o -> k_type b o = TYPE_PTR ->
      kp_has_parent (k_ptr i b o) = true -> link_ok i m b offsets k o.

  Definition at_offs (n : nat) (p : Z) (cnt : nat) : Prop :=
    forall j, (j < cnt)%nat -> nth_error offsets (n + j) = Some (p + Z.of_nat j * ptr_size i).

  Lemma at_offs_app n p x y :
    at_offs n p (x + y) -> at_offs n p x /\ at_offs (n + x) (p + Z.of_nat x * ptr_size i) y.
  Proof.
    intros H. split.
    - intros j Hj. apply H. lia.
    - intros j Hj. specialize (H (x + j)%nat ltac:(lia)).
      replace (n + x + j)%nat with (n + (x + j))%nat by lia. rewrite H. f_equal; lia.
  Qed.

  (* what has to be known about the parent *)
  Definition parent_at (n : nat) (pa : option parent) (addr : Z) : Prop :=
    match pa with
    | None => True
    | Some p =>
      exists k po a l, pa_index p = Z.of_nat k /\ (k < n)%nat /\
        nth_error offsets k = Some po /\ k_type b po = TYPE_PTR /\
        kp_buffer (k_ptr i b po) = a /\ kp_length (k_ptr i b po) = l /\
        0 <= pa_offset p < 2 ^ (8 * psz i) /\ pa_offset p + psz i <= l /\
        mread m (a + pa_offset p) (psz i) = le (psize i) addr
    end.

  Lemma buffer_fields pre a l pa post :
    b = pre ++ buffer_image i a l pa ++ post ->
    k_type b (blen pre) = TYPE_PTR /\ kp_buffer (k_ptr i b (blen pre)) = usz i a /\
    kp_length (k_ptr i b (blen pre)) = usz i l /\
    kp_has_parent (k_ptr i b (blen pre)) = pa_is pa /\
    kp_poff (k_ptr i b (blen pre)) = usz i (pa_off pa) /\
    (forall p, pa = Some p -> kp_parent (k_ptr i b (blen pre)) = usz i (pa_index p)).
  Proof.
    intros ->. unfold buffer_image. destruct pa as [p|]; cbn [pa_is pa_off].
    - destruct (ptr_fields i 1 a l (pa_index p) (pa_offset p) pre post) as [E1 E2].
      rewrite E2. cbn [kp_buffer kp_length kp_poff kp_parent]. split; [exact E1|].
      do 4 (split; [reflexivity|]). intros q [= ->]. reflexivity.
    - destruct (ptr_fields i 0 a l 0 0 pre post) as [E1 E2].
      rewrite E2. cbn [kp_buffer kp_length kp_poff kp_parent]. split; [exact E1|].
      do 4 (split; [reflexivity|]). intros q [=].
  Qed.

  Lemma nth_offsets n o : nth_error offsets n = Some o -> Z.of_nat n < 2 ^ 31.
  Proof.
    intros H. assert (n < length offsets)%nat by (apply nth_error_Some; congruence).
    unfold blen in few. lia.
  Qed.

  Lemma tree_linked t : forall n pa pre post,
    b = pre ++ concat (t_emit i (Z.of_nat n) pa t) ++ post ->
    at_offs n (blen pre) (t_count t) -> tree_ok i m t -> slots_ok i t ->
    parent_at n pa (t_addr t) ->
    forall k, (n <= k < n + t_count t)%nat -> link_at k.
  Proof.
    induction t as [a d ks IH] using tree_ind2. intros n pa pre post Hb Ho Hok Hsl Hpa k Hk.
    destruct (proj1 (tree_ok_node _ _ _ _ _) Hok) as ((N1 & N2 & N3 & N4) & Hks & Hf). clear Hok.
    apply slots_ok_node in Hsl. cbn [t_addr] in Hpa.
    rewrite t_emit_node in Hb. cbn [concat] in Hb. rewrite <- app_assoc in Hb.
    rewrite t_count_node in *.
    destruct (buffer_fields _ _ _ _ _ Hb) as (B1 & B2 & B3 & B4 & B5 & B6).
    pose proof (pow_psz i) as Hpow. pose proof (psz_pos i) as Hps.
    pose proof (blen_nonneg _ d) as Hd0.
    rewrite usz_in in B2 by lia. rewrite usz_in in B3 by lia.
    assert (Hn : nth_error offsets n = Some (blen pre)).
    { specialize (Ho O ltac:(lia)). rewrite Nat.add_0_r in Ho. rewrite Ho. f_equal; lia. }
    change (S (f_count ks)) with (1 + f_count ks)%nat in Ho.
    destruct (at_offs_app _ _ _ _ Ho) as [_ Ho2].
    destruct (Nat.eq_dec k n) as [->|Hkn].
    - intros o Eo Et Ep. rewrite Hn in Eo. injection Eo as <-.
      rewrite B4 in Ep. destruct pa as [p|]; [|discriminate].
      destruct Hpa as (k & po & pa & pl & P1 & P2 & P3 & P4 & P5 & P6 & P7 & P8 & P9).
      pose proof (nth_offsets _ _ P3) as Hfew.
      assert (Ek : kp_parent (k_ptr i b (blen pre)) = Z.of_nat k)
        by (rewrite (B6 p eq_refl), P1; apply usz_in; lia).
      unfold link_ok. cbn zeta. rewrite Ek, Nat2Z.id. exists po.
      split; [exact P3|]. split; [exact P2|]. split; [exact P4|].
      rewrite B5, B2, P5, P6. cbn [pa_off]. rewrite usz_in by lia.
      split; [lia|]. split; [exact P8|exact P9].
    - rewrite Z.add_0_l in * || idtac.
      (* kids *)
      assert (G : forall q pre2 post2 from, b = pre2 ++ concat (f_emit i (Z.of_nat n) (Z.of_nat q) ks) ++ post2 ->
        at_offs q (blen pre2) (f_count ks) -> 0 <= from -> kids_ok i from (blen d) ks -> (n < q)%nat ->
        forall k, (q <= k < q + f_count ks)%nat -> link_at k).
      { clear Hks Hk Hkn k Ho Ho2 Hb. induction IH as [|[c t1] ks Ht IHF IHks]; intros q pre2 post2 from Hb Ho Hfrom Hko Hq k Hk;
          cbn [f_emit f_count] in *; [lia|].
        cbn [snd] in Ht. cbn [forest_ok kslots_ok kids_ok] in Hf, Hsl, Hko.
        destruct Hf as [F1 F2]. destruct Hsl as (S1 & S2 & S3). destruct Hko as (K1 & K2 & K3).
        rewrite concat_app, <- app_assoc in Hb.
        destruct (at_offs_app _ _ _ _ Ho) as [Ho3 Ho4].
        destruct (Nat.lt_ge_cases k (q + t_count t1)) as [Hlt|Hge].
        - eapply (Ht q (Some (mkpa (Z.of_nat n) c))); eauto; [|lia].
          cbn [parent_at mkpa pa_index pa_offset].
          exists n, (blen pre), a, (blen d). split; [reflexivity|]. split; [lia|]. split; [exact Hn|].
          split; [exact B1|]. split; [exact B2|]. split; [exact B3|]. split; [lia|]. split; [exact K2|].
          rewrite (mread_sub m a (blen d) d c (psz i)) by (auto; lia). exact S1.
        - eapply (IHks S3 F2 (q + t_count t1)%nat
            (pre2 ++ concat (t_emit i (Z.of_nat q) (Some (mkpa (Z.of_nat n) c)) t1)) post2 (c + psz i)); auto; try lia.
          + rewrite Nat2Z.inj_add, <- app_assoc. exact Hb.
          + rewrite blen_app. destruct (blen_concat_emit_t i t1 (Z.of_nat q) (Some (mkpa (Z.of_nat n) c))) as [-> _].
            exact Ho4. }
      eapply (G (n + 1)%nat (pre ++ buffer_image i a (blen d) pa) post 0); auto; try lia.
      + rewrite Nat2Z.inj_add. change (Z.of_nat 1) with 1. rewrite <- app_assoc. exact Hb.
      + rewrite blen_app, blen_buffer. rewrite Z.mul_1_l in Ho2. exact Ho2.
  Qed.

  Lemma pieces_linked ps : forall n pre post offs0 offs1,
    b = pre ++ ps_bytes i (Z.of_nat n) ps ++ post ->
    offsets = offs0 ++ ps_offs i (blen pre) ps ++ offs1 -> length offs0 = n ->
    Forall (p_good i m) ps ->
    forall k, (n <= k < n + ps_count ps)%nat -> link_at k.
  Proof.
    induction ps as [|p r IH]; intros n pre post offs0 offs1 Hb Ho Hn Hg k Hk;
      cbn [ps_bytes ps_offs ps_count] in *; [lia|].
    inversion Hg as [|x y G1 G2]; subst x y.
    rewrite <- app_assoc in Hb, Ho.
    destruct (Nat.lt_ge_cases k (n + p_count p)) as [Hlt|Hge].
    - destruct p as [l|t f o|t]; cbn [p_count p_bytes p_offs p_good] in *.
      + lia.
      + assert (k = n) by lia. subst k. intros o1 E1 E2 E3. exfalso.
        rewrite Ho, nth_error_app2, Hn, Nat.sub_diag in E1 by lia. cbn [nth_error app] in E1.
        injection E1 as <-. rewrite Hb in E2. rewrite flat_type in E2.
        destruct G1 as [<-|[<-|[<-|[]]]]; discriminate.
      + destruct G1 as [G3 G4]. eapply (tree_linked t n None pre _ Hb); auto; [|exact I|lia].
        intros j Hj. rewrite Ho, nth_error_app2 by lia.
        replace (n + j - length offs0)%nat with j by lia.
        rewrite nth_error_app1 by (rewrite offs_length; lia). apply offs_nth. exact Hj.
    - eapply (IH (n + p_count p)%nat (pre ++ p_bytes i (Z.of_nat n) p) post (offs0 ++ p_offs i (blen pre) p) offs1);
        auto.
      + rewrite Nat2Z.inj_add, <- app_assoc. exact Hb.
      + rewrite blen_app, p_bytes_len, <- app_assoc. exact Ho.
      + rewrite app_length, p_offs_length. lia.
      + lia.
  Qed.
End Links.

Theorem ops_linked i pr al m l :
  (forall n, is_addr i (al n)) -> Forall (call_ok i pr m) l ->
  exists d, w_ops i pr al wd_empty l = Ok d /\
    (blen (wd_bytes d) < 2 ^ 31 ->
     Forall (fun b => holds m (fst b) (snd b)) (wd_heap d) ->
     linked i m (wd_bytes d) (wd_offsets d)).
Proof.
  intros Hal Hok.
  destruct (ops_added i pr al m l wd_empty Hal Hok) as (d & pss & bl & E1 & (B1 & B2 & B3) & H1 & D1 & G1).
  exists d. split; [exact E1|]. intros Hsize Hheap.
  cbn [wd_empty wd_bytes wd_offsets wd_bufsize wd_heap app] in B1, B2, B3, H1.
  change (blen (@nil Z)) with 0 in B1, B2. rewrite app_nil_r in H1. rewrite H1 in Hheap.
  specialize (G1 Hheap).
  assert (Hg : Forall (p_good i m) (concat pss)).
  { clear - G1. induction G1; cbn [concat]; [constructor|]. apply Forall_app; split; assumption. }
  intros k o Ek Et Ep.
  assert (Hk : (k < ps_count (concat pss))%nat).
  { rewrite <- (ps_offs_length i (concat pss) 0), <- B2. apply nth_error_Some. congruence. }
  eapply (pieces_linked i m (wd_bytes d) (wd_offsets d)) with (ps := concat pss) (n := O)
    (pre := []) (post := []) (offs0 := []) (offs1 := []); auto; try lia.
  - rewrite B2. unfold blen at 1. rewrite ps_offs_length.
    pose proof (ps_count_len i (concat pss)). rewrite B1, ps_bytes_len in Hsize. lia.
  - rewrite app_nil_r. exact B1.
  - rewrite app_nil_r. exact B2.
Qed.
