(* Safety, position accounting, alignment and overwrite proofs for the plain
   codec *)
From Verif Require Import Base BaseLemmas UtfModel UtfProofs WriterModel ReaderModel CodecSpec CodecProofs.

Lemma load_inside mem off n :
  0 <= off -> off + n <= blen mem -> load mem off n = Ok (slice mem off n).
Proof. intros; apply load_ok; auto. Qed.

Lemma can_read_inside mem p n :
  inside mem p -> blen mem < 2 ^ 63 -> 0 <= n < 2 ^ 64 ->
  can_read p n = (r_ptr p + n <=? r_end p).
Proof. intros (H1 & H2 & H3 & H4) Hb Hn. unfold can_read, u64. lia. Qed.

Lemma can_read_false_big p n :
  0 <= r_end p - r_ptr p < 2 ^ 63 -> 2 ^ 63 <= n < 2 ^ 64 -> can_read p n = false.
Proof. intros H Hn. unfold can_read, u64. lia. Qed.

Definition moved (mem : bytes) (p p1 : reader) : Prop :=
  inside mem p1 /\ r_start p1 = r_start p /\ r_end p1 = r_end p /\
  r_objects p1 = r_objects p /\ r_ptr p <= r_ptr p1.

Lemma moved_refl mem p : inside mem p -> moved mem p p.
Proof. intros H; unfold moved; repeat split; try apply H; lia. Qed.

Lemma moved_set mem p v :
  inside mem p -> r_ptr p <= v <= r_end p -> moved mem p (r_set_ptr p v).
Proof.
  intros (H1 & H2 & H3 & H4) Hv; unfold moved, inside, r_set_ptr; cbn; repeat split; lia.
Qed.

Lemma moved_trans mem p q r : moved mem p q -> moved mem q r -> moved mem p r.
Proof.
  intros (A1 & A2 & A3 & A4 & A5) (B1 & B2 & B3 & B4 & B5).
  unfold moved; repeat split; try apply B1; congruence || lia.
Qed.

(* Result shape: no fault, moved; a failure leaves the position alone *)
Definition clean {A} (mem : bytes) (p : reader) (x : rd A) : Prop :=
  exists o p1, x = Ok (o, p1) /\ moved mem p p1 /\ (o = None -> p1 = p).

Lemma clean_fail A mem p : inside mem p -> clean (A := A) mem p (fail p).
Proof.
  intros H; exists None, p; split; [reflexivity|]; split; [apply moved_refl; assumption|auto].
Qed.

Lemma clean_ok A mem p (a : A) v :
  inside mem p -> r_ptr p <= v <= r_end p -> clean mem p (ok a (r_set_ptr p v)).
Proof.
  intros H Hv; exists (Some a), (r_set_ptr p v); split; [reflexivity|].
  split; [apply moved_set; assumption|discriminate].
Qed.

Lemma clean_map A B (f : A -> B) mem p x : clean mem p x -> clean mem p (rd_map f x).
Proof.
  intros (o & p1 & -> & H1 & H2). destruct o as [a|]; cbn.
  - exists (Some (f a)), p1; split; [reflexivity|]; split; [exact H1|discriminate].
  - exists None, p1; split; [reflexivity|]; split; [exact H1|auto].
Qed.

Section Fixed.
  Variables (mem : bytes) (p : reader).
  Hypothesis Hin : inside mem p.
  Hypothesis Hb : blen mem < 2 ^ 31.

  Local Lemma Hin' : 0 <= r_ptr p /\ r_ptr p <= r_end p /\ r_end p <= blen mem.
  Proof. destruct Hin as (H1 & H2 & H3 & H4); lia. Qed.

  Lemma fixed_clean (w n : Z) :
    0 <= w <= n -> n < 2 ^ 32 ->
    clean mem p (if can_read p n then
                   let* b := load mem (r_ptr p) w in ok (unle b) (r_set_ptr p (r_ptr p + n))
                 else fail p).
  Proof.
    intros Hw Hn. pose proof Hin'. rewrite (can_read_inside mem) by (assumption || lia).
    destruct (Z.leb_spec (r_ptr p + n) (r_end p)); [|apply clean_fail; assumption].
    rewrite load_inside by lia. cbn [bind]. apply clean_ok; [assumption|lia].
  Qed.

  Lemma rd_byte_clean : clean mem p (rd_byte mem p).
  Proof.
    pose proof Hin'. unfold rd_byte.
    destruct (Z.ltb_spec (r_ptr p) (r_end p)); [|apply clean_fail; assumption].
    rewrite load_inside by lia. cbn [bind]. apply clean_ok; [assumption|lia].
  Qed.
  Lemma rd_uint8_clean : clean mem p (rd_uint8 mem p).
  Proof. apply fixed_clean; lia. Qed.
  Lemma rd_uint16_clean : clean mem p (rd_uint16 mem p).
  Proof. apply fixed_clean; lia. Qed.
  Lemma rd_uint32_clean : clean mem p (rd_uint32 mem p).
  Proof. apply fixed_clean; lia. Qed.
  Lemma rd_uint64_clean : clean mem p (rd_uint64 mem p).
  Proof. apply fixed_clean; lia. Qed.

  Lemma scan_nul_clean n ptr :
    0 <= ptr -> ptr + Z.of_nat n <= blen mem ->
    scan_nul mem ptr n = Ok None \/
    exists q, scan_nul mem ptr n = Ok (Some q) /\ ptr <= q < ptr + Z.of_nat n.
  Proof.
    revert ptr; induction n as [|n IH]; intros ptr H0 H1; cbn [scan_nul]; [left; reflexivity|].
    rewrite load_inside by lia. cbn [bind].
    destruct (unle (slice mem ptr 1) =? 0).
    - right; exists ptr; split; [reflexivity|lia].
    - destruct (IH (ptr + 1) ltac:(lia) ltac:(lia)) as [E|(q & E & Hq)]; [left; exact E|].
      right; exists q; split; [exact E|lia].
  Qed.

  Lemma rd_string8_clean : clean mem p (rd_string8 mem p).
  Proof.
    pose proof Hin'. unfold rd_string8.
    destruct (scan_nul_clean (Z.to_nat (r_end p - r_ptr p)) (r_ptr p)) as [E|(q & E & Hq)]; try lia;
      rewrite E; cbn [bind]; [apply clean_fail; assumption|].
    destruct (Z.leb_spec (r_ptr p + align4 (q - r_ptr p + 1)) (r_end p));
      [|apply clean_fail; assumption].
    rewrite load_inside by lia. cbn [bind].
    pose proof (align4_spec (q - r_ptr p + 1)).
    apply clean_ok; [assumption|lia].
  Qed.

  Lemma sgn32_range v : - 2 ^ 31 <= sgn 32 v < 2 ^ 31.
  Proof.
    unfold sgn. change (2 ^ (32 - 1)) with (2 ^ 31).
    destruct (Z.ltb_spec (v mod 2 ^ 32) (2 ^ 31)); lia.
  Qed.

  Lemma rd_nullable_string8_clean m :
    ~ bad_call m mem p KNullableString8 -> clean mem p (rd_nullable_string8 m mem p).
  Proof.
    intros Hbad. pose proof Hin'. unfold rd_nullable_string8.
    destruct (Z.leb_spec (r_ptr p + 4) (r_end p)) as [H4|H4]; [|apply clean_fail; assumption].
    rewrite load_inside by lia. cbn [bind].
    fold (len_field mem p). unfold bad_call in Hbad.
    pose proof (sgn32_range (unle (slice mem (r_ptr p) 4))) as HR. fold (len_field mem p) in HR.
    set (len := len_field mem p) in *.
    destruct (Z.eqb_spec len (-1)); [apply clean_ok; [assumption|lia]|].
    destruct (Z.leb_spec 0 len) as [Hl|Hl]; [|apply clean_fail; assumption].
    destruct (Z.lt_ge_cases len (2 ^ 31 - 4)) as [Hs|Hs].
    - rewrite (sarith32_ok m (len + 1)) by (unfold int32_max; lia). cbn [bind].
      rewrite sarith32_ok by (unfold int32_max; lia). cbn [bind].
      replace (u32 ((len + 1 + 3) / 4 * 4)) with (align4 (len + 1))
        by (unfold u32, align4; rewrite Z.mod_small; lia).
      pose proof (align4_spec (len + 1)).
      destruct (Z.leb_spec (r_ptr p + align4 (len + 1) + 4) (r_end p));
        [|apply clean_fail; assumption].
      rewrite load_inside by lia. cbn [bind].
      destruct (unle _ =? 0); [|apply clean_fail; assumption].
      rewrite load_inside by lia. cbn [bind]. apply clean_ok; [assumption|lia].
    - destruct m; [exfalso; apply Hbad; split; [assumption|lia]|]. clear Hbad.
      unfold sarith32 at 1. unfold int32_max.
      destruct ((- 2 ^ 31 <=? len + 1) && (len + 1 <=? 2 ^ 31 - 1)) eqn:E1; cbn [bind].
      + unfold sarith32. unfold int32_max.
        destruct ((- 2 ^ 31 <=? len + 1 + 3) && (len + 1 + 3 <=? 2 ^ 31 - 1)) eqn:E2; [lia|].
        cbn [bind].
        replace (sgn 32 (len + 1 + 3)) with (len + 4 - 2 ^ 32).
        2: { unfold sgn. change (2 ^ (32 - 1)) with (2 ^ 31).
             rewrite Z.mod_small by lia. destruct (Z.ltb_spec (len + 1 + 3) (2 ^ 31)); lia. }
        destruct (Z.leb_spec (r_ptr p + u32 ((len + 4 - 2 ^ 32) / 4 * 4) + 4) (r_end p)) as [X|X];
          [exfalso; unfold u32 in X; lia|apply clean_fail; assumption].
      + replace (sgn 32 (len + 1)) with (- 2 ^ 31).
        2: { replace len with (2 ^ 31 - 1) by lia. reflexivity. }
        rewrite sarith32_ok by (unfold int32_max; lia). cbn [bind].
        destruct (Z.leb_spec (r_ptr p + u32 ((- 2 ^ 31 + 3) / 4 * 4) + 4) (r_end p)) as [X|X];
          [exfalso; change (u32 ((- 2 ^ 31 + 3) / 4 * 4)) with (2 ^ 31) in X; lia
          |apply clean_fail; assumption].
  Qed.

  (* what the length computation gives for wrapping arithmetic *)
  Lemma utf16_wrap len :
    2 ^ 30 - 2 <= len < 2 ^ 31 - 2 ->
    exists v, (let* l1 := sarith32 Wrapv (len + 1) in
      let* l2 := sarith32 Wrapv (l1 * 2) in sarith32 Wrapv (l2 + 3)) = Ok v /\
      2 ^ 31 <= u32 (v / 4 * 4).
  Proof.
    intros Hl. rewrite sarith32_ok by (unfold int32_max; lia). cbn [bind].
    unfold sarith32 at 1. unfold int32_max.
    destruct ((- 2 ^ 31 <=? (len + 1) * 2) && ((len + 1) * 2 <=? 2 ^ 31 - 1)) eqn:E; cbn [bind].
    - unfold sarith32, int32_max.
      destruct ((- 2 ^ 31 <=? (len + 1) * 2 + 3) && ((len + 1) * 2 + 3 <=? 2 ^ 31 - 1)) eqn:E2; [lia|].
      exists (- 2 ^ 31 + 1). replace len with (2 ^ 30 - 2) by lia. split; [reflexivity|vm_compute; congruence].
    - replace (sgn 32 ((len + 1) * 2)) with ((len + 1) * 2 - 2 ^ 32).
      2: { unfold sgn. change (2 ^ (32 - 1)) with (2 ^ 31).
           rewrite Z.mod_small by lia. destruct (Z.ltb_spec ((len + 1) * 2) (2 ^ 31)); lia. }
      rewrite sarith32_ok by (unfold int32_max; lia).
      eexists; split; [reflexivity|]. unfold u32. lia.
  Qed.

  Lemma rd_nullable_utf16_clean m :
    ~ bad_call m mem p KUtf16 -> clean mem p (rd_nullable_utf16 m mem p).
  Proof.
    intros Hbad. pose proof Hin'. unfold rd_nullable_utf16.
    destruct (Z.leb_spec (r_ptr p + 4) (r_end p)) as [H4|H4]; [|apply clean_fail; assumption].
    rewrite load_inside by lia. cbn [bind].
    fold (len_field mem p). unfold bad_call in Hbad.
    pose proof (sgn32_range (unle (slice mem (r_ptr p) 4))) as HR. fold (len_field mem p) in HR.
    set (len := len_field mem p) in *.
    destruct (Z.eqb_spec len (-1)); [apply clean_ok; [assumption|lia]|].
    destruct (Z.leb_spec 0 len) as [Hl|Hl]; [|apply clean_fail; assumption].
    destruct (Z.lt_ge_cases len (2 ^ 30 - 2)) as [Hs|Hs].
    - rewrite (sarith32_ok m (len + 1)) by (unfold int32_max; lia). cbn [bind].
      rewrite (sarith32_ok m ((len + 1) * 2)) by (unfold int32_max; lia). cbn [bind].
      rewrite sarith32_ok by (unfold int32_max; lia). cbn [bind].
      replace (u32 (((len + 1) * 2 + 3) / 4 * 4)) with (align4 ((len + 1) * 2))
        by (unfold u32, align4; rewrite Z.mod_small; lia).
      pose proof (align4_spec ((len + 1) * 2)).
      destruct (Z.leb_spec (r_ptr p + align4 ((len + 1) * 2) + 4) (r_end p));
        [|apply clean_fail; assumption].
      rewrite load_inside by lia. cbn [bind].
      destruct (unle _ =? 0); [|apply clean_fail; assumption].
      rewrite load_inside by lia. cbn [bind]. apply clean_ok; [assumption|lia].
    - destruct m; [exfalso; apply Hbad; split; [assumption|lia]|].
      destruct (utf16_wrap len) as (v & Ev & Hv); [split; [lia|]|].
      { destruct (Z.lt_ge_cases len (2 ^ 31 - 2)); [assumption|exfalso; apply Hbad; split; [assumption|lia]]. }
      assert (E3 : forall B (k : Z -> res B), 
        (let* l1 := sarith32 Wrapv (len + 1) in
         let* l2 := sarith32 Wrapv (l1 * 2) in
         let* l3 := sarith32 Wrapv (l2 + 3) in k l3) = k v).
      { intros B k. revert Ev. unfold bind.
        destruct (sarith32 Wrapv (len + 1)); [|discriminate].
        destruct (sarith32 Wrapv (a * 2)); [|discriminate].
        intros ->. reflexivity. }
      rewrite E3.
      destruct (Z.leb_spec (r_ptr p + u32 (v / 4 * 4) + 4) (r_end p)) as [X|X];
        [exfalso; lia|apply clean_fail; assumption].
  Qed.

  Lemma rd_byte_array_clean :
    ~ bad_call Strict mem p KByteArray -> clean mem p (rd_byte_array mem p).
  Proof.
    intros Hbad. pose proof Hin'. unfold rd_byte_array.
    rewrite (can_read_inside mem) by (assumption || lia).
    destruct (Z.leb_spec (r_ptr p + 4) (r_end p)) as [H4|H4]; [|apply clean_fail; assumption].
    rewrite load_inside by lia. cbn [bind].
    fold (len_field mem p). unfold bad_call in Hbad.
    pose proof (sgn32_range (unle (slice mem (r_ptr p) 4))) as HR. fold (len_field mem p) in HR.
    set (l := len_field mem p) in *.
    destruct (Z.leb_spec l 0); [apply clean_ok; [assumption|lia]|].
    rewrite (can_read_inside mem) by (assumption || lia).
    destruct (Z.leb_spec (r_ptr p + (4 + l)) (r_end p)); [|apply clean_fail; assumption].
    rewrite load_inside by lia. cbn [bind].
    pose proof (align4_spec l). apply clean_ok; [assumption|lia].
  Qed.
End Fixed.

Lemma rd_parcelable_moved mem p :
  inside mem p -> blen mem < 2 ^ 31 -> all_bytes mem ->
  exists o p1, rd_parcelable mem p = Ok (o, p1) /\ moved mem p p1 /\
    (o = None -> r_ptr p1 <= r_ptr p + 8).
Proof.
  intros Hin Hb Hall. unfold rd_parcelable.
  unfold rd_uint32 at 1. pose proof Hin as (G1 & G2 & G3 & G4).
  rewrite (can_read_inside mem) by (assumption || lia).
  destruct (Z.leb_spec (r_ptr p + 4) (r_end p)) as [H4|H4].
  2: { cbn. exists None, p. split; [reflexivity|]. split; [apply moved_refl; assumption|lia]. }
  rewrite load_inside by lia. cbn [bind ok].
  pose proof (moved_set mem p (r_ptr p + 4) Hin ltac:(lia)) as M1.
  destruct (_ =? 0).
  { exists None; eexists; split; [reflexivity|]. split; [exact M1|cbn; lia]. }
  set (p1 := r_set_ptr p (r_ptr p + 4)) in *.
  assert (Hin1 : inside mem p1) by apply M1. pose proof Hin1 as (K1 & K2 & K3 & K4).
  assert (Hp1 : r_ptr p1 = r_ptr p + 4) by reflexivity.
  assert (He1 : r_end p1 = r_end p) by reflexivity.
  unfold rd_uint32. rewrite (can_read_inside mem) by (assumption || lia).
  destruct (Z.leb_spec (r_ptr p1 + 4) (r_end p1)).
  2: { cbn. exists None, p1. split; [reflexivity|]. split; [exact M1|lia]. }
  rewrite load_inside by lia. cbn [bind ok].
  pose proof (moved_set mem p1 (r_ptr p1 + 4) Hin1 ltac:(lia)) as M2.
  set (p2 := r_set_ptr p1 (r_ptr p1 + 4)) in *.
  pose proof (moved_trans _ _ _ _ M1 M2) as M12.
  assert (Hin2 : inside mem p2) by apply M2. pose proof Hin2 as (L1 & L2 & L3 & L4).
  assert (Hp2 : r_ptr p2 = r_ptr p + 8) by (cbn; lia).
  assert (He2 : r_end p2 = r_end p) by reflexivity.
  assert (HU : 0 <= unle (slice mem (r_ptr p1) 4)).
  { apply (unle_bound (slice mem (r_ptr p1) 4)). apply Forall_slice; exact Hall. }
  set (n := unle (slice mem (r_ptr p1) 4)) in *.
  destruct (Z.leb_spec 4 n).
  2: { exists None, p2. split; [reflexivity|]. split; [exact M12|lia]. }
  destruct (Z.leb_spec (r_ptr p2 + (n - 4)) (r_end p2)).
  2: { exists None, p2. split; [reflexivity|]. split; [exact M12|lia]. }
  rewrite load_inside by lia. cbn [bind ok].
  eexists (Some _), _. split; [reflexivity|]. split; [|discriminate].
  eapply moved_trans; [exact M12|]. apply moved_set; [assumption|lia].
Qed.

Lemma rd_raw_moved mem p n :
  inside mem p -> blen mem < 2 ^ 31 ->
  exists o p1, rd_raw mem p n = Ok (o, p1) /\ moved mem p p1.
Proof.
  intros Hin Hb. revert p Hin; induction n as [|n IH]; intros p Hin; cbn [rd_raw].
  - exists (Some []), p; split; [reflexivity|apply moved_refl; assumption].
  - destruct (rd_byte_clean mem p Hin) as (o & p1 & E & M & _). rewrite E.
    destruct o as [b|]; [|exists None, p1; split; [reflexivity|exact M]].
    destruct (IH p1 (proj1 M)) as (o2 & p2 & E2 & M2). rewrite E2.
    pose proof (moved_trans _ _ _ _ M M2).
    destruct o2 as [l|]; eexists _, p2; split; try reflexivity; assumption.
Qed.

(* kinds whose failure leaves the reader where it was *)
Definition atomic_kind (k : kind) : Prop :=
  match k with KParcelable | KRaw _ => False | _ => True end.

Lemma clean_wrap A (f : A -> result) mem p x :
  (forall a, f a <> RFail) -> clean mem p x ->
  exists o p1, wrap f x = Ok (o, p1) /\ moved mem p p1 /\ (o = RFail -> p1 = p).
Proof.
  intros Hf (o & p1 & -> & M & Hn). destruct o as [a|]; cbn.
  - exists (f a), p1; split; [reflexivity|]; split; [exact M|]. intros X; elim (Hf a X).
  - exists RFail, p1; split; [reflexivity|]; split; [exact M|]. auto.
Qed.

Lemma read_kind_safe m mem p k :
  inside mem p -> blen mem < 2 ^ 31 -> all_bytes mem -> ~ bad_call m mem p k ->
  exists r p1, read_kind m mem p k = Ok (r, p1) /\ moved mem p p1 /\
    (atomic_kind k -> r = RFail -> p1 = p).
Proof.
  intros Hin Hb Hall Hbad.
  assert (W : forall A (f : A -> result) x, (forall a, f a <> RFail) -> clean mem p x ->
    exists o p1, wrap f x = Ok (o, p1) /\ moved mem p p1 /\
      (atomic_kind k -> o = RFail -> p1 = p)).
  { intros A f x Hf Hc. destruct (clean_wrap A f mem p x Hf Hc) as (o & p1 & E & M & N).
    exists o, p1; split; [exact E|]; split; [exact M|]; intros _; exact N. }
  destruct k; cbn [read_kind].
  - apply W; [discriminate|]. apply clean_map, rd_uint32_clean; assumption.
  - apply W; [discriminate|]. apply clean_map, rd_uint8_clean; assumption.
  - apply W; [discriminate|]. apply rd_uint8_clean; assumption.
  - apply W; [discriminate|]. apply clean_map, rd_uint16_clean; assumption.
  - apply W; [discriminate|]. apply rd_uint16_clean; assumption.
  - apply W; [discriminate|]. apply clean_map, rd_uint32_clean; assumption.
  - apply W; [discriminate|]. apply rd_uint32_clean; assumption.
  - apply W; [discriminate|]. apply clean_map, rd_uint64_clean; assumption.
  - apply W; [discriminate|]. apply rd_uint64_clean; assumption.
  - apply W; [discriminate|]. apply rd_uint32_clean; assumption.
  - apply W; [discriminate|]. apply rd_uint64_clean; assumption.
  - apply W; [discriminate|]. apply rd_string8_clean; assumption.
  - apply W; [discriminate|]. apply clean_map, rd_nullable_utf16_clean; assumption.
  - apply W; [discriminate|]. apply rd_nullable_utf16_clean; assumption.
  - destruct (rd_parcelable_moved mem p Hin Hb Hall) as (o & p1 & E & M & _). rewrite E.
    destruct o; cbn; eexists _, p1; split; try reflexivity; (split; [exact M|intros []]).
  - apply W; [discriminate|]. apply rd_byte_array_clean; try assumption.
  - destruct (rd_raw_moved mem p n Hin Hb) as (o & p1 & E & M). rewrite E.
    destruct o; cbn; eexists _, p1; split; try reflexivity; (split; [exact M|intros []]).
  - apply W; [discriminate|]. apply rd_nullable_string8_clean; assumption.
Qed.

Lemma read_kinds_safe m mem p ks :
  inside mem p -> blen mem < 2 ^ 31 -> all_bytes mem -> good_calls m mem p ks ->
  exists rs p1, read_kinds m mem p ks = Ok (rs, p1) /\ moved mem p p1.
Proof.
  intros Hin Hb Hall. revert p Hin; induction ks as [|k ks IH]; intros p Hin Hg; cbn [read_kinds].
  - exists [], p; split; [reflexivity|apply moved_refl; assumption].
  - destruct Hg as [Hk Hg].
    destruct (read_kind_safe m mem p k Hin Hb Hall Hk) as (r & p1 & E & M & _).
    rewrite E in Hg. rewrite E. cbn [bind].
    destruct (IH p1 (proj1 M) Hg) as (rs & p2 & E2 & M2). rewrite E2. cbn [bind].
    exists (r :: rs), p2; split; [reflexivity|eapply moved_trans; eauto].
Qed.

(* Exactness of the guard: a bad call leaves the data *)
Lemma bad_call_bad m mem p k :
  inside mem p -> blen mem < 2 ^ 31 -> bad_call m mem p k ->
  match read_kind m mem p k with
  | Ok (_, p1) => r_end p1 < r_ptr p1
  | Fault _ => True
  end.
Proof.
  intros Hin Hb (H4 & Hk). pose proof Hin as (G1 & G2 & G3 & G4).
  destruct k; try contradiction; cbn [read_kind].
  - unfold rd_nullable_string16, rd_nullable_utf16.
    destruct (Z.leb_spec (r_ptr p + 4) (r_end p)); [|lia].
    rewrite load_inside by lia. cbn [bind]. fold (len_field mem p).
    pose proof (sgn32_range (unle (slice mem (r_ptr p) 4))) as HR. fold (len_field mem p) in HR.
    set (len := len_field mem p) in *.
    destruct (Z.eqb_spec len (-1)); [destruct m; lia|].
    destruct (Z.leb_spec 0 len); [|destruct m; lia].
    destruct m.
    + assert (E : (let* l1 := sarith32 Strict (len + 1) in
      let* l2 := sarith32 Strict (l1 * 2) in sarith32 Strict (l2 + 3)) = Fault SignedOverflow).
      { unfold sarith32, int32_max. 
        destruct ((- 2 ^ 31 <=? len + 1) && _) eqn:E1; cbn [bind]; [|reflexivity].
        destruct ((- 2 ^ 31 <=? (len + 1) * 2) && _) eqn:E2; cbn [bind]; [|reflexivity].
        destruct ((- 2 ^ 31 <=? (len + 1) * 2 + 3) && _) eqn:E3; cbn [bind]; [lia|reflexivity]. }
      revert E. unfold bind.
      destruct (sarith32 Strict (len + 1)); [|intros; exact I].
      destruct (sarith32 Strict (a * 2)); [|intros; exact I].
      intros ->. exact I.
    + assert (len = 2 ^ 31 - 2 \/ len = 2 ^ 31 - 1) as HX by lia.
      assert (E : (let* l1 := sarith32 Wrapv (len + 1) in
      let* l2 := sarith32 Wrapv (l1 * 2) in sarith32 Wrapv (l2 + 3)) = Ok 1 \/
      (let* l1 := sarith32 Wrapv (len + 1) in
      let* l2 := sarith32 Wrapv (l1 * 2) in sarith32 Wrapv (l2 + 3)) = Ok 3).
      { destruct HX as [-> | ->]; [left|right]; reflexivity. }
      revert E. unfold bind.
      destruct (sarith32 Wrapv (len + 1)); [|intros; exact I].
      destruct (sarith32 Wrapv (a * 2)); [|intros; exact I].
      intros [-> | ->]; [change (u32 (1 / 4 * 4)) with 0|change (u32 (3 / 4 * 4)) with 0];
      (destruct (Z.leb_spec (r_ptr p + 0 + 4) (r_end p)); [|lia]; 
      unfold load; destruct ((0 <=? r_ptr p + 4 + 2 * len) && _) eqn:EL; [lia|exact I]).
  - unfold rd_nullable_utf16.
    destruct (Z.leb_spec (r_ptr p + 4) (r_end p)); [|lia].
    rewrite load_inside by lia. cbn [bind]. fold (len_field mem p).
    pose proof (sgn32_range (unle (slice mem (r_ptr p) 4))) as HR. fold (len_field mem p) in HR.
    set (len := len_field mem p) in *.
    destruct (Z.eqb_spec len (-1)); [destruct m; lia|].
    destruct (Z.leb_spec 0 len); [|destruct m; lia].
    destruct m.
    + assert (E : (let* l1 := sarith32 Strict (len + 1) in
      let* l2 := sarith32 Strict (l1 * 2) in sarith32 Strict (l2 + 3)) = Fault SignedOverflow).
      { unfold sarith32, int32_max. 
        destruct ((- 2 ^ 31 <=? len + 1) && _) eqn:E1; cbn [bind]; [|reflexivity].
        destruct ((- 2 ^ 31 <=? (len + 1) * 2) && _) eqn:E2; cbn [bind]; [|reflexivity].
        destruct ((- 2 ^ 31 <=? (len + 1) * 2 + 3) && _) eqn:E3; cbn [bind]; [lia|reflexivity]. }
      revert E. unfold bind.
      destruct (sarith32 Strict (len + 1)); [|intros; exact I].
      destruct (sarith32 Strict (a * 2)); [|intros; exact I].
      intros ->. exact I.
    + assert (len = 2 ^ 31 - 2 \/ len = 2 ^ 31 - 1) as HX by lia.
      assert (E : (let* l1 := sarith32 Wrapv (len + 1) in
      let* l2 := sarith32 Wrapv (l1 * 2) in sarith32 Wrapv (l2 + 3)) = Ok 1 \/
      (let* l1 := sarith32 Wrapv (len + 1) in
      let* l2 := sarith32 Wrapv (l1 * 2) in sarith32 Wrapv (l2 + 3)) = Ok 3).
      { destruct HX as [-> | ->]; [left|right]; reflexivity. }
      revert E. unfold bind.
      destruct (sarith32 Wrapv (len + 1)); [|intros; exact I].
      destruct (sarith32 Wrapv (a * 2)); [|intros; exact I].
      intros [-> | ->]; [change (u32 (1 / 4 * 4)) with 0|change (u32 (3 / 4 * 4)) with 0];
      (destruct (Z.leb_spec (r_ptr p + 0 + 4) (r_end p)); [|lia]; 
      unfold load; destruct ((0 <=? r_ptr p + 4 + 2 * len) && _) eqn:EL; [lia|exact I]).
  - unfold rd_byte_array. rewrite (can_read_inside mem) by (assumption || lia).
    destruct (Z.leb_spec (r_ptr p + 4) (r_end p)); [|lia].
    rewrite load_inside by lia. cbn [bind]. fold (len_field mem p).
    pose proof (sgn32_range (unle (slice mem (r_ptr p) 4))) as HR. fold (len_field mem p) in HR.
    set (l := len_field mem p) in *.
    destruct (Z.leb_spec l 0); [lia|].
    rewrite (can_read_inside mem) by (assumption || lia).
    destruct (Z.leb_spec (r_ptr p + (4 + l)) (r_end p)); [|lia].
    rewrite load_inside by lia. cbn. lia.
  - unfold rd_nullable_string8.
    destruct (Z.leb_spec (r_ptr p + 4) (r_end p)); [|lia].
    rewrite load_inside by lia. cbn [bind]. fold (len_field mem p).
    pose proof (sgn32_range (unle (slice mem (r_ptr p) 4))) as HR. fold (len_field mem p) in HR.
    set (len := len_field mem p) in *.
    destruct (Z.eqb_spec len (-1)); [destruct m; lia|].
    destruct (Z.leb_spec 0 len); [|destruct m; lia].
    destruct m; [|contradiction].
    assert (E : (let* l1 := sarith32 Strict (len + 1) in sarith32 Strict (l1 + 3)) =
       Fault SignedOverflow).
    { unfold sarith32, int32_max. 
        destruct ((- 2 ^ 31 <=? len + 1) && _) eqn:E1; cbn [bind]; [|reflexivity].
        destruct ((- 2 ^ 31 <=? len + 1 + 3) && _) eqn:E3; cbn [bind]; [lia|reflexivity]. }
    revert E. unfold bind.
    destruct (sarith32 Strict (len + 1)); [|intros; exact I].
    intros ->. exact I.
Qed.

(* ------------------------------------------------------------------ *)
(* Chunks: alignment, initialised bytes *)

Lemma chunk_bytes v : value_ok v -> all_bytes (chunk v).
Proof.
  assert (Z0 : is_byte 0) by (unfold is_byte; lia).
  assert (ZF : is_byte 0xff) by (unfold is_byte; lia).
  assert (HE : all_bytes empty16_chunk).
  { unfold empty16_chunk; rewrite !all_bytes_app; repeat split; apply all_bytes_le. }
  assert (HU : forall u, all_bytes (units_chunk u)).
  { intros u; unfold units_chunk; rewrite !all_bytes_app; repeat split.
    - apply all_bytes_le.
    - apply units_bytes_bytes.
    - apply all_bytes_zrepeat; assumption. }
  assert (H8 : forall s, all_bytes s -> all_bytes (string8_chunk s)).
  { intros s Hs; unfold string8_chunk; rewrite all_bytes_app; split; [assumption|].
    apply all_bytes_zrepeat; assumption. }
  destruct v; intros Hv; cbn [chunk value_ok] in *; try apply all_bytes_le.
  - apply all_bytes_app; split; [constructor; [unfold is_byte; destruct b; lia|constructor]|].
    apply all_bytes_zrepeat; assumption.
  - apply all_bytes_app; split; [apply all_bytes_le|apply all_bytes_zrepeat; assumption].
  - apply all_bytes_app; split; [apply all_bytes_le|apply all_bytes_zrepeat; assumption].
  - apply all_bytes_app; split; [apply all_bytes_le|apply all_bytes_zrepeat; assumption].
  - apply all_bytes_app; split; [apply all_bytes_le|apply all_bytes_zrepeat; assumption].
  - apply H8; tauto.
  - destruct s as [s|]; [|apply all_bytes_le].
    destruct (utf8_prefix (utf8 s)); [assumption|apply HU].
  - destruct u as [[|x u]|]; [assumption|apply HU|apply all_bytes_le].
  - destruct p as [d|]; cbn [parcelable_chunk]; [|apply all_bytes_le].
    rewrite !all_bytes_app; repeat split; try apply all_bytes_le; assumption.
  - destruct a as [[|x d]|]; cbn [byte_array_chunk]; try apply all_bytes_le.
    rewrite !all_bytes_app; repeat split; [apply all_bytes_le|assumption|].
    apply all_bytes_zrepeat; assumption.
  - assumption.
  - destruct s as [s|]; [|apply all_bytes_le].
    apply all_bytes_app; split; [apply all_bytes_le|apply H8; assumption].
Qed.

(* Items whose size the caller alone decides *)
Definition padded_value (v : value) : Prop :=
  match v with
  | VRaw l => blen l mod 4 = 0
  | VParcelable (Some d) => blen d mod 4 = 0
  | _ => True
  end.

Lemma chunk_aligned v : padded_value v -> blen (chunk v) mod 4 = 0.
Proof.
  assert (H8 : forall s, blen (string8_chunk s) mod 4 = 0).
  { intros s. rewrite string8_chunk_len. apply align4_spec. }
  assert (HU : forall u, blen (units_chunk u) mod 4 = 0).
  { intros u. rewrite units_chunk_len. pose proof (align4_spec ((blen u + 1) * 2)). lia. }
  destruct v; intros Hv; cbn [chunk padded_value] in *;
    rewrite ?blen_app, ?blen_cons, ?blen_nil, ?blen_le, ?blen_zrepeat; try reflexivity.
  - apply H8.
  - destruct s as [s|]; [|reflexivity].
    destruct (utf8_prefix (utf8 s)); [reflexivity|apply HU].
  - destruct u as [[|x u]|]; [reflexivity|apply HU|reflexivity].
  - destruct p as [d|]; cbn [parcelable_chunk]; [|reflexivity].
    rewrite !blen_app, !blen_le. lia.
  - destruct a as [[|x d]|]; cbn [byte_array_chunk]; try reflexivity.
    set (l := x :: d). pose proof (align4_spec (blen l)). pose proof (blen_nonneg _ l).
    rewrite !blen_app, blen_le, blen_zrepeat. lia.
  - assumption.
  - destruct s as [s|]; [|reflexivity]. rewrite blen_app, blen_le. specialize (H8 s). lia.
Qed.

Lemma append_only buf vs :
  Forall value_ok vs ->
  exists added, append_values buf vs = Ok (buf ++ added) /\ all_bytes added /\
    (Forall padded_value vs -> blen added mod 4 = 0).
Proof.
  intros Hv. exists (flat_map chunk vs). split; [apply append_values_eq|]. split.
  - induction Hv; cbn [flat_map]; [constructor|].
    apply all_bytes_app; split; [apply chunk_bytes; assumption|assumption].
  - clear Hv. induction 1 as [|v vs H1 H2 IH]; cbn [flat_map]; [reflexivity|].
    rewrite blen_app. pose proof (chunk_aligned v H1). lia.
Qed.

(* ------------------------------------------------------------------ *)
(* overwrite_int32 *)

Lemma overwrite_inside buf off v :
  0 <= off -> off + 4 <= blen buf -> blen buf < 2 ^ 32 ->
  exists out, w_overwrite_int32 buf off v = Ok out /\
    blen out = blen buf /\ slice out off 4 = le 4 v /\
    (forall i, (Z.of_nat i < off \/ off + 4 <= Z.of_nat i) -> nth_error out i = nth_error buf i).
Proof.
  intros H0 H1 Hb. unfold w_overwrite_int32, store.
  replace (u64 (off + 4)) with (off + 4) by (unfold u64; rewrite Z.mod_small; lia).
  destruct (Z.leb_spec (off + 4) (blen buf)); [|lia].
  rewrite blen_le.
  destruct ((0 <=? off) && (off + Z.of_nat 4 <=? blen buf)) eqn:E; [|lia].
  eexists; split; [reflexivity|]. repeat split.
  - apply blen_poke; rewrite ?blen_le; lia.
  - replace 4 with (blen (le 4 v)) by (rewrite blen_le; lia).
    apply poke_inside; rewrite ?blen_le; lia.
  - intros i Hi. apply poke_outside; rewrite ?blen_le; lia.
Qed.

Lemma overwrite_outside buf off v :
  0 <= off < 2 ^ 64 - 4 -> blen buf < off + 4 -> w_overwrite_int32 buf off v = Ok buf.
Proof.
  intros H0 H1. unfold w_overwrite_int32.
  replace (u64 (off + 4)) with (off + 4) by (unfold u64; rewrite Z.mod_small; lia).
  destruct (Z.leb_spec (off + 4) (blen buf)); [lia|reflexivity].
Qed.

Lemma overwrite_wraps buf off v :
  2 ^ 64 - 4 <= off < 2 ^ 64 -> off + 4 - 2 ^ 64 <= blen buf < 2 ^ 32 ->
  w_overwrite_int32 buf off v = Fault OutOfBounds.
Proof.
  intros H0 H1. unfold w_overwrite_int32.
  assert (E : u64 (off + 4) = off + 4 - 2 ^ 64).
  { unfold u64. replace (off + 4) with (off + 4 - 2 ^ 64 + 1 * 2 ^ 64) at 1 by lia.
    rewrite Z_mod_plus_full. apply Z.mod_small; lia. }
  rewrite E.
  destruct (Z.leb_spec (off + 4 - 2 ^ 64) (blen buf)); [|lia].
  unfold store. rewrite blen_le.
  destruct ((0 <=? off) && (off + Z.of_nat 4 <=? blen buf)) eqn:E1; [lia|reflexivity].
Qed.

(* string16 for arbitrary bytes: the longest valid prefix is what arrives *)
Lemma string16_any m s objs :
  all_bytes s -> 
  exists buf, w_string16 [] (Some s) = Ok buf /\
    (blen buf < 2 ^ 31 ->
     exists p1, read_kind m buf (reader_init 0 (blen buf) objs) KString16 =
       Ok (RText (Some (utf8 (utf8_prefix s))), p1) /\ r_ptr p1 = blen buf).
Proof.
  intros Hs. destruct (utf8_prefix_scalars s) as [P1 P2].
  set (t := utf8_prefix s) in *.
  assert (E : w_string16 [] (Some s) = append_value [] (VString16 (Some t))).
  { rewrite append_value_eq. cbn [chunk]. rewrite utf8_prefix_utf8 by assumption.
    destruct t as [|c t'] eqn:Et.
    - unfold w_string16. unfold t in Et. rewrite Et. cbn. apply w_string16_empty_eq.
    - rewrite w_string16_some_eq by (fold t; congruence). fold t. rewrite Et. reflexivity. }
  rewrite E, append_value_eq. cbn [app].
  eexists; split; [reflexivity|]. intros Hsz.
  eexists. split.
  - apply (read_value_at m _ _ [] [] (VString16 (Some t))).
    + split; assumption.
    + repeat split; cbn [reader_init r_ptr r_end]; rewrite ?app_nil_r; cbn [app];
      rewrite ?blen_nil; lia || reflexivity.
    + exact Hsz.
  - cbn. lia.
Qed.

(* ------------------------------------------------------------------ *)
(* Statements in terms of a freshly initialised reader *)

Lemma init_inside mem off len objs :
  0 <= off -> 0 <= len -> off + len <= blen mem -> inside mem (reader_init off len objs).
Proof. intros; unfold inside, reader_init; cbn; lia. Qed.

Lemma read_from_init m mem off len objs ks :
  0 <= off -> 0 <= len -> off + len <= blen mem -> blen mem < 2 ^ 31 -> all_bytes mem ->
  good_calls m mem (reader_init off len objs) ks ->
  exists rs p, read_kinds m mem (reader_init off len objs) ks = Ok (rs, p) /\
    inside mem p /\ r_start p = off /\ r_end p = off + len.
Proof.
  intros H1 H2 H3 H4 H5 Hg.
  destruct (read_kinds_safe m mem _ ks (init_inside mem off len objs H1 H2 H3) H4 H5 Hg)
    as (rs & p & E & (M1 & M2 & M3 & M4 & M5)).
  exists rs, p. split; [exact E|]. split; [exact M1|]. split; assumption.
Qed.

Lemma accounting m mem off len objs ks rs p k :
  0 <= off -> 0 <= len -> off + len <= blen mem -> blen mem < 2 ^ 31 -> all_bytes mem ->
  good_calls m mem (reader_init off len objs) ks ->
  read_kinds m mem (reader_init off len objs) ks = Ok (rs, p) ->
  ~ bad_call m mem p k ->
  r_bytes_read p + r_bytes_remaining p = len /\
  (r_at_end p = true <-> r_bytes_remaining p = 0) /\
  exists r p1, read_kind m mem p k = Ok (r, p1) /\
    r_bytes_read p1 + r_bytes_remaining p1 = len /\
    r_bytes_read p <= r_bytes_read p1 <= len /\
    (atomic_kind k -> r = RFail -> p1 = p).
Proof.
  intros H1 H2 H3 H4 H5 Hg HE Hk.
  destruct (read_from_init m mem off len objs ks H1 H2 H3 H4 H5 Hg) as (rs' & p' & E & Hi & Hs & He).
  rewrite HE in E. inversion E; subst rs' p'. clear E.
  pose proof Hi as (I1 & I2 & I3 & I4).
  destruct (read_kind_safe m mem p k Hi H4 H5 Hk) as (r & p1 & E1 & (M1 & M2 & M3 & M4 & M5) & Hf).
  pose proof M1 as (J1 & J2 & J3 & J4).
  unfold r_bytes_read, r_bytes_remaining, r_at_end, u64.
  rewrite !Z.mod_small by lia.
  split; [lia|]. split; [lia|].
  exists r, p1. split; [exact E1|]. rewrite !Z.mod_small by lia.
  split; [lia|]. split; [lia|]. exact Hf.
Qed.
