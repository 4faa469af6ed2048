(* Round trips of the UTF-8 and UTF-16 encodings *)
From Verif Require Import Base BaseLemmas UtfModel.

Lemma utf8_char_bytes c : is_scalar c -> all_bytes (utf8_char c).
Proof.
  intros H; unfold is_scalar in H; unfold utf8_char.
  destruct (Z.ltb_spec c 0x80); [repeat constructor; lia|].
  destruct (Z.ltb_spec c 0x800); [repeat constructor; lia|].
  destruct (Z.ltb_spec c 0x10000); [repeat constructor; lia|].
  repeat constructor; lia.
Qed.

Lemma utf8_bytes s : Forall is_scalar s -> all_bytes (utf8 s).
Proof.
  induction 1 as [|c s Hc Hs IH]; cbn [utf8 flat_map]; [constructor|].
  apply Forall_app; split; [apply utf8_char_bytes; assumption | exact IH].
Qed.

Lemma is_scalarb_true c : is_scalar c -> is_scalarb c = true.
Proof. unfold is_scalar, is_scalarb; lia. Qed.

Lemma is_scalarb_spec c : is_scalarb c = true <-> is_scalar c.
Proof. unfold is_scalar, is_scalarb; lia. Qed.

Lemma utf8_prefix_char c r :
  is_scalar c -> c <> 0 -> utf8_prefix (utf8_char c ++ r) = c :: utf8_prefix r.
Proof.
  intros H H0. pose proof (is_scalarb_true c H) as HS. unfold is_scalar in H. unfold utf8_char.
  destruct (Z.ltb_spec c 0x80).
  { cbn [app utf8_prefix].
    destruct (Z.leb_spec c 0); [lia|]. destruct (Z.ltb_spec c 0x80); [reflexivity|lia]. }
  destruct (Z.ltb_spec c 0x800).
  { cbn [app utf8_prefix].
    destruct (Z.leb_spec (0xc0 + c / 64) 0); [lia|].
    destruct (Z.ltb_spec (0xc0 + c / 64) 0x80); [lia|].
    destruct ((0xc2 <=? 0xc0 + c / 64) && (0xc0 + c / 64 <? 0xe0)) eqn:E; [|lia].
    destruct (is_cont (0x80 + c mod 64)) eqn:E2; [|unfold is_cont in E2; lia].
    f_equal; lia. }
  destruct (Z.ltb_spec c 0x10000).
  { cbn [app utf8_prefix].
    destruct (Z.leb_spec (0xe0 + c / 4096) 0); [lia|].
    destruct (Z.ltb_spec (0xe0 + c / 4096) 0x80); [lia|].
    destruct ((0xc2 <=? 0xe0 + c / 4096) && (0xe0 + c / 4096 <? 0xe0)) eqn:E; [lia|].
    destruct ((0xe0 <=? 0xe0 + c / 4096) && (0xe0 + c / 4096 <? 0xf0)) eqn:E1; [|lia].
    cbv zeta.
    replace ((0xe0 + c / 4096 - 0xe0) * 4096 + (0x80 + c / 64 mod 64 - 0x80) * 64 +
             (0x80 + c mod 64 - 0x80)) with c by lia.
    rewrite HS.
    replace (is_cont (0x80 + c / 64 mod 64)) with true by (unfold is_cont; lia).
    replace (is_cont (0x80 + c mod 64)) with true by (unfold is_cont; lia).
    replace (0x800 <=? c) with true by lia. reflexivity. }
  cbn [app utf8_prefix].
  destruct (Z.leb_spec (0xf0 + c / 262144) 0); [lia|].
  destruct (Z.ltb_spec (0xf0 + c / 262144) 0x80); [lia|].
  destruct ((0xc2 <=? 0xf0 + c / 262144) && (0xf0 + c / 262144 <? 0xe0)) eqn:E; [lia|].
  destruct ((0xe0 <=? 0xf0 + c / 262144) && (0xf0 + c / 262144 <? 0xf0)) eqn:E1; [lia|].
  destruct ((0xf0 <=? 0xf0 + c / 262144) && (0xf0 + c / 262144 <? 0xf5)) eqn:E2; [|lia].
  cbv zeta.
  replace ((0xf0 + c / 262144 - 0xf0) * 262144 + (0x80 + c / 4096 mod 64 - 0x80) * 4096 +
           (0x80 + c / 64 mod 64 - 0x80) * 64 + (0x80 + c mod 64 - 0x80)) with c by lia.
  rewrite HS.
  replace (is_cont (0x80 + c / 4096 mod 64)) with true by (unfold is_cont; lia).
  replace (is_cont (0x80 + c / 64 mod 64)) with true by (unfold is_cont; lia).
  replace (is_cont (0x80 + c mod 64)) with true by (unfold is_cont; lia).
  replace (0x10000 <=? c) with true by lia. reflexivity.
Qed.

Lemma utf8_prefix_utf8 s :
  Forall is_scalar s -> ~ In 0 s -> utf8_prefix (utf8 s) = s.
Proof.
  induction 1 as [|c s Hc Hs IH]; intros H0; cbn [utf8 flat_map]; [reflexivity|].
  rewrite utf8_prefix_char.
  - f_equal. apply IH. intros H; apply H0; right; exact H.
  - exact Hc.
  - intros ->; apply H0; left; reflexivity.
Qed.

(* What g_utf8_validate accepts is the encoding of a prefix *)
Lemma utf8_prefix_is_prefix l : exists r, l = utf8 (utf8_prefix l) ++ r.
Proof.
  assert (G : forall n l, (length l <= n)%nat -> exists r, l = utf8 (utf8_prefix l) ++ r).
  2: { apply (G (length l)); lia. }
  clear l; induction n as [|n IH]; intros l Hl.
  { destruct l; [|cbn in Hl; lia]. exists []; reflexivity. }
  destruct l as [|b0 r0]; [exists []; reflexivity|].
  cbn [length] in Hl. cbn [utf8_prefix].
  destruct (Z.leb_spec b0 0); [eexists; reflexivity|].
  destruct (Z.ltb_spec b0 0x80).
  { destruct (IH r0 ltac:(lia)) as [r Hr]. exists r.
    cbn [utf8 flat_map]. fold (utf8 (utf8_prefix r0)).
    unfold utf8_char. destruct (Z.ltb_spec b0 0x80); [|lia].
    cbn [app]. rewrite <- Hr. reflexivity. }
  destruct ((0xc2 <=? b0) && (b0 <? 0xe0)) eqn:E.
  { destruct r0 as [|b1 r1]; [eexists; reflexivity|].
    destruct (is_cont b1) eqn:C1; [|eexists; reflexivity].
    cbn [length] in Hl. destruct (IH r1 ltac:(lia)) as [r Hr]. exists r.
    cbn [utf8 flat_map]. fold (utf8 (utf8_prefix r1)).
    rewrite <- app_assoc, <- Hr. unfold is_cont in C1. unfold utf8_char.
    set (c := (b0 - 0xc0) * 64 + (b1 - 0x80)).
    destruct (Z.ltb_spec c 0x80); [lia|]. destruct (Z.ltb_spec c 0x800); [|lia].
    cbn [app]. f_equal; [lia|]. f_equal. lia. }
  destruct ((0xe0 <=? b0) && (b0 <? 0xf0)) eqn:E1.
  { destruct r0 as [|b1 r1]; [eexists; reflexivity|].
    destruct r1 as [|b2 r2]; [eexists; reflexivity|].
    cbv zeta. set (c := (b0 - 0xe0) * 4096 + (b1 - 0x80) * 64 + (b2 - 0x80)).
    destruct (is_cont b1 && is_cont b2 && (0x800 <=? c) && is_scalarb c) eqn:C;
      [|eexists; reflexivity].
    cbn [length] in Hl. destruct (IH r2 ltac:(lia)) as [r Hr]. exists r.
    cbn [utf8 flat_map]. fold (utf8 (utf8_prefix r2)).
    rewrite <- app_assoc, <- Hr. unfold is_cont, is_scalarb in C. unfold utf8_char.
    destruct (Z.ltb_spec c 0x80); [lia|]. destruct (Z.ltb_spec c 0x800); [lia|].
    destruct (Z.ltb_spec c 0x10000); [|lia].
    assert (B1 : 0x80 <= b1 < 0xc0) by lia. assert (B2 : 0x80 <= b2 < 0xc0) by lia.
    assert (Hc : c = (b0 - 0xe0) * 4096 + (b1 - 0x80) * 64 + (b2 - 0x80)) by reflexivity.
    clearbody c. clear E E1 C IH Hr Hl. cbn [app].
    f_equal; [lia|]. f_equal; [lia|]. f_equal; lia. }
  destruct ((0xf0 <=? b0) && (b0 <? 0xf5)) eqn:E2; [|eexists; reflexivity].
  destruct r0 as [|b1 r1]; [eexists; reflexivity|].
  destruct r1 as [|b2 r2]; [eexists; reflexivity|].
  destruct r2 as [|b3 r3]; [eexists; reflexivity|].
  cbv zeta. set (c := (b0 - 0xf0) * 262144 + (b1 - 0x80) * 4096 + (b2 - 0x80) * 64 + (b3 - 0x80)).
  destruct (is_cont b1 && is_cont b2 && is_cont b3 && (0x10000 <=? c) && is_scalarb c) eqn:C;
    [|eexists; reflexivity].
  cbn [length] in Hl. destruct (IH r3 ltac:(lia)) as [r Hr]. exists r.
  cbn [utf8 flat_map]. fold (utf8 (utf8_prefix r3)).
  rewrite <- app_assoc, <- Hr. unfold is_cont, is_scalarb in C. unfold utf8_char.
  destruct (Z.ltb_spec c 0x80); [lia|]. destruct (Z.ltb_spec c 0x800); [lia|].
  destruct (Z.ltb_spec c 0x10000); [lia|].
  assert (B1 : 0x80 <= b1 < 0xc0) by lia. assert (B2 : 0x80 <= b2 < 0xc0) by lia.
  assert (B3 : 0x80 <= b3 < 0xc0) by lia.
  assert (Hc : c = (b0 - 0xf0) * 262144 + (b1 - 0x80) * 4096 + (b2 - 0x80) * 64 + (b3 - 0x80))
    by reflexivity.
  clearbody c. clear E E1 E2 C IH Hr Hl. cbn [app].
  f_equal; [lia|]. f_equal; [lia|]. f_equal; [lia|]. f_equal; lia.
Qed.

Lemma utf8_prefix_scalars l : Forall is_scalar (utf8_prefix l) /\ ~ In 0 (utf8_prefix l).
Proof.
  assert (G : forall n l, (length l <= n)%nat ->
    Forall is_scalar (utf8_prefix l) /\ ~ In 0 (utf8_prefix l)).
  2: { apply (G (length l)); lia. }
  clear l; induction n as [|n IH]; intros l Hl.
  { destruct l; [|cbn in Hl; lia]. split; [constructor|intros []]. }
  assert (D : Forall is_scalar [] /\ ~ In 0 []) by (split; [constructor|intros []]).
  assert (K : forall c r, is_scalar c -> c <> 0 -> (length r <= n)%nat ->
    Forall is_scalar (c :: utf8_prefix r) /\ ~ In 0 (c :: utf8_prefix r)).
  { intros c r Hc H0 Hr. destruct (IH r Hr) as [A B]. split; [constructor; assumption|].
    intros [X|X]; [congruence|contradiction]. }
  destruct l as [|b0 r0]; [exact D|].
  cbn [length] in Hl. cbn [utf8_prefix].
  destruct (Z.leb_spec b0 0); [exact D|].
  destruct (Z.ltb_spec b0 0x80).
  { apply K; [unfold is_scalar; lia| lia | lia]. }
  destruct ((0xc2 <=? b0) && (b0 <? 0xe0)) eqn:E.
  { destruct r0 as [|b1 r1]; [exact D|]. cbn [length] in Hl.
    destruct (is_cont b1) eqn:C1; [|exact D]. unfold is_cont in C1.
    apply K; [unfold is_scalar; lia| lia | lia]. }
  destruct ((0xe0 <=? b0) && (b0 <? 0xf0)) eqn:E1.
  { destruct r0 as [|b1 r1]; [exact D|].
    destruct r1 as [|b2 r2]; [exact D|]. cbn [length] in Hl.
    cbv zeta. destruct (is_cont b1 && is_cont b2 && _ && _) eqn:C; [|exact D].
    rewrite !andb_true_iff in C. destruct C as ((_ & C1) & C2).
    apply is_scalarb_spec in C2.
    apply K; [exact C2| lia | lia]. }
  destruct ((0xf0 <=? b0) && (b0 <? 0xf5)) eqn:E2; [|exact D].
  destruct r0 as [|b1 r1]; [exact D|].
  destruct r1 as [|b2 r2]; [exact D|].
  destruct r2 as [|b3 r3]; [exact D|]. cbn [length] in Hl.
  cbv zeta. destruct (is_cont b1 && is_cont b2 && _ && _ && _) eqn:C; [|exact D].
  rewrite !andb_true_iff in C. destruct C as ((_ & C1) & C2).
  apply is_scalarb_spec in C2.
  apply K; [exact C2| lia | lia].
Qed.

Lemma utf16_decode_utf16 s :
  Forall is_scalar s -> ~ In 0 s -> utf16_decode (utf16 s) = Some s.
Proof.
  induction 1 as [|c s Hc Hs IH]; intros H0; cbn [utf16 flat_map]; [reflexivity|].
  fold (utf16 s). unfold is_scalar in Hc.
  assert (Hs0 : ~ In 0 s) by (intros H; apply H0; right; exact H).
  assert (Hc0 : c <> 0) by (intros ->; apply H0; left; reflexivity).
  specialize (IH Hs0). unfold utf16_char.
  destruct (Z.ltb_spec c 0x10000); cbn [app utf16_decode].
  - destruct (Z.eqb_spec c 0); [lia|].
    destruct (is_low c) eqn:L; [unfold is_low in L; lia|].
    destruct (is_high c) eqn:Hh; [unfold is_high in Hh; lia|].
    rewrite IH; reflexivity.
  - destruct (Z.eqb_spec (0xd800 + (c - 0x10000) / 1024) 0); [lia|].
    destruct (is_low (0xd800 + (c - 0x10000) / 1024)) eqn:L; [unfold is_low in L; lia|].
    destruct (is_high (0xd800 + (c - 0x10000) / 1024)) eqn:Hh; [|unfold is_high in Hh; lia].
    destruct (is_low (0xdc00 + (c - 0x10000) mod 1024)) eqn:L2; [|unfold is_low in L2; lia].
    rewrite IH. f_equal. f_equal. lia.
Qed.

Lemma utf16_units s : Forall is_scalar s -> Forall (fun u => 0 <= u < 2 ^ 16) (utf16 s).
Proof.
  induction 1 as [|c s Hc Hs IH]; cbn [utf16 flat_map]; [constructor|].
  apply Forall_app; split; [|exact IH]. unfold is_scalar in Hc. unfold utf16_char.
  destruct (Z.ltb_spec c 0x10000); repeat constructor; lia.
Qed.

Lemma utf16_nonempty s : s <> [] -> 0 < blen (utf16 s).
Proof.
  destruct s as [|c s]; [congruence|intros _]. cbn [utf16 flat_map].
  rewrite blen_app. pose proof (blen_nonneg _ (flat_map utf16_char s)) as G.
  generalize dependent (blen (flat_map utf16_char s)); intros k G.
  unfold utf16_char; destruct (c <? 0x10000); rewrite ?blen_cons, blen_nil; lia.
Qed.
Lemma utf8_nonempty s : s <> [] -> 0 < blen (utf8 s).
Proof.
  destruct s as [|c s]; [congruence|intros _]. cbn [utf8 flat_map].
  rewrite blen_app. pose proof (blen_nonneg _ (flat_map utf8_char s)) as G.
  generalize dependent (blen (flat_map utf8_char s)); intros k G.
  unfold utf8_char; destruct (c <? 0x80); [|destruct (c <? 0x800); [|destruct (c <? 0x10000)]];
    rewrite ?blen_cons, blen_nil; lia.
Qed.

Lemma units_bytes_len u : blen (units_bytes u) = 2 * blen u.
Proof.
  induction u as [|x u IH]; cbn [units_bytes flat_map]; [reflexivity|].
  fold (units_bytes u). rewrite blen_app, IH, blen_le, blen_cons. lia.
Qed.
Lemma units_bytes_bytes u : all_bytes (units_bytes u).
Proof.
  induction u as [|x u IH]; cbn [units_bytes flat_map]; [constructor|].
  apply Forall_app; split; [apply all_bytes_le|exact IH].
Qed.
Lemma bytes_units_bytes u :
  Forall (fun x => 0 <= x < 2 ^ 16) u -> bytes_units (units_bytes u) = u.
Proof.
  induction 1 as [|x u Hx Hu IH]; cbn [units_bytes flat_map]; [reflexivity|].
  fold (units_bytes u).
  change (le 2 x) with [x mod 256; x / 256 mod 256]. cbn [app bytes_units].
  rewrite IH. f_equal. unfold unle. lia.
Qed.

(* The prefix is the longest one: what follows doesn't begin with a valid
   character *)
Lemma utf8_prefix_app s r :
  Forall is_scalar s -> ~ In 0 s -> utf8_prefix (utf8 s ++ r) = s ++ utf8_prefix r.
Proof.
  induction 1 as [|c s Hc Hs IH]; intros H0; cbn [utf8 flat_map]; [reflexivity|].
  rewrite <- app_assoc, utf8_prefix_char.
  - cbn [app]. f_equal. apply IH. intros H; apply H0; right; exact H.
  - exact Hc.
  - intros ->; apply H0; left; reflexivity.
Qed.

Lemma utf8_prefix_longest l :
  exists r : bytes, l = utf8 (utf8_prefix l) ++ r /\
    forall c r', is_scalar c -> c <> 0 -> r <> utf8_char c ++ r'.
Proof.
  destruct (utf8_prefix_is_prefix l) as [r Hr]. exists r. split; [exact Hr|].
  destruct (utf8_prefix_scalars l) as [P1 P2].
  pose proof (utf8_prefix_app _ r P1 P2) as E. rewrite <- Hr in E.
  intros c r' Hc H0 ->. rewrite utf8_prefix_char in E by assumption.
  apply (f_equal (@length Z)) in E. rewrite app_length in E. cbn [length] in E. lia.
Qed.

(* The characters of received units, up to the first NUL *)
Lemma cons_same {A} (x y : A) l m : x :: l = y :: m -> x = y /\ l = m.
Proof. intros H. injection H as -> ->. auto. Qed.
Lemma some_eq {A} (x y : A) : Some x = Some y -> x = y.
Proof. intros H. now injection H. Qed.
Lemma rangeP lo x hi : BoolSpec (lo <= x < hi) (~ lo <= x < hi) ((lo <=? x) && (x <? hi)).
Proof. destruct (Z.leb_spec lo x), (Z.ltb_spec x hi); cbn; constructor; lia. Qed.

Lemma utf16_decode_exact u : Forall (fun x => 0 <= x < 2 ^ 16) u -> forall cs,
  utf16_decode u = Some cs <->
  Forall is_scalar cs /\ ~ In 0 cs /\ exists rest, u = utf16 cs ++ rest /\ (rest = [] \/ exists r, rest = 0 :: r).
Proof.
  intros Hu.
  assert (G : forall n v, (length v <= n)%nat -> Forall (fun x => 0 <= x < 2 ^ 16) v -> forall cs, utf16_decode v = Some cs <->
    Forall is_scalar cs /\ ~ In 0 cs /\ exists rest, v = utf16 cs ++ rest /\ (rest = [] \/ exists r, rest = 0 :: r)).
  { clear u Hu. induction n as [|n IH]; intros v Hl Hv cs.
    - destruct v; [|cbn in Hl; lia]. cbn. split.
      + intros [= <-]. split; [constructor|]. split; [tauto|]. exists []. auto.
      + intros (_ & _ & rest & E & _). destruct cs as [|c cs]; [reflexivity|]. exfalso. cbn [utf16 flat_map] in E. unfold utf16_char in E. destruct (c <? _); discriminate E.
    - destruct v as [|x v].
      { apply (IH [] ltac:(cbn; lia) Hv). }
      apply Forall_cons_iff in Hv. destruct Hv as [Hx Hv]. cbn [length] in Hl. cbn [utf16_decode].
      destruct (Z.eqb_spec x 0) as [->|Hx0].
      { split.
        - intros [= <-]. split; [constructor|]. split; [intros []|]. exists (0 :: v). eauto.
        - intros (F & N & rest & E & _). destruct cs as [|c cs]; [reflexivity|]. exfalso. apply Forall_cons_iff in F. destruct F as [F _].
          cbn [utf16 flat_map] in E. unfold utf16_char in E. destruct (Z.ltb_spec c 0x10000); apply cons_same in E; destruct E as [E _].
          + apply N. left. auto.
          + unfold is_scalar in F. Z.div_mod_to_equations. lia. }
      unfold is_low at 1. destruct (rangeP 0xdc00 x 0xe000) as [Elow|Elow].
      { split; [discriminate|]. intros (F & N & rest & E & R). exfalso. destruct cs as [|c cs].
        - destruct R as [->|[r ->]]; [discriminate E|]. injection E as -> _. contradiction.
        - apply Forall_cons_iff in F. destruct F as [F _]. cbn [utf16 flat_map] in E. unfold utf16_char in E. unfold is_scalar in F.
          destruct (Z.ltb_spec c 0x10000); apply cons_same in E; destruct E as [E _]; [lia|]. Z.div_mod_to_equations. lia. }
      unfold is_high. destruct (rangeP 0xd800 x 0xdc00) as [Ehigh|Ehigh].
      { destruct v as [|y v].
        { split; [discriminate|]. intros (F & N & rest & E & R). exfalso. destruct cs as [|c cs].
          - destruct R as [->|[r ->]]; [discriminate E|]. injection E as -> _. contradiction.
          - apply Forall_cons_iff in F. destruct F as [F _]. cbn [utf16 flat_map] in E. unfold utf16_char in E. unfold is_scalar in F.
            destruct (Z.ltb_spec c 0x10000); [apply cons_same in E; destruct E as [E _]; lia|discriminate E]. }
        apply Forall_cons_iff in Hv. destruct Hv as [Hy Hv]. cbn [length] in Hl.
        unfold is_low. destruct (rangeP 0xdc00 y 0xe000) as [Ey|Ey].
        - specialize (IH v ltac:(lia) Hv). destruct (utf16_decode v) as [t|] eqn:Et.
          + destruct (proj1 (IH t) eq_refl) as (F & N & rest & E & R).
            assert (Hc : utf16_char (0x10000 + (x - 0xd800) * 1024 + (y - 0xdc00)) = [x; y]).
            { unfold utf16_char. destruct (Z.ltb_spec (0x10000 + (x - 0xd800) * 1024 + (y - 0xdc00)) 0x10000); [lia|].
              f_equal; [|f_equal]; Z.div_mod_to_equations; lia. }
            split.
            * intros X; apply some_eq in X; subst cs. split; [constructor; [unfold is_scalar; lia|exact F]|]. split; [intros [X|X]; [lia|exact (N X)]|].
              exists rest. split; [|exact R]. cbn [utf16 flat_map]. rewrite Hc. cbn [Datatypes.app]. f_equal. f_equal. exact E.
            * intros (F1 & N1 & rest1 & E1 & R1). destruct cs as [|c cs].
              { exfalso. destruct R1 as [->|[r ->]]; [discriminate E1|]. injection E1 as -> _. contradiction. }
              apply Forall_cons_iff in F1. destruct F1 as [Fc F1]. cbn [utf16 flat_map] in E1. unfold utf16_char in E1.
              destruct (Z.ltb_spec c 0x10000); [apply cons_same in E1; destruct E1 as [E1 _]; unfold is_scalar in Fc; lia|]. cbn [Datatypes.app] in E1. apply cons_same in E1; destruct E1 as [E1 E2]; apply cons_same in E2; destruct E2 as [E2 E3].
              assert (c = 0x10000 + (x - 0xd800) * 1024 + (y - 0xdc00)) by (Z.div_mod_to_equations; lia). subst c.
              f_equal. f_equal. assert (X : Some t = Some cs); [|congruence]. apply IH. split; [exact F1|]. split; [intros X; apply N1; now right|]. exists rest1. auto.
          + split; [discriminate|]. intros (F1 & N1 & rest1 & E1 & R1). exfalso. destruct cs as [|c cs].
            { destruct R1 as [->|[r ->]]; [discriminate E1|]. injection E1 as -> _. contradiction. }
            apply Forall_cons_iff in F1. destruct F1 as [Fc F1]. cbn [utf16 flat_map] in E1. unfold utf16_char in E1.
            destruct (Z.ltb_spec c 0x10000); [apply cons_same in E1; destruct E1 as [E1 _]; unfold is_scalar in Fc; lia|]. cbn [Datatypes.app] in E1. apply cons_same in E1; destruct E1 as [E1 E2]; apply cons_same in E2; destruct E2 as [E2 E3].
            assert (X : None = Some cs); [|discriminate X]. apply IH. split; [exact F1|]. split; [intros X; apply N1; now right|]. exists rest1. auto.
        - split; [discriminate|]. intros (F1 & N1 & rest1 & E1 & R1). exfalso. destruct cs as [|c cs].
          { destruct R1 as [->|[r ->]]; [discriminate E1|]. injection E1 as -> _. contradiction. }
          apply Forall_cons_iff in F1. destruct F1 as [Fc F1]. cbn [utf16 flat_map] in E1. unfold utf16_char in E1. unfold is_scalar in Fc.
          destruct (Z.ltb_spec c 0x10000); [apply cons_same in E1; destruct E1 as [E1 _]; lia|]. cbn [Datatypes.app] in E1. apply cons_same in E1; destruct E1 as [E1 E2]; apply cons_same in E2; destruct E2 as [E2 E3].
          Z.div_mod_to_equations. lia. }
      specialize (IH v ltac:(lia) Hv).
      assert (Hc : utf16_char x = [x]) by (unfold utf16_char; destruct (Z.ltb_spec x 0x10000); [reflexivity|lia]).
      assert (Hne : forall c, is_scalar c -> forall t r, utf16_char c ++ t = x :: r -> c = x /\ t = r).
      { intros c Fc t r E. unfold utf16_char, is_scalar in *. destruct (Z.ltb_spec c 0x10000); cbn [Datatypes.app] in E; [apply cons_same in E; exact E|].
        apply cons_same in E; destruct E as [E _]. exfalso. Z.div_mod_to_equations. lia. }
      destruct (utf16_decode v) as [t|] eqn:Et.
      + destruct (proj1 (IH t) eq_refl) as (F & N & rest & E & R). split.
        * intros X; apply some_eq in X; subst cs. split; [constructor; [unfold is_scalar; lia|exact F]|]. split; [intros [X|X]; [lia|exact (N X)]|].
          exists rest. split; [|exact R]. cbn [utf16 flat_map]. rewrite Hc. cbn [Datatypes.app]. f_equal. exact E.
        * intros (F1 & N1 & rest1 & E1 & R1). destruct cs as [|c cs].
          { exfalso. destruct R1 as [->|[r ->]]; [discriminate E1|]. injection E1 as -> _. contradiction. }
          apply Forall_cons_iff in F1. destruct F1 as [Fc F1]. cbn [utf16 flat_map] in E1. rewrite <- app_assoc in E1. symmetry in E1.
          apply (Hne c Fc) in E1. destruct E1 as [-> E1]. f_equal. f_equal. assert (X : Some t = Some cs); [|congruence].
          apply IH. split; [exact F1|]. split; [intros X; apply N1; now right|]. exists rest1. auto.
      + split; [discriminate|]. intros (F1 & N1 & rest1 & E1 & R1). exfalso. destruct cs as [|c cs].
        { destruct R1 as [->|[r ->]]; [discriminate E1|]. injection E1 as -> _. contradiction. }
        apply Forall_cons_iff in F1. destruct F1 as [Fc F1]. cbn [utf16 flat_map] in E1. rewrite <- app_assoc in E1. symmetry in E1.
        apply (Hne c Fc) in E1. destruct E1 as [-> E1]. assert (X : None = Some cs); [|discriminate X].
        apply IH. split; [exact F1|]. split; [intros X; apply N1; now right|]. exists rest1. auto. }
  apply (G (length u) u (Nat.le_refl _) Hu).
Qed.

Lemma bytes_units_range l : all_bytes l -> Forall (fun x => 0 <= x < 2 ^ 16) (bytes_units l).
Proof.
  assert (G : forall n l, (length l <= n)%nat -> all_bytes l -> Forall (fun x => 0 <= x < 2 ^ 16) (bytes_units l)).
  { clear. induction n as [|n IH]; intros l Hl H.
    - destruct l; [constructor|cbn in Hl; lia].
    - destruct l as [|a [|b l]]; [constructor|constructor|]. cbn [bytes_units]. unfold all_bytes in H. apply Forall_cons_iff in H. destruct H as [Ha H].
      apply Forall_cons_iff in H. destruct H as [Hb H]. constructor; [|apply IH; [cbn in Hl; lia|exact H]].
      change (unle [a; b]) with (a + 256 * (b + 256 * 0)). unfold is_byte in *. lia. }
  intros H. exact (G _ _ (Nat.le_refl _) H).
Qed.
