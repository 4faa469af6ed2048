(* Proofs about unsynchronized queues with one writer, which doesn't read, and any
   number of readers *)
From Verif Require Import Base BaseLemmas FmqModel FmqSpec FmqProofs.
Open Scope prog_scope.

Section Unsync.
  Variable q : queue.
  Hypothesis Hq : queue_ok q Unsync.
  Let SZ := extent q.
  Let Q := quantum q.
  Variable M : Z.  (* no write is larger *)
  Hypothesis HM : 0 <= M.

  Lemma U_SZ : 0 < SZ < 2 ^ 32. Proof. apply Hq. Qed.
  Lemma U_Q : 0 < Q. Proof. apply Hq. Qed.
  Lemma U_bits : 2 ^ 32 <= 2 ^ gbits q <= 2 ^ 64.
  Proof. destruct Hq as ([->| ->] & _); lia. Qed.
  Lemma U_QSZ : (Q | SZ).
  Proof. apply Z.mod_divide; [pose proof U_Q; lia|]. apply Hq. Qed.
  Lemma ugs v : 0 <= v < 2 ^ gbits q -> gs q v = v.
  Proof. intros H. unfold gs. apply Z.mod_small. exact H. Qed.
  Notation aligned := (aligned q).
  Lemma u_aligned_mod a : aligned a -> aligned (a mod SZ).
  Proof. intros H. apply div_mod_div; [exact U_QSZ|exact H|pose proof U_SZ; lia]. Qed.

  (* ---------------------------------------------------------------- *)
  (* The writer *)
  Section Writer.
  Variable target : bytes.
  Fixpoint uwok {A} (Post : A -> bytes -> bytes -> Prop) (p : prog A) (log pend : bytes) : Prop :=
    match p with
    | Ret a => Post a log pend
    | Bad _ => False
    | GetR k => uwok Post (k 0) log pend
    | GetW k => uwok Post (k (blen log)) log pend
    | SetR _ _ | Get _ _ => False
    | SetW v p => log ++ pend = target /\ v = blen target /\ uwok Post p target []
    | Put off b p =>
      off = (blen log + blen pend) mod SZ /\ (exists rest, target = log ++ pend ++ b :: rest) /\
      uwok Post p log (pend ++ [b])
    end.

  Lemma uwok_bind {A B} (P1 : A -> bytes -> bytes -> Prop) (P2 : B -> bytes -> bytes -> Prop)
    (p : prog A) (f : A -> prog B) :
    (forall a log pend, P1 a log pend -> uwok P2 (f a) log pend) ->
    forall log pend, uwok P1 p log pend -> uwok P2 (pbind p f) log pend.
  Proof.
    intros Hf. induction p as [a|e|k IH|k IH|v p IH|v p IH|off k IH|off b p IH];
      intros log pend H; cbn [pbind uwok] in *; auto.
    - destruct H as (H1 & H2 & H3). auto.
    - destruct H as (H1 & H2 & H3). auto.
  Qed.

  Lemma uwok_put_bytes d : forall off log pend (Post : unit -> bytes -> bytes -> Prop),
    (d <> [] -> off = (blen log + blen pend) mod SZ) -> off + blen d <= SZ -> 0 <= off ->
    (exists rest, target = log ++ pend ++ d ++ rest) ->
    Post tt log (pend ++ d) ->
    uwok Post (put_bytes off d) log pend.
  Proof.
    pose proof U_SZ as Hs.
    induction d as [|b d IH]; intros off log pend Post Ho Hb Ho0 (rest & Ht) HP; cbn [put_bytes uwok].
    - rewrite app_nil_r in HP. exact HP.
    - rewrite blen_cons in *. pose proof (blen_nonneg _ d). pose proof (blen_nonneg _ log).
      pose proof (blen_nonneg _ pend).
      assert (Eo : off = (blen log + blen pend) mod SZ) by (apply Ho; discriminate).
      split; [exact Eo|]. split; [exists (d ++ rest); exact Ht|].
      apply IH.
      + intros Hne. rewrite blen_app, blen_cons, blen_nil.
        replace (blen log + (blen pend + (1 + 0))) with (blen log + blen pend + 1) by lia.
        assert (0 < blen d).
        { destruct d; [contradiction|]. rewrite blen_cons. pose proof (blen_nonneg _ d). lia. }
        rewrite Zplus_mod, <- Eo, (Z.mod_small 1) by lia. symmetry. apply Z.mod_small. lia.
      + lia.
      + lia.
      + exists rest. rewrite Ht. rewrite <- !app_assoc. reflexivity.
      + rewrite <- app_assoc. exact HP.
  Qed.

  Lemma uwok_write data items log : aligned (blen log) -> log ++ data = target -> blen target < 2 ^ gbits q ->
    0 <= items -> blen data = items * Q ->
    uwok (fun ok log' pend' => pend' = [] /\
        ok = ((0 <? items) && (blen data <=? SZ)) /\ log' = if ok then log ++ data else log)
      (fmq_write q data items) log [].
  Proof.
    intros Ha HT HL Hi Hd. pose proof U_Q as HQ. pose proof U_SZ as HS. pose proof U_bits as HB.
    pose proof (blen_nonneg _ log) as Hlog.
    assert (Hll : blen log + blen data < 2 ^ gbits q) by (rewrite <- blen_app, HT; exact HL).
    pose proof (blen_nonneg _ data) as Hdn.
    unfold fmq_write, begin_write. destruct (Z.ltb_spec 0 items) as [Hi0|Hi0].
    2:{ cbn [uwok]. auto. }
    assert (K : kind q = Unsync) by apply Hq. rewrite K. cbn [pbind]. fold Q.
    change (extent q) with SZ. rewrite (ugs SZ) by lia. unfold pdiv at 1.
    destruct (Z.eqb_spec Q 0); [lia|]. cbn [pbind].
    destruct U_QSZ as [m Em].
    assert (Ediv : SZ / Q = m) by (rewrite Em; apply Z.div_mul; lia). rewrite Ediv.
    destruct (Z.ltb_spec m items) as [Hbig|Hfit].
    { cbn [pbind uwok]. split; [reflexivity|]. split; [|reflexivity].
      assert (m * Q < items * Q) by (apply Z.mul_lt_mono_pos_r; lia).
      destruct (Z.leb_spec (blen data) SZ); [lia|reflexivity]. }
    assert (Hfq : items * Q <= SZ) by (rewrite Em; apply Z.mul_le_mono_nonneg_r; lia).
    cbn [pbind uwok]. unfold pmod at 1. destruct (Z.eqb_spec Q 0); [lia|]. cbn [pbind].
    assert (Em2 : blen log mod Q = 0) by (apply Z.mod_divide; [lia|exact Ha]). rewrite Em2. cbn [Z.eqb negb].
    unfold pmod at 1. destruct (Z.eqb_spec SZ 0); [lia|]. cbn [pbind].
    pose proof (Z.mod_pos_bound (blen log) SZ ltac:(lia)) as Hm.
    (* the number of bytes which are copied first *)
    set (nb := Z.min (SZ - blen log mod SZ) (gs q (SZ - blen log))).
    assert (Hnb : nb = SZ - blen log mod SZ \/ (nb = 0 /\ blen log mod SZ = 0)).
    { unfold nb, gs. destruct (Z.lt_ge_cases (blen log) SZ) as [L|L].
      - left. rewrite (Z.mod_small (blen log) SZ) by lia. rewrite (Z.mod_small (SZ - blen log)) by lia. lia.
      - destruct (Z.eq_dec (blen log) SZ) as [E|E].
        + right. rewrite E, Z.sub_diag, Z.mod_0_l, Z.mod_same by lia. split; lia.
        + left. assert (Eg : (SZ - blen log) mod 2 ^ gbits q = SZ - blen log + 2 ^ gbits q).
          { symmetry. apply Z.mod_unique with (q := -1); lia. }
          rewrite Eg. lia. }
    assert (Hanb : aligned nb).
    { destruct Hnb as [->|[-> _]]; [apply Z.divide_sub_r; [exact U_QSZ|apply u_aligned_mod; exact Ha]|apply Z.divide_0_r]. }
    destruct Hanb as [c Hc]. fold Q in Hc.
    assert (Econt : forall (B : Type) (f : Z -> prog B) (P : B -> bytes -> bytes -> Prop),
      uwok P (f c) log [] -> uwok P (pbind (available_to_write_contiguous q) f) log []).
    { intros B f P Hf. unfold available_to_write_contiguous, available_to_write_bytes, available_to_read_bytes.
      change (extent q) with SZ. cbn [pbind uwok].
      assert (Eu : u32 SZ = SZ) by (unfold u32; apply Z.mod_small; lia). rewrite Eu.
      assert (Ew : gs q (u64 (blen log - 0)) = blen log).
      { rewrite Z.sub_0_r. unfold u64. rewrite (Z.mod_small (blen log)) by lia. apply ugs. lia. }
      rewrite !Ew.
      unfold pmod. destruct (Z.eqb_spec SZ 0); [lia|]. cbn [pbind].
      assert (Ec : gs q (u64 (SZ - blen log mod SZ)) = SZ - blen log mod SZ).
      { unfold u64. rewrite (Z.mod_small (SZ - _)) by lia. apply ugs. lia. }
      rewrite !Ec.
      assert (Em1 : (if SZ - blen log mod SZ <? gs q (SZ - blen log) then SZ - blen log mod SZ else gs q (SZ - blen log)) = nb).
      { unfold nb. destruct (Z.ltb_spec (SZ - blen log mod SZ) (gs q (SZ - blen log))); lia. }
      rewrite Em1. fold Q. unfold pdiv. destruct (Z.eqb_spec Q 0); [lia|]. cbn [pbind].
      rewrite Hc, Z.div_mul by lia. exact Hf. }
    apply Econt. clear Econt.
    assert (Hnbb : 0 <= nb <= SZ) by lia.
    eapply uwok_bind with (P1 := fun _ log' pend' => log' = log /\ pend' = data).
    { intros [] log' pend' (-> & ->). unfold end_write. destruct (Z.ltb_spec 0 items); [|lia]. cbn [pbind uwok].
      split; [exact HT|]. split.
      - fold Q. rewrite <- Hd. rewrite ugs by lia. unfold u64. rewrite Z.mod_small by lia. rewrite <- HT, blen_app. reflexivity.
      - split; [reflexivity|]. split; [|exact (eq_sym HT)]. destruct (Z.leb_spec (blen data) SZ); [reflexivity|lia]. }
    assert (Hrest : forall x, target = log ++ [] ++ (x ++ slice data (blen x) (blen data - blen x)) ++ [] -> True) by auto.
    clear Hrest.
    destruct (Z.ltb_spec c items) as [Hlt|Hge]; cbv zeta.
    - assert (0 <= (items - c) * Q) by (apply Z.mul_nonneg_nonneg; lia).
      assert (Esum : items * Q = c * Q + (items - c) * Q) by ring.
      rewrite (ugs (c * Q)) by lia. rewrite (ugs ((items - c) * Q)) by lia.
      rewrite !(caller_bytes_ok q) by lia.
      assert (B1 : blen (slice data 0 (c * Q)) = c * Q) by (apply blen_slice; lia).
      assert (B2 : blen (slice data (c * Q) ((items - c) * Q)) = (items - c) * Q) by (apply blen_slice; lia).
      assert (Esp : data = slice data 0 (c * Q) ++ slice data (c * Q) ((items - c) * Q)).
      { rewrite <- (slice_all _ data (c * Q + (items - c) * Q)) at 1 by lia. rewrite slice_split by lia. reflexivity. }
      assert (Hcq : (items - c) * Q <= SZ) by lia.
      eapply uwok_bind with (P1 := fun _ log' pend' => log' = log /\ pend' = slice data 0 (c * Q)).
      + intros [] log' pend' (-> & ->). apply uwok_put_bytes.
        * intros _. rewrite B1, <- Hc. destruct Hnb as [->|[-> E0]].
          -- replace (blen log + (SZ - blen log mod SZ)) with ((blen log / SZ + 1) * SZ).
             ++ symmetry. apply Z.mod_mul. lia.
             ++ pose proof (Z.div_mod (blen log) SZ ltac:(lia)). lia.
          -- rewrite Z.add_0_r. symmetry. exact E0.
        * lia.
        * lia.
        * exists []. rewrite app_nil_r, <- Esp. symmetry. exact HT.
        * split; [reflexivity|]. symmetry. exact Esp.
      + apply uwok_put_bytes; rewrite ?blen_nil, ?B1, ?Z.add_0_r; try lia; auto.
        exists (slice data (c * Q) ((items - c) * Q)). cbn [app]. rewrite <- Esp. symmetry. exact HT.
    - assert (items * Q <= c * Q) by (apply Z.mul_le_mono_nonneg_r; lia).
      assert (0 < items * Q) by (apply Z.mul_pos_pos; lia).
      rewrite (ugs (items * Q)) by lia. rewrite (caller_bytes_ok q) by lia.
      rewrite slice_all by lia.
      apply uwok_put_bytes; rewrite ?blen_nil, ?Z.add_0_r; try lia; auto.
      exists []. cbn [app]. rewrite app_nil_r. symmetry. exact HT.
  Qed.
  End Writer.

  (* ---------------------------------------------------------------- *)
  (* A reader. [S] is the stream of all the bytes which have been placed in the ring
     when it last looked, [w] is the value of the writer's counter *)
  Fixpoint uok {A} (Post : A -> bytes -> Z -> Z -> bytes -> Prop) (p : prog A) (S : bytes) (w r : Z) (got : bytes) : Prop :=
    match p with
    | Ret a => Post a S w r got
    | Bad _ => False
    | GetR k => uok Post (k r) S w r got
    | GetW k => forall more w', w <= w' <= blen (S ++ more) -> aligned w' -> blen (S ++ more) < 2 ^ gbits q ->
        uok Post (k w') (S ++ more) w' r got
    | SetW _ _ | Put _ _ _ => False
    | SetR v p => 0 <= v <= w /\ aligned v /\ uok Post p S w v got
    | Get off k =>
      off = (r + blen got) mod SZ /\ 0 <= r /\ r + blen got < w /\
      forall more b, byte_at q (S ++ more) (r + blen got) b -> uok Post (k b) (S ++ more) w r (got ++ [b])
    end.

  Lemma uok_bind {A B} (P1 : A -> bytes -> Z -> Z -> bytes -> Prop) (P2 : B -> bytes -> Z -> Z -> bytes -> Prop)
    (p : prog A) (f : A -> prog B) :
    (forall a S w r got, P1 a S w r got -> uok P2 (f a) S w r got) ->
    forall S w r got, uok P1 p S w r got -> uok P2 (pbind p f) S w r got.
  Proof.
    intros Hf. induction p as [a|e|k IH|k IH|v p IH|v p IH|off k IH|off b p IH];
      intros S w r got H; cbn [pbind uok] in *; auto.
    - destruct H as (H1 & H2 & H3). auto.
    - destruct H as (H1 & H2 & H3 & H4). auto 8.
  Qed.

  Lemma byte_at_more S more i b : byte_at q S i b -> byte_at q (S ++ more) i b.
  Proof.
    intros (j & Hj & Hm & Hn). exists j. rewrite blen_app. pose proof (blen_nonneg _ more).
    split; [lia|]. split; [exact Hm|]. rewrite app_nth1; [exact Hn|]. unfold blen in Hj. lia.
  Qed.

  Definition bytes_at (S : bytes) (i : Z) (d : bytes) : Prop :=
    forall k, 0 <= k < blen d -> byte_at q S (i + k) (nth (Z.to_nat k) d 0).

  Lemma bytes_at_nil S i : bytes_at S i [].
  Proof. intros k Hk. rewrite blen_nil in Hk. lia. Qed.
  Lemma bytes_at_snoc S more i d b : bytes_at S i d -> byte_at q (S ++ more) (i + blen d) b -> bytes_at (S ++ more) i (d ++ [b]).
  Proof.
    intros H1 H2 k Hk. rewrite blen_app, blen_cons, blen_nil in Hk. destruct (Z.eq_dec k (blen d)) as [->|Hne].
    - change (nth _ (d ++ [b]) 0) with (zn (d ++ [b]) (blen d)). rewrite zn_app_r, Z.sub_diag by lia. exact H2.
    - change (nth _ (d ++ [b]) 0) with (zn (d ++ [b]) k). rewrite zn_app_l by lia.
      apply byte_at_more. apply H1. lia.
  Qed.

  Lemma uok_get_bytes n : forall off S w r got (Post : bytes -> bytes -> Z -> Z -> bytes -> Prop),
    (n <> O -> off = (r + blen got) mod SZ) -> 0 <= off -> 0 <= r -> off + Z.of_nat n <= SZ ->
    r + blen got + Z.of_nat n <= w -> bytes_at S r got ->
    (forall more d, blen d = Z.of_nat n -> bytes_at (S ++ more) r (got ++ d) -> Post d (S ++ more) w r (got ++ d)) ->
    uok Post (get_bytes off n) S w r got.
  Proof.
    pose proof U_SZ as Hs.
    induction n as [|n IH]; intros off S w r got Post Ho Ho0 Hr Hb Hk Hg HP; cbn [get_bytes uok].
    - specialize (HP [] [] eq_refl). rewrite !app_nil_r in HP. apply HP. exact Hg.
    - pose proof (blen_nonneg _ got). assert (Eo : off = (r + blen got) mod SZ) by (apply Ho; discriminate).
      split; [exact Eo|]. split; [exact Hr|]. split; [lia|]. intros more b Hbyte.
      apply uok_bind with (P1 := fun d S' w' r' got' => w' = w /\ r' = r /\ got' = (got ++ [b]) ++ d /\
        blen d = Z.of_nat n /\ (exists more', S' = S ++ more') /\ bytes_at S' r got').
      + intros d S1 w1 r1 g1 (-> & -> & -> & Hd & (more' & ->) & Hall). cbn [uok].
        rewrite <- app_assoc in *. cbn [app] in *. apply HP; [|exact Hall]. rewrite blen_cons. lia.
      + apply IH; rewrite ?blen_app, ?blen_cons, ?blen_nil.
        * intros Hn. replace (r + (blen got + (1 + 0))) with (r + blen got + 1) by lia.
          rewrite Zplus_mod, <- Eo, (Z.mod_small 1) by lia. symmetry. apply Z.mod_small. lia.
        * lia.
        * lia.
        * lia.
        * lia.
        * apply bytes_at_snoc; assumption.
        * intros more2 d Hd Hall. split; [reflexivity|]. split; [reflexivity|]. split; [reflexivity|]. split; [exact Hd|].
          split; [exists (more ++ more2); rewrite app_assoc; reflexivity|exact Hall].
  Qed.

  Definition upost (items r0 w0 : Z) (S0 : bytes) (d : option bytes) (S : bytes) (w r : Z) (got : bytes) : Prop :=
    (exists more, S = S0 ++ more) /\ w0 <= w <= blen S /\ aligned w /\ 0 <= r <= w /\ aligned r /\
    match d with
    | Some d => 0 < items /\ blen d = items * Q /\ bytes_at S r0 d /\
        (r = r0 + blen d \/ (r0 + SZ < w /\ r = w))
    | None => ((items = 0 \/ w0 - r0 < items * Q) /\ r = r0) \/ (r0 + SZ < w /\ r = w)
    end.

  Lemma uok_read items S0 w0 r0 : 0 <= items -> items * Q < 2 ^ gbits q -> 0 <= r0 <= w0 -> w0 <= blen S0 ->
    aligned r0 -> aligned w0 ->
    uok (upost items r0 w0 S0) (fmq_read q items) S0 w0 r0 [].
  Proof.
    intros Hi Hlt Hr Hw Ha Haw. pose proof U_Q as HQ. pose proof U_SZ as HS. pose proof U_bits as HB.
    unfold fmq_read. destruct (Z.ltb_spec 0 items) as [Hi0|Hi0].
    2:{ cbn [uok]. split; [exists []; rewrite app_nil_r; reflexivity|]. repeat split; try assumption; try lia. }
    assert (Hiq : 0 < items * Q) by (apply Z.mul_pos_pos; lia).
    unfold begin_read. destruct (Z.ltb_spec 0 items); [|lia]. cbv zeta. cbn [pbind uok].
    intros m1 w1 Hw1 Haw1 Hb1. fold Q. unfold pmod at 1 2. destruct (Z.eqb_spec Q 0); [lia|]. cbn [pbind].
    assert (E1 : w1 mod Q = 0) by (apply Z.mod_divide; [lia|exact Haw1]).
    assert (E2 : r0 mod Q = 0) by (apply Z.mod_divide; [lia|exact Ha]).
    rewrite E1, E2. cbn [Z.eqb negb orb].
    change (extent q) with SZ. rewrite (ugs SZ) by lia.
    unfold u64 at 1 2. rewrite (Z.mod_small (w1 - r0)) by lia. rewrite (ugs (items * Q)) by lia.
    destruct (Z.ltb_spec SZ (w1 - r0)) as [Hover|Hnover].
    { cbn [pbind uok]. split; [lia|]. split; [exact Haw1|].
      split; [exists m1; reflexivity|]. repeat split; try assumption; try lia. }
    destruct (Z.ltb_spec (w1 - r0) (items * Q)) as [Hfew|Henough].
    { cbn [pbind uok]. split; [exists m1; reflexivity|]. repeat split; try assumption; try lia. }
    unfold pmod at 1. destruct (Z.eqb_spec SZ 0); [lia|]. cbn [pbind].
    unfold available_to_read_contiguous, available_to_read_bytes. cbn [pbind uok].
    intros m2 w2 Hw2 Haw2 Hb2. change (extent q) with SZ. rewrite (ugs SZ) by lia.
    pose proof (Z.mod_pos_bound r0 SZ ltac:(lia)) as Hm.
    unfold pmod. destruct (Z.eqb_spec SZ 0); [lia|]. cbn [pbind].
    unfold u64 at 1 2 3 4. rewrite !(Z.mod_small (w2 - r0)) by lia. rewrite !(Z.mod_small (SZ - r0 mod SZ)) by lia.
    rewrite !(ugs (w2 - r0)) by lia. rewrite !(ugs (SZ - r0 mod SZ)) by lia.
    assert (Emin : (if SZ - r0 mod SZ <? w2 - r0 then SZ - r0 mod SZ else w2 - r0) = Z.min (SZ - r0 mod SZ) (w2 - r0)).
    { destruct (Z.ltb_spec (SZ - r0 mod SZ) (w2 - r0)); lia. }
    rewrite Emin. fold Q.
    assert (Hal : aligned (Z.min (SZ - r0 mod SZ) (w2 - r0))).
    { destruct (Z.min_spec (SZ - r0 mod SZ) (w2 - r0)) as [[_ ->]|[_ ->]]; apply Z.divide_sub_r; try assumption;
        [exact U_QSZ|apply u_aligned_mod; exact Ha]. }
    destruct Hal as [c Hc]. rewrite Hc. unfold pdiv. destruct (Z.eqb_spec Q 0); [lia|]. cbn [pbind].
    rewrite Z.div_mul by lia. cbv zeta. fold Q in Hc.
    assert (Hc0 : 0 <= c) by (assert (Hcq : 0 <= c * Q) by lia; apply Z.mul_nonneg_cancel_r in Hcq; lia).
    set (S2 := (S0 ++ m1) ++ m2) in *.
    eapply uok_bind with (P1 := fun d S' w' r' got' => (exists more, S' = S2 ++ more) /\ w' = w2 /\ r' = r0 /\
      blen d = items * Q /\ bytes_at S' r0 d).
    { intros d S3 w3 r3 g3 ((m3 & ->) & -> & -> & Hd & Hall). unfold end_read.
      destruct (Z.ltb_spec 0 items); [|lia]. cbv zeta. cbn [pbind uok]. intros m4 w4 Hw4 Haw4 Hb4.
      change (extent q) with SZ. rewrite (ugs SZ) by lia. unfold u64 at 1. rewrite (Z.mod_small (w4 - r0)) by lia.
      assert (Hpre : exists more, (S2 ++ m3) ++ m4 = S0 ++ more).
      { exists (m1 ++ m2 ++ m3 ++ m4). unfold S2. rewrite <- !app_assoc. reflexivity. }
      assert (Hall4 : bytes_at ((S2 ++ m3) ++ m4) r0 d) by (intros k Hk; apply byte_at_more, Hall, Hk).
      destruct (Z.ltb_spec SZ (w4 - r0)); cbn [pbind uok].
      - split; [lia|]. split; [exact Haw4|]. split; [exact Hpre|]. split; [lia|]. split; [exact Haw4|]. split; [lia|]. split; [exact Haw4|].
        split; [exact Hi0|]. split; [exact Hd|]. split; [exact Hall4|]. right. lia.
      - fold Q. rewrite (ugs (items * Q)) by lia. unfold u64. rewrite Z.mod_small by lia.
        assert (Har : aligned (r0 + items * Q)) by (apply Z.divide_add_r; [exact Ha|apply Z.divide_factor_r]).
        split; [lia|]. split; [exact Har|]. split; [exact Hpre|]. split; [lia|]. split; [exact Haw4|]. split; [lia|]. split; [exact Har|].
        split; [exact Hi0|]. split; [exact Hd|]. split; [exact Hall4|]. left. lia. }
    destruct (Z.ltb_spec c items) as [Hlt2|Hge].
    - assert (c * Q < items * Q) by (apply Z.mul_lt_mono_pos_r; lia).
      assert (Hnq : c * Q = SZ - r0 mod SZ) by lia.
      assert (0 <= (items - c) * Q) by (apply Z.mul_nonneg_nonneg; lia).
      assert (Esum : items * Q = c * Q + (items - c) * Q) by ring.
      rewrite (ugs (c * Q)) by lia. rewrite (ugs ((items - c) * Q)) by lia.
      eapply uok_bind with (P1 := fun d S' w' r' got' => (exists more, S' = S2 ++ more) /\ w' = w2 /\ r' = r0 /\
        got' = d /\ blen d = c * Q /\ bytes_at S' r0 d).
      + intros d1 S3 w3 r3 g3 ((m3 & ->) & -> & -> & -> & Hd1 & Hall1).
        eapply uok_bind with (P1 := fun d S' w' r' got' => (exists more, S' = S2 ++ more) /\ w' = w2 /\ r' = r0 /\
          blen d = (items - c) * Q /\ bytes_at S' r0 (d1 ++ d)).
        * intros d2 S4 w4 r4 g4 (Hex & -> & -> & Hd2 & Hall2). cbn [uok]. split; [exact Hex|]. split; [reflexivity|].
          split; [reflexivity|]. split; [rewrite blen_app; lia|exact Hall2].
        * apply uok_get_bytes; rewrite ?Hd1, ?Z2Nat.id by lia.
          -- intros _. rewrite Hnq. replace (r0 + (SZ - r0 mod SZ)) with ((r0 / SZ + 1) * SZ).
             ++ symmetry. apply Z.mod_mul. lia.
             ++ pose proof (Z.div_mod r0 SZ ltac:(lia)). lia.
          -- lia.
          -- lia.
          -- lia.
          -- lia.
          -- exact Hall1.
          -- intros m4 d2 Hd2 Hall2. split; [exists (m3 ++ m4); rewrite app_assoc; reflexivity|].
             split; [reflexivity|]. split; [reflexivity|]. split; [exact Hd2|exact Hall2].
      + apply uok_get_bytes; rewrite ?blen_nil, ?Z.add_0_r, ?Z2Nat.id by lia; try lia; auto using bytes_at_nil.
        intros m3 d Hd Hall. split; [exists m3; reflexivity|]. cbn [app] in *. repeat split; assumption.
    - assert (items * Q <= c * Q) by (apply Z.mul_le_mono_nonneg_r; lia).
      rewrite ?(ugs (items * Q)) by lia.
      apply uok_get_bytes; rewrite ?blen_nil, ?Z.add_0_r, ?Z2Nat.id by lia; try lia; auto using bytes_at_nil.
      intros m3 d Hd Hall. split; [exists m3; reflexivity|]. cbn [app] in *. repeat split; assumption.
  Qed.

  (* ---------------------------------------------------------------- *)
  (* Everybody together *)
  Definition umem_ok (y : usystem) (log pend : bytes) : Prop :=
    u_wp y = blen log /\ blen (u_ring y) = SZ /\ aligned (blen log) /\ blen pend <= M /\
    blen (log ++ pend) < 2 ^ gbits q /\
    forall i, 0 <= i < blen (log ++ pend) -> blen (log ++ pend) - SZ <= i ->
      zn (u_ring y) (i mod SZ) = zn (log ++ pend) i.

  Definition uwriter_inv (ops : list op) (t : thread) (log pend : bytes) : Prop :=
    Forall (unsync_write_ok q) (done t) /\ Forall (op_ok q) (todo t) /\ Forall only_writes (todo t) /\
    Forall (fun o => blen (op_data o) <= M) (todo t) /\
    blen (accepted_by t) + blen (current_data t) + volume (todo t) < 2 ^ gbits q /\
    ops = map e_op (done t) ++ match current t with Some (o, _, _, _) => [o] | None => [] end ++ todo t /\
    aligned (blen (accepted_by t)) /\
    match current t with
    | None => log = accepted_by t /\ pend = []
    | Some (o, _, w00, p) =>
      op_ok q o /\ only_writes o /\ blen (op_data o) <= M /\ w00 = blen (accepted_by t) /\
      (log = accepted_by t \/ log = accepted_by t ++ op_data o) /\
      (exists rest, accepted_by t ++ op_data o = log ++ pend ++ rest) /\
      uwok (accepted_by t ++ op_data o) (fun a log' pend' => pend' = [] /\
        log' = accepted_by t ++ accepted {| e_op := o; e_answer := a; e_rp0 := 0; e_wp0 := 0; e_rp1 := 0; e_wp1 := 0 |} /\
        unsync_write_ok q {| e_op := o; e_answer := a; e_rp0 := 0; e_wp0 := blen (accepted_by t); e_rp1 := 0; e_wp1 := blen log' |})
        p log pend
    end.

  Definition ureader_inv (ops : list op) (t : thread) (r : Z) (log pend : bytes) : Prop :=
    Forall (unsync_read_ok q M (log ++ pend)) (done t) /\ Forall (op_ok q) (todo t) /\ Forall only_reads (todo t) /\
    ops = map e_op (done t) ++ match current t with Some (o, _, _, _) => [o] | None => [] end ++ todo t /\
    match current t with
    | None => 0 <= r <= blen log /\ aligned r
    | Some (o, r00, w00, p) => exists items S0 S w got,
      o = Read items /\ 0 <= r00 /\ (exists more, S = S0 ++ more) /\ (exists more, log ++ pend = S ++ more) /\
      w <= blen log /\
      uok (fun a S w r got => exists d, a = Got d /\ upost items r00 w00 S0 d S w r got) p S w r got
    end.

  Definition usystem_inv (ops : nat -> list op) (y : usystem) : Prop :=
    exists log pend,
      umem_ok y log pend /\ uwriter_inv (ops O) (fst (parties y O)) log pend /\ snd (parties y O) = 0 /\
      forall i, ureader_inv (ops (S i)) (fst (parties y (S i))) (snd (parties y (S i))) log pend.

  Lemma uSZ_index i : 0 <= i mod SZ < SZ.
  Proof. apply Z.mod_pos_bound. pose proof U_SZ. lia. Qed.

  Lemma nth_firstn_lt (l : bytes) : forall c n, (n < c)%nat -> nth n (firstn c l) 0 = nth n l 0.
  Proof.
    induction l as [|x l IH]; intros c n L; [rewrite firstn_nil; reflexivity|].
    destruct c as [|c]; [lia|]. destruct n as [|n]; [reflexivity|]. cbn [firstn nth]. apply IH. lia.
  Qed.
  Lemma nth_skipn_plus a n : forall l : bytes, nth n (skipn a l) 0 = nth (a + n) l 0.
  Proof.
    induction a as [|a IH]; intros l; [reflexivity|].
    destruct l as [|x l]; [destruct n; reflexivity|]. cbn [skipn plus nth]. apply IH.
  Qed.

  Lemma bytes_at_in S r d : bytes_at S r d -> 0 < blen d -> 0 <= r /\ r + blen d <= blen S.
  Proof.
    intros H Hd. destruct (H (blen d - 1) ltac:(lia)) as (j & Hj & _).
    destruct (H 0 ltac:(lia)) as (j0 & Hj0 & _). lia.
  Qed.

  Lemma slice_bytes_at S r d : 0 < blen d -> bytes_at S r d -> blen S <= r + SZ -> d = slice S r (blen d).
  Proof.
    intros Hd H Hs. pose proof U_SZ. destruct (bytes_at_in _ _ _ H Hd) as [Hr Hin].
    apply nth_ext with (d := 0) (d' := 0).
    { pose proof (blen_slice _ S r (blen d) Hr (blen_nonneg _ d) Hin) as B. unfold blen in *. lia. }
    intros n Hn. destruct (H (Z.of_nat n) ltac:(unfold blen; lia)) as (j & Hj & Hm & Hb).
    rewrite Nat2Z.id in Hb. rewrite <- Hb.
    assert (Ej : j = r + Z.of_nat n).
    { pose proof (Z.mod_small (j - (r + Z.of_nat n)) SZ ltac:(lia)) as E. fold SZ in Hm. lia. }
    rewrite Ej. unfold slice, ztake, zdrop.
    rewrite nth_firstn_lt by (unfold blen; lia). rewrite nth_skipn_plus. f_equal. lia.
  Qed.

  Lemma uread_more m S more e : unsync_read_ok q m S e -> unsync_read_ok q m (S ++ more) e.
  Proof.
    pose proof U_Q as HQ. unfold unsync_read_ok. destruct (e_op e); auto. destruct (e_answer e) as [|[d|]|]; auto.
    intros (H1 & H2 & H3 & H4 & H5). split; [exact H1|]. split; [exact H2|].
    assert (Hb : bytes_at S (e_rp0 e) d) by exact H3.
    split; [intros k Hk; apply byte_at_more, H3, Hk|]. split; [|exact H5].
    intros Hex. fold Q in H2.
    destruct (bytes_at_in _ _ _ Hb ltac:(assert (0 < items * Q) by (apply Z.mul_pos_pos; lia); lia)).
    rewrite slice_app_l by lia. apply H4. exact Hex.
  Qed.

  Lemma umem_byte y log pend i : umem_ok y log pend -> 0 <= i < blen (log ++ pend) ->
    byte_at q (log ++ pend) i (zn (u_ring y) (i mod SZ)).
  Proof.
    intros (_ & _ & _ & _ & _ & H) Hi. pose proof U_SZ. set (L := blen (log ++ pend)) in *.
    set (j := i + SZ * ((L - 1 - i) / SZ)).
    assert (Hd : 0 <= (L - 1 - i) / SZ) by (apply Z.div_pos; lia).
    pose proof (Z.div_mod (L - 1 - i) SZ ltac:(lia)) as E. pose proof (Z.mod_pos_bound (L - 1 - i) SZ ltac:(lia)) as B.
    assert (0 <= SZ * ((L - 1 - i) / SZ)) by (apply Z.mul_nonneg_nonneg; lia).
    exists j. split; [fold L; unfold j; lia|]. split.
    - unfold j. replace (i + SZ * ((L - 1 - i) / SZ) - i) with ((L - 1 - i) / SZ * SZ) by ring. apply Z.mod_mul. fold SZ. lia.
    - assert (Em : i mod SZ = j mod SZ) by (unfold j; rewrite Z.mul_comm, Z.mod_add by lia; reflexivity).
      rewrite Em. change (nth (Z.to_nat j) (log ++ pend) 0) with (zn (log ++ pend) j). symmetry. apply H; unfold j; lia.
  Qed.

  (* one step of the writer *)
  Lemma uwok_step {A} target (P : A -> bytes -> bytes -> Prop) p s log pend :
    uwok target P p log pend -> rp s = 0 -> wp s = blen log -> blen (ring s) = SZ ->
    aligned (blen log) -> aligned (blen target) ->
    (forall i, 0 <= i < blen (log ++ pend) -> blen (log ++ pend) - SZ <= i -> zn (ring s) (i mod SZ) = zn (log ++ pend) i) ->
    (exists rest, target = log ++ pend ++ rest) ->
    exists log' pend',
      uwok target P (fst (pstep p s)) log' pend' /\ rp (snd (pstep p s)) = 0 /\ wp (snd (pstep p s)) = blen log' /\
      blen (ring (snd (pstep p s))) = SZ /\ aligned (blen log') /\
      (forall i, 0 <= i < blen (log' ++ pend') -> blen (log' ++ pend') - SZ <= i ->
        zn (ring (snd (pstep p s))) (i mod SZ) = zn (log' ++ pend') i) /\
      (exists rest, target = log' ++ pend' ++ rest) /\ (exists more, log' ++ pend' = (log ++ pend) ++ more) /\
      ((log' = log /\ blen pend <= blen pend') \/ (log' = target /\ pend' = [])) /\ blen log <= blen log'.
  Proof.
    intros Hw H1 H2 H3 H4 H5 H6 (rest & H7). pose proof U_SZ as HS.
    assert (Hsame : exists more, log ++ pend = (log ++ pend) ++ more) by (exists []; rewrite app_nil_r; reflexivity).
    assert (Hrest : exists rest, target = log ++ pend ++ rest) by (exists rest; exact H7).
    assert (Hl : blen log <= blen log) by lia.
    assert (Hcase : (log = log /\ blen pend <= blen pend) \/ (log = target /\ pend = [])) by (left; split; [reflexivity|lia]).
    destruct p as [a|e|k|k|v p|v p|off k|off b p]; cbn [uwok pstep fst snd] in *; try contradiction.
    - exists log, pend. repeat (split; [assumption || reflexivity|]). assumption.
    - rewrite H1 in *. exists log, pend. repeat (split; [assumption || reflexivity|]). assumption.
    - rewrite H2 in *. exists log, pend. repeat (split; [assumption || reflexivity|]). assumption.
    - destruct Hw as (E1 & -> & Hk). exists target, []. cbn [rp wp ring]. rewrite app_nil_r.
      split; [exact Hk|]. split; [exact H1|]. split; [reflexivity|]. split; [exact H3|]. split; [exact H5|].
      split; [rewrite <- E1; exact H6|]. split; [exists []; cbn; rewrite app_nil_r; reflexivity|].
      split; [exists []; rewrite app_nil_r; symmetry; exact E1|]. split; [right; auto|].
      rewrite <- E1, blen_app. pose proof (blen_nonneg _ pend). lia.
    - destruct Hw as (-> & (rest2 & Er) & Hk). fold SZ. pose proof (uSZ_index (blen log + blen pend)) as Hi.
      destruct (Z.leb_spec 0 ((blen log + blen pend) mod SZ)); [|lia].
      destruct (Z.ltb_spec ((blen log + blen pend) mod SZ) (blen (ring s))); [|lia]. cbn [andb fst snd rp wp ring].
      pose proof (blen_nonneg _ log). pose proof (blen_nonneg _ pend).
      exists log, (pend ++ [b]). split; [exact Hk|]. split; [exact H1|]. split; [exact H2|].
      split; [rewrite blen_poke; rewrite ?blen_cons, ?blen_nil; lia|]. split; [exact H4|].
      split.
      { intros i Hi2 Hi3. rewrite !blen_app, blen_cons, blen_nil in Hi2, Hi3.
        pose proof (uSZ_index i). rewrite zn_poke by lia. rewrite app_assoc.
        destruct (Z.eqb_spec (i mod SZ) ((blen log + blen pend) mod SZ)) as [E|E].
        - assert (Ei : i = blen log + blen pend) by (apply (mod_inj_window i _ SZ); lia).
          rewrite Ei, zn_app_r, blen_app by (rewrite blen_app; lia). rewrite Z.sub_diag. reflexivity.
        - assert (i <> blen log + blen pend) by (intros ->; apply E; reflexivity).
          rewrite H6 by (rewrite blen_app; lia). rewrite (zn_app_l (log ++ pend)) by (rewrite blen_app; lia). reflexivity. }
      split; [exists rest2; rewrite Er, <- !app_assoc; reflexivity|].
      split; [exists [b]; rewrite app_assoc; reflexivity|].
      split; [left; split; [reflexivity|rewrite blen_app, blen_cons, blen_nil; lia]|lia].
  Qed.

  (* one step of a reader *)
  Lemma uok_step {A} (P : A -> bytes -> Z -> Z -> bytes -> Prop) p y r log pend S w got :
    uok P p S w r got -> umem_ok y log pend -> (exists more, log ++ pend = S ++ more) -> w <= blen log ->
    let s := {| rp := r; wp := u_wp y; ring := u_ring y |} in
    exists S' w' got',
      uok P (fst (pstep p s)) S' w' (rp (snd (pstep p s))) got' /\
      wp (snd (pstep p s)) = u_wp y /\ ring (snd (pstep p s)) = u_ring y /\
      (exists more, log ++ pend = S' ++ more) /\ (exists more, S' = S ++ more) /\ w' <= blen log.
  Proof.
    intros Hw Hm (more & Hk) Hwl s. pose proof Hm as (M1 & M2 & M3 & M4 & M5 & M6). pose proof U_SZ as Hs.
    assert (Hnil : exists m, S = S ++ m) by (exists []; rewrite app_nil_r; reflexivity).
    assert (Hk' : exists more, log ++ pend = S ++ more) by (exists more; exact Hk).
    assert (Hbl : blen log <= blen (log ++ pend)) by (rewrite blen_app; pose proof (blen_nonneg _ pend); lia).
    unfold s. destruct p as [a|e|k|k|v p|v p|off k|off b p]; cbn [uok pstep fst snd rp wp ring] in *; try contradiction.
    - exists S, w, got. repeat (split; [assumption || reflexivity|]). assumption.
    - exists S, w, got. repeat (split; [assumption || reflexivity|]). assumption.
    - exists (log ++ pend), (blen log), got. split.
      + rewrite M1. specialize (Hw more (blen log)). rewrite <- Hk in Hw. apply Hw; [lia|exact M3|exact M5].
      + split; [reflexivity|]. split; [reflexivity|]. split; [exists []; rewrite app_nil_r; reflexivity|].
        split; [exists more; exact Hk|lia].
    - destruct Hw as (H1 & H2 & Hw). exists S, w, got. repeat (split; [assumption || reflexivity|]). assumption.
    - destruct Hw as (-> & H1 & H2 & Hw). fold SZ. pose proof (uSZ_index (r + blen got)) as Hi. pose proof (blen_nonneg _ got).
      destruct (Z.leb_spec 0 ((r + blen got) mod SZ)); [|lia].
      destruct (Z.ltb_spec ((r + blen got) mod SZ) (blen (u_ring y))); [|lia]. cbn [andb fst snd rp wp ring].
      pose proof (umem_byte _ _ _ (r + blen got) Hm ltac:(lia)) as Hb.
      exists (log ++ pend), w, (got ++ [nth (Z.to_nat ((r + blen got) mod SZ)) (u_ring y) 0]).
      split; [specialize (Hw more); rewrite <- Hk in Hw; apply Hw; exact Hb|].
      split; [reflexivity|]. split; [reflexivity|]. split; [exists []; rewrite app_nil_r; reflexivity|].
      split; [exists more; exact Hk|lia].
  Qed.

  Lemma ureader_more ops t r log pend log' pend' : ureader_inv ops t r log pend ->
    (exists more, log' ++ pend' = (log ++ pend) ++ more) -> blen log <= blen log' ->
    ureader_inv ops t r log' pend'.
  Proof.
    intros (R1 & R2 & R3 & R4 & R5) (more & E) Hl. split.
    { eapply Forall_impl; [|exact R1]. intros e He. rewrite E. apply uread_more, He. }
    split; [exact R2|]. split; [exact R3|]. split; [exact R4|].
    destruct (current t) as [[[[o r00] w00] p]|].
    - destruct R5 as (items & S0 & S & w & got & A1 & A2 & A3 & (m & A4) & A5 & A6).
      exists items, S0, S, w, got. split; [exact A1|]. split; [exact A2|]. split; [exact A3|].
      split; [exists (m ++ more); rewrite E, A4, app_assoc; reflexivity|]. split; [lia|exact A6].
    - destruct R5. split; [lia|assumption].
  Qed.

  Lemma ualigned_data o : op_ok q o -> aligned (blen (op_data o)).
  Proof.
    destruct o; cbn [op_ok op_data]; try (intros; apply Z.divide_0_r); intros [_ ->]; apply Z.divide_factor_r.
  Qed.
  Lemma uconcat_map_snoc {X} (f : X -> bytes) l x : concat (map f (l ++ [x])) = concat (map f l) ++ f x.
  Proof. rewrite map_app, concat_app. cbn. rewrite app_nil_r. reflexivity. Qed.

  Lemma ustep_writer ops y : usystem_inv ops y -> usystem_inv ops (ustep q y 0).
  Proof.
    intros (log & pend & Hm & Hw & Hz & Hr). unfold ustep, thread_step.
    destruct (parties y 0%nat) as [t r] eqn:Ep. cbn [fst snd] in Hw, Hz. subst r.
    pose proof Hm as (M1 & M2 & M3 & M4 & M5 & M6).
    destruct Hw as (W1 & W2 & W3 & W4 & W5 & W6 & W7 & W8).
    destruct (current t) as [[[[o r00] w00] p]|] eqn:Ec.
    - destruct W8 as (Oo & Ow & Od & Ew & Hlog & Hpre & Hok).
      set (acc := accepted_by t) in *.
      assert (Hcd : current_data t = op_data o) by (unfold current_data; rewrite Ec; reflexivity).
      rewrite Hcd in W5.
      assert (Hv : 0 <= volume (todo t)) by apply blen_nonneg.
      assert (Hat : aligned (blen (acc ++ op_data o))).
      { rewrite blen_app. apply Z.divide_add_r; [exact W7|apply ualigned_data; exact Oo]. }
      assert (Htl : blen (acc ++ op_data o) < 2 ^ gbits q) by (rewrite blen_app; lia).
      set (s := {| rp := 0; wp := u_wp y; ring := u_ring y |}).
      destruct (uwok_step _ _ _ s _ _ Hok eq_refl M1 M2 M3 Hat M6 Hpre) as (log' & pend' & S1 & S2 & S3 & S4 & S5 & S6 & S7 & S8 & S9 & S10).
      assert (Hgen : forall p1 s1, pstep p s = (p1, s1) -> usystem_inv ops
        {| parties := fun j => if Nat.eqb j 0 then ({| todo := todo t; current := Some (o, r00, w00, p1); done := done t |}, rp s1) else parties y j;
           u_wp := wp s1; u_ring := ring s1 |}).
      { intros p1 s1 E. rewrite E in *. cbn [fst snd] in *. exists log', pend'. cbn [parties Nat.eqb fst snd].
        split.
        { unfold umem_ok. cbn [u_wp u_ring]. split; [exact S3|]. split; [exact S4|]. split; [exact S5|].
          destruct S7 as (rest & E7).
          assert (Hb : blen log' + blen pend' <= blen (acc ++ op_data o)).
          { rewrite E7, !blen_app. pose proof (blen_nonneg _ rest). lia. }
          split.
          { destruct S9 as [[-> _]|[_ ->]]; [|rewrite blen_nil; exact HM].
            destruct Hlog as [->| ->]; rewrite !blen_app in Hb; lia. }
          split; [rewrite blen_app; lia|]. exact S6. }
        split.
        { split; [exact W1|]. split; [exact W2|]. split; [exact W3|]. split; [exact W4|].
          split; [unfold current_data; cbn [current todo]; exact W5|]. split; [exact W6|]. split; [exact W7|]. cbn [current].
          split; [exact Oo|]. split; [exact Ow|]. split; [exact Od|]. split; [exact Ew|].
          split; [destruct S9 as [[-> _]|[-> _]]; [exact Hlog|right; reflexivity]|]. split; [exact S7|exact S1]. }
        split; [exact S2|]. intros i. eapply ureader_more; [apply Hr|exact S8|exact S10]. }
      destruct p as [a|e|k|k|v p|v p|off k|off b p].
      1:{ cbn [uwok] in Hok. destruct Hok as (-> & P3 & P4).
          exists log, []. unfold s. cbn [parties Nat.eqb fst snd rp wp ring u_wp u_ring].
          split; [exact Hm|]. split; [|split; [reflexivity|exact Hr]].
          assert (Eacc : accepted_by {| todo := todo t; current := None; done := done t ++
             [{| e_op := o; e_answer := a; e_rp0 := r00; e_wp0 := w00; e_rp1 := 0; e_wp1 := u_wp y |}] |} = log).
          { unfold accepted_by. cbn [done]. rewrite uconcat_map_snoc. rewrite P3. reflexivity. }
          split.
          { apply Forall_app. split; [exact W1|]. apply Forall_cons; [|apply Forall_nil].
            rewrite Ew, M1. exact P4. }
          split; [exact W2|]. split; [exact W3|]. split; [exact W4|].
          split; [rewrite Eacc|].
          { unfold current_data. cbn [current todo]. rewrite blen_nil.
            assert (blen log <= blen acc + blen (op_data o)).
            { rewrite P3, blen_app. unfold accepted. cbn [e_answer e_op].
              pose proof (blen_nonneg _ (op_data o)). destruct a as [[|]| |]; rewrite ?blen_nil; lia. }
            lia. }
          cbn [done current todo]. split; [rewrite map_app, <- app_assoc; exact W6|]. rewrite Eacc. auto. }
      all: destruct (pstep _ _) as [p1 s1] eqn:E; apply Hgen; reflexivity.
    - destruct (todo t) as [|o r] eqn:Et.
      + exists log, pend. cbn [parties Nat.eqb fst snd rp wp ring u_wp u_ring]. split; [exact Hm|]. split; [|split; [reflexivity|exact Hr]].
        destruct t as [td cu dn]. cbn [todo current done] in *. subst.
        split; [exact W1|]. split; [exact W2|]. split; [exact W3|]. split; [exact W4|]. split; [exact W5|].
        split; [exact W6|]. split; [exact W7|]. exact W8.
      + destruct W8 as (-> & ->). inversion W2; subst. inversion W3; subst. inversion W4; subst.
        exists (accepted_by t), []. cbn [parties Nat.eqb fst snd rp wp ring u_wp u_ring].
        split; [exact Hm|]. split; [|split; [reflexivity|exact Hr]].
        split; [exact W1|]. split; [assumption|]. split; [assumption|]. split; [assumption|].
        assert (Ev : volume (o :: r) = blen (op_data o) + volume r).
        { unfold volume. cbn [map concat]. apply blen_app. }
        unfold current_data in W5. rewrite Ec, Ev, blen_nil in W5.
        split; [unfold current_data; cbn [current todo]; change (accepted_by _) with (accepted_by t); lia|].
        split; [exact W6|]. split; [exact W7|].
        cbn [current]. change (accepted_by _) with (accepted_by t).
        split; [assumption|]. split; [assumption|]. split; [assumption|]. split; [exact M1|].
        split; [left; reflexivity|]. split; [exists (op_data o); reflexivity|].
        assert (Hv : 0 <= volume r) by apply blen_nonneg.
        destruct o as [items data| | | | | | |]; cbn [only_writes] in *; try contradiction.
        cbn [run_op op_data op_ok] in *. match goal with H : _ /\ blen data = _ |- _ => destruct H as [Hi Hd] end.
        eapply uwok_bind; [|apply uwok_write; try assumption; try reflexivity; rewrite ?blen_app; lia].
        cbv beta. intros ok log' pend' (-> & -> & ->). cbn [uwok]. split; [reflexivity|].
        unfold accepted, unsync_write_ok. cbn [e_op e_answer e_rp0 e_wp0 e_rp1 e_wp1 op_data]. fold SZ.
        destruct ((0 <? items) && (blen data <=? SZ)).
        * split; [reflexivity|]. split; [reflexivity|]. apply blen_app.
        * split; [rewrite app_nil_r; reflexivity|]. split; [reflexivity|]. lia.
  Qed.

  Lemma ustep_reader ops y n : usystem_inv ops y -> usystem_inv ops (ustep q y (S n)).
  Proof.
    intros (log & pend & Hm & Hw & Hz & Hr). unfold ustep, thread_step.
    pose proof (Hr n) as HR. destruct (parties y (S n)) as [t r] eqn:Ep. cbn [fst snd] in HR.
    pose proof Hm as (M1 & M2 & M3 & M4 & M5 & M6).
    assert (Hall : forall t1 r1, ureader_inv (ops (S n)) t1 r1 log pend -> usystem_inv ops
      {| parties := fun j => if Nat.eqb j (S n) then (t1, r1) else parties y j; u_wp := u_wp y; u_ring := u_ring y |}).
    { intros t1 r1 H1. exists log, pend. cbn [parties u_wp u_ring Nat.eqb]. split; [exact Hm|]. split; [exact Hw|]. split; [exact Hz|].
      intros i. destruct (Nat.eqb_spec i n) as [->|]; [exact H1|apply Hr]. }
    destruct HR as (R1 & R2 & R3 & R4 & R5).
    destruct (current t) as [[[[o r00] w00] p]|] eqn:Ec.
    - destruct R5 as (items & S0 & S & w & got & -> & A2 & A3 & A4 & A5 & A6).
      destruct (uok_step _ _ _ _ _ _ _ _ _ A6 Hm A4 A5) as (S' & w' & g' & B1 & B2 & B3 & B4 & B5 & B6).
      assert (Hgen : forall p1 s1, pstep p {| rp := r; wp := u_wp y; ring := u_ring y |} = (p1, s1) -> usystem_inv ops
        {| parties := fun j => if Nat.eqb j (Datatypes.S n) then ({| todo := todo t; current := Some (Read items, r00, w00, p1); done := done t |}, rp s1) else parties y j;
           u_wp := wp s1; u_ring := ring s1 |}).
      { intros p1 s1 E. rewrite E in *. cbn [fst snd] in *. rewrite B2, B3. apply Hall.
        split; [exact R1|]. split; [exact R2|]. split; [exact R3|]. split; [exact R4|]. cbn [current].
        exists items, S0, S', w', g'. split; [reflexivity|]. split; [exact A2|].
        split; [destruct A3 as (m1 & E1), B5 as (m2 & E2); eapply more_more; eassumption|].
        split; [exact B4|]. split; [exact B6|exact B1]. }
      destruct p as [a|e|kk|kk|v p|v p|off kk|off b p].
      1:{ cbn [rp wp ring]. apply Hall. cbn [uok] in A6. destruct A6 as (d & -> & (m0 & E0) & U1 & U2 & U3 & U4 & U5).
          destruct A4 as (m4 & E4).
          split.
          { apply Forall_app. split; [exact R1|]. apply Forall_cons; [|apply Forall_nil].
            unfold unsync_read_ok. cbn [e_op e_answer e_rp0 e_wp0 e_rp1 e_wp1]. rewrite M1. fold SZ Q.
            destruct d as [d|].
            - destruct U5 as (V1 & V2 & V3 & V4). split; [exact V1|]. split; [exact V2|].
              assert (Hd : 0 < blen d) by (rewrite V2; apply Z.mul_pos_pos; [lia|apply U_Q]).
              assert (V3' : bytes_at (log ++ pend) r00 d) by (intros k Hk; rewrite E4; apply byte_at_more, V3, Hk).
              split; [exact V3'|]. split.
              + intros Hex. apply slice_bytes_at; [exact Hd|exact V3'|]. rewrite blen_app. lia.
              + destruct V4 as [V4|[V4 V5]]; [left; exact V4|right; lia].
            - destruct U5 as [U5|U5]; [left; exact U5|right; lia]. }
          split; [exact R2|]. split; [exact R3|].
          cbn [done current todo]. split; [rewrite map_app, <- app_assoc; exact R4|].
          split; [lia|exact U4]. }
      all: destruct (pstep _ _) as [p1 s1] eqn:E; apply Hgen; reflexivity.
    - destruct (todo t) as [|o rest] eqn:Et.
      + cbn [rp wp ring]. apply Hall. split; [exact R1|]. rewrite Et, Ec. split; [exact R2|]. split; [exact R3|]. split; [exact R4|exact R5].
      + cbn [rp wp ring]. apply Hall. inversion R2; subst. inversion R3; subst.
        split; [exact R1|]. split; [assumption|]. split; [assumption|]. cbn [current todo done]. split; [exact R4|].
        destruct o as [| |items| | | | |]; cbn [only_reads] in *; try contradiction.
        exists items, (log ++ pend), (log ++ pend), (u_wp y), []. split; [reflexivity|]. destruct R5 as [R5 R6]. split; [lia|].
        assert (Hnil : exists m, log ++ pend = (log ++ pend) ++ m) by (exists []; rewrite app_nil_r; reflexivity).
        split; [exact Hnil|]. split; [exact Hnil|]. split; [lia|].
        cbn [run_op op_ok] in *. match goal with H : 0 <= items /\ _ |- _ => destruct H as [Hi1 Hi2] end.
        eapply uok_bind; [|apply uok_read; try assumption; rewrite ?M1; try assumption; try lia].
        * cbv beta. intros d S w r1 got Hd. cbn [uok]. exists d. split; [reflexivity|exact Hd].
        * rewrite blen_app. pose proof (blen_nonneg _ pend). lia.
  Qed.

  Lemma urun ops schedule : forall y, usystem_inv ops y -> usystem_inv ops (run_parties q schedule y).
  Proof.
    induction schedule as [|[|n] r IH]; intros y H; cbn [run_parties fold_left]; [exact H| |].
    - apply IH, ustep_writer, H.
    - apply IH, ustep_reader, H.
  Qed.

  Theorem unsync_queue ops mem schedule :
    blen mem = extent q -> (forall i, Forall (op_ok q) (ops i)) ->
    Forall only_writes (ops 0%nat) -> (forall i, Forall only_reads (ops (S i))) ->
    Forall (fun o => blen (op_data o) <= M) (ops 0%nat) -> volume (ops 0%nat) < 2 ^ gbits q ->
    let y := run_parties q schedule (uinit ops mem) in
    (forall i, ~ faulty (fst (parties y i))) /\
    Forall (unsync_write_ok q) (done (fst (parties y 0%nat))) /\
    exists stream,
      (exists rest, stream ++ rest = accepted_by (fst (parties y 0%nat)) ++ current_data (fst (parties y 0%nat))) /\
      (exists rest, stream = accepted_by (fst (parties y 0%nat)) ++ rest) /\
      forall i, Forall (unsync_read_ok q M stream) (done (fst (parties y (S i)))) /\
        exists rest, ops (S i) = map e_op (done (fst (parties y (S i)))) ++ rest.
  Proof.
    intros Hm H1 H2 H3 H4 Hv y.
    assert (Hstart : usystem_inv ops (uinit ops mem)).
    { exists [], []. unfold uinit. cbn [parties fst snd]. assert (A0 : aligned 0) by apply Z.divide_0_r. pose proof U_bits.
      split; [|split; [|split; [reflexivity|]]].
      - unfold umem_ok. cbn [u_wp u_ring app]. rewrite !blen_nil. repeat split; try assumption; lia.
      - split; [constructor|]. split; [apply H1|]. split; [exact H2|]. split; [exact H4|].
        split; [unfold accepted_by, current_data; cbn; exact Hv|]. split; [reflexivity|]. split; [exact A0|]. split; reflexivity.
      - intros i. split; [constructor|]. split; [apply H1|]. split; [apply H3|]. split; [reflexivity|].
        cbn [current thread_init]. rewrite blen_nil. split; [lia|exact A0]. }
    destruct (urun ops schedule _ Hstart) as (log & pend & M0 & W & Z0 & R). fold y in M0, W, Z0, R.
    destruct W as (W1 & W2 & W3 & W4 & W5 & W6 & W7 & W8).
    split.
    { intros [|i] (o & a & b & f & E).
      - rewrite E in W8. destruct W8 as (_ & _ & _ & _ & _ & _ & W8). exact W8.
      - destruct (R i) as (_ & _ & _ & _ & R5). rewrite E in R5. destruct R5 as (it & S0 & S & w & g & _ & _ & _ & _ & _ & R5). exact R5. }
    split; [exact W1|]. exists (log ++ pend).
    split.
    { unfold current_data. destruct (current (fst (parties y 0%nat))) as [[[[o a] b] p]|].
      - destruct W8 as (_ & _ & _ & _ & _ & (rest & W8) & _). exists rest. rewrite W8, <- app_assoc. reflexivity.
      - destruct W8 as (-> & ->). exists []. rewrite !app_nil_r. reflexivity. }
    split.
    { destruct (current (fst (parties y 0%nat))) as [[[[o a] b] p]|].
      - destruct W8 as (_ & _ & _ & _ & [-> | ->] & _ & _); [exists pend; reflexivity|]. eexists. rewrite <- app_assoc. reflexivity.
      - destruct W8 as (-> & ->). exists []. reflexivity. }
    intros i. destruct (R i) as (R1 & _ & _ & R4 & _). split; [exact R1|]. eexists. exact R4.
  Qed.
End Unsync.
