(* Proofs about synchronized queues. The writer and the reader are verified
   separately against what the other side may do in between ([wok] and [rok]), and
   then put together. *)
From Verif Require Import Base BaseLemmas FmqModel FmqSpec.
Open Scope prog_scope.

Definition zn (l : bytes) (i : Z) : Z := nth (Z.to_nat i) l 0.

Lemma zn_app_l l m i : 0 <= i < blen l -> zn (l ++ m) i = zn l i.
Proof. intros H. unfold zn. apply app_nth1. unfold blen in H. lia. Qed.
Lemma zn_app_r l m i : blen l <= i -> zn (l ++ m) i = zn m (i - blen l).
Proof.
  intros H. unfold zn. pose proof (blen_nonneg _ l). rewrite app_nth2 by (unfold blen in *; lia).
  f_equal. unfold blen. lia.
Qed.

Lemma zn_poke l i b j : 0 <= i < blen l -> 0 <= j -> zn (poke l i [b]) j = if j =? i then b else zn l j.
Proof.
  intros Hi Hj. unfold poke. rewrite blen_cons, blen_nil.
  assert (B : blen (ztake i l) = i) by (rewrite blen_ztake; lia).
  destruct (Z.eqb_spec j i) as [->|Hne].
  - rewrite zn_app_r, B by lia. rewrite Z.sub_diag. reflexivity.
  - assert (Ed : zdrop i l = [zn l i] ++ zdrop (i + (1 + 0)) l).
    { unfold zn, zdrop. replace (Z.to_nat (i + (1 + 0))) with (S (Z.to_nat i)) by lia.
      assert (L : (Z.to_nat i < length l)%nat) by (unfold blen in Hi; lia).
      revert L. generalize (Z.to_nat i). clear. induction l as [|x l IH]; intros n L; [cbn in L; lia|].
      destruct n as [|n]; [reflexivity|]. cbn [skipn nth]. apply IH. cbn in L. lia. }
    transitivity (zn (ztake i l ++ zdrop i l) j); [|rewrite ztake_zdrop; reflexivity].
    destruct (Z.lt_ge_cases j i).
    + rewrite !zn_app_l by lia. reflexivity.
    + rewrite !(zn_app_r (ztake i l)), B by lia. rewrite Ed.
      rewrite !zn_app_r by (unfold blen; cbn; lia). reflexivity.
Qed.

Lemma mod_inj_window a b n : 0 < n -> a <= b < a + n -> a mod n = b mod n -> a = b.
Proof.
  intros Hn H E. assert (D : (b - a) mod n = 0).
  { rewrite Zminus_mod, E, Z.sub_diag. reflexivity. }
  rewrite Z.mod_small in D by lia. lia.
Qed.

Lemma div_mod_div q m a : (q | m) -> (q | a) -> m <> 0 -> (q | a mod m).
Proof. intros H1 H2 H3. rewrite Z.mod_eq by exact H3.
  apply Z.divide_sub_r; [exact H2|]. apply Z.divide_mul_l. exact H1. Qed.

Lemma prefix_blen (k m k1 : bytes) : k1 = k ++ m -> blen k <= blen k1.
Proof. intros ->. rewrite blen_app. pose proof (blen_nonneg _ m). lia. Qed.
Lemma more_more (k m k1 m1 k2 : bytes) : k1 = k ++ m -> k2 = k1 ++ m1 -> exists m2, k2 = k ++ m2.
Proof. intros -> ->. exists (m ++ m1). rewrite app_assoc. reflexivity. Qed.

Section Queue.
  Variable q : queue.
  Hypothesis Hq : queue_ok q Sync.
  Let SZ := extent q.
  Let Q := quantum q.

  Lemma gs_small v : 0 <= v < 2 ^ 32 -> gs q v = v.
  Proof. intros H. unfold gs. apply Z.mod_small. destruct Hq as ([->| ->] & _); lia. Qed.
  Lemma gs_le v : 0 <= v <= SZ -> gs q v = v.
  Proof. intros H. apply gs_small. unfold SZ in H. destruct Hq as (_ & _ & _ & ? & _). lia. Qed.
  Lemma SZ_pos : 0 < SZ < 2 ^ 32. Proof. apply Hq. Qed.
  Lemma Q_pos : 0 < Q. Proof. apply Hq. Qed.
  Lemma Q_SZ : (Q | SZ).
  Proof. apply Z.mod_divide; [pose proof Q_pos; lia|]. apply Hq. Qed.

  Definition aligned (z : Z) : Prop := (Q | z).

  (* ---------------------------------------------------------------- *)
  (* The writer. It knows [log], all the bytes which it has committed so far, [pend],
     the bytes which it has placed behind them, and a lower bound of the reader's
     counter. The only commit allowed is the one which makes the log [target]. *)
  Section Writer.
  Variable target : bytes.
  Fixpoint wok {A} (Post : A -> bytes -> bytes -> Z -> Prop) (p : prog A) (log pend : bytes) (r0 : Z) : Prop :=
    match p with
    | Ret a => Post a log pend r0
    | Bad _ => False
    | GetR k => forall r, r0 <= r <= blen log -> aligned r -> wok Post (k r) log pend r
    | GetW k => wok Post (k (blen log)) log pend r0
    | SetR _ _ | Get _ _ => False
    | SetW v p => log ++ pend = target /\ v = blen target /\ wok Post p target [] r0
    | Put off b p =>
      off = (blen log + blen pend) mod SZ /\ blen log + blen pend < r0 + SZ /\
      wok Post p log (pend ++ [b]) r0
    end.

  Lemma wok_bind {A B} (P1 : A -> bytes -> bytes -> Z -> Prop) (P2 : B -> bytes -> bytes -> Z -> Prop)
    (p : prog A) (f : A -> prog B) :
    (forall a log pend r0, P1 a log pend r0 -> wok P2 (f a) log pend r0) ->
    forall log pend r0, wok P1 p log pend r0 -> wok P2 (pbind p f) log pend r0.
  Proof.
    intros Hf. induction p as [a|e|k IH|k IH|v p IH|v p IH|off k IH|off b p IH];
      intros log pend r0 H; cbn [pbind wok] in *; auto.
    - destruct H as (H1 & H2 & H3). auto.
    - destruct H as (H1 & H2 & H3). auto.
  Qed.

  Definition wpre (log : bytes) (r0 : Z) : Prop :=
    0 <= r0 <= blen log /\ blen log <= r0 + SZ /\ aligned r0 /\ aligned (blen log) /\ blen log < 2 ^ 64.

  Lemma wok_read_bytes c log pend r0 : wpre log r0 ->
    wok (fun n log' pend' r' => log' = log /\ pend' = pend /\ r0 <= r' <= blen log /\ aligned r' /\
           n = if c : bool then Z.min (SZ - r' mod SZ) (blen log - r') else blen log - r')
      (available_to_read_bytes q c) log pend r0.
  Proof.
    intros (H1 & H2 & H3 & H4 & H5). pose proof SZ_pos as Hs.
    unfold available_to_read_bytes. cbn [wok]. intros r Hr Ha.
    assert (E : gs q (u64 (blen log - r)) = blen log - r).
    { unfold u64. rewrite Z.mod_small by lia. apply gs_le. lia. }
    rewrite E. change (extent q) with SZ. rewrite (gs_le SZ) by lia. unfold pmod.
    destruct (Z.eqb_spec SZ 0); [lia|]. destruct c; cbn [pbind wok].
    - split; [reflexivity|]. split; [reflexivity|]. split; [exact Hr|]. split; [exact Ha|].
      pose proof (Z.mod_pos_bound r SZ ltac:(lia)).
      unfold u64. rewrite (Z.mod_small (SZ - r mod SZ)) by lia. rewrite gs_le by lia.
      destruct (Z.ltb_spec (SZ - r mod SZ) (blen log - r)); lia.
    - split; [reflexivity|]. split; [reflexivity|]. split; [exact Hr|]. split; [exact Ha|]. reflexivity.
  Qed.

  Lemma wok_write_bytes c log pend r0 : wpre log r0 ->
    wok (fun n log' pend' r' => log' = log /\ pend' = pend /\ r0 <= r' <= blen log /\ aligned r' /\
           n = if c : bool then Z.min (SZ - blen log mod SZ) (SZ - (blen log - r')) else SZ - (blen log - r'))
      (available_to_write_bytes q c) log pend r0.
  Proof.
    intros Hp. pose proof SZ_pos as Hs. destruct Hp as (H1 & H2 & H3 & H4 & H5).
    unfold available_to_write_bytes. change (extent q) with SZ.
    assert (Eu : u32 SZ = SZ) by (unfold u32; apply Z.mod_small; lia). rewrite Eu.
    eapply wok_bind; [|apply (wok_read_bytes false); repeat split; assumption || lia].
    cbv beta. intros n log' pend' r' (-> & -> & Hr & Ha & ->). cbv zeta.
    rewrite (gs_le (SZ - (blen log - r'))) by lia. destruct c; cbn [wok].
    - unfold pmod. destruct (Z.eqb_spec SZ 0); [lia|]. cbn [pbind wok].
      pose proof (Z.mod_pos_bound (blen log) SZ ltac:(lia)).
      unfold u64. rewrite (Z.mod_small (SZ - _)) by lia. rewrite gs_le by lia.
      split; [reflexivity|]. split; [reflexivity|]. split; [exact Hr|]. split; [exact Ha|].
      destruct (Z.ltb_spec (SZ - blen log mod SZ) (SZ - (blen log - r'))); lia.
    - split; [reflexivity|]. split; [reflexivity|]. split; [exact Hr|]. split; [exact Ha|]. reflexivity.
  Qed.

  Lemma wok_pdiv n log pend r0 (Post : Z -> bytes -> bytes -> Z -> Prop) :
    aligned n -> (forall m, m * Q = n -> Post m log pend r0) -> wok Post (pdiv n Q) log pend r0.
  Proof.
    intros [m ->] H. pose proof Q_pos. unfold pdiv. destruct (Z.eqb_spec Q 0); [lia|]. cbn [wok].
    apply H. rewrite Z.div_mul by lia. reflexivity.
  Qed.

  Lemma aligned_min a b : aligned a -> aligned b -> aligned (Z.min a b).
  Proof. intros. destruct (Z.min_spec a b) as [[_ ->]|[_ ->]]; assumption. Qed.
  Lemma aligned_sub a b : aligned a -> aligned b -> aligned (a - b).
  Proof. apply Z.divide_sub_r. Qed.
  Lemma aligned_mod a : aligned a -> aligned (a mod SZ).
  Proof. intros H. apply div_mod_div; [exact Q_SZ|exact H|pose proof SZ_pos; lia]. Qed.
  Lemma aligned_sz : aligned SZ. Proof. exact Q_SZ. Qed.
  Hint Resolve aligned_min aligned_sub aligned_mod aligned_sz : fmq.

  Lemma wok_avail_read log pend r0 : wpre log r0 ->
    wok (fun n log' pend' r' => log' = log /\ pend' = pend /\ r0 <= r' <= blen log /\ aligned r' /\
           n * Q = blen log - r') (available_to_read q) log pend r0.
  Proof.
    intros Hp. unfold available_to_read. eapply wok_bind; [|apply (wok_read_bytes false); exact Hp].
    cbv beta iota. intros n log' pend' r' (-> & -> & Hr & Ha & ->). apply wok_pdiv.
    - destruct Hp as (_ & _ & _ & H4 & _). auto with fmq.
    - intros m Hm. auto.
  Qed.
  Lemma wok_avail_read_contiguous log pend r0 : wpre log r0 ->
    wok (fun n log' pend' r' => log' = log /\ pend' = pend /\ r0 <= r' <= blen log /\ aligned r' /\
           n * Q = Z.min (SZ - r' mod SZ) (blen log - r')) (available_to_read_contiguous q) log pend r0.
  Proof.
    intros Hp. unfold available_to_read_contiguous. eapply wok_bind; [|apply (wok_read_bytes true); exact Hp].
    cbv beta iota. intros n log' pend' r' (-> & -> & Hr & Ha & ->). apply wok_pdiv.
    - destruct Hp as (_ & _ & _ & H4 & _). auto with fmq.
    - intros m Hm. auto.
  Qed.
  Lemma wok_avail_write log pend r0 : wpre log r0 ->
    wok (fun n log' pend' r' => log' = log /\ pend' = pend /\ r0 <= r' <= blen log /\ aligned r' /\
           n * Q = SZ - (blen log - r')) (available_to_write q) log pend r0.
  Proof.
    intros Hp. unfold available_to_write. eapply wok_bind; [|apply (wok_write_bytes false); exact Hp].
    cbv beta iota. intros n log' pend' r' (-> & -> & Hr & Ha & ->). apply wok_pdiv.
    - destruct Hp as (_ & _ & _ & H4 & _). auto with fmq.
    - intros m Hm. auto.
  Qed.
  Lemma wok_avail_write_contiguous log pend r0 : wpre log r0 ->
    wok (fun n log' pend' r' => log' = log /\ pend' = pend /\ r0 <= r' <= blen log /\ aligned r' /\
           n * Q = Z.min (SZ - blen log mod SZ) (SZ - (blen log - r')))
      (available_to_write_contiguous q) log pend r0.
  Proof.
    intros Hp. unfold available_to_write_contiguous. eapply wok_bind; [|apply (wok_write_bytes true); exact Hp].
    cbv beta iota. intros n log' pend' r' (-> & -> & Hr & Ha & ->). apply wok_pdiv.
    - destruct Hp as (_ & _ & _ & H4 & _). auto with fmq.
    - intros m Hm. auto.
  Qed.

  Lemma wpre_later log r0 r : wpre log r0 -> r0 <= r <= blen log -> aligned r -> wpre log r.
  Proof. intros (H1 & H2 & H3 & H4 & H5) Hr Ha. repeat split; try assumption; lia. Qed.

  Lemma wok_begin_write items log r0 : wpre log r0 -> 0 <= items ->
    wok (fun ptr log' pend' r' => log' = log /\ pend' = [] /\ r0 <= r' <= blen log /\ aligned r' /\
           match ptr with
           | Some off => 0 < items /\ off = blen log mod SZ /\ items * Q <= SZ - (blen log - r')
           | None => items = 0 \/ SZ - (blen log - r0) < items * Q
           end) (begin_write q items) log [] r0.
  Proof.
    intros Hp Hi. pose proof Hp as Hp'. destruct Hp' as (H1 & H2 & H3 & H4 & H5). unfold begin_write.
    destruct (Z.ltb_spec 0 items) as [Hi0|Hi0].
    2:{ cbn [wok]. repeat split; try assumption; try lia. }
    assert (K : kind q = Sync) by apply Hq. rewrite K.
    eapply wok_bind; [|eapply wok_bind; [|apply wok_avail_write; exact Hp]].
    2:{ cbv beta. intros n log' pend' r' H.
        instantiate (1 := fun full log' pend' r' => log' = log /\ pend' = [] /\ r0 <= r' <= blen log /\ aligned r' /\
          exists n, n * Q = SZ - (blen log - r') /\ full = (n <? items)).
        destruct H as (-> & -> & Hr & Ha & Hn). cbn [wok].
        split; [reflexivity|]. split; [reflexivity|]. split; [exact Hr|]. split; [exact Ha|].
        exists n. auto. }
    cbv beta. intros full log' pend' r' (-> & -> & Hr & Ha & n & Hn & ->).
    pose proof Q_pos. pose proof SZ_pos.
    destruct (Z.ltb_spec n items) as [Hf|Hf].
    { cbn [wok]. split; [reflexivity|]. split; [reflexivity|]. split; [exact Hr|]. split; [exact Ha|].
      right. nia. }
    change (extent q) with SZ. rewrite (gs_le SZ) by lia. fold Q. unfold pdiv, pmod.
    destruct (Z.eqb_spec Q 0); [lia|]. cbn [pbind].
    destruct Q_SZ as [m Em].
    assert (Ediv : SZ / Q = m) by (rewrite Em; apply Z.div_mul; lia). rewrite Ediv.
    assert (n <= m) by nia.
    destruct (Z.ltb_spec m items); [lia|]. cbn [wok pbind].
    assert (Em2 : blen log mod Q = 0) by (apply Z.mod_divide; [lia|exact H4]). rewrite Em2. cbn [Z.eqb negb].
    destruct (Z.eqb_spec SZ 0); [lia|]. cbn [pbind wok].
    split; [reflexivity|]. split; [reflexivity|]. split; [exact Hr|]. split; [exact Ha|].
    split; [exact Hi0|]. split; [reflexivity|]. nia.
  Qed.

  Lemma wok_put_bytes d : forall off log pend r0 (Post : unit -> bytes -> bytes -> Z -> Prop),
    (d <> [] -> off = (blen log + blen pend) mod SZ) -> off + blen d <= SZ -> 0 <= off ->
    blen log + blen pend + blen d <= r0 + SZ ->
    Post tt log (pend ++ d) r0 ->
    wok Post (put_bytes off d) log pend r0.
  Proof.
    pose proof SZ_pos as Hs.
    induction d as [|b d IH]; intros off log pend r0 Post Ho Hb Ho0 Hr HP; cbn [put_bytes wok].
    - rewrite app_nil_r in HP. exact HP.
    - rewrite blen_cons in *. pose proof (blen_nonneg _ d). pose proof (blen_nonneg _ log).
      pose proof (blen_nonneg _ pend).
      assert (Eo : off = (blen log + blen pend) mod SZ) by (apply Ho; discriminate).
      split; [exact Eo|]. split; [lia|].
      apply IH.
      + intros Hne. rewrite blen_app, blen_cons, blen_nil.
        replace (blen log + (blen pend + (1 + 0))) with (blen log + blen pend + 1) by lia.
        rewrite Zplus_mod, <- Eo, (Z.mod_small 1).
        * assert (0 < blen d).
          { destruct d; [contradiction|]. rewrite blen_cons. pose proof (blen_nonneg _ d). lia. }
          symmetry. apply Z.mod_small. lia.
        * destruct d; [contradiction|]. rewrite blen_cons in Hb. pose proof (blen_nonneg _ d). lia.
      + lia.
      + lia.
      + rewrite blen_app, blen_cons, blen_nil. lia.
      + rewrite <- app_assoc. exact HP.
  Qed.

  (* the commit *)
  Lemma wok_end_write items log pend r0 (Post : unit -> bytes -> bytes -> Z -> Prop) :
    log ++ pend = target -> blen target < 2 ^ 64 -> blen pend = items * Q -> blen pend <= SZ -> 0 < items ->
    Post tt target [] r0 ->
    wok Post (end_write q items) log pend r0.
  Proof.
    intros HT Hlt Hp Hs Hi HP. unfold end_write. destruct (Z.ltb_spec 0 items); [|lia].
    cbn [wok]. split; [exact HT|]. split; [|exact HP].
    fold Q. rewrite <- Hp. rewrite gs_le by (pose proof (blen_nonneg _ pend); lia).
    unfold u64. rewrite <- blen_app, HT. apply Z.mod_small. pose proof (blen_nonneg _ target). lia.
  Qed.

  Lemma caller_bytes_ok data off n (A : Type) (f : bytes -> prog A) :
    0 <= off -> 0 <= n -> off + n <= blen data ->
    pbind (caller_bytes data off n) f = f (slice data off n).
  Proof.
    intros H1 H2 H3. unfold caller_bytes, load.
    destruct (Z.leb_spec 0 off); [|lia]. destruct (Z.leb_spec (off + n) (blen data)); [|lia]. reflexivity.
  Qed.

  Definition wfinal (log data : bytes) (r0 : Z) (exact : Prop) (ok : bool) (log' pend' : bytes) (r' : Z) : Prop :=
    pend' = [] /\ r0 <= r' <= blen log /\
    if ok then log' = log ++ data /\ blen log + blen data <= r' + SZ /\ data <> []
    else log' = log /\ exact.

  Lemma wok_write data items log r0 : wpre log r0 -> log ++ data = target -> blen target < 2 ^ 64 ->
    0 <= items -> blen data = items * Q ->
    wok (wfinal log data r0 (items = 0 \/ SZ - (blen log - r0) < blen data)) (fmq_write q data items) log [] r0.
  Proof.
    intros Hp HT HL Hi Hd. pose proof Hp as Hp'. destruct Hp' as (H1 & H2 & H3 & H4 & H5). pose proof Q_pos. pose proof SZ_pos.
    unfold fmq_write. destruct (Z.ltb_spec 0 items) as [Hi0|Hi0].
    2:{ cbn [wok]. unfold wfinal. repeat split; try lia. }
    eapply wok_bind; [|apply wok_begin_write; [exact Hp|exact Hi]].
    cbv beta. intros ptr log' pend' r' (-> & -> & Hr & Ha & Hptr). destruct ptr as [off|].
    2:{ cbn [wok]. unfold wfinal. repeat split; try lia. }
    destruct Hptr as (_ & -> & Hroom). fold Q.
    pose proof (Z.mod_pos_bound (blen log) SZ ltac:(lia)) as Hm.
    eapply wok_bind; [|apply wok_avail_write_contiguous; eapply wpre_later; eassumption].
    cbv beta. intros n log' pend' r2 (-> & -> & Hr2 & Ha2 & Hn).
    assert (Hn0 : 0 <= n).
    { assert (0 <= n * Q) by lia. nia. }
    eapply wok_bind with (P1 := fun _ log' pend' r' => log' = log /\ pend' = data /\ r' = r2).
    { intros [] log' pend' r3 (-> & -> & ->). eapply wok_bind with (P1 := fun _ log' pend' r' => log' = log ++ data /\ pend' = [] /\ r' = r2).
      { intros [] log' pend' r3 (-> & -> & ->). cbn [wok]. unfold wfinal.
        split; [reflexivity|]. split; [lia|]. split; [reflexivity|]. split; [lia|].
        intros ->. rewrite blen_nil in Hd. nia. }
      apply wok_end_write; try assumption; try lia; auto. }
    assert (Hc : items * Q <= SZ - (blen log - r2)) by lia.
    destruct (Z.ltb_spec n items) as [Hlt|Hge]; cbv zeta.
    - assert (Hnq : n * Q = SZ - blen log mod SZ) by nia.
      assert (Hge : items * Q - n * Q = (items - n) * Q) by ring.
      assert (0 <= (items - n) * Q) by (apply Z.mul_nonneg_nonneg; lia).
      rewrite (gs_le (n * Q)) by lia. rewrite (gs_le ((items - n) * Q)) by lia.
      rewrite !caller_bytes_ok by lia.
      assert (B1 : blen (slice data 0 (n * Q)) = n * Q) by (apply blen_slice; lia).
      assert (B2 : blen (slice data (n * Q) ((items - n) * Q)) = (items - n) * Q) by (apply blen_slice; lia).
      assert (Esp : data = slice data 0 (n * Q) ++ slice data (n * Q) ((items - n) * Q)).
      { rewrite <- (slice_all _ data (n * Q + (items - n) * Q)) at 1 by lia. rewrite slice_split by lia. reflexivity. }
      eapply wok_bind with (P1 := fun _ log' pend' r' => log' = log /\ pend' = slice data 0 (n * Q) /\ r' = r2).
      + intros [] log' pend' r3 (-> & -> & ->). apply wok_put_bytes.
        * intros _. rewrite B1, Hnq.
          replace (blen log + (SZ - blen log mod SZ)) with ((blen log / SZ + 1) * SZ).
          -- symmetry. apply Z.mod_mul. lia.
          -- pose proof (Z.div_mod (blen log) SZ ltac:(lia)). nia.
        * lia.
        * lia.
        * lia.
        * split; [reflexivity|]. split; [symmetry; exact Esp|reflexivity].
      + apply wok_put_bytes; rewrite ?blen_nil, ?B1, ?Z.add_0_r; try lia; auto.
    - assert (n * Q >= items * Q) by nia.
      rewrite (gs_le (items * Q)) by nia. rewrite caller_bytes_ok by lia.
      rewrite slice_all by lia.
      apply wok_put_bytes; rewrite ?blen_nil, ?Z.add_0_r; try lia; auto.
  Qed.

  Definition wpost (o : op) (log : bytes) (r0 : Z) (a : answer) (log' pend' : bytes) (r' : Z) : Prop :=
    pend' = [] /\ r0 <= r' /\
    log' = log ++ accepted {| e_op := o; e_answer := a; e_rp0 := r0; e_wp0 := blen log; e_rp1 := r'; e_wp1 := blen log' |} /\
    forall r2, r' <= r2 <= blen log' ->
      writer_record_ok q {| e_op := o; e_answer := a; e_rp0 := r0; e_wp0 := blen log; e_rp1 := r2; e_wp1 := blen log' |}.

  Lemma wok_op o log r0 : wpre log r0 -> log ++ op_data o = target -> blen target < 2 ^ 64 ->
    op_ok q o -> writer_op o ->
    wok (wpost o log r0) (run_op q o) log [] r0.
  Proof.
    intros Hp HT HL Ho Hw. pose proof Hp as Hp'. destruct Hp' as (H1 & H2 & H3 & H4 & H5). pose proof Q_pos. pose proof SZ_pos.
    destruct o as [items data|items data|items|items| | | |]; cbn [run_op op_ok writer_op op_data] in *; try contradiction.
    - destruct Ho as [Hi Hd]. fold Q in Hd.
      eapply wok_bind; [|apply wok_write; eassumption].
      cbv beta. intros ok log' pend' r' (-> & Hr & Hok). cbn [wok]. unfold wpost, accepted, writer_record_ok.
      cbn [e_op e_answer e_rp0 e_wp0 e_rp1 e_wp1 op_data]. fold SZ Q.
      split; [reflexivity|]. split; [lia|]. destruct ok.
      + destruct Hok as (-> & Hroom & Hne). split; [reflexivity|]. intros r2 Hr2. rewrite blen_app.
        split; [|lia]. destruct (Z.lt_ge_cases 0 items); [assumption|].
        exfalso. apply Hne. apply blen_zero. nia.
      + destruct Hok as (-> & Hex). split; [rewrite app_nil_r; reflexivity|]. intros r2 Hr2. split; [reflexivity|exact Hex].
    - destruct Ho as [Hi Hd]. fold Q in Hd.
      eapply wok_bind; [|apply wok_avail_write_contiguous; exact Hp].
      cbv beta. intros n log' pend' r1 (-> & -> & Hr1 & Ha1 & Hn).
      assert (Hfail : forall r', r1 <= r' ->
        (items = 0 \/ SZ - (blen log - r0) < blen data \/ SZ - blen log mod SZ < blen data) ->
        wpost (ZeroCopyWrite items data) log r0 (Written false) log [] r').
      { intros r' Hr' Hwhy. split; [reflexivity|]. split; [lia|]. split; [unfold accepted; cbn; rewrite app_nil_r; reflexivity|].
        intros r2 _. split; [reflexivity|exact Hwhy]. }
      destruct (Z.leb_spec items n) as [Hle|Hgt].
      2:{ cbn [wok]. apply Hfail; [lia|]. assert (n * Q < items * Q) by (apply Z.mul_lt_mono_pos_r; lia). lia. }
      assert (Hp1 : wpre log r1) by (eapply wpre_later; eassumption).
      eapply wok_bind; [|apply wok_begin_write; eassumption].
      cbv beta. intros ptr log' pend' r' (-> & -> & Hr' & Ha' & Hptr). destruct ptr as [off|].
      2:{ cbn [wok]. apply Hfail; lia. }
      destruct Hptr as (Hi0 & -> & Hroom).
      pose proof (Z.mod_pos_bound (blen log) SZ ltac:(lia)) as Hm.
      assert (items * Q <= n * Q) by (apply Z.mul_le_mono_nonneg_r; lia).
      eapply wok_bind with (P1 := fun _ log' pend' r2 => log' = log /\ pend' = data /\ r2 = r').
      2:{ apply wok_put_bytes; rewrite ?blen_nil, ?Z.add_0_r; try lia; auto. }
      intros [] log' pend' r3 (-> & -> & ->).
      eapply wok_bind with (P1 := fun _ log' pend' r2 => log' = log ++ data /\ pend' = [] /\ r2 = r').
      2:{ apply wok_end_write; try assumption; try lia; auto. }
      intros [] log' pend' r3 (-> & -> & ->). cbn [wok]. split; [reflexivity|]. split; [lia|].
      unfold accepted, writer_record_ok. cbn [e_op e_answer e_rp0 e_wp0 e_rp1 e_wp1 op_data].
      fold SZ Q. split; [reflexivity|]. intros r2 Hr2. rewrite blen_app. lia.
    - eapply wok_bind; [|apply wok_avail_read; exact Hp].
      cbv beta. intros n log' pend' r1 (-> & -> & Hr1 & Ha1 & Hn). cbn [wok].
      split; [reflexivity|]. split; [lia|]. split; [unfold accepted; cbn; rewrite app_nil_r; reflexivity|].
      intros r2 Hr2. unfold writer_record_ok; cbn [e_op e_answer e_rp0 e_wp0 e_rp1 e_wp1]. fold Q SZ. lia.
    - eapply wok_bind; [|apply wok_avail_write; exact Hp].
      cbv beta. intros n log' pend' r1 (-> & -> & Hr1 & Ha1 & Hn). cbn [wok].
      split; [reflexivity|]. split; [lia|]. split; [unfold accepted; cbn; rewrite app_nil_r; reflexivity|].
      intros r2 Hr2. unfold writer_record_ok; cbn [e_op e_answer e_rp0 e_wp0 e_rp1 e_wp1]. fold Q SZ. lia.
    - eapply wok_bind; [|apply wok_avail_read_contiguous; exact Hp].
      cbv beta. intros n log' pend' r1 (-> & -> & Hr1 & Ha1 & Hn). cbn [wok].
      split; [reflexivity|]. split; [lia|]. split; [unfold accepted; cbn; rewrite app_nil_r; reflexivity|].
      intros r2 Hr2. unfold writer_record_ok; cbn [e_op e_answer e_rp0 e_wp0 e_rp1 e_wp1]. fold Q SZ.
      split; [reflexivity|]. exists r1. lia.
    - eapply wok_bind; [|apply wok_avail_write_contiguous; exact Hp].
      cbv beta. intros n log' pend' r1 (-> & -> & Hr1 & Ha1 & Hn). cbn [wok].
      pose proof (Z.mod_pos_bound (blen log) SZ ltac:(lia)) as Hm.
      split; [reflexivity|]. split; [lia|]. split; [unfold accepted; cbn; rewrite app_nil_r; reflexivity|].
      intros r2 Hr2. unfold writer_record_ok; cbn [e_op e_answer e_rp0 e_wp0 e_rp1 e_wp1]. fold Q SZ. lia.
  Qed.
  End Writer.

  Hint Resolve aligned_min aligned_sub aligned_mod aligned_sz : fmq.

  (* ---------------------------------------------------------------- *)
  (* The reader. It knows [known], the bytes which were committed when it last looked
     at the writer's counter, its own counter, and [got], the bytes which it has copied
     since it last moved the counter. *)
  Fixpoint rok {A} (Post : A -> bytes -> Z -> bytes -> Prop) (p : prog A) (known : bytes) (r : Z) (got : bytes) : Prop :=
    match p with
    | Ret a => Post a known r got
    | Bad _ => False
    | GetR k => rok Post (k r) known r got
    | GetW k => forall more, wpre (known ++ more) r -> rok Post (k (blen (known ++ more))) (known ++ more) r got
    | SetW _ _ | Put _ _ _ => False
    | SetR v p => v = r + blen got /\ v <= blen known /\ aligned v /\ rok Post p known v []
    | Get off k =>
      off = (r + blen got) mod SZ /\ r + blen got < blen known /\
      rok Post (k (zn known (r + blen got))) known r (got ++ [zn known (r + blen got)])
    end.

  Lemma rok_bind {A B} (P1 : A -> bytes -> Z -> bytes -> Prop) (P2 : B -> bytes -> Z -> bytes -> Prop)
    (p : prog A) (f : A -> prog B) :
    (forall a known r got, P1 a known r got -> rok P2 (f a) known r got) ->
    forall known r got, rok P1 p known r got -> rok P2 (pbind p f) known r got.
  Proof.
    intros Hf. induction p as [a|e|k IH|k IH|v p IH|v p IH|off k IH|off b p IH];
      intros known r got H; cbn [pbind rok] in *; auto.
    - destruct H as (H1 & H2 & H3 & H4). auto.
    - destruct H as (H1 & H2 & H3). auto.
  Qed.

  Definition later (known : bytes) (r : Z) (got : bytes) (known' : bytes) (r' : Z) (got' : bytes) : Prop :=
    (exists more, known' = known ++ more) /\ wpre known' r /\ r' = r /\ got' = got.

  Lemma later_more known r got more : wpre (known ++ more) r -> later known r got (known ++ more) r got.
  Proof. intros H. split; [exists more; reflexivity|]. auto. Qed.

  Lemma rok_read_bytes c known r got : wpre known r ->
    rok (fun n known' r' got' => later known r got known' r' got' /\
           n = if c : bool then Z.min (SZ - r mod SZ) (blen known' - r) else blen known' - r)
      (available_to_read_bytes q c) known r got.
  Proof.
    intros _. pose proof SZ_pos as Hs.
    unfold available_to_read_bytes. cbn [rok]. intros more Hp.
    pose proof Hp as (H1 & H2 & H3 & H4 & H5).
    assert (E : gs q (u64 (blen (known ++ more) - r)) = blen (known ++ more) - r).
    { unfold u64. rewrite Z.mod_small by lia. apply gs_le. lia. }
    rewrite E. change (extent q) with SZ. rewrite (gs_le SZ) by lia. unfold pmod.
    destruct (Z.eqb_spec SZ 0); [lia|]. destruct c; cbn [pbind rok].
    - split; [apply later_more; exact Hp|].
      pose proof (Z.mod_pos_bound r SZ ltac:(lia)).
      unfold u64. rewrite (Z.mod_small (SZ - r mod SZ)) by lia. rewrite gs_le by lia.
      destruct (Z.ltb_spec (SZ - r mod SZ) (blen (known ++ more) - r)); lia.
    - split; [apply later_more; exact Hp|]. reflexivity.
  Qed.

  Lemma later_trans k r g k1 r1 g1 k2 r2 g2 :
    later k r g k1 r1 g1 -> later k1 r1 g1 k2 r2 g2 -> later k r g k2 r2 g2.
  Proof.
    intros ((m1 & ->) & H1 & -> & ->) ((m2 & ->) & H2 & -> & ->).
    split; [exists (m1 ++ m2); rewrite app_assoc; reflexivity|]. auto.
  Qed.

  Lemma rok_write_bytes c known r got : wpre known r ->
    rok (fun n known' r' got' => later known r got known' r' got' /\
           exists k1, (exists m, k1 = known ++ m) /\ (exists m, known' = k1 ++ m) /\ wpre k1 r /\
           n = if c : bool then Z.min (SZ - blen known' mod SZ) (SZ - (blen k1 - r)) else SZ - (blen k1 - r))
      (available_to_write_bytes q c) known r got.
  Proof.
    intros Hp. pose proof SZ_pos as Hs.
    unfold available_to_write_bytes. change (extent q) with SZ.
    assert (Eu : u32 SZ = SZ) by (unfold u32; apply Z.mod_small; lia). rewrite Eu.
    eapply rok_bind; [|apply (rok_read_bytes false); exact Hp].
    cbv beta iota. intros n k1 r' got' (Hl & ->). cbv zeta.
    pose proof Hl as ((m1 & E1) & Hp1 & -> & ->). pose proof Hp1 as (H1 & H2 & H3 & H4 & H5).
    rewrite (gs_le (SZ - (blen k1 - r))) by lia. destruct c; cbn [rok].
    - intros m2 Hp2. unfold pmod. destruct (Z.eqb_spec SZ 0); [lia|]. cbn [pbind rok].
      pose proof (Z.mod_pos_bound (blen (k1 ++ m2)) SZ ltac:(lia)).
      unfold u64. rewrite (Z.mod_small (SZ - _)) by lia. rewrite gs_le by lia.
      split; [eapply later_trans; [exact Hl|apply later_more; exact Hp2]|].
      exists k1. split; [exists m1; exact E1|]. split; [exists m2; reflexivity|]. split; [exact Hp1|].
      destruct (Z.ltb_spec (SZ - blen (k1 ++ m2) mod SZ) (SZ - (blen k1 - r))); lia.
    - split; [exact Hl|]. exists k1. split; [exists m1; exact E1|]. split; [exists []; rewrite app_nil_r; reflexivity|].
      split; [exact Hp1|reflexivity].
  Qed.

  Lemma rok_pdiv n known r got (Post : Z -> bytes -> Z -> bytes -> Prop) :
    aligned n -> (forall m, m * Q = n -> Post m known r got) -> rok Post (pdiv n Q) known r got.
  Proof.
    intros [m ->] H. pose proof Q_pos. unfold pdiv. destruct (Z.eqb_spec Q 0); [lia|]. cbn [rok].
    apply H. rewrite Z.div_mul by lia. reflexivity.
  Qed.

  Lemma rok_avail_read known r got : wpre known r ->
    rok (fun n known' r' got' => later known r got known' r' got' /\ n * Q = blen known' - r)
      (available_to_read q) known r got.
  Proof.
    intros Hp. unfold available_to_read. eapply rok_bind; [|apply (rok_read_bytes false); exact Hp].
    cbv beta iota. intros n k1 r' got' (Hl & ->). apply rok_pdiv; [|auto].
    destruct Hl as (_ & (_ & _ & ? & ? & _) & _). auto with fmq.
  Qed.
  Lemma rok_avail_read_contiguous known r got : wpre known r ->
    rok (fun n known' r' got' => later known r got known' r' got' /\
           n * Q = Z.min (SZ - r mod SZ) (blen known' - r))
      (available_to_read_contiguous q) known r got.
  Proof.
    intros Hp. unfold available_to_read_contiguous. eapply rok_bind; [|apply (rok_read_bytes true); exact Hp].
    cbv beta iota. intros n k1 r' got' (Hl & ->). apply rok_pdiv; [|auto].
    destruct Hl as (_ & (_ & _ & ? & ? & _) & _). auto with fmq.
  Qed.

  Lemma rok_avail_write known r got : wpre known r ->
    rok (fun n known' r' got' => later known r got known' r' got' /\
           SZ - (blen known' - r) <= n * Q <= SZ - (blen known - r))
      (available_to_write q) known r got.
  Proof.
    intros Hp. unfold available_to_write. eapply rok_bind; [|apply (rok_write_bytes false); exact Hp].
    cbv beta iota. intros n k2 r' got' (Hl & k1 & (m1 & E1) & (m2 & E2) & (_ & _ & ? & ? & _) & ->). apply rok_pdiv.
    - auto with fmq.
    - intros m Hm. split; [exact Hl|]. apply prefix_blen in E1, E2. lia.
  Qed.
  Lemma rok_avail_write_contiguous known r got : wpre known r ->
    rok (fun n known' r' got' => later known r got known' r' got' /\
           0 <= n * Q <= SZ - (blen known - r))
      (available_to_write_contiguous q) known r got.
  Proof.
    intros Hp. unfold available_to_write_contiguous. eapply rok_bind; [|apply (rok_write_bytes true); exact Hp].
    cbv beta iota. intros n k2 r' got' (Hl & k1 & (m1 & E1) & (m2 & E2) & (? & ? & ? & ? & ?) & ->). apply rok_pdiv.
    - destruct Hl as (_ & (_ & _ & _ & ? & _) & _). auto with fmq.
    - intros m Hm. split; [exact Hl|]. apply prefix_blen in E1, E2. pose proof SZ_pos.
      pose proof (Z.mod_pos_bound (blen k2) SZ ltac:(lia)). lia.
  Qed.

  Lemma rok_begin_read items known r : wpre known r -> 0 <= items -> items * Q < 2 ^ gbits q ->
    rok (fun ptr known' r' got' => later known r [] known' r' got' /\
           match ptr with
           | Some off => 0 < items /\ off = r mod SZ /\ items * Q <= blen known' - r
           | None => items = 0 \/ blen known' - r < items * Q
           end) (begin_read q items) known r [].
  Proof.
    intros Hp Hi Hlt. unfold begin_read. pose proof Q_pos. pose proof SZ_pos.
    destruct (Z.ltb_spec 0 items) as [Hi0|Hi0].
    2:{ cbn [rok]. split; [|left; lia]. split; [exists []; rewrite app_nil_r; reflexivity|]. auto. }
    cbv zeta. cbn [rok]. intros more Hp1. pose proof Hp1 as (H1 & H2 & H3 & H4 & H5). fold Q.
    unfold pmod. destruct (Z.eqb_spec Q 0); [lia|]. cbn [pbind].
    assert (E1 : blen (known ++ more) mod Q = 0) by (apply Z.mod_divide; [lia|exact H4]).
    assert (E2 : r mod Q = 0) by (apply Z.mod_divide; [lia|exact H3]).
    rewrite E1, E2. cbn [Z.eqb negb orb].
    change (extent q) with SZ. rewrite (gs_le SZ) by lia.
    unfold u64. rewrite (Z.mod_small (blen (known ++ more) - r)) by lia.
    destruct (Z.ltb_spec SZ (blen (known ++ more) - r)); [lia|].
    unfold gs. rewrite (Z.mod_small (items * Q)) by nia.
    destruct (Z.ltb_spec (blen (known ++ more) - r) (items * Q)); cbn [rok].
    - split; [apply later_more; exact Hp1|]. right. lia.
    - destruct (Z.eqb_spec SZ 0); [lia|]. cbn [pbind rok]. split; [apply later_more; exact Hp1|].
      split; [exact Hi0|]. split; [reflexivity|lia].
  Qed.

  Lemma slice_cons_zn l i n : 0 <= i -> 0 <= n -> i + (1 + n) <= blen l ->
    slice l i (1 + n) = zn l i :: slice l (i + 1) n.
  Proof.
    intros H1 H2 H3. rewrite slice_split by lia. change (zn l i :: slice l (i + 1) n) with ([zn l i] ++ slice l (i + 1) n).
    f_equal. unfold slice, zn, ztake, zdrop.
    assert (L : (Z.to_nat i < length l)%nat) by (unfold blen in H3; lia).
    revert L. generalize (Z.to_nat i). clear. change (Z.to_nat 1) with 1%nat. induction l as [|x l IH]; intros k L; [cbn in L; lia|].
    destruct k as [|k]; [reflexivity|]. cbn [skipn nth]. apply IH. cbn in L. lia.
  Qed.

  Lemma rok_get_bytes n : forall off known r got (Post : bytes -> bytes -> Z -> bytes -> Prop),
    (n <> O -> off = (r + blen got) mod SZ) -> 0 <= off -> 0 <= r -> off + Z.of_nat n <= SZ ->
    r + blen got + Z.of_nat n <= blen known ->
    Post (slice known (r + blen got) (Z.of_nat n)) known r (got ++ slice known (r + blen got) (Z.of_nat n)) ->
    rok Post (get_bytes off n) known r got.
  Proof.
    pose proof SZ_pos as Hs.
    induction n as [|n IH]; intros off known r got Post Ho Ho0 Hr Hb Hk HP; cbn [get_bytes rok].
    - change (Z.of_nat 0) with 0 in HP. unfold slice, ztake in HP. cbn [Z.to_nat firstn] in HP.
      rewrite app_nil_r in HP. exact HP.
    - pose proof (blen_nonneg _ got). assert (Eo : off = (r + blen got) mod SZ) by (apply Ho; discriminate).
      split; [exact Eo|]. split; [lia|].
      apply rok_bind with (P1 := fun d known' r' got' => known' = known /\ r' = r /\
        d = slice known (r + blen got + 1) (Z.of_nat n) /\
        got' = got ++ slice known (r + blen got) (Z.of_nat (S n))).
      + intros d k1 r1 g1 (-> & -> & -> & ->). cbn [rok].
        rewrite Nat2Z.inj_succ, <- Z.add_1_l in HP |- *.
        rewrite <- slice_cons_zn by lia. exact HP.
      + apply IH; rewrite ?blen_app, ?blen_cons, ?blen_nil.
        * intros Hn. replace (r + (blen got + (1 + 0))) with (r + blen got + 1) by lia.
          rewrite Zplus_mod, <- Eo, (Z.mod_small 1) by lia. symmetry. apply Z.mod_small. lia.
        * lia.
        * lia.
        * lia.
        * lia.
        * split; [reflexivity|]. split; [reflexivity|].
          replace (r + (blen got + (1 + 0))) with (r + blen got + 1) by lia. split; [reflexivity|].
          rewrite <- app_assoc. f_equal. rewrite Nat2Z.inj_succ, <- Z.add_1_l.
          rewrite slice_cons_zn by lia. reflexivity.
  Qed.

  Lemma rok_end_read items known r got (Post : unit -> bytes -> Z -> bytes -> Prop) :
    0 < items -> blen got = items * Q -> r + blen got <= blen known -> wpre known r ->
    (forall more, Post tt (known ++ more) (r + items * Q) []) ->
    rok Post (end_read q items) known r got.
  Proof.
    intros Hi Hg Hk Hp HP. pose proof Q_pos. pose proof SZ_pos. unfold end_read.
    destruct (Z.ltb_spec 0 items); [|lia]. cbv zeta. cbn [rok]. intros more Hp1.
    pose proof Hp1 as (P1 & P2 & P3 & P4 & P5).
    change (extent q) with SZ. rewrite (gs_le SZ) by lia.
    unfold u64 at 1. rewrite Z.mod_small by lia.
    destruct (Z.ltb_spec SZ (blen (known ++ more) - r)); [lia|].
    assert (Hle : blen known <= blen (known ++ more)) by (eapply prefix_blen; reflexivity).
    fold Q. rewrite gs_le by (pose proof (blen_nonneg _ got); lia).
    unfold u64. rewrite Z.mod_small by (pose proof (blen_nonneg _ got); lia). cbn [rok].
    split; [lia|]. split; [lia|]. split.
    - apply Z.divide_add_r; [exact P3|]. apply Z.divide_factor_r.
    - apply HP.
  Qed.

  Definition rfinal (n : Z) (known : bytes) (r : Z) (exact : bytes -> Prop) (d : option bytes)
    (known' : bytes) (r' : Z) (got' : bytes) : Prop :=
    (exists more, known' = known ++ more) /\ got' = [] /\
    match d with
    | Some d => 0 < n /\ d = slice known' r n /\ r' = r + n /\ r + n <= blen known'
    | None => r' = r /\ exact known'
    end.


  Lemma rok_read items known r : wpre known r -> 0 <= items -> items * Q < 2 ^ gbits q ->
    rok (rfinal (items * Q) known r (fun k => items = 0 \/ blen k - r < items * Q)) (fmq_read q items) known r [].
  Proof.
    intros Hp Hi Hlt. pose proof Q_pos. pose proof SZ_pos.
    unfold fmq_read. destruct (Z.ltb_spec 0 items) as [Hi0|Hi0].
    2:{ cbn [rok]. split; [exists []; rewrite app_nil_r; reflexivity|]. split; [reflexivity|]. split; [reflexivity|]. left; lia. }
    eapply rok_bind; [|apply rok_begin_read; assumption].
    cbv beta. intros ptr k1 r' got' (Hl & Hptr). pose proof Hl as ((m1 & E1) & Hp1 & -> & ->).
    destruct ptr as [off|].
    2:{ cbn [rok]. split; [exists m1; exact E1|]. split; [reflexivity|]. split; [reflexivity|]. exact Hptr. }
    destruct Hptr as (_ & -> & Hroom). fold Q.
    eapply rok_bind; [|apply rok_avail_read_contiguous; exact Hp1].
    cbv beta. intros n k2 r' got' (Hl2 & Hn). pose proof Hl2 as ((m2 & E2) & Hp2 & -> & ->). cbv zeta.
    pose proof Hp2 as (H1 & H2 & H3 & H4 & H5).
    pose proof (Z.mod_pos_bound r SZ ltac:(lia)) as Hm.
    pose proof (prefix_blen _ _ _ E2) as Hle.
    assert (Hn0 : 0 <= n) by (assert (0 <= n * Q) by lia; nia).
    assert (Hiq : 0 < items * Q) by nia.
    eapply rok_bind with (P1 := fun d known' r' got' => known' = k2 /\ r' = r /\ got' = d /\ d = slice k2 r (items * Q)).
    { intros d k3 r3 got3 (-> & -> & -> & ->).
      assert (Bd : blen (slice k2 r (items * Q)) = items * Q) by (apply blen_slice; lia).
      eapply rok_bind with (P1 := fun _ known' r' got' => (exists m, known' = k2 ++ m) /\ r' = r + items * Q /\ got' = []).
      - intros [] k3 r3 got3 ((m3 & E3) & -> & ->). cbn [rok]. unfold rfinal.
        destruct (more_more _ _ _ _ _ E1 E2) as (m4 & E4).
        destruct (more_more _ _ _ _ _ E4 E3) as (m5 & E5).
        split; [exists m5; exact E5|]. split; [reflexivity|]. split; [exact Hiq|].
        split; [rewrite E3; symmetry; apply slice_app_l; lia|]. split; [reflexivity|].
        apply prefix_blen in E3. lia.
      - apply rok_end_read; try assumption; try lia.
        intros m3. split; [exists m3; reflexivity|]. auto. }
    destruct (Z.ltb_spec n items) as [Hlt2|Hge].
    - assert (Hnq : n * Q = SZ - r mod SZ) by nia.
      assert (0 <= (items - n) * Q) by (apply Z.mul_nonneg_nonneg; lia).
      assert (Esum : items * Q = n * Q + (items - n) * Q) by ring.
      rewrite (gs_le (n * Q)) by lia. rewrite (gs_le ((items - n) * Q)) by lia.
      assert (B1 : blen (slice k2 r (n * Q)) = n * Q) by (apply blen_slice; lia).
      eapply rok_bind with (P1 := fun d known' r' got' => known' = k2 /\ r' = r /\ got' = d /\ d = slice k2 r (n * Q)).
      + intros d1 k3 r3 got3 (-> & -> & -> & ->).
        eapply rok_bind with (P1 := fun d known' r' got' => known' = k2 /\ r' = r /\
          d = slice k2 (r + n * Q) ((items - n) * Q) /\ got' = slice k2 r (n * Q) ++ d).
        * intros d2 k3 r3 got3 (-> & -> & -> & ->). cbn [rok]. split; [reflexivity|]. split; [reflexivity|].
          split; [reflexivity|]. rewrite Esum. symmetry. apply slice_split; lia.
        * apply rok_get_bytes; rewrite ?B1, ?Z2Nat.id by lia.
          -- intros _. rewrite Hnq.
             replace (r + (SZ - r mod SZ)) with ((r / SZ + 1) * SZ).
             ++ symmetry. apply Z.mod_mul. lia.
             ++ pose proof (Z.div_mod r SZ ltac:(lia)). nia.
          -- lia.
          -- lia.
          -- lia.
          -- lia.
          -- auto.
      + apply rok_get_bytes; rewrite ?blen_nil, ?Z.add_0_r, ?Z2Nat.id by lia; try lia; auto.
    - rewrite (gs_le (items * Q)) by nia.
      assert (items * Q <= n * Q) by (apply Z.mul_le_mono_nonneg_r; lia).
      apply rok_get_bytes; rewrite ?blen_nil, ?Z.add_0_r, ?Z2Nat.id by lia; try lia; auto.
  Qed.

  Definition rpost (o : op) (known : bytes) (r : Z) (a : answer) (known' : bytes) (r' : Z) (got' : bytes) : Prop :=
    got' = [] /\ (exists more, known' = known ++ more) /\
    (let d := returned {| e_op := o; e_answer := a; e_rp0 := r; e_wp0 := blen known; e_rp1 := r'; e_wp1 := 0 |} in
     d = slice known' r (blen d) /\ r' = r + blen d /\ r' <= blen known') /\
    forall w2, blen known' <= w2 ->
      reader_record_ok q {| e_op := o; e_answer := a; e_rp0 := r; e_wp0 := blen known; e_rp1 := r'; e_wp1 := w2 |}.

  Lemma slice_zero (l : bytes) i : slice l i 0 = [].
  Proof. unfold slice. apply ztake_neg. lia. Qed.

  Lemma rok_op o known r : wpre known r -> op_ok q o -> reader_op o ->
    rok (rpost o known r) (run_op q o) known r [].
  Proof.
    intros Hp Ho Hw. pose proof Hp as Hp'. destruct Hp' as (H1 & H2 & H3 & H4 & H5). pose proof Q_pos. pose proof SZ_pos.
    assert (Hsame : forall a k1 r1 g1, later known r [] k1 r1 g1 ->
      returned {| e_op := o; e_answer := a; e_rp0 := r; e_wp0 := blen known; e_rp1 := r1; e_wp1 := 0 |} = [] ->
      (forall w2, blen k1 <= w2 ->
        reader_record_ok q {| e_op := o; e_answer := a; e_rp0 := r; e_wp0 := blen known; e_rp1 := r; e_wp1 := w2 |}) ->
      rpost o known r a k1 r1 g1).
    { intros a k1 r1 g1 ((m1 & E1) & (P1 & P2 & _) & -> & ->) Hd Hr. split; [reflexivity|]. split; [exists m1; exact E1|].
      split; [|exact Hr]. cbv zeta. rewrite Hd, blen_nil, slice_zero. split; [reflexivity|]. lia. }
    destruct o as [items data|items data|items|items| | | |]; cbn [run_op op_ok reader_op op_data] in *; try contradiction.
    - destruct Ho as [Hi Hd]. fold Q in Hd.
      eapply rok_bind; [|apply rok_read; eassumption].
      cbv beta. intros d k1 r1 g1 ((m1 & E1) & -> & Hok). cbn [rok]. unfold rpost. split; [reflexivity|].
      split; [exists m1; exact E1|]. unfold returned, reader_record_ok. cbn [e_op e_answer e_rp0 e_wp0 e_rp1 e_wp1]. fold Q.
      cbv zeta. pose proof (prefix_blen _ _ _ E1). destruct d as [d|].
      + destruct Hok as (Hn & Ed & -> & Hle).
        assert (Bd : blen d = items * Q) by (rewrite Ed; apply blen_slice; lia).
        rewrite Bd. split; [split; [exact Ed|lia]|]. intros w2 Hw2. split; [nia|]. lia.
      + destruct Hok as (-> & Hex). rewrite blen_nil, slice_zero. split; [split; [reflexivity|lia]|]. intros w2 Hw2.
        split; [reflexivity|]. lia.
    - destruct Ho as [Hi Hd]. fold Q in Hd.
      eapply rok_bind; [|apply rok_avail_read_contiguous; exact Hp].
      cbv beta. intros n k1 r1 g1 (Hl & Hn). pose proof Hl as ((m1 & E1) & Hp1 & -> & ->).
      destruct (Z.leb_spec items n) as [Hle|Hgt].
      2:{ cbn [rok]. apply Hsame; [exact Hl|reflexivity|]. intros. split; [reflexivity|]. fold Q SZ.
          assert (n * Q < items * Q) by (apply Z.mul_lt_mono_pos_r; lia). apply prefix_blen in E1.
          cbn [e_wp0 e_rp0]. lia. }
      eapply rok_bind; [|apply rok_begin_read; eassumption].
      cbv beta. intros ptr k2 r2 g2 (Hl2 & Hptr). pose proof Hl2 as ((m2 & E2) & Hp2 & -> & ->). destruct ptr as [off|].
      2:{ cbn [rok]. apply Hsame; [eapply later_trans; eassumption|reflexivity|]. intros. split; [reflexivity|].
          apply prefix_blen in E1, E2. cbn [e_wp0 e_rp0]. fold Q SZ. lia. }
      destruct Hptr as (Hi0 & -> & Hroom). pose proof Hp2 as (P1 & P2 & P3 & P4 & P5).
      pose proof (Z.mod_pos_bound r SZ ltac:(lia)) as Hm. fold Q.
      assert (items * Q <= n * Q) by (apply Z.mul_le_mono_nonneg_r; lia).
      assert (0 < items * Q) by nia.
      assert (Bd : blen (slice k2 r (items * Q)) = items * Q) by (apply blen_slice; lia).
      eapply rok_bind with (P1 := fun d known' r' got' => known' = k2 /\ r' = r /\ got' = d /\ d = slice k2 r (items * Q)).
      2:{ apply rok_get_bytes; rewrite ?blen_nil, ?Z.add_0_r, ?Z2Nat.id by lia; try lia; auto. }
      intros d k3 r3 g3 (-> & -> & -> & ->).
      eapply rok_bind with (P1 := fun _ known' r' got' => (exists m, known' = k2 ++ m) /\ r' = r + items * Q /\ got' = []).
      2:{ apply rok_end_read; try assumption; try lia. intros m3. split; [exists m3; reflexivity|]. auto. }
      intros [] k3 r3 g3 ((m3 & E3) & -> & ->). cbn [rok]. unfold rpost. split; [reflexivity|].
      destruct (more_more _ _ _ _ _ E1 E2) as (m4 & E4). destruct (more_more _ _ _ _ _ E4 E3) as (m5 & E5).
      split; [exists m5; exact E5|]. unfold returned, reader_record_ok. cbn [e_op e_answer e_rp0 e_wp0 e_rp1 e_wp1]. fold Q.
      cbv zeta. rewrite Bd. split.
      + split; [rewrite E3; symmetry; apply slice_app_l; lia|]. apply prefix_blen in E3. lia.
      + intros w2 Hw2. fold SZ. lia.
    - eapply rok_bind; [|apply rok_avail_read; exact Hp].
      cbv beta. intros n k1 r1 g1 (Hl & Hn). cbn [rok]. apply Hsame; [exact Hl|reflexivity|].
      intros w2 Hw2. unfold reader_record_ok; cbn [e_op e_answer e_rp0 e_wp0 e_rp1 e_wp1]. fold Q SZ.
      destruct Hl as ((m1 & E1) & _). apply prefix_blen in E1. lia.
    - eapply rok_bind; [|apply rok_avail_write; exact Hp].
      cbv beta. intros n k1 r1 g1 (Hl & Hn). cbn [rok]. apply Hsame; [exact Hl|reflexivity|].
      intros w2 Hw2. unfold reader_record_ok; cbn [e_op e_answer e_rp0 e_wp0 e_rp1 e_wp1]. fold Q SZ. lia.
    - eapply rok_bind; [|apply rok_avail_read_contiguous; exact Hp].
      cbv beta. intros n k1 r1 g1 (Hl & Hn). cbn [rok]. apply Hsame; [exact Hl|reflexivity|].
      intros w2 Hw2. unfold reader_record_ok; cbn [e_op e_answer e_rp0 e_wp0 e_rp1 e_wp1]. fold Q SZ.
      destruct Hl as ((m1 & E1) & (P1 & P2 & _) & _). apply prefix_blen in E1. lia.
    - eapply rok_bind; [|apply rok_avail_write_contiguous; exact Hp].
      cbv beta. intros n k1 r1 g1 (Hl & Hn). cbn [rok]. apply Hsame; [exact Hl|reflexivity|].
      intros w2 Hw2. unfold reader_record_ok; cbn [e_op e_answer e_rp0 e_wp0 e_rp1 e_wp1]. fold Q SZ. lia.
  Qed.
End Queue.
