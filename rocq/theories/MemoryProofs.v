(* Proofs about the memory to which messages point *)
From Verif Require Import Base CleanupModel CleanupProofs MemoryModel MemorySpec.

(* ------------------------------------------------------------------ *)
(* Counts *)

Definition conts_in (c : nat) (l : list thing) : Z :=
  Z.of_nat (length (filter (fun t => match t with UnrefCont k => Nat.eqb k c | _ => false end) l)).

Definition by_note (c : nat) (_ : nat) (x : option note) : Z :=
  match x with Some x => conts_in c (m_items x) | None => 0 end.

Definition by_index (c : nat) (_ : nat) (x : option nat) : Z :=
  match x with Some k => if Nat.eqb k c then 1 else 0 | None => 0 end.

Definition holders (bs : list (option nat)) (ns : list (option note)) (c : nat) : Z :=
  isum (by_index c) 0 bs + isum (by_note c) 0 ns.

Definition begun (ts : list (option nat)) (m : nat) : Z := isum (by_index m) 0 ts.

Lemma conts_in_nonneg c l : 0 <= conts_in c l. Proof. unfold conts_in. lia. Qed.
Lemma conts_in_app c a b : conts_in c (a ++ b) = conts_in c a + conts_in c b.
Proof. unfold conts_in. rewrite filter_app, app_length. lia. Qed.
Lemma conts_in_cons c t l : conts_in c (t :: l) = match t with UnrefCont k => if Nat.eqb k c then 1 else 0 | _ => 0 end + conts_in c l.
Proof. unfold conts_in. cbn [filter]. destruct t as [| |k]; try lia. destruct (Nat.eqb k c); cbn [length]; lia. Qed.
Lemma conts_in_In c l : In (UnrefCont c) l -> 1 <= conts_in c l.
Proof.
  induction l as [|t l IH]; [intros []|]. intros [->|H]; rewrite conts_in_cons.
  - rewrite Nat.eqb_refl. pose proof (conts_in_nonneg c l). lia.
  - specialize (IH H). destruct t as [| |k]; try lia. destruct (Nat.eqb k c); lia.
Qed.
Lemma by_note_nonneg c k x : 0 <= by_note c k x. Proof. destruct x; cbn; [apply conts_in_nonneg|lia]. Qed.
Lemma by_index_nonneg c k x : 0 <= by_index c k x. Proof. destruct x as [j|]; cbn; [destruct (Nat.eqb j c); lia|lia]. Qed.

(* ------------------------------------------------------------------ *)
(* The invariant *)

Definition frees (l : list thing) : list thing :=
  filter (fun t => match t with UnrefCont _ => false | _ => true end) l.

(* The object has the value of the piece *)
Definition means (s : state) (m : nat) (its : list thing) (o : object) (p : piece) : Prop :=
  match o_ptr o with
  | None => p = Nothing
  | Some (Lib b) => exists d, at_ (heap s) b = Some (m, d) /\ fetch d (o_size o) = Data d /\ p = Value d
  | Some (Area n) => p = Bytes_of n (o_size o) /\
      exists w l, at_ (areas s) n = Some (w, l) /\ (w = None \/ w = Some m) /\ (o_size o <= length l)%nat
  | Some (Arrived c j) => In (UnrefCont c) its /\
      exists k d, at_ (parcels s) c = Some k /\ nth_error (k_data k) j = Some d /\ p = Value d
  | Some Empty => o_size o = 1%nat /\ p = Value (Bytes [0])
  end.

(* good: whether the application has been careful *)
Section Good.
Variable good : Prop.

Record inv (s : state) (i : ideal) : Prop := {
  i_heap : forall b m d, at_ (heap s) b = Some (m, d) -> exists x, at_ (notes s) m = Some x /\ In (FreeLib b) (m_items x);
  i_libs : forall m x b, at_ (notes s) m = Some x -> In (FreeLib b) (m_items x) -> exists d, at_ (heap s) b = Some (m, d);
  i_areas : forall n m l, at_ (areas s) n = Some (Some m, l) -> exists x, at_ (notes s) m = Some x /\ In (FreeArea n) (m_items x);
  i_mals : forall m x n, at_ (notes s) m = Some x -> In (FreeArea n) (m_items x) -> exists l, at_ (areas s) n = Some (Some m, l);
  i_once : forall m x, at_ (notes s) m = Some x -> NoDup (frees (m_items x));
  i_refs : forall c, holders (buffers s) (notes s) c = match at_ (parcels s) c with Some k => k_refs k | None => 0 end;
  i_live : forall c k, at_ (parcels s) c = Some k -> 1 <= k_refs k;
  i_txs : forall m, begun (pending s) m = match at_ (notes s) m with Some x => Z.of_nat (m_refs x) - Z.of_nat (m_app x) | None => 0 end;
  i_pos : forall m x, at_ (notes s) m = Some x -> (1 <= m_refs x)%nat;
  i_mem : forall n w l, at_ (areas s) n = Some (w, l) -> mem i n = l;
  i_mems : mems i = length (areas s);
  i_packs : packs i = length (notes s);
  i_objs : good -> forall m x, at_ (notes s) m = Some x -> Forall2 (means s m (m_items x)) (m_objs x) (packed i m);
  i_got : forall b c, at_ (buffers s) b = Some c -> exists k, at_ (parcels s) c = Some k /\ nth b (got i) [] = k_data k;
  i_gots : length (got i) = length (buffers s);
  i_wait : forall t m, at_ (pending s) t = Some m -> nth t (waiting i) 0%nat = m;
  i_waits : length (waiting i) = length (pending s);
  i_told : good -> told i = sent s
}.

Lemma init_inv : inv init nothing.
Proof.
  assert (N : forall A (n : nat), at_ (@nil (option A)) n = None) by (intros A n; unfold at_; destruct n; reflexivity).
  constructor; unfold init, nothing; cbn [heap areas notes parcels buffers pending sent mem mems packed packs got waiting told];
    try (intros; rewrite N in *; discriminate); try reflexivity; intros; rewrite ?N; reflexivity.
Qed.

Lemma set_same {A} (l : list (option A)) n x y : at_ l n = Some y -> at_ (set_at l n x) n = x.
Proof. intros H. rewrite at_set_at by exact (at_lt _ _ _ H). rewrite Nat.eqb_refl. reflexivity. Qed.
Lemma set_other {A} (l : list (option A)) n m x : n <> m -> at_ (set_at l n x) m = at_ l m.
Proof. intros H. unfold at_. rewrite nth_set_at_other by exact H. reflexivity. Qed.

Lemma set_none {A} (l : list (option A)) n y m : at_ l n = Some y -> at_ (set_at l n None) m = if Nat.eq_dec n m then None else at_ l m.
Proof. intros H. destruct (Nat.eq_dec n m) as [<-|Ne]; [exact (set_same _ _ _ _ H)|exact (set_other _ _ _ _ Ne)]. Qed.

(* ------------------------------------------------------------------ *)
(* Running cleanups *)

Lemma tidy_all_ok l : forall s m,
  (forall b, In (FreeLib b) l -> exists d, at_ (heap s) b = Some (m, d)) ->
  (forall n, In (FreeArea n) l -> exists t, at_ (areas s) n = Some (Some m, t)) ->
  NoDup (frees l) ->
  (forall c, conts_in c l <= match at_ (parcels s) c with Some k => k_refs k | None => 0 end) ->
  exists s1, tidy_all s l = Some s1 /\
    (forall b, at_ (heap s1) b = if in_dec Nat.eq_dec b (flat_map (fun t => match t with FreeLib x => [x] | _ => [] end) l) then None else at_ (heap s) b) /\
    (forall n, at_ (areas s1) n = if in_dec Nat.eq_dec n (flat_map (fun t => match t with FreeArea x => [x] | _ => [] end) l) then None else at_ (areas s) n) /\
    (forall c, at_ (parcels s1) c = match at_ (parcels s) c with
       | Some k => if (conts_in c l =? 0) then Some k else if k_refs k - conts_in c l =? 0 then None
                   else Some {| k_refs := k_refs k - conts_in c l; k_data := k_data k |}
       | None => None end) /\
    length (areas s1) = length (areas s) /\
    notes s1 = notes s /\ buffers s1 = buffers s /\ pending s1 = pending s /\ sent s1 = sent s.
Proof.
  induction l as [|t l IH]; intros s m HL HA HN HC.
  { exists s. cbn. repeat split; auto. intros c. destruct (at_ (parcels s) c); reflexivity. }
  cbn [tidy_all]. destruct t as [b|n|c]; cbn [tidy].
  - destruct (HL b (or_introl eq_refl)) as [d Hd]. rewrite Hd.
    cbn [frees filter] in HN. apply NoDup_cons_iff in HN. destruct HN as [Hni HN].
    destruct (IH (set_heap s (set_at (heap s) b None)) m) as (s1 & E & P1 & P2 & P3 & P4 & P5 & P6 & P7 & P8).
    + intros b' Hb'. cbn [heap set_heap]. rewrite (set_none _ _ _ _ Hd). destruct (Nat.eq_dec b b') as [Eb|Eb].
      * subst b'. exfalso. apply Hni. apply filter_In. auto.
      * exact (HL b' (or_intror Hb')).
    + intros n Hn. exact (HA n (or_intror Hn)).
    + exact HN.
    + intros c. specialize (HC c). rewrite conts_in_cons in HC. exact HC.
    + exists s1. cbn [heap areas parcels notes buffers pending sent set_heap] in *. split; [exact E|]. split; [|split; [exact P2|split; [|auto 8]]].
      * intros b'. rewrite P1, (set_none _ _ _ _ Hd). cbn [flat_map Datatypes.app].
        destruct (in_dec Nat.eq_dec b' _) as [Hi|Hi]; destruct (in_dec Nat.eq_dec b' (b :: _)) as [Hj|Hj]; try reflexivity.
        -- exfalso. apply Hj. right. exact Hi.
        -- destruct Hj as [->|Hj]; [|contradiction]. destruct (Nat.eq_dec b' b'); [reflexivity|contradiction].
        -- destruct (Nat.eq_dec b b') as [Eb|Eb]; [|reflexivity]. exfalso. apply Hj. left. exact Eb.
      * intros c. rewrite P3, conts_in_cons. reflexivity.
  - destruct (HA n (or_introl eq_refl)) as [d Hd]. rewrite Hd.
    cbn [frees filter] in HN. apply NoDup_cons_iff in HN. destruct HN as [Hni HN].
    destruct (IH (set_areas s (set_at (areas s) n None)) m) as (s1 & E & P1 & P2 & P3 & P4 & P5 & P6 & P7 & P8).
    + intros b' Hb'. exact (HL b' (or_intror Hb')).
    + intros b' Hb'. cbn [areas set_areas]. rewrite (set_none _ _ _ _ Hd). destruct (Nat.eq_dec n b') as [Eb|Eb].
      * subst b'. exfalso. apply Hni. apply filter_In. auto.
      * exact (HA b' (or_intror Hb')).
    + exact HN.
    + intros c. specialize (HC c). rewrite conts_in_cons in HC. exact HC.
    + exists s1. cbn [heap areas parcels notes buffers pending sent set_areas] in *. rewrite length_set_at in P4.
      split; [exact E|]. split; [exact P1|]. split; [|split; [|auto 8]].
      * intros b'. rewrite P2, (set_none _ _ _ _ Hd). cbn [flat_map Datatypes.app].
        destruct (in_dec Nat.eq_dec b' _) as [Hi|Hi]; destruct (in_dec Nat.eq_dec b' (n :: _)) as [Hj|Hj]; try reflexivity.
        -- exfalso. apply Hj. right. exact Hi.
        -- destruct Hj as [->|Hj]; [|contradiction]. destruct (Nat.eq_dec b' b'); [reflexivity|contradiction].
        -- destruct (Nat.eq_dec n b') as [Eb|Eb]; [|reflexivity]. exfalso. apply Hj. left. exact Eb.
      * intros c. rewrite P3, conts_in_cons. reflexivity.
  - pose proof (HC c) as Hc. rewrite conts_in_cons, Nat.eqb_refl in Hc. pose proof (conts_in_nonneg c l) as N0.
    unfold unref_parcel. destruct (at_ (parcels s) c) as [k|] eqn:Ek; [|lia].
    pose proof (at_lt _ _ _ Ek) as L.
    set (s0 := if k_refs k - 1 =? 0 then set_parcels s (set_at (parcels s) c None)
               else set_parcels s (set_at (parcels s) c (Some {| k_refs := k_refs k - 1; k_data := k_data k |}))).
    assert (F : (if k_refs k - 1 =? 0 then Some (set_parcels s (set_at (parcels s) c None))
               else Some (set_parcels s (set_at (parcels s) c (Some {| k_refs := k_refs k - 1; k_data := k_data k |})))) = Some s0)
      by (unfold s0; destruct (_ =? _); reflexivity).
    rewrite F. clear F.
    assert (Q : forall c', at_ (parcels s0) c' = if Nat.eqb c c' then (if k_refs k - 1 =? 0 then None else Some {| k_refs := k_refs k - 1; k_data := k_data k |}) else at_ (parcels s) c').
    { intros c'. unfold s0. destruct (Nat.eqb_spec c c') as [<-|Ne].
      - destruct (k_refs k - 1 =? 0); cbn [parcels set_parcels]; exact (set_same _ _ _ _ Ek).
      - destruct (k_refs k - 1 =? 0); cbn [parcels set_parcels]; exact (set_other _ _ _ _ Ne). }
    assert (R : heap s0 = heap s /\ areas s0 = areas s /\ notes s0 = notes s /\ buffers s0 = buffers s /\ pending s0 = pending s /\ sent s0 = sent s)
      by (unfold s0; destruct (_ =? _); cbn; auto 8).
    destruct R as (R1 & R2 & R3 & R4 & R5 & R6).
    destruct (IH s0 m) as (s1 & E & P1 & P2 & P3 & P4 & P5 & P6 & P7 & P8).
    + rewrite R1. intros b' Hb'. exact (HL b' (or_intror Hb')).
    + rewrite R2. intros b' Hb'. exact (HA b' (or_intror Hb')).
    + exact HN.
    + intros c'. rewrite Q. pose proof (HC c') as Hc'. rewrite conts_in_cons in Hc'. destruct (Nat.eqb_spec c c') as [->|Ne].
      * destruct (k_refs k - 1 =? 0) eqn:Z0; [apply Z.eqb_eq in Z0; lia|]. cbn [k_refs]. lia.
      * lia.
    + exists s1. rewrite R1 in P1. rewrite R2 in P2, P4. rewrite R3 in P5. rewrite R4 in P6. rewrite R5 in P7. rewrite R6 in P8.
      split; [exact E|]. split; [exact P1|]. split; [exact P2|]. split; [|auto 8].
      intros c'. rewrite P3, Q, conts_in_cons. destruct (Nat.eqb_spec c c') as [->|Ne].
      * rewrite Ek. destruct (1 + conts_in c' l =? 0) eqn:Z1; [apply Z.eqb_eq in Z1; lia|].
        destruct (k_refs k - 1 =? 0) eqn:Z0.
        { apply Z.eqb_eq in Z0. assert (conts_in c' l = 0) by lia. destruct (k_refs k - (1 + conts_in c' l) =? 0) eqn:Z2; [reflexivity|apply Z.eqb_neq in Z2; lia]. }
        cbn [k_refs k_data]. destruct (conts_in c' l =? 0) eqn:Z3.
        { apply Z.eqb_eq in Z3. rewrite Z3. rewrite Z.add_0_r, Z0. reflexivity. }
        replace (k_refs k - 1 - conts_in c' l) with (k_refs k - (1 + conts_in c' l)) by lia. reflexivity.
      * rewrite Z.add_0_l. reflexivity.
Qed.

Lemma in_libs b l : In b (flat_map (fun t => match t with FreeLib x => [x] | _ => [] end) l) <-> In (FreeLib b) l.
Proof.
  rewrite in_flat_map. split.
  - intros (t & H & K). destruct t; cbn in K; try contradiction. destruct K as [->|[]]. exact H.
  - intros H. exists (FreeLib b). cbn. auto.
Qed.
Lemma in_mals b l : In b (flat_map (fun t => match t with FreeArea x => [x] | _ => [] end) l) <-> In (FreeArea b) l.
Proof.
  rewrite in_flat_map. split.
  - intros (t & H & K). destruct t; cbn in K; try contradiction. destruct K as [->|[]]. exact H.
  - intros H. exists (FreeArea b). cbn. auto.
Qed.

Lemma holders_note bs ns m x y c : at_ ns m = Some x ->
  holders bs (set_at ns m y) c = holders bs ns c - conts_in c (m_items x) + match y with Some y => conts_in c (m_items y) | None => 0 end.
Proof.
  intros H. unfold holders. rewrite (isum_change (by_note c) (by_note c) ns 0 m (Some x) y (at_nth _ _ _ H)) by auto.
  cbn [by_note]. destruct y; cbn; lia.
Qed.

Lemma holders_ge_note bs ns m x c : at_ ns m = Some x -> conts_in c (m_items x) <= holders bs ns c.
Proof.
  intros H. unfold holders. pose proof (isum_ge (by_note c) ns 0 m (Some x) (by_note_nonneg c) (at_nth _ _ _ H)) as G.
  pose proof (isum_nonneg (by_index c) bs 0 (by_index_nonneg c)). cbn [by_note] in G. lia.
Qed.

Lemma means_mono s s1 m its its1 o p :
  (forall b d, at_ (heap s) b = Some (m, d) -> at_ (heap s1) b = Some (m, d)) ->
  (forall n w l, at_ (areas s) n = Some (w, l) -> w = None \/ w = Some m ->
     (exists q, o_ptr o = Some (Area q) /\ q = n) -> exists l1, at_ (areas s1) n = Some (w, l1) /\ length l1 = length l) ->
  (forall c k, at_ (parcels s) c = Some k -> In (UnrefCont c) its -> exists k1, at_ (parcels s1) c = Some k1 /\ k_data k1 = k_data k) ->
  incl its its1 -> means s m its o p -> means s1 m its1 o p.
Proof.
  intros H1 H2 H3 H4. unfold means. destruct (o_ptr o) as [[b|n|c j|]|] eqn:Eo; auto.
  - intros (d & A & B & C). exists d. auto.
  - intros (A & w & l & B & C & D). split; [exact A|].
    destruct (H2 n w l B C (ex_intro _ n (conj eq_refl eq_refl))) as (l1 & E & F). exists w, l1. rewrite F. auto.
  - intros (A & k & d & B & C & D). split; [exact (H4 _ A)|]. destruct (H3 c k B A) as (k1 & E & F). exists k1, d. rewrite F. auto.
Qed.

Lemma Forall2_mono {A B} (P Q : A -> B -> Prop) l1 l2 : (forall a b, In a l1 -> P a b -> Q a b) -> Forall2 P l1 l2 -> Forall2 Q l1 l2.
Proof. intros H F. induction F as [|a b l1 l2 HP F IH]; constructor; [exact (H a b (or_introl eq_refl) HP)|]. apply IH. intros x y Hx. apply H. right. exact Hx. Qed.

(* A message is freed (y is None) or reset *)
Lemma release s i m x y ts : inv s i -> at_ (notes s) m = Some x ->
  match y with Some y => m_items y = [] /\ m_objs y = [] /\ (1 <= m_refs y)%nat | None => True end ->
  (forall k, begun ts k = match at_ (set_at (notes s) m y) k with Some z => Z.of_nat (m_refs z) - Z.of_nat (m_app z) | None => 0 end) ->
  (forall t k, at_ ts t = Some k -> at_ (pending s) t = Some k) -> length ts = length (pending s) ->
  exists s1, tidy_all (set_notes (set_pending s ts) (set_at (notes s) m y)) (m_items x) = Some s1 /\
    inv s1 (match y with None => i | Some _ => set_packed i m [] end) /\
    notes s1 = set_at (notes s) m y /\ buffers s1 = buffers s.
Proof.
  intros I Hx Hy Ht Hs Hl.
  destruct (tidy_all_ok (m_items x) (set_notes (set_pending s ts) (set_at (notes s) m y)) m)
    as (s1 & E & P1 & P2 & P3 & P4 & P5 & P6 & P7 & P8).
  - intros b Hb. exact (i_libs _ _ I _ _ _ Hx Hb).
  - intros n Hn. exact (i_mals _ _ I _ _ _ Hx Hn).
  - exact (i_once _ _ I _ _ Hx).
  - intros c. cbn [parcels set_notes set_pending]. rewrite <- (i_refs _ _ I c). exact (holders_ge_note _ _ _ _ c Hx).
  - cbn [heap areas parcels notes buffers pending sent set_notes set_pending] in *.
    exists s1. split; [exact E|]. split; [|auto].
    assert (Hold : forall k z, at_ (notes s1) k = Some z -> (k <> m /\ at_ (notes s) k = Some z) \/ (k = m /\ y = Some z)).
    { intros k z Hz. rewrite P5 in Hz. destruct (Nat.eq_dec k m) as [->|Ne].
      - right. rewrite (set_same _ _ _ _ Hx) in Hz. auto.
      - left. rewrite set_other in Hz by auto. auto. }
    assert (Hnew : forall k z, k <> m -> at_ (notes s) k = Some z -> at_ (notes s1) k = Some z).
    { intros k z Ne Hz. rewrite P5, set_other by auto. exact Hz. }
    assert (Hemp : forall z, y = Some z -> m_items z = [] /\ m_objs z = [] /\ (1 <= m_refs z)%nat) by (intros z ->; exact Hy).
    assert (Hheap : forall b k d, at_ (heap s1) b = Some (k, d) <-> at_ (heap s) b = Some (k, d) /\ k <> m).
    { intros b k d. rewrite P1. destruct (in_dec _ _ _) as [Hi|Hi].
      - apply in_libs in Hi. destruct (i_libs _ _ I _ _ _ Hx Hi) as [d' Hd']. split; [discriminate|]. intros [H Ne]. congruence.
      - split; [|tauto]. intros H. split; [exact H|]. intros ->. destruct (i_heap _ _ I _ _ _ H) as (x' & Hx' & Hin).
        assert (x' = x) by congruence. subst x'. apply Hi. apply in_libs. exact Hin. }
    assert (Hareas : forall n w l, at_ (areas s1) n = Some (w, l) <-> at_ (areas s) n = Some (w, l) /\ w <> Some m).
    { intros b k d. rewrite P2. destruct (in_dec _ _ _) as [Hi|Hi].
      - apply in_mals in Hi. destruct (i_mals _ _ I _ _ _ Hx Hi) as [d' Hd']. split; [discriminate|]. intros [H Ne]. congruence.
      - split; [|tauto]. intros H. split; [exact H|]. intros ->. destruct (i_areas _ _ I _ _ _ H) as (x' & Hx' & Hin).
        assert (x' = x) by congruence. subst x'. apply Hi. apply in_mals. exact Hin. }
    assert (Hrefs : forall c, holders (buffers s1) (notes s1) c = holders (buffers s) (notes s) c - conts_in c (m_items x)).
    { intros c. rewrite P5, P6, (holders_note _ _ _ _ _ _ Hx). destruct y as [z|]; [|lia].
      destruct (Hemp z eq_refl) as [-> _]. unfold conts_in at 2. cbn. lia. }
    assert (Hkeep : forall c k, at_ (parcels s) c = Some k -> 1 <= holders (buffers s1) (notes s1) c ->
              exists k1, at_ (parcels s1) c = Some k1 /\ k_data k1 = k_data k).
    { intros c k Hk Hh. rewrite P3, Hk. rewrite Hrefs, (i_refs _ _ I c), Hk in Hh.
      destruct (conts_in c (m_items x) =? 0); [eauto|]. destruct (k_refs k - _ =? 0) eqn:Z0; [apply Z.eqb_eq in Z0; lia|].
      eexists. split; [reflexivity|]. reflexivity. }
    assert (Hmm : mem (match y with None => i | Some _ => set_packed i m [] end) = mem i) by (destruct y; reflexivity).
    assert (Hms : mems (match y with None => i | Some _ => set_packed i m [] end) = mems i) by (destruct y; reflexivity).
    assert (Hps : packs (match y with None => i | Some _ => set_packed i m [] end) = packs i) by (destruct y; reflexivity).
    assert (Hgt : got (match y with None => i | Some _ => set_packed i m [] end) = got i) by (destruct y; reflexivity).
    assert (Hwt : waiting (match y with None => i | Some _ => set_packed i m [] end) = waiting i) by (destruct y; reflexivity).
    assert (Htd : told (match y with None => i | Some _ => set_packed i m [] end) = told i) by (destruct y; reflexivity).
    assert (Hpk : forall k, k <> m -> packed (match y with None => i | Some _ => set_packed i m [] end) k = packed i k).
    { intros k Ne. destruct y; [|reflexivity]. cbn. unfold fset. destruct (Nat.eqb_spec k m); [contradiction|reflexivity]. }
    assert (Hpm : y <> None -> packed (match y with None => i | Some _ => set_packed i m [] end) m = []).
    { intros Ne. destruct y; [|contradiction]. cbn. unfold fset. rewrite Nat.eqb_refl. reflexivity. }
    constructor; rewrite ?Hmm, ?Hms, ?Hps, ?Hgt, ?Hwt, ?Htd.
    + intros b k d H. apply Hheap in H. destruct H as [H Ne]. destruct (i_heap _ _ I _ _ _ H) as (z & Hz & Hin). exists z. auto.
    + intros k z b Hz Hb. destruct (Hold k z Hz) as [[Ne H]|[-> H]].
      * destruct (i_libs _ _ I _ _ _ H Hb) as [d Hd]. exists d. apply Hheap. auto.
      * destruct (Hemp z H) as [E0 _]. rewrite E0 in Hb. destruct Hb.
    + intros n k l H. apply Hareas in H. destruct H as [H Ne]. destruct (i_areas _ _ I _ _ _ H) as (z & Hz & Hin). exists z.
      split; [apply Hnew; [congruence|exact Hz]|exact Hin].
    + intros k z b Hz Hb. destruct (Hold k z Hz) as [[Ne H]|[-> H]].
      * destruct (i_mals _ _ I _ _ _ H Hb) as [d Hd]. exists d. apply Hareas. split; [exact Hd|congruence].
      * destruct (Hemp z H) as [E0 _]. rewrite E0 in Hb. destruct Hb.
    + intros k z Hz. destruct (Hold k z Hz) as [[Ne H]|[-> H]]; [exact (i_once _ _ I _ _ H)|].
      destruct (Hemp z H) as [E0 _]. rewrite E0. constructor.
    + intros c. rewrite Hrefs, (i_refs _ _ I c), P3. destruct (at_ (parcels s) c) as [k|] eqn:Ek.
      * destruct (conts_in c (m_items x) =? 0) eqn:Z0; [apply Z.eqb_eq in Z0; lia|].
        destruct (k_refs k - _ =? 0) eqn:Z1; [apply Z.eqb_eq in Z1; lia|reflexivity].
      * pose proof (holders_ge_note (buffers s) _ _ _ c Hx) as G. rewrite (i_refs _ _ I c), Ek in G. pose proof (conts_in_nonneg c (m_items x)). lia.
    + intros c k Hk. rewrite P3 in Hk. destruct (at_ (parcels s) c) as [k0|] eqn:Ek; [|discriminate].
      pose proof (i_live _ _ I _ _ Ek) as L. pose proof (holders_ge_note (buffers s) _ _ _ c Hx) as G. rewrite (i_refs _ _ I c), Ek in G.
      destruct (conts_in c (m_items x) =? 0); [injection Hk as <-; exact L|].
      destruct (k_refs k0 - _ =? 0) eqn:Z1; [discriminate|]. injection Hk as <-. cbn [k_refs]. apply Z.eqb_neq in Z1. lia.
    + intros k. rewrite P7, P5. exact (Ht k).
    + intros k z Hz. destruct (Hold k z Hz) as [[Ne H]|[-> H]]; [exact (i_pos _ _ I _ _ H)|]. exact (proj2 (proj2 (Hemp z H))).
    + intros n w l H. apply Hareas in H. exact (i_mem _ _ I _ _ _ (proj1 H)).
    + rewrite P4. exact (i_mems _ _ I).
    + rewrite P5, length_set_at. exact (i_packs _ _ I).
    + intros Hg k z Hz. destruct (Hold k z Hz) as [[Ne H]|[-> H]].
      * rewrite Hpk by exact Ne. refine (Forall2_mono _ _ _ _ _ (i_objs _ _ I Hg _ _ H)). intros a b Ha. apply means_mono.
        -- intros b' d Hb. apply Hheap. auto.
        -- intros n w l Hn Hw _. exists l. split; [|reflexivity]. apply Hareas. split; [exact Hn|]. destruct Hw as [-> | ->]; congruence.
        -- intros c kk Hk Hin. apply (Hkeep c kk Hk). pose proof (holders_ge_note (buffers s1) _ _ _ c Hz). pose proof (conts_in_In _ _ Hin). lia.
        -- apply incl_refl.
      * destruct (Hemp z H) as (_ & E0 & _). rewrite E0, Hpm by congruence. constructor.
    + intros b c Hb. rewrite P6 in Hb. destruct (i_got _ _ I _ _ Hb) as (k & Hk & Hg). rewrite Hg.
      destruct (Hkeep c k Hk) as (k1 & A & B).
      * rewrite P6. unfold holders. pose proof (isum_ge (by_index c) (buffers s) 0 b (Some c) (by_index_nonneg c) (at_nth _ _ _ Hb)) as G.
        cbn [by_index] in G. rewrite Nat.eqb_refl in G. pose proof (isum_nonneg (by_note c) (notes s1) 0 (by_note_nonneg c)). lia.
      * exists k1. auto.
    + rewrite P6. exact (i_gots _ _ I).
    + intros t k Hk. rewrite P7 in Hk. exact (i_wait _ _ I _ _ (Hs _ _ Hk)).
    + rewrite P7, Hl. exact (i_waits _ _ I).
    + rewrite P8. exact (i_told _ _ I).
Qed.

Lemma NoDup_join {A} (a b : list A) : NoDup a -> NoDup b -> (forall x, In x a -> ~ In x b) -> NoDup (a ++ b).
Proof.
  intros Ha Hb H. induction Ha as [|x a Hx Ha IH]; cbn [Datatypes.app]; [exact Hb|]. constructor.
  - rewrite in_app_iff. intros [K|K]; [contradiction|]. exact (H x (or_introl eq_refl) K).
  - apply IH. intros y Hy. apply H. right. exact Hy.
Qed.

(* Something is appended to a message *)
Lemma grown s i m x s1 i1 its os ps : inv s i -> at_ (notes s) m = Some x ->
  notes s1 = set_at (notes s) m (Some {| m_refs := m_refs x; m_app := m_app x; m_items := m_items x ++ its; m_objs := m_objs x ++ os |}) ->
  buffers s1 = buffers s -> pending s1 = pending s -> sent s1 = sent s ->
  (forall b e, at_ (heap s) b = Some e -> at_ (heap s1) b = Some e) ->
  (forall b k d, at_ (heap s1) b = Some (k, d) -> at_ (heap s) b = Some (k, d) \/ k = m /\ In (FreeLib b) its) ->
  (forall b, In (FreeLib b) its -> at_ (heap s) b = None /\ exists d, at_ (heap s1) b = Some (m, d)) ->
  (forall n e, at_ (areas s) n = Some e -> at_ (areas s1) n = Some e) ->
  (forall n k l, at_ (areas s1) n = Some (Some k, l) -> at_ (areas s) n = Some (Some k, l) \/ k = m /\ In (FreeArea n) its) ->
  (forall n, In (FreeArea n) its -> at_ (areas s) n = None /\ exists l, at_ (areas s1) n = Some (Some m, l)) ->
  NoDup (frees its) ->
  (forall c, at_ (parcels s1) c = match at_ (parcels s) c with
     | Some k => Some {| k_refs := k_refs k + conts_in c its; k_data := k_data k |} | None => None end) ->
  (forall c, at_ (parcels s) c = None -> conts_in c its = 0) ->
  (forall n w l, at_ (areas s1) n = Some (w, l) -> mem i1 n = l) -> mems i1 = length (areas s1) ->
  packs i1 = packs i -> (forall k, packed i1 k = fset (packed i) m (packed i m ++ ps) k) -> got i1 = got i -> waiting i1 = waiting i -> told i1 = told i ->
  (good -> Forall2 (means s1 m (m_items x ++ its)) os ps) ->
  inv s1 i1.
Proof.
  intros I Hx Hn Hb Hp Hs H1 H2 H3 A1 A2 A3 N P1 P2 M1 M2 M3 M4 M5 M6 M7 F.
  set (x1 := {| m_refs := m_refs x; m_app := m_app x; m_items := m_items x ++ its; m_objs := m_objs x ++ os |}) in *.
  assert (Hm : at_ (notes s1) m = Some x1) by (rewrite Hn; exact (set_same _ _ _ _ Hx)).
  assert (Ho : forall k, k <> m -> at_ (notes s1) k = at_ (notes s) k) by (intros k Ne; rewrite Hn; apply set_other; auto).
  assert (Hpar : forall c k, at_ (parcels s) c = Some k -> exists k1, at_ (parcels s1) c = Some k1 /\ k_data k1 = k_data k).
  { intros c k Hk. rewrite P1, Hk. eexists. split; reflexivity. }
  assert (Hmono : forall k a b its0 its1, incl its0 its1 -> means s k its0 a b -> means s1 k its1 a b).
  { intros k a b its0 its1 Hi. apply means_mono.
    - intros b' d Hd. apply H1. exact Hd.
    - intros n w l Hl _ _. exists l. auto.
    - intros c kk Hk _. apply Hpar. exact Hk.
    - exact Hi. }
  constructor.
  - intros b k d H. destruct (H2 _ _ _ H) as [K|[-> K]].
    + destruct (i_heap _ _ I _ _ _ K) as (z & Hz & Hin). destruct (Nat.eq_dec k m) as [->|Ne].
      * exists x1. split; [exact Hm|]. replace z with x in Hin by congruence. cbn. apply in_or_app. auto.
      * exists z. rewrite Ho by exact Ne. auto.
    + exists x1. split; [exact Hm|]. cbn. apply in_or_app. auto.
  - intros k z b Hz Hin. destruct (Nat.eq_dec k m) as [->|Ne].
    + rewrite Hm in Hz. injection Hz as <-. cbn in Hin. apply in_app_or in Hin. destruct Hin as [Hin|Hin].
      * destruct (i_libs _ _ I _ _ _ Hx Hin) as [d Hd]. exists d. auto.
      * exact (proj2 (H3 b Hin)).
    + rewrite Ho in Hz by exact Ne. destruct (i_libs _ _ I _ _ _ Hz Hin) as [d Hd]. exists d. auto.
  - intros b k d H. destruct (A2 _ _ _ H) as [K|[-> K]].
    + destruct (i_areas _ _ I _ _ _ K) as (z & Hz & Hin). destruct (Nat.eq_dec k m) as [->|Ne].
      * exists x1. split; [exact Hm|]. replace z with x in Hin by congruence. cbn. apply in_or_app. auto.
      * exists z. rewrite Ho by exact Ne. auto.
    + exists x1. split; [exact Hm|]. cbn. apply in_or_app. auto.
  - intros k z b Hz Hin. destruct (Nat.eq_dec k m) as [->|Ne].
    + rewrite Hm in Hz. injection Hz as <-. cbn in Hin. apply in_app_or in Hin. destruct Hin as [Hin|Hin].
      * destruct (i_mals _ _ I _ _ _ Hx Hin) as [d Hd]. exists d. auto.
      * exact (proj2 (A3 b Hin)).
    + rewrite Ho in Hz by exact Ne. destruct (i_mals _ _ I _ _ _ Hz Hin) as [d Hd]. exists d. auto.
  - intros k z Hz. destruct (Nat.eq_dec k m) as [->|Ne].
    + rewrite Hm in Hz. injection Hz as <-. cbn [m_items x1]. unfold frees. rewrite filter_app. apply NoDup_join.
      * exact (i_once _ _ I _ _ Hx).
      * exact N.
      * intros t Ht Ht2. apply filter_In in Ht. apply filter_In in Ht2. destruct Ht as [Ht Hk]. destruct Ht2 as [Ht2 _]. destruct t as [b|n|c].
        -- destruct (i_libs _ _ I _ _ _ Hx Ht) as [d Hd]. destruct (H3 _ Ht2) as [E _]. congruence.
        -- destruct (i_mals _ _ I _ _ _ Hx Ht) as [d Hd]. destruct (A3 _ Ht2) as [E _]. congruence.
        -- discriminate.
    + rewrite Ho in Hz by exact Ne. exact (i_once _ _ I _ _ Hz).
  - intros c. rewrite Hb, Hn, (holders_note _ _ _ _ _ _ Hx), (i_refs _ _ I c), P1. cbn [m_items x1]. rewrite conts_in_app.
    destruct (at_ (parcels s) c) eqn:Ek; cbn [k_refs]; [lia|]. rewrite (P2 c Ek). lia.
  - intros c k Hk. rewrite P1 in Hk. destruct (at_ (parcels s) c) as [k0|] eqn:Ek; [|discriminate]. injection Hk as <-. cbn [k_refs].
    pose proof (i_live _ _ I _ _ Ek). pose proof (conts_in_nonneg c its). lia.
  - intros k. rewrite Hp, (i_txs _ _ I k). destruct (Nat.eq_dec k m) as [->|Ne]; [rewrite Hm, Hx; reflexivity|rewrite Ho by exact Ne; reflexivity].
  - intros k z Hz. destruct (Nat.eq_dec k m) as [->|Ne].
    + rewrite Hm in Hz. injection Hz as <-. exact (i_pos _ _ I _ _ Hx).
    + rewrite Ho in Hz by exact Ne. exact (i_pos _ _ I _ _ Hz).
  - exact M1.
  - exact M2.
  - rewrite M3, Hn, length_set_at. exact (i_packs _ _ I).
  - intros Hg k z Hz. rewrite M4. unfold fset. destruct (Nat.eqb_spec k m) as [->|Ne].
    + rewrite Hm in Hz. injection Hz as <-. cbn [m_items m_objs x1]. apply Forall2_app; [|exact (F Hg)].
      refine (Forall2_mono _ _ _ _ _ (i_objs _ _ I Hg _ _ Hx)). intros a b _. apply Hmono. intros t Ht. apply in_or_app. auto.
    + rewrite Ho in Hz by exact Ne. refine (Forall2_mono _ _ _ _ _ (i_objs _ _ I Hg _ _ Hz)). intros a b _. apply Hmono. apply incl_refl.
  - intros b c H. rewrite Hb in H. rewrite M5. destruct (i_got _ _ I _ _ H) as (k & Hk & ->). destruct (Hpar c k Hk) as (k1 & A & B). exists k1. auto.
  - rewrite M5, Hb. exact (i_gots _ _ I).
  - intros t k H. rewrite Hp in H. rewrite M6. exact (i_wait _ _ I _ _ H).
  - rewrite M6, Hp. exact (i_waits _ _ I).
  - rewrite M7, Hs. exact (i_told _ _ I).
Qed.

(* Blocks of the library *)
Lemma at_more {A} (l : list (option A)) (r : list A) b :
  at_ (l ++ map Some r) b = if (b <? length l)%nat then at_ l b else nth_error r (b - length l).
Proof.
  unfold at_. destruct (Nat.ltb_spec b (length l)) as [L|L].
  - rewrite nth_error_app1 by exact L. reflexivity.
  - rewrite nth_error_app2 by exact L. rewrite nth_error_map. destruct (nth_error r _); reflexivity.
Qed.

Lemma at_none {A} (l : list (option A)) b : (length l <= b)%nat -> at_ l b = None.
Proof. intros H. unfold at_. rewrite (proj2 (nth_error_None l b) H). reflexivity. Qed.

Definition blocks (s : state) (m : nat) (ds : list data) : state := set_heap s (heap s ++ map Some (map (fun d => (m, d)) ds)).

Lemma blocks_1 s m d : alloc s m d = (length (heap s), blocks s m [d]).
Proof. reflexivity. Qed.

Lemma blocks_more s m ds d : alloc (blocks s m ds) m d = ((length (heap s) + length ds)%nat, blocks s m (ds ++ [d])).
Proof.
  unfold alloc, blocks. cbn [heap set_heap areas notes parcels buffers pending sent]. rewrite app_length, !map_length. f_equal.
  unfold set_heap. cbn [heap set_heap areas notes parcels buffers pending sent]. rewrite <- app_assoc, !map_app. reflexivity.
Qed.

Lemma block_at s m ds j d : nth_error ds j = Some d -> at_ (heap (blocks s m ds)) (length (heap s) + j) = Some (m, d).
Proof.
  intros H. unfold blocks. cbn [heap set_heap]. rewrite at_more. destruct (Nat.ltb_spec (length (heap s) + j) (length (heap s))); [lia|].
  replace (length (heap s) + j - length (heap s))%nat with j by lia. rewrite nth_error_map, H. reflexivity.
Qed.

Lemma NoDup_frees_libs l : NoDup l -> NoDup (frees (map FreeLib l)).
Proof.
  intros H. unfold frees. replace (filter _ (map FreeLib l)) with (map FreeLib l).
  - induction H as [|a l Ha H IH]; cbn [map]; constructor; [|exact IH]. rewrite in_map_iff. intros (b & E & Hb). injection E as ->. contradiction.
  - clear H. induction l as [|a l IH]; [reflexivity|]. cbn. rewrite <- IH. reflexivity.
Qed.

Lemma conts_in_libs c l : conts_in c (map FreeLib l) = 0.
Proof. induction l as [|a l IH]; [reflexivity|]. cbn [map]. rewrite conts_in_cons, IH. reflexivity. Qed.

Lemma lib_push s i m ds os ps its : inv s i ->
  its = map FreeLib (seq (length (heap s)) (length ds)) ->
  (forall x, at_ (notes s) m = Some x -> good -> Forall2 (means (blocks s m ds) m (m_items x)) os ps) ->
  match push (blocks s m ds) m its os with Done s1 => inv s1 (add i m ps) | Misuse => True | Crash => False end.
Proof.
  intros I Ei F. unfold push. cbn [notes blocks set_heap]. destruct (at_ (notes s) m) as [x|] eqn:Hx; [|exact Logic.I].
  destruct (Nat.eqb (m_app x) 0); [exact Logic.I|]. specialize (F x eq_refl).
  match goal with |- inv ?S1 ?I1 => set (s1 := S1); set (i1 := I1) end.
  refine (grown s i m x s1 i1 its os ps I Hx eq_refl eq_refl eq_refl eq_refl _ _ _ _ _ _ _ _ _ _ _ eq_refl (fun _ => eq_refl) eq_refl eq_refl eq_refl _).
  - intros b e H. unfold s1, blocks. cbn [heap set_heap set_notes]. rewrite at_more. pose proof (at_lt _ _ _ H).
    destruct (Nat.ltb_spec b (length (heap s))); [exact H|lia].
  - intros b k d H. unfold s1, blocks in H. cbn [heap set_heap set_notes] in H. rewrite at_more in H. destruct (Nat.ltb_spec b (length (heap s))) as [L|L]; [left; exact H|].
    right. rewrite nth_error_map in H. destruct (nth_error ds _) as [d'|] eqn:Ed; [|discriminate]. injection H as <- <-. split; [reflexivity|].
    rewrite Ei. apply in_map. apply in_seq. pose proof (proj1 (nth_error_Some ds (b - length (heap s))) ltac:(congruence)). lia.
  - intros b H. rewrite Ei in H. apply in_map_iff in H. destruct H as (b' & E & H). injection E as ->. apply in_seq in H.
    split; [apply at_none; lia|]. destruct (nth_error ds (b - length (heap s))) as [d|] eqn:Ed.
    + exists d. pose proof (block_at s m ds _ d Ed) as B. replace (length (heap s) + (b - length (heap s)))%nat with b in B by lia. exact B.
    + apply nth_error_None in Ed. lia.
  - auto.
  - auto.
  - intros n H. rewrite Ei in H. apply in_map_iff in H. destruct H as (b' & E & H). discriminate.
  - rewrite Ei. apply NoDup_frees_libs, seq_NoDup.
  - intros c. rewrite Ei, conts_in_libs. change (parcels s1) with (parcels s). destruct (at_ (parcels s) c) as [k|]; [|reflexivity].
    destruct k as [r dd]. cbn [k_refs k_data]. rewrite Z.add_0_r. reflexivity.
  - intros c _. rewrite Ei. apply conts_in_libs.
  - exact (i_mem _ _ I).
  - exact (i_mems _ _ I).
  - intros Hg. refine (Forall2_mono _ _ _ _ _ (F Hg)). intros a b _. apply means_mono; auto.
    + intros n w l H _ _. exists l. auto.
    + intros c k H _. exists k. auto.
    + intros t Ht. apply in_or_app. auto.
Qed.

(* Memory for the application *)
Lemma area_push s i m l : inv s i ->
  match push (set_areas s (areas s ++ [Some (Some m, l)])) m [FreeArea (length (areas s))] [] with
  | Done s1 => inv s1 (add_mem i l) | Misuse => True | Crash => False end.
Proof.
  intros I. unfold push. cbn [notes set_areas]. destruct (at_ (notes s) m) as [x|] eqn:Hx; [|exact Logic.I].
  destruct (Nat.eqb (m_app x) 0); [exact Logic.I|].
  assert (Hn : forall n, at_ (areas s ++ [Some (Some m, l)]) n = if (n <? length (areas s))%nat then at_ (areas s) n else nth_error [(Some m, l)] (n - length (areas s)))
    by exact (at_more (areas s) [(Some m, l)]).
  match goal with |- inv ?S1 ?I1 => set (s1 := S1); set (i1 := I1) end.
  refine (grown s i m x s1 i1 _ _ [] I Hx eq_refl eq_refl eq_refl eq_refl _ _ _ _ _ _ _ _ _ _ _ eq_refl _ eq_refl eq_refl eq_refl _).
  - auto.
  - auto.
  - intros b [H|[]]. discriminate.
  - intros n e H. unfold s1. cbn [areas set_areas set_notes]. rewrite Hn. pose proof (at_lt _ _ _ H). destruct (Nat.ltb_spec n (length (areas s))); [exact H|lia].
  - intros n k t H. unfold s1 in H. cbn [areas set_areas set_notes] in H. rewrite Hn in H. destruct (Nat.ltb_spec n (length (areas s))); [left; exact H|].
    right. destruct (n - length (areas s))%nat as [|j] eqn:Ej; [|destruct j; discriminate]. injection H as <- <-. split; [reflexivity|]. left. f_equal. lia.
  - intros n [H|[]]. injection H as <-. split; [apply at_none; lia|]. exists l. unfold s1. cbn [areas set_areas set_notes]. rewrite Hn, Nat.ltb_irrefl, Nat.sub_diag. reflexivity.
  - cbn. constructor; [auto|constructor].
  - intros c. change (parcels s1) with (parcels s). unfold conts_in. cbn. destruct (at_ (parcels s) c) as [[r dd]|]; [|reflexivity]. cbn. rewrite Z.add_0_r. reflexivity.
  - reflexivity.
  - intros n w t H. unfold s1 in H. cbn [areas set_areas set_notes] in H. rewrite Hn in H. unfold i1. cbn [mem add_mem]. unfold fset. rewrite (i_mems _ _ I).
    destruct (Nat.ltb_spec n (length (areas s))) as [L|L].
    + destruct (Nat.eqb_spec n (length (areas s))); [lia|]. exact (i_mem _ _ I _ _ _ H).
    + destruct (n - length (areas s))%nat as [|j] eqn:Ej; [|destruct j; discriminate]. injection H as <- <-.
      destruct (Nat.eqb_spec n (length (areas s))); [reflexivity|lia].
  - unfold i1, s1. cbn [mems add_mem areas set_areas set_notes]. rewrite app_length, (i_mems _ _ I). cbn [length]. lia.
  - intros k. unfold i1. cbn [packed add_mem]. rewrite app_nil_r. unfold fset. destruct (Nat.eqb_spec k m) as [->|]; reflexivity.
  - intros _. constructor.
Qed.

Lemma skipn_map {A B} (f : A -> B) n : forall l, skipn n (map f l) = map f (skipn n l).
Proof. induction n as [|n IH]; intros [|x l]; cbn; auto. Qed.

Lemma Forall2_skipn {A B} (P : A -> B -> Prop) n : forall l1 l2, Forall2 P l1 l2 -> Forall2 P (skipn n l1) (skipn n l2).
Proof. induction n as [|n IH]; intros l1 l2 F; [exact F|]. destruct F; cbn; [constructor|]. apply IH. exact F. Qed.

Lemma arrived_means s m its c k l : In (UnrefCont c) its -> at_ (parcels s) c = Some k -> k_data k = l ->
  Forall2 (means s m its) (arrived c l) (map Value l).
Proof.
  intros Hi Hk Hl. unfold arrived.
  assert (G : forall r n, skipn n l = r -> Forall2 (means s m its) (map (fun i => obj (Arrived c i) 0) (seq n (length r))) (map Value r)).
  { induction r as [|d r IH]; intros n Hn; cbn [length seq map]; [constructor|].
    assert (Hd : nth_error l n = Some d).
    { clear -Hn. revert l Hn. induction n as [|n IH]; intros [|y l] Hn; cbn in *; try discriminate; [injection Hn as <- <-; reflexivity|exact (IH _ Hn)]. }
    constructor.
    - unfold means. cbn [o_ptr obj]. split; [exact Hi|]. exists k, d. rewrite Hl. auto.
    - apply IH. clear -Hn. revert l Hn. induction n as [|n IH]; intros [|y l] Hn; cbn in *; try discriminate; [injection Hn as _ <-; reflexivity|exact (IH _ Hn)]. }
  exact (G l 0%nat eq_refl).
Qed.

Lemma copy_push s i m b skip : inv s i ->
  match copy s m b skip with Done s1 => inv s1 (add i m (skipn skip (received i b))) | Misuse => True | Crash => False end.
Proof.
  intros I. unfold copy. destruct (at_ (buffers s) b) as [c|] eqn:Hb; [|exact Logic.I].
  destruct (i_got _ _ I _ _ Hb) as (k & Hk & Hg). rewrite Hk. unfold ref_parcel. rewrite Hk. unfold push. cbn [notes set_parcels].
  destruct (at_ (notes s) m) as [x|] eqn:Hx; [|exact Logic.I]. destruct (Nat.eqb (m_app x) 0); [exact Logic.I|].
  match goal with |- inv ?S1 ?I1 => set (s1 := S1); set (i1 := I1) end.
  assert (P : forall c', at_ (parcels s1) c' = match at_ (parcels s) c' with
     | Some k => Some {| k_refs := k_refs k + conts_in c' [UnrefCont c]; k_data := k_data k |} | None => None end).
  { intros c'. unfold s1. cbn [parcels set_parcels set_notes]. unfold conts_in. cbn [filter length]. destruct (Nat.eqb_spec c c') as [<-|Ne].
    - rewrite (set_same _ _ _ _ Hk), Hk. reflexivity.
    - rewrite (set_other _ _ _ _ Ne). destruct (at_ (parcels s) c') as [[r dd]|]; [|reflexivity]. cbn. rewrite Z.add_0_r. reflexivity. }
  refine (grown s i m x s1 i1 _ _ _ I Hx eq_refl eq_refl eq_refl eq_refl _ _ _ _ _ _ _ P _ _ _ eq_refl (fun _ => eq_refl) eq_refl eq_refl eq_refl _).
  - auto.
  - auto.
  - intros t [H|[]]. discriminate.
  - auto.
  - auto.
  - intros t [H|[]]. discriminate.
  - constructor.
  - intros c' Hc'. rewrite conts_in_cons. destruct (Nat.eqb_spec c c') as [<-|Ne]; [congruence|reflexivity].
  - exact (i_mem _ _ I).
  - exact (i_mems _ _ I).
  - intros _. apply Forall2_skipn. unfold received. rewrite Hg. pose proof (P c) as Pc. rewrite Hk in Pc.
    apply (arrived_means s1 m _ c _ (k_data k)) with (2 := Pc); [apply in_or_app; right; left; reflexivity|reflexivity].
Qed.

Lemma look_is s i m its o p : inv s i -> means s m its o p -> look s o = is i p.
Proof.
  intros I. unfold means, look. destruct (o_ptr o) as [[b|n|c j|]|].
  - intros (d & A & B & ->). rewrite A. exact B.
  - intros (-> & w & l & A & B & C). unfold area. rewrite A. cbn [is fetch]. rewrite (i_mem _ _ I _ _ _ A).
    destruct (Nat.leb_spec (o_size o) (length l)); [reflexivity|lia].
  - intros (_ & k & d & A & B & ->). rewrite A, B. reflexivity.
  - intros (E & ->). rewrite E. reflexivity.
  - intros ->. reflexivity.
Qed.

Lemma looks s i m its os ps : inv s i -> Forall2 (means s m its) os ps -> map (look s) os = map (is i) ps.
Proof. intros I F. induction F as [|o p os ps H F IH]; [reflexivity|]. cbn [map]. rewrite IH, (look_is _ _ _ _ _ _ I H). reflexivity. Qed.

Lemma send_inv s i m x : inv s i -> at_ (notes s) m = Some x -> exists s1, send s m = Some s1 /\ inv s1 (tell i m) /\
  notes s1 = notes s /\ pending s1 = pending s.
Proof.
  intros I Hx. unfold send. rewrite Hx. eexists. split; [reflexivity|]. split; [|auto].
  pose proof (fun Hg : good => looks _ _ _ _ _ _ I (i_objs _ _ I Hg _ _ Hx)) as L.
  destruct I. constructor; cbn [tell set_sent heap areas notes parcels buffers pending sent mem mems packed packs got waiting told]; auto.
  intros Hg. rewrite (i_told0 Hg), (L Hg). reflexivity.
Qed.

Lemma begun_set ts t m k : at_ ts t = Some m -> begun (set_at ts t None) k = begun ts k - (if Nat.eqb m k then 1 else 0).
Proof.
  intros H. unfold begun. rewrite (isum_change (by_index k) (by_index k) ts 0 t (Some m) None (at_nth _ _ _ H)) by auto. cbn [by_index]. lia.
Qed.

(* Only the counts of references of a message change *)
Lemma recount s i m x r a ts ws : inv s i -> at_ (notes s) m = Some x -> (1 <= r)%nat ->
  let ns := set_at (notes s) m (Some {| m_refs := r; m_app := a; m_items := m_items x; m_objs := m_objs x |}) in
  (forall k, begun ts k = match at_ ns k with Some z => Z.of_nat (m_refs z) - Z.of_nat (m_app z) | None => 0 end) ->
  (forall t k, at_ ts t = Some k -> nth t ws 0%nat = k) -> length ws = length ts ->
  inv (set_pending (set_notes s ns) ts)
    {| mem := mem i; mems := mems i; packed := packed i; packs := packs i; got := got i; waiting := ws; told := told i |}.
Proof.
  intros I Hx Hr ns Ht Hw Hl.
  assert (Hm : at_ ns m = Some {| m_refs := r; m_app := a; m_items := m_items x; m_objs := m_objs x |}) by exact (set_same _ _ _ _ Hx).
  assert (Ho : forall k, k <> m -> at_ ns k = at_ (notes s) k) by (intros k Ne; apply set_other; auto).
  assert (Hold : forall k z, at_ ns k = Some z -> exists y, at_ (notes s) k = Some y /\ m_items z = m_items y /\ m_objs z = m_objs y /\ (1 <= m_refs z)%nat).
  { intros k z Hz. destruct (Nat.eq_dec k m) as [->|Ne].
    - rewrite Hm in Hz. injection Hz as <-. exists x. auto.
    - rewrite Ho in Hz by exact Ne. exists z. split; [exact Hz|]. split; [reflexivity|]. split; [reflexivity|]. exact (i_pos _ _ I _ _ Hz). }
  assert (Hnew : forall k y, at_ (notes s) k = Some y -> exists z, at_ ns k = Some z /\ m_items z = m_items y).
  { intros k y Hy. destruct (Nat.eq_dec k m) as [->|Ne].
    - eexists. split; [exact Hm|]. cbn. congruence.
    - exists y. rewrite Ho by exact Ne. auto. }
  constructor; cbn [set_pending set_notes heap areas notes parcels buffers pending sent mem mems packed packs got waiting told].
  - intros b k d H. destruct (i_heap _ _ I _ _ _ H) as (y & Hy & Hi). destruct (Hnew k y Hy) as (z & Hz & E). exists z. rewrite E. auto.
  - intros k z b Hz Hi. destruct (Hold k z Hz) as (y & Hy & E & _). rewrite E in Hi. exact (i_libs _ _ I _ _ _ Hy Hi).
  - intros b k d H. destruct (i_areas _ _ I _ _ _ H) as (y & Hy & Hi). destruct (Hnew k y Hy) as (z & Hz & E). exists z. rewrite E. auto.
  - intros k z b Hz Hi. destruct (Hold k z Hz) as (y & Hy & E & _). rewrite E in Hi. exact (i_mals _ _ I _ _ _ Hy Hi).
  - intros k z Hz. destruct (Hold k z Hz) as (y & Hy & E & _). rewrite E. exact (i_once _ _ I _ _ Hy).
  - intros c. unfold ns. rewrite (holders_note _ _ _ _ _ _ Hx). cbn [m_items]. rewrite (i_refs _ _ I c). lia.
  - exact (i_live _ _ I).
  - exact Ht.
  - intros k z Hz. destruct (Hold k z Hz) as (y & Hy & _ & _ & E). exact E.
  - exact (i_mem _ _ I).
  - exact (i_mems _ _ I).
  - unfold ns. rewrite length_set_at. exact (i_packs _ _ I).
  - intros Hg k z Hz. destruct (Hold k z Hz) as (y & Hy & E & E2 & _). rewrite E, E2. exact (i_objs _ _ I Hg _ _ Hy).
  - exact (i_got _ _ I).
  - exact (i_gots _ _ I).
  - exact Hw.
  - exact Hl.
  - exact (i_told _ _ I).
Qed.

Lemma count_note s i m x r a k : inv s i -> at_ (notes s) m = Some x ->
  match at_ (set_at (notes s) m (Some {| m_refs := r; m_app := a; m_items := m_items x; m_objs := m_objs x |})) k with
  | Some z => Z.of_nat (m_refs z) - Z.of_nat (m_app z) | None => 0 end =
  begun (pending s) k + (if Nat.eqb m k then (Z.of_nat r - Z.of_nat a) - (Z.of_nat (m_refs x) - Z.of_nat (m_app x)) else 0).
Proof.
  intros I Hx. rewrite (i_txs _ _ I k). destruct (Nat.eqb_spec m k) as [<-|Ne].
  - rewrite (set_same _ _ _ _ Hx), Hx. cbn [m_refs m_app]. lia.
  - rewrite (set_other _ _ _ _ Ne). lia.
Qed.

Lemma eta_ideal i : {| mem := mem i; mems := mems i; packed := packed i; packs := packs i; got := got i; waiting := waiting i; told := told i |} = i.
Proof. destruct i. reflexivity. Qed.

Lemma begun_ge ts t m : at_ ts t = Some m -> 1 <= begun ts m.
Proof.
  intros H. pose proof (isum_ge (by_index m) ts 0 t (Some m) (by_index_nonneg m) (at_nth _ _ _ H)) as G. cbn [by_index] in G. rewrite Nat.eqb_refl in G. exact G.
Qed.

Lemma begun_nonneg ts m : 0 <= begun ts m. Proof. apply isum_nonneg, by_index_nonneg. Qed.

(* The application releases a message *)
Lemma unref_app s i m : inv s i -> match unref s m true with Done s1 => inv s1 i | Misuse => True | Crash => False end.
Proof.
  intros I. unfold unref. destruct (at_ (notes s) m) as [x|] eqn:Hx; [|exact Logic.I]. cbn [andb].
  destruct (Nat.eqb_spec (m_app x) 0) as [|Ha]; [exact Logic.I|].
  pose proof (i_pos _ _ I _ _ Hx) as Hp. pose proof (i_txs _ _ I m) as Ht. rewrite Hx in Ht. pose proof (begun_nonneg (pending s) m) as B0.
  destruct (Nat.eqb_spec (Nat.pred (m_refs x)) 0) as [E|E].
  - destruct (release s i m x None (pending s) I Hx Logic.I) as (s1 & Es & I1 & _).
    + intros k. rewrite (i_txs _ _ I k). destruct (Nat.eq_dec m k) as [<-|Ne].
      * rewrite (set_same _ _ _ _ Hx), Hx. lia.
      * rewrite (set_other _ _ _ _ Ne). reflexivity.
    + auto.
    + reflexivity.
    + assert (Es2 : set_notes (set_pending s (pending s)) (set_at (notes s) m None) = set_notes s (set_at (notes s) m None)) by reflexivity.
      rewrite Es2 in Es. rewrite Es. exact I1.
  - pose proof (recount s i m x (Nat.pred (m_refs x)) (Nat.pred (m_app x)) (pending s) (waiting i) I Hx ltac:(lia)) as R.
    cbv zeta in R. rewrite eta_ideal in R. apply R.
    + intros k. rewrite (count_note s i m x _ _ k I Hx). destruct (Nat.eqb m k); lia.
    + exact (i_wait _ _ I).
    + exact (i_waits _ _ I).
Qed.

(* A transaction releases it *)
Lemma unref_tx s i t m : inv s i -> at_ (pending s) t = Some m ->
  match unref (set_pending s (set_at (pending s) t None)) m false with Done s1 => inv s1 i | Misuse => False | Crash => False end.
Proof.
  intros I Hp. unfold unref. cbn [notes set_pending andb]. pose proof (i_txs _ _ I m) as Ht. pose proof (begun_ge _ _ _ Hp) as B1.
  destruct (at_ (notes s) m) as [x|] eqn:Hx; [|lia]. pose proof (i_pos _ _ I _ _ Hx) as Hr.
  assert (Hsub : forall t0 k, at_ (set_at (pending s) t None) t0 = Some k -> at_ (pending s) t0 = Some k).
  { intros t0 k H. destruct (Nat.eq_dec t t0) as [<-|Ne]; [rewrite (set_same _ _ _ _ Hp) in H; discriminate|]. rewrite (set_other _ _ _ _ Ne) in H. exact H. }
  destruct (Nat.eqb_spec (Nat.pred (m_refs x)) 0) as [E|E].
  - destruct (release s i m x None (set_at (pending s) t None) I Hx Logic.I) as (s1 & Es & I1 & _).
    + intros k. rewrite (begun_set _ _ _ k Hp), (i_txs _ _ I k). destruct (Nat.eqb_spec m k) as [<-|Ne].
      * rewrite (set_same _ _ _ _ Hx), Hx. rewrite Ht in B1. lia.
      * rewrite (set_other _ _ _ _ Ne). lia.
    + exact Hsub.
    + apply length_set_at.
    + rewrite Es. exact I1.
  - pose proof (recount s i m x (Nat.pred (m_refs x)) (m_app x) (set_at (pending s) t None) (waiting i) I Hx ltac:(lia)) as R.
    cbv zeta in R. rewrite eta_ideal in R. apply R.
    + intros k. rewrite (count_note s i m x _ _ k I Hx), (begun_set _ _ _ k Hp). destruct (Nat.eqb m k); lia.
    + intros t0 k H. exact (i_wait _ _ I _ _ (Hsub _ _ H)).
    + rewrite length_set_at. exact (i_waits _ _ I).
Qed.

Lemma at_one {A} (l : list (option A)) x n : at_ (l ++ [Some x]) n = if Nat.eqb n (length l) then Some x else at_ l n.
Proof.
  change [Some x] with (map Some [x]). rewrite at_more. destruct (Nat.ltb_spec n (length l)) as [L|L].
  - destruct (Nat.eqb_spec n (length l)); [lia|reflexivity].
  - destruct (Nat.eqb_spec n (length l)) as [->|Ne]; [rewrite Nat.sub_diag; reflexivity|].
    rewrite at_none by lia. destruct (n - length l)%nat as [|j] eqn:Ej; [lia|]. destruct j; reflexivity.
Qed.

Lemma new_inv s i l : inv s i -> inv (set_areas s (areas s ++ [Some (None, l)])) (add_mem i l).
Proof.
  intros I. constructor; cbn [set_areas add_mem heap areas notes parcels buffers pending sent mem mems packed packs got waiting told].
  - exact (i_heap _ _ I).
  - exact (i_libs _ _ I).
  - intros n m t H. rewrite at_one in H. destruct (Nat.eqb n _); [discriminate|]. exact (i_areas _ _ I _ _ _ H).
  - intros m x n Hx Hi. destruct (i_mals _ _ I _ _ _ Hx Hi) as [t Ht]. exists t. rewrite at_one. pose proof (at_lt _ _ _ Ht).
    destruct (Nat.eqb_spec n (length (areas s))); [lia|exact Ht].
  - exact (i_once _ _ I).
  - exact (i_refs _ _ I).
  - exact (i_live _ _ I).
  - exact (i_txs _ _ I).
  - exact (i_pos _ _ I).
  - intros n w t H. rewrite at_one in H. unfold fset. rewrite (i_mems _ _ I). destruct (Nat.eqb n _); [injection H as <- <-; reflexivity|exact (i_mem _ _ I _ _ _ H)].
  - rewrite app_length, (i_mems _ _ I). cbn [length]. lia.
  - exact (i_packs _ _ I).
  - intros Hg m x Hx. refine (Forall2_mono _ _ _ _ _ (i_objs _ _ I Hg _ _ Hx)). intros a b _. apply means_mono; auto.
    + intros n w t H _ _. exists t. split; [|reflexivity]. cbn [areas set_areas]. rewrite at_one. pose proof (at_lt _ _ _ H). destruct (Nat.eqb_spec n (length (areas s))); [lia|exact H].
    + intros c k H _. exists k. auto.
    + apply incl_refl.
  - exact (i_got _ _ I).
  - exact (i_gots _ _ I).
  - exact (i_wait _ _ I).
  - exact (i_waits _ _ I).
  - exact (i_told _ _ I).
Qed.

Lemma write_inv s i n w old l : inv s i -> at_ (areas s) n = Some (w, old) -> length l = length old ->
  inv (set_areas s (set_at (areas s) n (Some (w, l)))) (set_mem i n l).
Proof.
  intros I Hn Hl.
  assert (Hat : forall k, at_ (set_at (areas s) n (Some (w, l))) k = if Nat.eqb k n then Some (w, l) else at_ (areas s) k).
  { intros k. apply at_set_at. exact (at_lt _ _ _ Hn). }
  constructor; cbn [set_areas set_mem heap areas notes parcels buffers pending sent mem mems packed packs got waiting told].
  - exact (i_heap _ _ I).
  - exact (i_libs _ _ I).
  - intros k m t H. rewrite Hat in H. destruct (Nat.eqb_spec k n) as [->|]; [injection H as -> <-; exact (i_areas _ _ I _ _ _ Hn)|exact (i_areas _ _ I _ _ _ H)].
  - intros m x k Hx Hi. destruct (i_mals _ _ I _ _ _ Hx Hi) as [t Ht]. rewrite Hat. destruct (Nat.eqb_spec k n) as [->|]; [|eauto].
    exists l. congruence.
  - exact (i_once _ _ I).
  - exact (i_refs _ _ I).
  - exact (i_live _ _ I).
  - exact (i_txs _ _ I).
  - exact (i_pos _ _ I).
  - intros k v t H. rewrite Hat in H. unfold fset. destruct (Nat.eqb k n); [injection H as <- <-; reflexivity|exact (i_mem _ _ I _ _ _ H)].
  - rewrite length_set_at. exact (i_mems _ _ I).
  - exact (i_packs _ _ I).
  - intros Hg m x Hx. refine (Forall2_mono _ _ _ _ _ (i_objs _ _ I Hg _ _ Hx)). intros a b _. apply means_mono; auto.
    + intros k v t H _ _. cbn [areas set_areas]. rewrite Hat. destruct (Nat.eqb_spec k n) as [->|]; [|eauto].
      exists l. rewrite Hn in H. injection H as <- <-. auto.
    + intros c k H _. exists k. auto.
    + apply incl_refl.
  - exact (i_got _ _ I).
  - exact (i_gots _ _ I).
  - exact (i_wait _ _ I).
  - exact (i_waits _ _ I).
  - exact (i_told _ _ I).
Qed.

Lemma free_inv s i n l : inv s i -> at_ (areas s) n = Some (None, l) -> (good -> forall m, ~ points s m n) ->
  inv (set_areas s (set_at (areas s) n None)) i.
Proof.
  intros I Hn Hf.
  assert (Hat : forall k, at_ (set_at (areas s) n None) k = if Nat.eqb k n then None else at_ (areas s) k).
  { intros k. apply at_set_at. exact (at_lt _ _ _ Hn). }
  constructor; cbn [set_areas heap areas notes parcels buffers pending sent mem mems packed packs got waiting told].
  - exact (i_heap _ _ I).
  - exact (i_libs _ _ I).
  - intros k m t H. rewrite Hat in H. destruct (Nat.eqb k n); [discriminate|exact (i_areas _ _ I _ _ _ H)].
  - intros m x k Hx Hi. destruct (i_mals _ _ I _ _ _ Hx Hi) as [t Ht]. rewrite Hat. destruct (Nat.eqb_spec k n) as [->|]; [congruence|eauto].
  - exact (i_once _ _ I).
  - exact (i_refs _ _ I).
  - exact (i_live _ _ I).
  - exact (i_txs _ _ I).
  - exact (i_pos _ _ I).
  - intros k v t H. rewrite Hat in H. destruct (Nat.eqb k n); [discriminate|exact (i_mem _ _ I _ _ _ H)].
  - rewrite length_set_at. exact (i_mems _ _ I).
  - exact (i_packs _ _ I).
  - intros Hg m x Hx. refine (Forall2_mono _ _ _ _ _ (i_objs _ _ I Hg _ _ Hx)). intros a b Ha. apply means_mono; auto.
    + intros k v t H _ (q & Hq & ->). cbn [areas set_areas]. rewrite Hat. destruct (Nat.eqb_spec k n) as [->|]; [|eauto].
      exfalso. apply (Hf Hg m). exists x. split; [exact Hx|]. exists a. auto.
    + intros c k H _. exists k. auto.
    + apply incl_refl.
  - exact (i_got _ _ I).
  - exact (i_gots _ _ I).
  - exact (i_wait _ _ I).
  - exact (i_waits _ _ I).
  - exact (i_told _ _ I).
Qed.

Lemma begun_none s i m : inv s i -> (length (notes s) <= m)%nat -> begun (pending s) m = 0.
Proof. intros I H. rewrite (i_txs _ _ I m), at_none by exact H. reflexivity. Qed.

Lemma message_inv s i : inv s i ->
  inv (set_notes s (notes s ++ [Some {| m_refs := 1; m_app := 1; m_items := []; m_objs := [] |}])) (ideally i MNew).
Proof.
  intros I. set (z0 := {| m_refs := 1; m_app := 1; m_items := []; m_objs := [] |}).
  assert (Hk : forall k x, at_ (notes s) k = Some x -> at_ (notes s ++ [Some z0]) k = Some x).
  { intros k x Hx. rewrite at_one. pose proof (at_lt _ _ _ Hx). destruct (Nat.eqb_spec k (length (notes s))); [lia|exact Hx]. }
  constructor; cbn [set_notes ideally heap areas notes parcels buffers pending sent mem mems packed packs got waiting told].
  - intros b m d H. destruct (i_heap _ _ I _ _ _ H) as (x & Hx & Hi). exists x. auto.
  - intros m x b Hx Hi. rewrite at_one in Hx. destruct (Nat.eqb m _); [injection Hx as <-; destruct Hi|exact (i_libs _ _ I _ _ _ Hx Hi)].
  - intros b m d H. destruct (i_areas _ _ I _ _ _ H) as (x & Hx & Hi). exists x. auto.
  - intros m x b Hx Hi. rewrite at_one in Hx. destruct (Nat.eqb m _); [injection Hx as <-; destruct Hi|exact (i_mals _ _ I _ _ _ Hx Hi)].
  - intros m x Hx. rewrite at_one in Hx. destruct (Nat.eqb m _); [injection Hx as <-; constructor|exact (i_once _ _ I _ _ Hx)].
  - intros c. rewrite <- (i_refs _ _ I c). unfold holders. rewrite isum_app. cbn [isum by_note m_items z0]. unfold conts_in. cbn. lia.
  - exact (i_live _ _ I).
  - intros m. rewrite at_one. destruct (Nat.eqb_spec m (length (notes s))) as [->|]; [cbn; rewrite (begun_none _ _ _ I) by lia; reflexivity|exact (i_txs _ _ I m)].
  - intros m x Hx. rewrite at_one in Hx. destruct (Nat.eqb m _); [injection Hx as <-; cbn; lia|exact (i_pos _ _ I _ _ Hx)].
  - exact (i_mem _ _ I).
  - exact (i_mems _ _ I).
  - rewrite app_length, (i_packs _ _ I). cbn [length]. lia.
  - intros Hg m x Hx. rewrite at_one in Hx. unfold fset. rewrite (i_packs _ _ I). destruct (Nat.eqb m _); [injection Hx as <-; constructor|exact (i_objs _ _ I Hg _ _ Hx)].
  - exact (i_got _ _ I).
  - exact (i_gots _ _ I).
  - exact (i_wait _ _ I).
  - exact (i_waits _ _ I).
  - exact (i_told _ _ I).
Qed.

Lemma holders_none s i c : inv s i -> (length (parcels s) <= c)%nat -> holders (buffers s) (notes s) c = 0.
Proof. intros I H. rewrite (i_refs _ _ I c), at_none by exact H. reflexivity. Qed.

Lemma receive_inv s i l : inv s i ->
  inv (set_buffers (set_parcels s (parcels s ++ [Some {| k_refs := 1; k_data := l |}])) (buffers s ++ [Some (length (parcels s))])) (ideally i (Receive l)).
Proof.
  intros I. set (k0 := {| k_refs := 1; k_data := l |}).
  assert (Hk : forall k x, at_ (parcels s) k = Some x -> at_ (parcels s ++ [Some k0]) k = Some x).
  { intros k x Hx. rewrite at_one. pose proof (at_lt _ _ _ Hx). destruct (Nat.eqb_spec k (length (parcels s))); [lia|exact Hx]. }
  constructor; cbn [set_parcels set_buffers ideally heap areas notes parcels buffers pending sent mem mems packed packs got waiting told].
  - exact (i_heap _ _ I).
  - exact (i_libs _ _ I).
  - exact (i_areas _ _ I).
  - exact (i_mals _ _ I).
  - exact (i_once _ _ I).
  - intros c. rewrite at_one. unfold holders. rewrite isum_app. cbn [isum by_index]. pose proof (i_refs _ _ I c) as R. unfold holders in R.
    destruct (Nat.eqb_spec c (length (parcels s))) as [->|Ne].
    + rewrite Nat.eqb_refl. pose proof (holders_none _ _ _ I (le_n _)) as R0. unfold holders in R0. cbn [k_refs k0]. lia.
    + destruct (Nat.eqb_spec (length (parcels s)) c); [congruence|]. lia.
  - intros c k H. rewrite at_one in H. destruct (Nat.eqb c _); [injection H as <-; cbn; lia|exact (i_live _ _ I _ _ H)].
  - exact (i_txs _ _ I).
  - exact (i_pos _ _ I).
  - exact (i_mem _ _ I).
  - exact (i_mems _ _ I).
  - exact (i_packs _ _ I).
  - intros Hg m x Hx. refine (Forall2_mono _ _ _ _ _ (i_objs _ _ I Hg _ _ Hx)). intros a b _. apply means_mono; auto.
    + intros n w t H _ _. exists t. auto.
    + intros c k H _. exists k. split; [|reflexivity]. cbn [parcels set_parcels set_buffers]. auto.
    + apply incl_refl.
  - intros b c H. rewrite at_one in H. destruct (Nat.eqb_spec b (length (buffers s))) as [->|Ne].
    + injection H as <-. exists k0. split; [rewrite at_one, Nat.eqb_refl; reflexivity|]. rewrite <- (i_gots _ _ I), app_nth2, Nat.sub_diag by lia. reflexivity.
    + destruct (i_got _ _ I _ _ H) as (k & A & B). exists k. split; [auto|]. rewrite app_nth1; [exact B|]. rewrite (i_gots _ _ I). exact (at_lt _ _ _ H).
  - rewrite !app_length, (i_gots _ _ I). reflexivity.
  - exact (i_wait _ _ I).
  - exact (i_waits _ _ I).
  - exact (i_told _ _ I).
Qed.

Lemma drop_inv s i b : inv s i -> match step s (Drop b) with Done s1 => inv s1 i | Misuse => True | Crash => False end.
Proof.
  intros I. cbn [step]. destruct (at_ (buffers s) b) as [c|] eqn:Hb; [|exact Logic.I].
  destruct (i_got _ _ I _ _ Hb) as (k & Hk & Hg). unfold unref_parcel. cbn [parcels set_buffers]. rewrite Hk.
  pose proof (i_live _ _ I _ _ Hk) as L.
  set (v := if k_refs k - 1 =? 0 then None else Some {| k_refs := k_refs k - 1; k_data := k_data k |}).
  assert (G : inv (set_parcels (set_buffers s (set_at (buffers s) b None)) (set_at (parcels s) c v)) i).
  { assert (Hh : forall c', holders (set_at (buffers s) b None) (notes s) c' = holders (buffers s) (notes s) c' - (if Nat.eqb c c' then 1 else 0)).
    { intros c'. unfold holders. rewrite (isum_change (by_index c') (by_index c') (buffers s) 0 b (Some c) None (at_nth _ _ _ Hb)) by auto. cbn [by_index]. lia. }
    assert (Hv : forall k1, 1 <= holders (set_at (buffers s) b None) (notes s) c -> at_ (parcels s) c = Some k1 -> exists k2, v = Some k2 /\ k_data k2 = k_data k1).
    { intros k1 H1 H2. rewrite Hh, Nat.eqb_refl, (i_refs _ _ I c), Hk in H1. replace k1 with k by congruence. unfold v.
      destruct (k_refs k - 1 =? 0) eqn:Z0; [apply Z.eqb_eq in Z0; lia|]. eexists. split; reflexivity. }
    assert (Hkeep : forall c' k1, 1 <= holders (set_at (buffers s) b None) (notes s) c' -> at_ (parcels s) c' = Some k1 ->
              exists k2, at_ (set_at (parcels s) c v) c' = Some k2 /\ k_data k2 = k_data k1).
    { intros c' k1 H1 H2. destruct (Nat.eq_dec c c') as [<-|Ne].
      - destruct (Hv k1 H1 H2) as (k2 & A & B). exists k2. rewrite (set_same _ _ _ _ Hk). auto.
      - exists k1. rewrite (set_other _ _ _ _ Ne). auto. }
    constructor; cbn [set_parcels set_buffers heap areas notes parcels buffers pending sent].
    - exact (i_heap _ _ I).
    - exact (i_libs _ _ I).
    - exact (i_areas _ _ I).
    - exact (i_mals _ _ I).
    - exact (i_once _ _ I).
    - intros c'. rewrite Hh, (i_refs _ _ I c'). destruct (Nat.eqb_spec c c') as [<-|Ne].
      + rewrite (set_same _ _ _ _ Hk), Hk. unfold v. destruct (k_refs k - 1 =? 0) eqn:Z0; [apply Z.eqb_eq in Z0; lia|reflexivity].
      + rewrite (set_other _ _ _ _ Ne). lia.
    - intros c' k' H. destruct (Nat.eq_dec c c') as [<-|Ne].
      + rewrite (set_same _ _ _ _ Hk) in H. unfold v in H. destruct (k_refs k - 1 =? 0) eqn:Z0; [discriminate|]. injection H as <-. cbn. apply Z.eqb_neq in Z0. lia.
      + rewrite (set_other _ _ _ _ Ne) in H. exact (i_live _ _ I _ _ H).
    - exact (i_txs _ _ I).
    - exact (i_pos _ _ I).
    - exact (i_mem _ _ I).
    - exact (i_mems _ _ I).
    - exact (i_packs _ _ I).
    - intros Hgd m x Hx. refine (Forall2_mono _ _ _ _ _ (i_objs _ _ I Hgd _ _ Hx)). intros a p _. apply means_mono; auto.
      + intros n w t H _ _. exists t. auto.
      + intros c' k' H Hin. cbn [parcels set_parcels set_buffers]. apply Hkeep; [|exact H].
        pose proof (holders_ge_note (set_at (buffers s) b None) _ _ _ c' Hx). pose proof (conts_in_In _ _ Hin). lia.
      + apply incl_refl.
    - intros b' c' H. destruct (Nat.eq_dec b b') as [<-|Ne]; [rewrite (set_same _ _ _ _ Hb) in H; discriminate|].
      assert (G : 1 <= holders (set_at (buffers s) b None) (notes s) c').
      { unfold holders. pose proof (isum_ge (by_index c') _ 0 b' (Some c') (by_index_nonneg c') (at_nth _ _ _ H)) as G0.
        cbn [by_index] in G0. rewrite Nat.eqb_refl in G0. pose proof (isum_nonneg (by_note c') (notes s) 0 (by_note_nonneg c')). lia. }
      rewrite (set_other _ _ _ _ Ne) in H. destruct (i_got _ _ I _ _ H) as (k1 & A & B). rewrite B.
      destruct (Hkeep c' k1 G A) as (k2 & C & D). exists k2. auto.
    - rewrite length_set_at. exact (i_gots _ _ I).
    - exact (i_wait _ _ I).
    - exact (i_waits _ _ I).
    - exact (i_told _ _ I). }
  unfold v in G. destruct (k_refs k - 1 =? 0); exact G.
Qed.

Lemma strlen_lt l : forall len, strlen l = Some len -> (len < length l)%nat.
Proof.
  induction l as [|c l IH]; intros len H; cbn in *; [discriminate|]. destruct (c =? 0); [injection H as <-; lia|].
  destruct (strlen l) as [k|]; [|discriminate]. injection H as <-. specialize (IH k eq_refl). lia.
Qed.

Lemma strlen_0 l : strlen l = Some 0%nat -> firstn 1 l = [0].
Proof.
  destruct l as [|c l]; cbn; [discriminate|]. destruct (c =? 0) eqn:E; [apply Z.eqb_eq in E; subst c; reflexivity|].
  destruct (strlen l); discriminate.
Qed.

Lemma area_some s i n l : inv s i -> area s n = Some l -> mem i n = l /\ exists w, at_ (areas s) n = Some (w, l).
Proof.
  unfold area. intros I H. destruct (at_ (areas s) n) as [[w t]|] eqn:E; [|discriminate]. injection H as <-. split; [exact (i_mem _ _ I _ _ _ E)|eauto].
Qed.

Lemma lib_means s m ds j d its size : nth_error ds j = Some d -> fetch d size = Data d ->
  means (blocks s m ds) m its (obj (Lib (length (heap s) + j)) size) (Value d).
Proof. intros H F. unfold means. cbn [o_ptr obj o_size]. exists d. split; [exact (block_at _ _ _ _ _ H)|]. auto. Qed.

Lemma lib_means0 s m d ds its size : fetch d size = Data d ->
  means (blocks s m (d :: ds)) m its (obj (Lib (length (heap s))) size) (Value d).
Proof. intros F. pose proof (lib_means s m (d :: ds) 0 d its size eq_refl F) as L. rewrite Nat.add_0_r in L. exact L. Qed.

Lemma area_means s m ds n w l its size : at_ (areas s) n = Some (w, l) -> usable s m n -> (size <= length l)%nat ->
  means (blocks s m ds) m its (obj (Area n) size) (Bytes_of n size).
Proof. intros H U L. unfold means. cbn [o_ptr obj o_size]. split; [reflexivity|]. exists w, l. split; [exact H|]. split; [exact (U _ _ H)|exact L]. Qed.

Lemma null_means s m its : means s m its null Nothing. Proof. reflexivity. Qed.

Lemma fetch_all l n : n = length l -> fetch (Bytes l) n = Data (Bytes l).
Proof. intros ->. cbn. rewrite Nat.leb_refl, firstn_all. reflexivity. Qed.

Lemma fetch_first l n : (n <= length l)%nat -> fetch (Bytes (firstn n l)) n = Data (Bytes (firstn n l)).
Proof. intros H. apply fetch_all. rewrite firstn_length. lia. Qed.

Lemma strings_means s i m ds its l : inv s i -> forall r, strings s l = Some r ->
  (forall n, In (Some n) l -> usable s m n) ->
  length r = length l /\ map (option_map snd) r = map (option_map (size_of i)) l /\
  Forall2 (means (blocks s m ds) m its)
    (map (fun x => match x with Some (n, len) => obj (Area n) (S len) | None => null end) r)
    (map (fun p => match p with Some n => Bytes_of n (size_of i n + 1) | None => Nothing end) l).
Proof.
  intros I. induction l as [|[n|] l IH]; intros r H U; cbn [strings] in H.
  - injection H as <-. repeat split. constructor.
  - destruct (area s n) as [t|] eqn:Ea; [|discriminate]. destruct (strlen t) as [len|] eqn:El; [|discriminate].
    destruct (strings s l) as [r0|]; [|discriminate]. injection H as <-.
    destruct (IH r0 eq_refl (fun k Hk => U k (or_intror Hk))) as (A & B & C).
    destruct (area_some _ _ _ _ I Ea) as (Em & w & Hw).
    assert (Es : size_of i n = len) by (unfold size_of; rewrite Em, El; reflexivity).
    cbn [length map option_map snd]. rewrite A, B, Es. split; [reflexivity|]. split; [reflexivity|].
    constructor; [|exact C]. rewrite Nat.add_1_r.
    apply (area_means s m ds n w t); [exact Hw|exact (U n (or_introl eq_refl))|]. pose proof (strlen_lt _ _ El). lia.
  - destruct (strings s l) as [r0|]; [|discriminate]. injection H as <-.
    destruct (IH r0 eq_refl (fun k Hk => U k (or_intror Hk))) as (A & B & C).
    cbn [length map option_map]. rewrite A, B. split; [reflexivity|]. split; [reflexivity|]. constructor; [reflexivity|exact C].
Qed.

Lemma blocks_0 s m its os : push s m its os = push (blocks s m []) m its os.
Proof. unfold blocks, push. cbn [map]. rewrite app_nil_r. destruct s. reflexivity. Qed.

Lemma blocks_2 s m d1 d2 : (let '(t, s1) := alloc s m d1 in let '(b, s2) := alloc s1 m d2 in (t, b, s2)) =
  (length (heap s), (length (heap s) + 1)%nat, blocks s m [d1; d2]).
Proof. rewrite blocks_1. rewrite (blocks_more s m [d1] d2). reflexivity. Qed.

Lemma step_inv s i o : inv s i -> (good -> careful s o) ->
  match step s o with Done s1 => inv s1 (ideally i o) | Misuse => True | Crash => False end.
Proof.
  intros I C. destruct o as [l|n l|n| |m|m|m p|m p|m p count es|m ps|m p size|m p count es|m size|m n size|m g f|l|b|m b skip|m b|m|m|t].
  - exact (new_inv s i l I).
  - cbn [step]. destruct (at_ (areas s) n) as [[w old]|] eqn:Hn; [|exact Logic.I]. destruct (Nat.eqb_spec (length l) (length old)) as [E|]; [|exact Logic.I].
    exact (write_inv s i n w old l I Hn E).
  - cbn [step]. destruct (at_ (areas s) n) as [[[w|] old]|] eqn:Hn; try exact Logic.I. exact (free_inv s i n old I Hn C).
  - exact (message_inv s i I).
  - cbn [step]. destruct (at_ (notes s) m) as [x|] eqn:Hx; [|exact Logic.I]. destruct (Nat.eqb (m_app x) 0); [exact Logic.I|].
    pose proof (recount s i m x (S (m_refs x)) (S (m_app x)) (pending s) (waiting i) I Hx ltac:(lia)) as R.
    cbv zeta in R. rewrite eta_ideal in R. apply R.
    + intros k. rewrite (count_note s i m x _ _ k I Hx). destruct (Nat.eqb m k); lia.
    + exact (i_wait _ _ I).
    + exact (i_waits _ _ I).
  - exact (unref_app s i m I).
  - destruct p as [n|]; cbn [step ideally].
    + destruct (area s n) as [l|] eqn:Ea; [|exact Logic.I]. destruct (strlen l) as [len|] eqn:El; [|exact Logic.I]. rewrite blocks_1.
      destruct (area_some _ _ _ _ I Ea) as (Em & w & Hw).
      assert (Es : size_of i n = len) by (unfold size_of; rewrite Em, El; reflexivity). rewrite Es, Nat.add_1_r.
      apply lib_push; [exact I|reflexivity|]. intros x _ Hg. constructor; [apply lib_means0; reflexivity|]. constructor; [|constructor].
      apply (area_means s m _ n w l); [exact Hw|exact (C Hg)|]. pose proof (strlen_lt _ _ El). lia.
    + rewrite blocks_1. apply lib_push; [exact I|reflexivity|]. intros x _ Hg. constructor; [apply lib_means0; reflexivity|]. constructor; [reflexivity|constructor].
  - destruct p as [n|]; cbn [step ideally].
    + destruct (area s n) as [l|] eqn:Ea; [|exact Logic.I]. destruct (strlen l) as [len|] eqn:El; [|exact Logic.I].
      destruct (area_some _ _ _ _ I Ea) as (Em & w & Hw).
      assert (Es : size_of i n = len) by (unfold size_of; rewrite Em, El; reflexivity). rewrite Es, Em, Nat.add_1_r. destruct len as [|len].
      * rewrite blocks_1, (strlen_0 _ El). apply lib_push; [exact I|reflexivity|]. intros x _ Hg. constructor; [apply lib_means0; reflexivity|].
        constructor; [|constructor]. unfold means. cbn. auto.
      * rewrite blocks_1. rewrite (blocks_more s m [Bytes (firstn (S (S len)) l)]). cbn [length Datatypes.app].
        apply lib_push; [exact I|cbn [length seq map]; rewrite Nat.add_1_r; reflexivity|]. intros x _ Hg. constructor; [apply lib_means; reflexivity|].
        constructor; [|constructor]. apply lib_means0. apply fetch_first. pose proof (strlen_lt _ _ El). lia.
    + rewrite blocks_1. apply lib_push; [exact I|reflexivity|]. intros x _ Hg. constructor; [apply lib_means0; reflexivity|]. constructor; [reflexivity|constructor].
  - destruct p as [n|]; cbn [step ideally].
    + destruct (area s n) as [l|] eqn:Ea; [|exact Logic.I]. destruct (area_some _ _ _ _ I Ea) as (Em & w & Hw). rewrite Em.
      destruct (Nat.eqb (count * es) 0).
      * rewrite blocks_1. apply lib_push; [exact I|reflexivity|]. intros x _ Hg. constructor; [apply lib_means0; reflexivity|]. constructor; [reflexivity|constructor].
      * destruct (Nat.leb_spec (count * es) (length l)) as [L|]; [|exact Logic.I].
        rewrite blocks_1. rewrite (blocks_more s m [Bytes (firstn (count * es) l)]). cbn [length Datatypes.app].
        apply lib_push; [exact I|cbn [length seq map]; rewrite Nat.add_1_r; reflexivity|]. intros x _ Hg. constructor; [apply lib_means; reflexivity|].
        constructor; [|constructor]. apply lib_means0. apply fetch_first. exact L.
    + destruct (Nat.eqb (count * es) 0); [|exact Logic.I]. rewrite blocks_1. apply lib_push; [exact I|reflexivity|]. intros x _ Hg.
      constructor; [apply lib_means0; reflexivity|]. constructor; [reflexivity|constructor].
  - cbn [step]. destruct (strings s ps) as [r|] eqn:Er; [|exact Logic.I].
    destruct ps as [|p ps].
    + injection Er as <-. cbn [ideally]. rewrite blocks_1. apply lib_push; [exact I|reflexivity|]. intros x _ Hg.
      constructor; [apply lib_means0; reflexivity|]. constructor; [reflexivity|constructor].
    + destruct r as [|r0 r].
      { exfalso. cbn [strings] in Er. destruct p as [n|]; [destruct (area s n) as [u|]; [|discriminate]; destruct (strlen u); [|discriminate]|]; destruct (strings s ps); discriminate. }
      cbn [ideally]. set (qs := p :: ps) in *. set (rs := r0 :: r) in *. rewrite blocks_1.
      rewrite (blocks_more s m [StringDescs (map (option_map snd) rs)]). cbn [length Datatypes.app].
      apply lib_push; [exact I|cbn [length seq map]; rewrite Nat.add_1_r; reflexivity|]. intros x _ Hg.
      destruct (strings_means s i m [StringDescs (map (option_map snd) rs); VecDesc (length rs)] (m_items x) _ I _ Er (C Hg)) as (A & B & D).
      constructor; [|constructor; [|exact D]].
      * apply lib_means; [|reflexivity]. cbn. f_equal. f_equal. exact A.
      * rewrite <- B. apply lib_means0. reflexivity.
  - destruct p as [n|]; cbn [step ideally].
    + destruct (area s n) as [l|] eqn:Ea; [|exact Logic.I]. destruct (area_some _ _ _ _ I Ea) as (Em & w & Hw).
      destruct (Nat.leb_spec size (length l)) as [L|]; [|exact Logic.I]. rewrite blocks_0. apply lib_push; [exact I|reflexivity|]. intros x _ Hg.
      constructor; [|constructor]. apply (area_means s m _ n w l); [exact Hw|exact (C Hg)|exact L].
    + destruct (Nat.eqb size 0); [|exact Logic.I]. rewrite blocks_0. apply lib_push; [exact I|reflexivity|]. intros x _ Hg. constructor; [reflexivity|constructor].
  - cbn [step]. rewrite blocks_1. destruct p as [n|]; cbn [ideally].
    + destruct (area s n) as [l|] eqn:Ea; [|exact Logic.I]. destruct (area_some _ _ _ _ I Ea) as (Em & w & Hw).
      destruct (Nat.leb_spec (count * es) (length l)) as [L|]; [|exact Logic.I]. apply lib_push; [exact I|reflexivity|]. intros x _ Hg.
      constructor; [apply lib_means0; reflexivity|]. constructor; [|constructor]. apply (area_means s m _ n w l); [exact Hw|exact (C Hg)|exact L].
    + destruct (Nat.eqb (count * es) 0); [|exact Logic.I]. apply lib_push; [exact I|reflexivity|]. intros x _ Hg.
      constructor; [apply lib_means0; reflexivity|]. constructor; [reflexivity|constructor].
  - exact (area_push s i m _ I).
  - cbn [step ideally]. destruct (area s n) as [l|] eqn:Ea; [|exact Logic.I]. destruct (area_some _ _ _ _ I Ea) as (Em & w & Hw). rewrite Em.
    destruct (size <=? length l)%nat; [|exact Logic.I]. exact (area_push s i m _ I).
  - cbn [step ideally]. destruct (area s g) as [lg|] eqn:Eg; [|exact Logic.I]. destruct (area s f) as [lf|] eqn:Ef; [|exact Logic.I].
    destruct (area_some _ _ _ _ I Eg) as (Emg & _). destruct (area_some _ _ _ _ I Ef) as (Emf & _). rewrite Emg, Emf, blocks_1.
    destruct lg as [|y lg].
    + rewrite (blocks_more s m [Bytes lf]). cbn [length Datatypes.app].
      apply lib_push; [exact I|cbn [length seq map]; rewrite Nat.add_1_r; reflexivity|]. intros x _ Hg. constructor; [apply lib_means; reflexivity|].
      constructor; [reflexivity|]. constructor; [|constructor]. apply lib_means0. apply fetch_all. reflexivity.
    + rewrite (blocks_more s m [Bytes lf]). cbn [Datatypes.app]. rewrite (blocks_more s m [Bytes lf; Bytes (y :: lg)]). cbn [Datatypes.app length].
      apply lib_push; [exact I|cbn [length seq map]; rewrite Nat.add_1_r; do 3 f_equal; f_equal; f_equal; lia|]. intros x _ Hg. constructor; [apply (lib_means s m _ 2); reflexivity|].
      constructor; [apply (lib_means s m _ 1); [reflexivity|apply fetch_all; reflexivity]|]. constructor; [|constructor]. apply lib_means0. apply fetch_all. reflexivity.
  - exact (receive_inv s i l I).
  - exact (drop_inv s i b I).
  - exact (copy_push s i m b skip I).
  - cbn [step ideally]. destruct (at_ (notes s) m) as [x|] eqn:Hx; [|exact Logic.I].
    destruct (release s i m x (Some {| m_refs := m_refs x; m_app := m_app x; m_items := []; m_objs := [] |}) (pending s) I Hx) as (s1 & Es & I1 & N1 & B1).
    + split; [reflexivity|]. split; [reflexivity|]. exact (i_pos _ _ I _ _ Hx).
    + intros k. rewrite (i_txs _ _ I k). destruct (Nat.eq_dec m k) as [<-|Ne].
      * rewrite (set_same _ _ _ _ Hx), Hx. reflexivity.
      * rewrite (set_other _ _ _ _ Ne). reflexivity.
    + auto.
    + reflexivity.
    + assert (Es2 : set_notes (set_pending s (pending s)) (set_at (notes s) m (Some {| m_refs := m_refs x; m_app := m_app x; m_items := []; m_objs := [] |})) =
        set_notes s (set_at (notes s) m (Some {| m_refs := m_refs x; m_app := m_app x; m_items := []; m_objs := [] |}))) by reflexivity.
      rewrite Es2 in Es. rewrite Es. pose proof (copy_push s1 (set_packed i m []) m b 0 I1) as K. cbn [skipn] in K.
      destruct (copy s1 m b 0) as [s2| |]; auto. unfold received in K. cbn [got set_packed] in K. fold (received i b) in K.
      assert (Hpt : forall k, packed (add (set_packed i m []) m (received i b)) k = packed (set_packed i m (received i b)) k).
      { intros k. cbn. unfold fset. rewrite Nat.eqb_refl. destruct (Nat.eqb k m); reflexivity. }
      destruct K. constructor; auto. intros Hg k z Hz. rewrite <- Hpt. auto.
  - cbn [step ideally]. destruct (at_ (notes s) m) as [x|] eqn:Hx; [|exact Logic.I]. destruct (Nat.eqb (m_app x) 0); [exact Logic.I|].
    destruct (send_inv s i m x I Hx) as (s1 & -> & I1 & _). exact I1.
  - cbn [step ideally]. destruct (at_ (notes s) m) as [x|] eqn:Hx; [|exact Logic.I]. destruct (Nat.eqb (m_app x) 0); [exact Logic.I|].
    pose proof (recount s i m x (S (m_refs x)) (m_app x) (pending s ++ [Some m]) (waiting i ++ [m]) I Hx ltac:(lia)) as R. cbv zeta in R. apply R.
    + intros k. rewrite (count_note s i m x _ _ k I Hx). unfold begun. rewrite isum_app. cbn [isum by_index]. destruct (Nat.eqb m k); lia.
    + intros t k H. rewrite at_one in H. destruct (Nat.eqb_spec t (length (pending s))) as [->|Ne].
      * injection H as <-. rewrite <- (i_waits _ _ I), app_nth2, Nat.sub_diag by lia. reflexivity.
      * rewrite app_nth1; [exact (i_wait _ _ I _ _ H)|]. rewrite (i_waits _ _ I). exact (at_lt _ _ _ H).
    + rewrite !app_length, (i_waits _ _ I). reflexivity.
  - cbn [step ideally]. destruct (at_ (pending s) t) as [m|] eqn:Ht; [|exact Logic.I]. rewrite (i_wait _ _ I _ _ Ht).
    pose proof (i_txs _ _ I m) as B. pose proof (begun_ge _ _ _ Ht) as B1. destruct (at_ (notes s) m) as [x|] eqn:Hx; [|lia].
    destruct (send_inv s i m x I Hx) as (s1 & -> & I1 & N1 & P1). rewrite <- P1 in Ht.
    pose proof (unref_tx s1 (tell i m) t m I1 Ht) as K. destruct (unref _ m false); auto.
Qed.

End Good.

Lemma run_inv h : forall s i, inv True s i -> carefully s h ->
  match run s h with Done s1 => inv True s1 (fold_left ideally h i) | Misuse => True | Crash => False end.
Proof.
  induction h as [|o h IH]; intros s i I C; cbn [run fold_left]; [exact I|]. destruct C as [C1 C2].
  pose proof (step_inv True s i o I (fun _ => C1)) as S1. destruct (step s o) as [s1| |]; [exact (IH s1 _ S1 C2)|exact Logic.I|exact S1].
Qed.

(* Even if the application isn't careful *)
Lemma run_any h : forall s i, inv False s i ->
  match run s h with Done s1 => inv False s1 (fold_left ideally h i) | Misuse => True | Crash => False end.
Proof.
  induction h as [|o h IH]; intros s i I; cbn [run fold_left]; [exact I|].
  pose proof (step_inv False s i o I (fun F => match F with end)) as S1. destruct (step s o) as [s1| |]; [exact (IH s1 _ S1)|exact Logic.I|exact S1].
Qed.

(* ------------------------------------------------------------------ *)
(* Messages keep what was allocated for them *)

Definition keeps (ns ns1 : list (option note)) (m : nat) : Prop :=
  (length ns <= length ns1)%nat /\
  match at_ ns m with
  | None => at_ ns1 m = None
  | Some x => match at_ ns1 m with Some x1 => incl (m_items x) (m_items x1) | None => True end
  end.

Lemma keeps_refl ns m : keeps ns ns m.
Proof. split; [lia|]. destruct (at_ ns m); [apply incl_refl|reflexivity]. Qed.

Lemma keeps_set ns k x y m : at_ ns k = Some x -> match y with Some y => incl (m_items x) (m_items y) \/ k <> m | None => True end -> keeps ns (set_at ns k y) m.
Proof.
  intros H Hy. split; [rewrite length_set_at; lia|]. destruct (Nat.eq_dec k m) as [->|Ne].
  - rewrite H, (set_same _ _ _ _ H). destruct y as [y|]; [destruct Hy; [assumption|contradiction]|exact Logic.I].
  - rewrite (set_other _ _ _ _ Ne). destruct (at_ ns m); [apply incl_refl|reflexivity].
Qed.

Lemma keeps_trans a b c m : keeps a b m -> keeps b c m -> keeps a c m.
Proof.
  intros (L1 & H1) (L2 & H2). split; [lia|]. destruct (at_ a m) as [x|].
  - destruct (at_ b m) as [y|].
    + destruct (at_ c m) as [z|]; [|exact Logic.I]. exact (incl_tran H1 H2).
    + rewrite H2. exact Logic.I.
  - rewrite H1 in H2. exact H2.
Qed.

Lemma push_keeps s k its os s1 m : push s k its os = Done s1 -> keeps (notes s) (notes s1) m.
Proof.
  unfold push. destruct (at_ (notes s) k) as [x|] eqn:Hx; [|discriminate]. destruct (Nat.eqb _ 0); [discriminate|]. intros E. injection E as <-.
  cbn [notes set_notes]. apply (keeps_set _ _ x); [exact Hx|]. left. intros t Ht. cbn. apply in_or_app. auto.
Qed.

Lemma unref_parcel_notes s c s1 : unref_parcel s c = Some s1 -> notes s1 = notes s.
Proof. unfold unref_parcel. destruct (at_ (parcels s) c); [|discriminate]. destruct (_ =? 0); intros E; injection E as <-; reflexivity. Qed.

Lemma tidy_all_notes l : forall s s1, tidy_all s l = Some s1 -> notes s1 = notes s.
Proof.
  induction l as [|t l IH]; intros s s1 H; cbn [tidy_all] in H; [injection H as <-; reflexivity|].
  destruct (tidy s t) as [s0|] eqn:E; [|discriminate]. rewrite (IH _ _ H). clear H. destruct t as [b|n|c]; cbn [tidy] in E.
  - destruct (at_ (heap s) b); [|discriminate]. injection E as <-. reflexivity.
  - destruct (at_ (areas s) n); [|discriminate]. injection E as <-. reflexivity.
  - exact (unref_parcel_notes _ _ _ E).
Qed.

Lemma unref_keeps s k app s1 m : unref s k app = Done s1 -> keeps (notes s) (notes s1) m.
Proof.
  unfold unref. destruct (at_ (notes s) k) as [x|] eqn:Hx; [|destruct app; discriminate]. destruct (app && _); [discriminate|].
  destruct (Nat.eqb _ 0).
  - destruct (tidy_all _ _) as [s2|] eqn:E; [|discriminate]. intros H. injection H as <-. rewrite (tidy_all_notes _ _ _ E). cbn [notes set_notes].
    apply (keeps_set _ _ x); [exact Hx|exact Logic.I].
  - intros H. injection H as <-. cbn [notes set_notes]. apply (keeps_set _ _ x); [exact Hx|]. left. apply incl_refl.
Qed.

Lemma copy_keeps s k b skip s1 m : copy s k b skip = Done s1 -> keeps (notes s) (notes s1) m.
Proof.
  unfold copy, ref_parcel. destruct (at_ (buffers s) b) as [c|]; [|discriminate]. destruct (at_ (parcels s) c) as [p|]; [|discriminate].
  intros H. exact (push_keeps _ _ _ _ _ m H).
Qed.

Lemma step_keeps s o s1 m : step s o = Done s1 -> (forall b, o <> Replace m b) -> (m < length (notes s))%nat -> keeps (notes s) (notes s1) m.
Proof.
  intros H N L.
  assert (U : forall its os s2 k, push s2 k its os = Done s1 -> notes s2 = notes s -> keeps (notes s) (notes s1) m)
    by (intros its os s2 k Hp <-; exact (push_keeps _ _ _ _ _ m Hp)).
  destruct o as [l|n l|n| |k|k|k p|k p|k p count es|k ps|k p size|k p count es|k size|k n size|k g f|l|b|k b skip|k b|k|k|t]; cbn [step] in H.
  - injection H as <-. apply keeps_refl.
  - destruct (at_ (areas s) n) as [[w old]|]; [|discriminate]. destruct (Nat.eqb _ _); [|discriminate]. injection H as <-. apply keeps_refl.
  - destruct (at_ (areas s) n) as [[[w|] old]|]; try discriminate. injection H as <-. apply keeps_refl.
  - injection H as <-. cbn [notes set_notes]. split; [rewrite app_length; lia|]. rewrite at_one.
    destruct (Nat.eqb_spec m (length (notes s))); [lia|]. destruct (at_ (notes s) m); [apply incl_refl|reflexivity].
  - destruct (at_ (notes s) k) as [x|] eqn:Hx; [|discriminate]. destruct (Nat.eqb _ 0); [discriminate|]. injection H as <-.
    cbn [notes set_notes]. apply (keeps_set _ _ x); [exact Hx|]. left. apply incl_refl.
  - exact (unref_keeps _ _ _ _ m H).
  - destruct p as [n|]; [|exact (U _ _ _ _ H eq_refl)]. destruct (area s n) as [l|]; [|discriminate]. destruct (strlen l); [|discriminate]. exact (U _ _ _ _ H eq_refl).
  - destruct p as [n|]; [|exact (U _ _ _ _ H eq_refl)]. destruct (area s n) as [l|]; [|discriminate]. destruct (strlen l) as [[|len]|]; [| |discriminate]; exact (U _ _ _ _ H eq_refl).
  - destruct p as [n|].
    + destruct (area s n) as [l|]; [|discriminate]. destruct (Nat.eqb _ 0); [exact (U _ _ _ _ H eq_refl)|]. destruct (_ <=? _)%nat; [|discriminate]. exact (U _ _ _ _ H eq_refl).
    + destruct (Nat.eqb _ 0); [|discriminate]. exact (U _ _ _ _ H eq_refl).
  - destruct (strings s ps) as [[|r0 r]|]; [| |discriminate]; exact (U _ _ _ _ H eq_refl).
  - destruct p as [n|].
    + destruct (area s n) as [l|]; [|discriminate]. destruct (_ <=? _)%nat; [|discriminate]. exact (U _ _ _ _ H eq_refl).
    + destruct (Nat.eqb _ 0); [|discriminate]. exact (U _ _ _ _ H eq_refl).
  - cbv [alloc] in H. destruct p as [n|].
    + destruct (area s n) as [l|]; [|discriminate]. destruct (_ <=? _)%nat; [|discriminate]. exact (U _ _ _ _ H eq_refl).
    + destruct (Nat.eqb _ 0); [|discriminate]. exact (U _ _ _ _ H eq_refl).
  - exact (U _ _ _ _ H eq_refl).
  - destruct (area s n) as [l|]; [|discriminate]. destruct (_ <=? _)%nat; [|discriminate]. exact (U _ _ _ _ H eq_refl).
  - destruct (area s g) as [[|y lg]|]; [| |discriminate]; (destruct (area s f) as [lf|]; [|discriminate]); exact (U _ _ _ _ H eq_refl).
  - injection H as <-. apply keeps_refl.
  - destruct (at_ (buffers s) b) as [c|]; [|discriminate]. destruct (unref_parcel _ c) as [s2|] eqn:E; [|discriminate]. injection H as <-.
    rewrite (unref_parcel_notes _ _ _ E). apply keeps_refl.
  - exact (copy_keeps _ _ _ _ _ m H).
  - destruct (at_ (notes s) k) as [x|] eqn:Hx; [|discriminate]. destruct (tidy_all _ _) as [s2|] eqn:E; [|discriminate].
    refine (keeps_trans _ (notes s2) _ m _ (copy_keeps _ _ _ _ _ m H)). rewrite (tidy_all_notes _ _ _ E). cbn [notes set_notes].
    apply (keeps_set _ _ x); [exact Hx|]. right. intros ->. exact (N b eq_refl).
  - destruct (at_ (notes s) k) as [x|] eqn:Hx; [|discriminate]. destruct (Nat.eqb _ 0); [discriminate|]. unfold send in H. rewrite Hx in H. injection H as <-. apply keeps_refl.
  - destruct (at_ (notes s) k) as [x|] eqn:Hx; [|discriminate]. destruct (Nat.eqb _ 0); [discriminate|]. injection H as <-.
    cbn [notes set_notes set_pending]. apply (keeps_set _ _ x); [exact Hx|]. left. apply incl_refl.
  - destruct (at_ (pending s) t) as [k|]; [|discriminate]. unfold send in H. destruct (at_ (notes s) k) as [x|] eqn:Hx; [|discriminate].
    exact (unref_keeps _ _ _ _ m H).
Qed.

Lemma run_keeps h : forall s s1 m, run s h = Done s1 -> (forall b, ~ In (Replace m b) h) -> (m < length (notes s))%nat -> keeps (notes s) (notes s1) m.
Proof.
  induction h as [|o h IH]; intros s s1 m H N L; cbn [run] in H; [injection H as <-; apply keeps_refl|].
  destruct (step s o) as [s0| |] eqn:E; try discriminate.
  assert (K : keeps (notes s) (notes s0) m) by (apply (step_keeps s o s0 m E); [intros b ->; exact (N b (or_introl eq_refl))|exact L]).
  refine (keeps_trans _ _ _ m K (IH s0 s1 m H _ _)); [|destruct K; lia]. intros b Hb. exact (N b (or_intror Hb)).
Qed.

Lemma run_app h1 : forall s h2, run s (h1 ++ h2) = match run s h1 with Done s1 => run s1 h2 | x => x end.
Proof. induction h1 as [|o h1 IH]; intros s h2; cbn [run Datatypes.app]; [reflexivity|]. destruct (step s o); auto. Qed.

Lemma carefully_app h1 : forall s h2, carefully s (h1 ++ h2) -> carefully s h1 /\ match run s h1 with Done s1 => carefully s1 h2 | _ => True end.
Proof.
  induction h1 as [|o h1 IH]; intros s h2 C; cbn [run carefully Datatypes.app] in *; [auto|]. destruct C as [C1 C2].
  destruct (step s o) as [s1| |]; [|auto|auto]. destruct (IH s1 h2 C2). auto.
Qed.

(* Pieces stay in a message until it's reset *)
Definition starts (a b : list piece) : Prop := exists r, b = a ++ r.

Lemma packed_stays i o m : (m < packs i)%nat -> (forall b, o <> Replace m b) -> starts (packed i m) (packed (ideally i o) m) /\ (packs i <= packs (ideally i o))%nat.
Proof.
  intros L N. assert (R : starts (packed i m) (packed i m)) by (exists []; rewrite app_nil_r; reflexivity).
  assert (A : forall k x, starts (packed i m) (packed (add i k x) m) /\ (packs i <= packs (add i k x))%nat).
  { intros k x. split; [|cbn; lia]. cbn. unfold fset. destruct (Nat.eqb_spec m k) as [->|]; [exists x; reflexivity|exact R]. }
  destruct o as [l|n l|n| |k|k|k p|k p|k p count es|k ps|k p size|k p count es|k size|k n size|k g f|l|b|k b skip|k b|k|k|t]; cbn [ideally];
    try (split; [exact R|cbn; lia]); try (destruct p); try apply A.
  - split; [|cbn; lia]. cbn. unfold fset. destruct (Nat.eqb_spec m (packs i)); [lia|exact R].
  - destruct (Nat.eqb _ 0); apply A.
  - destruct ps; apply A.
  - split; [|cbn; lia]. cbn. unfold fset. destruct (Nat.eqb_spec m k) as [->|]; [exfalso; exact (N b eq_refl)|exact R].
Qed.

Lemma packed_stay h : forall i m, (m < packs i)%nat -> (forall b, ~ In (Replace m b) h) -> starts (packed i m) (packed (fold_left ideally h i) m).
Proof.
  induction h as [|o h IH]; intros i m L N; cbn [fold_left]; [exists []; rewrite app_nil_r; reflexivity|].
  destruct (packed_stays i o m L) as [(r & Hr) L1]; [intros b ->; exact (N b (or_introl eq_refl))|].
  destruct (IH (ideally i o) m ltac:(lia) (fun b Hb => N b (or_intror Hb))) as (r2 & Hr2). exists (r ++ r2). rewrite Hr2, Hr, app_assoc. reflexivity.
Qed.
