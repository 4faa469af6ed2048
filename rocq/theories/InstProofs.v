(* Proofs about service manager instances. *)
From Verif Require Import Base.
From Verif Require Import InstModel InstSpec.

Lemma name_eqb_refl a : name_eqb a a = true.
Proof. induction a as [|x a IH]; [reflexivity|]. cbn. rewrite Z.eqb_refl. exact IH. Qed.
Lemma name_eqb_eq a b : name_eqb a b = true -> a = b.
Proof.
  revert b. induction a as [|x a IH]; destruct b as [|y b]; cbn; try congruence.
  intros E. apply andb_prop in E. destruct E as [A B]. apply Z.eqb_eq in A. apply IH in B. congruence.
Qed.
Lemma name_eqb_neq a b : a <> b -> name_eqb a b = false.
Proof. intros N. destruct (name_eqb a b) eqn:E; [|reflexivity]. apply name_eqb_eq in E. contradiction. Qed.
Lemma kind_eqb_eq a b : kind_eqb a b = true -> a = b.
Proof. destruct a, b; cbn; congruence. Qed.
Lemma kind_eqb_refl a : kind_eqb a a = true.
Proof. destruct a; reflexivity. Qed.
Lemma kind_eqb_neq a b : a <> b -> kind_eqb a b = false.
Proof. destruct a, b; cbn; congruence. Qed.
Lemma kind_dec (a b : kind) : {a = b} + {a <> b}.
Proof. decide equality. Qed.

Lemma nth_replace_eq {A} (l : list A) i x y :
  nth_error l i = Some y -> nth_error (replace_nth l i x) i = Some x.
Proof. revert i. induction l as [|a l IH]; destruct i; cbn; try congruence. apply IH. Qed.
Lemma nth_replace_neq {A} (l : list A) i j (x : A) :
  i <> j -> nth_error (replace_nth l i x) j = nth_error l j.
Proof. revert i j. induction l as [|a l IH]; destruct i, j; cbn; try congruence. intros N. apply IH. congruence. Qed.
Lemma nth_snoc {A} (l : list A) x : nth_error (l ++ [x]) (length l) = Some x.
Proof. induction l; [reflexivity|]; exact IHl. Qed.
Lemma nth_snoc_old {A} (l : list A) x i y : nth_error l i = Some y -> nth_error (l ++ [x]) i = Some y.
Proof. revert i. induction l as [|a l IH]; destruct i; cbn; try congruence. apply IH. Qed.
Lemma nth_snoc_inv {A} (l : list A) x i y :
  nth_error (l ++ [x]) i = Some y -> nth_error l i = Some y \/ (i = length l /\ y = x).
Proof.
  revert i. induction l as [|a l IH]; destruct i; cbn.
  - intros E. right. split; congruence.
  - destruct i; cbn; congruence.
  - auto.
  - intros E. destruct (IH _ E) as [H|[H1 H2]]; [left; exact H|right; split; congruence].
Qed.
Lemma nth_lt {A} (l : list A) i y : nth_error l i = Some y -> (i < length l)%nat.
Proof. intros E. apply nth_error_Some. congruence. Qed.

Lemma lookup_in l d i : lookup l d = Some i -> In (d, i) l.
Proof.
  unfold lookup. destruct (find _ l) as [e|] eqn:F; [|discriminate]. intros [= <-].
  apply find_some in F. destruct F as [I N]. apply name_eqb_eq in N. destruct e; cbn in *. subst. exact I.
Qed.
Lemma remove_in l d e : In e (remove l d) -> In e l /\ fst e <> d.
Proof.
  unfold remove. rewrite filter_In. intros [I N]. split; [exact I|]. intros <-.
  rewrite name_eqb_refl in N. discriminate.
Qed.
Lemma lookup_remove l d e : e <> d -> lookup (remove l d) e = lookup l e.
Proof.
  intros N. unfold lookup, remove. induction l as [|a l IH]; [reflexivity|]. cbn.
  destruct (name_eqb (fst a) d) eqn:E; cbn.
  - apply name_eqb_eq in E. rewrite (name_eqb_neq (fst a) e) by congruence. exact IH.
  - destruct (name_eqb (fst a) e); [reflexivity|]. exact IH.
Qed.
Lemma lookup_cons l d e i : lookup ((d, i) :: l) e = if name_eqb d e then Some i else lookup l e.
Proof. unfold lookup. cbn. destruct (name_eqb d e); reflexivity. Qed.

(* The invariant *)
Definition class_ok (s : state) : Prop :=
  forall k t, class_of s k = Some (Class (Some t)) ->
  exists l, nth_error (tables s) t = Some (Some l) /\
    forall d i, In (d, i) l ->
    exists x, nth_error (insts s) i = Some x /\ i_kind x = k /\ i_dev x = d /\ gone x = false.
Definition apart (s : state) : Prop :=
  forall k1 k2 t, class_of s k1 = Some (Class (Some t)) -> class_of s k2 = Some (Class (Some t)) -> k1 = k2.
Definition found (s : state) : Prop :=
  forall i x, nth_error (insts s) i = Some x -> gone x = false ->
  exists t l, class_of s (i_kind x) = Some (Class (Some t)) /\ nth_error (tables s) t = Some (Some l) /\
    lookup l (i_dev x) = Some i.
Definition inst_ok (x : inst) : Prop :=
  i_dev x <> [] /\
  if i_freed x then i_held x = 0 /\ i_phase x = Idle
  else match i_phase x with
       | Idle => i_refs x = i_held x /\ i_held x >= 1
       | Begun => i_refs x = i_held x + 1 /\ i_held x >= 0
       | Left_ => i_refs x = i_held x + 1 /\ i_held x >= 1
       | Removed => i_refs x = 1 /\ i_held x = 0
       end.
Definition all_ok (s : state) : Prop := forall i x, nth_error (insts s) i = Some x -> inst_ok x.
Record inv (s : state) : Prop := Inv { v_class : class_ok s; v_apart : apart s; v_found : found s; v_ok : all_ok s }.

Lemma inv_init : inv init.
Proof. split; [intros k t E; discriminate|intros k1 k2 t E; discriminate| |]; intros [|i] x E; discriminate. Qed.

Lemma held_kept x : inst_ok x -> i_held x > 0 -> i_freed x = false /\ gone x = false.
Proof.
  intros [_ K] H. unfold gone. destruct (i_freed x); [lia|]. split; [reflexivity|].
  destruct (i_phase x); try reflexivity; lia.
Qed.

(* One manager changes, but not what it's for *)
Lemma inv_change s i x y :
  inv s -> nth_error (insts s) i = Some x -> i_kind y = i_kind x -> i_dev y = i_dev x -> gone y = gone x ->
  inst_ok y -> inv (set_inst s i y).
Proof.
  intros [V1 V2 V3 V4] N K D G O. unfold set_inst, set_insts. split; cbn.
  - intros k t E. destruct (V1 k t E) as (l & A & B). exists l. split; [exact A|].
    intros d j I. destruct (B d j I) as (z & Z1 & Z2 & Z3 & Z4).
    destruct (Nat.eq_dec i j) as [<-|NE].
    + exists y. cbn. rewrite (nth_replace_eq _ _ _ _ N). assert (z = x) by congruence. subst z.
      repeat split; congruence.
    + exists z. cbn. rewrite nth_replace_neq by exact NE. auto.
  - exact V2.
  - intros j z. destruct (Nat.eq_dec i j) as [<-|NE]; cbn.
    + rewrite (nth_replace_eq _ _ _ _ N). intros [= <-] Gz. rewrite K, D. apply (V3 i x N). congruence.
    + rewrite nth_replace_neq by exact NE. apply V3.
  - intros j z. destruct (Nat.eq_dec i j) as [<-|NE]; cbn.
    + rewrite (nth_replace_eq _ _ _ _ N). intros [= <-]. exact O.
    + rewrite nth_replace_neq by exact NE. apply V4.
Qed.
Lemma inv_return s r : inv s -> inv (return_ s r).
Proof. intros [V1 V2 V3 V4]. split; assumption. Qed.

(* The class is used *)
Lemma class_ref_tables s k : tables (class_ref s k) = tables s /\ insts (class_ref s k) = insts s.
Proof.
  unfold class_ref. destruct (class_of s k); [auto|]. destruct (parent k) as [p|]; [|auto].
  destruct (class_of s p); auto.
Qed.
Lemma set_class_same s k c : class_of (set_class s k c) k = Some c.
Proof. cbn. rewrite kind_eqb_refl. reflexivity. Qed.
Lemma set_class_other s k c j : j <> k -> class_of (set_class s k c) j = class_of s j.
Proof. intros N. cbn. rewrite kind_eqb_neq by exact N. reflexivity. Qed.

(* A class without a table is added *)
Lemma inv_class_none s k : inv s -> class_of s k = None -> inv (set_class s k (Class None)).
Proof.
  intros [V1 V2 V3 V4] N. split.
  - intros j t. destruct (kind_dec j k) as [->|NE]; [rewrite set_class_same; discriminate|].
    rewrite set_class_other by exact NE. apply V1.
  - intros j1 j2 t.
    destruct (kind_dec j1 k) as [->|N1]; [rewrite set_class_same; discriminate|].
    destruct (kind_dec j2 k) as [->|N2]; [intros _; rewrite set_class_same; discriminate|].
    rewrite !set_class_other by assumption. apply V2.
  - intros i x E G. destruct (V3 i x E G) as (t & l & A & B). exists t, l.
    rewrite set_class_other by congruence. auto.
  - exact V4.
Qed.

Definition fresh_ok (s : state) (k : kind) : bool :=
  match class_of s k, derived k with
  | None, true => match class_of s Aidl with Some (Class (Some _)) => false | _ => true end
  | _, _ => true
  end.
Lemma parent_derived k : parent k = if derived k then Some Aidl else None.
Proof. destruct k; reflexivity. Qed.
Lemma inv_class_ref s k :
  inv s -> fresh_ok s k = true -> inv (class_ref s k) /\ exists c, class_of (class_ref s k) k = Some c.
Proof.
  intros V F. unfold class_ref, fresh_ok in *. pose proof (parent_derived k) as PD.
  destruct (class_of s k) as [c|] eqn:C; [split; [exact V|exists c; exact C]|].
  destruct (derived k); rewrite PD; [pose proof PD as P; set (p := Aidl) in *; clearbody p|].
  - assert (PK : k <> p) by (destruct k; cbn in P; congruence).
    destruct (class_of s p) as [[[t|]]|] eqn:CP; try discriminate.
    + cbn zeta. rewrite CP. split; [apply inv_class_none; assumption|]. eexists. apply set_class_same.
    + cbn zeta. rewrite set_class_same. split; [|eexists; apply set_class_same].
      apply inv_class_none; [apply inv_class_none; assumption|].
      rewrite set_class_other by exact PK. exact C.
  - split; [apply inv_class_none; assumption|]. eexists. apply set_class_same.
Qed.

Lemma create_inv cfg s k dev rpc t l :
  inv s -> dev <> [] -> class_of s k = Some (Class (Some t)) -> nth_error (tables s) t = Some (Some l) ->
  lookup l dev = None ->
  exists s1 x, create cfg s k dev rpc t = Ok s1 /\ inv s1 /\ returned s1 = Some (length (insts s)) /\
    nth_error (insts s1) (length (insts s)) = Some x /\ is_for x k dev (ipc_protocol cfg dev rpc) /\ i_held x = 1.
Proof.
  intros [V1 V2 V3 V4] ND C T L. unfold create. rewrite T. cbn zeta.
  assert (ID : ipc_dev dev = dev) by (destruct dev; [contradiction|reflexivity]). rewrite ID.
  eexists. exists (Inst k dev (ipc_protocol cfg dev rpc) 1 Idle false 1). split; [reflexivity|].
  split; [|cbn; rewrite nth_snoc; unfold is_for; auto 10].
  assert (NEW : forall e, lookup ((dev, length (insts s)) :: remove l dev) e =
                          if name_eqb dev e then Some (length (insts s)) else lookup l e).
  { intros e. rewrite lookup_cons. destruct (name_eqb dev e) eqn:E; [reflexivity|].
    apply lookup_remove. intros ->. rewrite name_eqb_refl in E. discriminate. }
  split; cbn.
  - intros j u E. cbn in *. destruct (V1 j u E) as (m & M & B). destruct (Nat.eq_dec t u) as [<-|NE].
    + rewrite (nth_replace_eq _ _ _ _ T). eexists. split; [reflexivity|].
      assert (j = k) by (eapply V2; eauto). subst j. assert (m = l) by congruence. subst m.
      intros d i [I|I].
      * injection I as <- <-. eexists. rewrite nth_snoc. split; [reflexivity|]. auto.
      * apply remove_in in I. destruct I as [I _]. destruct (B d i I) as (z & Z1 & Z2). exists z.
        split; [apply nth_snoc_old; exact Z1|exact Z2].
    + rewrite nth_replace_neq by exact NE. exists m. split; [exact M|].
      intros d i I. destruct (B d i I) as (z & Z1 & Z2). exists z.
      split; [apply nth_snoc_old; exact Z1|exact Z2].
  - exact V2.
  - intros i x E G. cbn in E. apply nth_snoc_inv in E. destruct E as [E|[-> ->]].
    + destruct (V3 i x E G) as (u & m & A & M & B). cbn. destruct (Nat.eq_dec t u) as [<-|NE].
      * exists t. rewrite (nth_replace_eq _ _ _ _ T). eexists. split; [exact A|]. split; [reflexivity|].
        rewrite NEW. assert (m = l) by congruence. subst m.
        destruct (name_eqb dev (i_dev x)) eqn:Q; [|exact B]. apply name_eqb_eq in Q. congruence.
      * exists u, m. rewrite nth_replace_neq by exact NE. auto.
    + cbn. exists t. rewrite (nth_replace_eq _ _ _ _ T). eexists. split; [exact C|]. split; [reflexivity|].
      rewrite NEW, name_eqb_refl. reflexivity.
  - intros i x E. cbn in E. apply nth_snoc_inv in E. destruct E as [E|[-> ->]]; [exact (V4 i x E)|].
    split; [exact ND|]. cbn. lia.
Qed.

(* An empty table is allocated *)
Lemma inv_table s k :
  inv s -> class_of s k = Some (Class None) ->
  inv (set_class (set_tables s (tables s ++ [Some []])) k (Class (Some (length (tables s))))).
Proof.
  intros [V1 V2 V3 V4] C. set (n := length (tables s)).
  assert (OLD : forall j t, class_of s j = Some (Class (Some t)) -> t <> n).
  { intros j t E. destruct (V1 j t E) as (l & A & _). apply nth_lt in A. unfold n. lia. }
  split.
  - intros j t. destruct (kind_dec j k) as [->|NE].
    + rewrite set_class_same. intros [= <-]. exists []. split; [apply nth_snoc|]. intros d i [].
    + rewrite set_class_other by exact NE. intros E. destruct (V1 j t E) as (l & A & B). exists l.
      split; [apply nth_snoc_old; exact A|exact B].
  - intros j1 j2 t. destruct (kind_dec j1 k) as [->|N1]; destruct (kind_dec j2 k) as [->|N2];
      rewrite ?set_class_same, ?set_class_other by assumption; auto.
    + intros [= <-] E. apply OLD in E. contradiction.
    + intros E [= <-]. apply OLD in E. contradiction.
    + apply V2.
  - intros i x E G. destruct (V3 i x E G) as (t & l & A & B & L). exists t, l.
    rewrite set_class_other by congruence. split; [exact A|]. split; [apply nth_snoc_old; exact B|exact L].
  - exact V4.
Qed.

(* What the code does with the name of the protocol *)
Lemma protocol_asked cfg dev rpc : dev <> [] -> ipc_protocol cfg dev rpc = asked_protocol cfg dev rpc.
Proof.
  intros ND. unfold ipc_protocol, asked_protocol, ipc_dev. destruct dev; [congruence|].
  destruct rpc as [n|]; [destruct (by_name cfg n)|]; reflexivity.
Qed.

(* An instance to share, or nothing there *)
Lemma new_inv cfg s k dev rpc opens :
  inv s -> careful cfg s (MNew k dev rpc opens) = true ->
  exists s1, step cfg s (MNew k dev rpc opens) = Ok s1 /\ inv s1 /\
    if opens then exists i x, returned s1 = Some i /\ nth_error (insts s1) i = Some x /\
                    is_for x k dev (asked_protocol cfg dev rpc) /\ i_held x > 0
    else returned s1 = None.
Proof.
  intros V K. cbn [step careful] in *. apply andb_prop in K. destruct K as [K KP].
  apply andb_prop in K. destruct K as [KD KF]. change (fresh_ok s k = true) in KF.
  assert (ND : dev <> []) by (destruct dev; discriminate). clear KD.
  rewrite <- (protocol_asked cfg dev rpc ND) in *.
  destruct (inv_class_ref s k V KF) as [V1 [c C]]. destruct (class_ref_tables s k) as [TT II].
  unfold new_with_type. cbn zeta. destruct opens; cbn [negb].
  2:{ eexists. split; [reflexivity|]. split; [apply inv_return; exact V1|reflexivity]. }
  rewrite C. set (s1 := class_ref s k) in *. destruct c as [[t|]].
  - destruct (v_class _ V1 k t C) as (l & T & B). rewrite T. destruct (lookup l dev) as [i|] eqn:L.
    + destruct (B dev i (lookup_in _ _ _ L)) as (x & X1 & X2 & X3 & X4). rewrite X1.
      assert (F : i_freed x = false) by (unfold gone in X4; apply orb_false_iff in X4; tauto). rewrite F.
      pose proof (v_ok _ V1 i x X1) as O. unfold inst_ok in O. rewrite F in O. destruct O as [OD O].
      assert (P : i_proto x = ipc_protocol cfg dev rpc).
      { rewrite forallb_forall in KP. assert (I : In x (insts s)) by (rewrite <- II; eapply nth_error_In; exact X1).
        specialize (KP x I). rewrite X4, X2, X3, kind_eqb_refl, name_eqb_refl in KP. cbn in KP.
        apply Z.eqb_eq. exact KP. }
      assert (NR : i_phase x <> Removed) by (unfold gone in X4; destruct (i_phase x); try congruence; rewrite orb_true_r in X4; discriminate).
      eexists. split; [reflexivity|]. split.
      * apply inv_return. apply (inv_change _ _ x); auto.
        split; [exact OD|]. cbn. rewrite F. destruct (i_phase x); try (split; lia). contradiction.
      * exists i, (add_ref x 1). cbn. rewrite (nth_replace_eq _ _ _ _ X1).
        unfold is_for. cbn. destruct (i_phase x); try contradiction; repeat split; auto; lia.
    + destruct (create_inv cfg s1 k dev rpc t l V1 ND C T L) as (s2 & x & E & V2 & R & N & P & H).
      exists s2. split; [exact E|]. split; [exact V2|]. exists (length (insts s1)), x. rewrite H. auto with zarith.
  - pose proof (inv_table s1 k V1 C) as V2.
    assert (T : nth_error (tables (set_class (set_tables s1 (tables s1 ++ [Some []])) k (Class (Some (length (tables s1)))))) (length (tables s1)) = Some (Some [])) by apply nth_snoc.
    destruct (create_inv cfg _ k dev rpc _ [] V2 ND (set_class_same _ _ _) T eq_refl) as (s2 & x & E & V3 & R & N & P & H).
    exists s2. split; [exact E|]. split; [exact V3|].
    cbn [set_class set_tables insts] in R, N. exists (length (insts s1)), x. rewrite H. auto with zarith.
Qed.

Lemma dispose_inv s i s1 : inv s -> dispose s i = Ok s1 -> inv s1.
Proof.
  intros V. pose proof V as [V1 V2 V3 V4]. unfold dispose, with_inst.
  destruct (nth_error (insts s) i) as [x|] eqn:N; [|discriminate].
  destruct (i_phase x) eqn:P; try discriminate.
  pose proof (V4 i x N) as O. unfold inst_ok in O. destruct O as [OD O].
  destruct (i_freed x) eqn:F; [destruct O; congruence|]. rewrite P in O.
  assert (G : gone x = false) by (unfold gone; rewrite F, P; reflexivity).
  destruct (V3 i x N G) as (t & l & C & T & L). rewrite C, T.
  destruct (Z.leb_spec (i_refs x) 1) as [R|R].
  2:{ intros [= <-]. apply (inv_change _ _ x); auto.
      - unfold gone. cbn. rewrite F, P. reflexivity.
      - split; [exact OD|]. cbn. rewrite F. lia. }
  set (y := with_phase x Removed).
  assert (OY : inst_ok y) by (split; [exact OD|]; cbn; rewrite F; lia).
  assert (GY : gone y = true) by (unfold gone; cbn; apply orb_true_r).
  assert (REST : forall j z, j <> i -> nth_error (insts s) j = Some z -> gone z = false ->
                   i_kind z = i_kind x -> i_dev z <> i_dev x).
  { intros j z NE Z1 Z2 Z3 Z4. destruct (V3 j z Z1 Z2) as (u & m & A & B & D).
    rewrite Z3, C in A. injection A as <-. rewrite T in B. injection B as <-. rewrite Z4, L in D. congruence. }
  assert (SUB : forall d j, In (d, j) (remove l (i_dev x)) ->
           exists z, nth_error (replace_nth (insts s) i y) j = Some z /\ i_kind z = i_kind x /\ i_dev z = d /\ gone z = false).
  { intros d j I. apply remove_in in I. destruct I as [I D]. cbn in D.
    destruct (V1 _ _ C) as (m & M & B). rewrite T in M. injection M as <-.
    destruct (B d j I) as (z & Z1 & Z2 & Z3 & Z4).
    exists z. rewrite nth_replace_neq; [auto|]. intros ->. rewrite N in Z1. injection Z1 as ->. congruence. }
  assert (OTHER : forall k u, k <> i_kind x -> class_of s k = Some (Class (Some u)) -> u <> t).
  { intros k u NE A ->. apply NE. eapply V2; eauto. }
  assert (OK2 : forall j z, nth_error (replace_nth (insts s) i y) j = Some z -> inst_ok z).
  { intros j z E. destruct (Nat.eq_dec i j) as [<-|NE].
    - rewrite (nth_replace_eq _ _ _ _ N) in E. injection E as <-. exact OY.
    - rewrite nth_replace_neq in E by exact NE. exact (V4 j z E). }
  assert (KEEP : forall k u m, k <> i_kind x -> class_of s k = Some (Class (Some u)) ->
            nth_error (tables s) u = Some (Some m) ->
            forall d j, In (d, j) m ->
            exists z, nth_error (replace_nth (insts s) i y) j = Some z /\ i_kind z = k /\ i_dev z = d /\ gone z = false).
  { intros k u m NE A M d j I. destruct (V1 k u A) as (m2 & M2 & B). rewrite M in M2. injection M2 as <-.
    destruct (B d j I) as (z & Z1 & Z2 & Z3 & Z4). exists z. rewrite nth_replace_neq; [auto|].
    intros ->. rewrite N in Z1. injection Z1 as ->. congruence. }
  destruct (remove l (i_dev x)) as [|e r] eqn:RM; intros [= <-]; fold y.
  - split; cbn.
    + intros k u. cbn. destruct (kind_dec k (i_kind x)) as [->|NE]; [rewrite kind_eqb_refl; discriminate|].
      rewrite kind_eqb_neq by exact NE. intros A. destruct (V1 k u A) as (m & M & _). exists m.
      rewrite nth_replace_neq by (apply not_eq_sym; eapply OTHER; eauto). split; [exact M|].
      eapply KEEP; eauto.
    + intros k1 k2 u. cbn. destruct (kind_dec k1 (i_kind x)) as [->|N1]; [rewrite kind_eqb_refl; discriminate|].
      destruct (kind_dec k2 (i_kind x)) as [->|N2]; [intros _; rewrite kind_eqb_refl; discriminate|].
      rewrite !kind_eqb_neq by assumption. apply V2.
    + intros j z E GZ. cbn in E. destruct (Nat.eq_dec i j) as [<-|NE].
      { rewrite (nth_replace_eq _ _ _ _ N) in E. injection E as <-. congruence. }
      rewrite nth_replace_neq in E by exact NE.
      destruct (kind_dec (i_kind z) (i_kind x)) as [K|NK].
      { exfalso. pose proof (REST j z ltac:(congruence) E GZ K) as ND.
        destruct (V3 j z E GZ) as (u & m & A & B & D). rewrite K, C in A. injection A as <-.
        rewrite T in B. injection B as <-. rewrite <- (lookup_remove _ (i_dev x)) in D by exact ND.
        rewrite RM in D. discriminate. }
      destruct (V3 j z E GZ) as (u & m & A & B & D). exists u, m. cbn.
      rewrite kind_eqb_neq by exact NK. split; [exact A|].
      rewrite nth_replace_neq by (apply not_eq_sym; eapply OTHER; eauto). auto.
    + exact OK2.
  - split; cbn.
    + intros k u A. cbn in *. destruct (kind_dec k (i_kind x)) as [->|NE].
      * rewrite C in A. injection A as <-. rewrite (nth_replace_eq _ _ _ _ T). eexists. split; [reflexivity|].
        exact SUB.
      * destruct (V1 k u A) as (m & M & _). exists m.
        rewrite nth_replace_neq by (apply not_eq_sym; eapply OTHER; eauto). split; [exact M|].
        eapply KEEP; eauto.
    + exact V2.
    + intros j z E GZ. cbn in E. destruct (Nat.eq_dec i j) as [<-|NE].
      { rewrite (nth_replace_eq _ _ _ _ N) in E. injection E as <-. congruence. }
      rewrite nth_replace_neq in E by exact NE. destruct (V3 j z E GZ) as (u & m & A & B & D). cbn.
      destruct (kind_dec (i_kind z) (i_kind x)) as [K|NK].
      * rewrite K, C in A. injection A as <-. rewrite T in B. injection B as <-.
        exists t. rewrite (nth_replace_eq _ _ _ _ T). eexists. rewrite K. split; [exact C|]. split; [reflexivity|].
        rewrite <- RM, lookup_remove; [exact D|]. apply (REST j z); auto.
      * exists u, m. split; [exact A|].
        rewrite nth_replace_neq by (apply not_eq_sym; eapply OTHER; eauto). auto.
    + exact OK2.
Qed.

Lemma step_inv cfg s mv s1 : inv s -> careful cfg s mv = true -> step cfg s mv = Ok s1 -> inv s1.
Proof.
  intros V K E. destruct mv as [k dev rpc opens|i|i|i|i].
  - destruct (new_inv cfg s k dev rpc opens V K) as (s2 & E2 & V2 & _). congruence.
  - cbn in E. unfold ref_move, with_inst in E. destruct (nth_error (insts s) i) as [x|] eqn:N; [|discriminate].
    destruct (Z.leb_spec (i_held x) 0); [discriminate|]. injection E as <-.
    pose proof (v_ok _ V i x N) as O. apply (inv_change _ _ x); auto. destruct O as [OD O].
    split; [exact OD|]. cbn. destruct (i_freed x); [lia|]. destruct (i_phase x); lia.
  - cbn in E, K. unfold unref_begin, with_inst in E. destruct (nth_error (insts s) i) as [x|] eqn:N; [|discriminate].
    destruct (Z.leb_spec (i_held x) 0); [discriminate|].
    pose proof (v_ok _ V i x N) as O. destruct (held_kept x O ltac:(lia)) as [F G]. destruct O as [OD O].
    rewrite F in O. destruct (Z.ltb_spec 1 (i_refs x)); injection E as <-.
    + apply (inv_change _ _ x); auto. split; [exact OD|]. cbn. rewrite F.
      destruct (i_phase x); try discriminate; lia.
    + apply (inv_change _ _ x); auto.
      * unfold gone in *. cbn. rewrite F in *. cbn in *. congruence.
      * split; [exact OD|]. cbn. rewrite F. destruct (i_phase x); try lia.
  - cbn in E. eapply dispose_inv; eauto.
  - cbn in E. unfold unref_end, with_inst in E. destruct (nth_error (insts s) i) as [x|] eqn:N; [|discriminate].
    pose proof (v_ok _ V i x N) as O. destruct O as [OD O].
    destruct (i_phase x) eqn:P; try discriminate.
    + destruct (i_freed x) eqn:F; [destruct O; congruence|].
      destruct (Z.ltb_spec 1 (i_refs x)); [|lia]. injection E as <-.
      apply (inv_change _ _ x); auto.
      * unfold gone. cbn. rewrite F, P. reflexivity.
      * split; [exact OD|]. cbn. lia.
    + destruct (i_freed x) eqn:F; [destruct O; congruence|].
      destruct (Z.ltb_spec 1 (i_refs x)); [lia|]. injection E as <-.
      apply (inv_change _ _ x); auto.
      * unfold gone. cbn. rewrite F, P. reflexivity.
      * split; [exact OD|]. cbn. split; [lia|reflexivity].
Qed.
Lemma reach_inv cfg s : reach cfg s -> inv s.
Proof. induction 1; [apply inv_init|]. eapply step_inv; eauto. Qed.

Lemma careful_no_crash cfg s mv : inv s -> careful cfg s mv = true -> step cfg s mv <> Crash.
Proof.
  intros V K. destruct mv as [k dev rpc opens|i|i|i|i]; cbn [step].
  - destruct (new_inv cfg s k dev rpc opens V K) as (s2 & E2 & _). cbn [step] in E2. congruence.
  - unfold ref_move, with_inst. destruct (nth_error (insts s) i) as [x|]; [|discriminate].
    destruct (i_held x <=? 0); discriminate.
  - unfold unref_begin, with_inst. destruct (nth_error (insts s) i) as [x|]; [|discriminate].
    destruct (i_held x <=? 0); [discriminate|]. destruct (1 <? i_refs x); discriminate.
  - unfold dispose, with_inst. destruct (nth_error (insts s) i) as [x|] eqn:N; [|discriminate].
    destruct (i_phase x) eqn:P; try discriminate. pose proof (v_ok _ V i x N) as [OD O].
    destruct (i_freed x) eqn:F; [destruct O; congruence|].
    assert (G : gone x = false) by (unfold gone; rewrite F, P; reflexivity).
    destruct (v_found _ V i x N G) as (t & l & C & T & L). rewrite C, T.
    destruct (i_refs x <=? 1); [|discriminate]. destruct (remove l (i_dev x)); discriminate.
  - unfold unref_end, with_inst. destruct (nth_error (insts s) i) as [x|]; [|discriminate].
    destruct (i_phase x); try discriminate; destruct (1 <? i_refs x); discriminate.
Qed.

Lemma shared cfg s i j x y :
  reach cfg s -> has s i x -> has s j y -> i_kind x = i_kind y -> i_dev x = i_dev y -> i = j.
Proof.
  intros R [X HX] [Y HY] K D. pose proof (reach_inv _ _ R) as V.
  destruct (held_kept x (v_ok _ V i x X) HX) as [_ GX]. destruct (held_kept y (v_ok _ V j y Y) HY) as [_ GY].
  destruct (v_found _ V i x X GX) as (t & l & C & T & L). destruct (v_found _ V j y Y GY) as (u & m & A & B & M).
  rewrite <- K, C in A. injection A as <-. rewrite T in B. injection B as <-. rewrite <- D, L in M. congruence.
Qed.

(* The protocol isn't looked at *)
Lemma protocol_ignored cfg s i x rpc :
  reach cfg s -> has s i x ->
  exists s1 y, step cfg s (MNew (i_kind x) (i_dev x) rpc true) = Ok s1 /\ returned s1 = Some i /\
    nth_error (insts s1) i = Some y /\ i_proto y = i_proto x.
Proof.
  intros R [X HX]. pose proof (reach_inv _ _ R) as V.
  destruct (held_kept x (v_ok _ V i x X) HX) as [F GX].
  destruct (v_found _ V i x X GX) as (t & l & C & T & L). cbn [step]. unfold new_with_type, class_ref.
  rewrite C. cbn zeta. cbn [negb]. rewrite C, T, L, X, F. eexists. exists (add_ref x 1).
  split; [reflexivity|]. split; [reflexivity|]. split; [|reflexivity]. apply (nth_replace_eq _ _ _ _ X).
Qed.

(* After the last release there's nothing left, and a new manager is made *)
Lemma last_release cfg s i x :
  reach cfg s -> has s i x -> i_refs x = 1 -> 
  exists s1, run cfg s (release i) = Ok s1 /\ reach cfg s1 /\
    exists y, nth_error (insts s1) i = Some y /\ i_freed y = true.
Proof.
  intros R [X HX] RF. pose proof (reach_inv _ _ R) as V.
  pose proof (v_ok _ V i x X) as O. destruct (held_kept x O HX) as [F GX]. destruct O as [OD O]. rewrite F in O.
  assert (P : i_phase x = Idle) by (destruct (i_phase x); try reflexivity; lia).
  destruct (v_found _ V i x X GX) as (t & l & C & T & L).
  unfold release. cbn [run].
  assert (E1 : exists s1, step cfg s (MUnref i) = Ok s1 /\ class_of s1 = class_of s /\ tables s1 = tables s /\
            nth_error (insts s1) i = Some (Inst (i_kind x) (i_dev x) (i_proto x) 1 Begun false (i_held x - 1))).
  { cbn [step]. unfold unref_begin, with_inst. rewrite X, RF, F. destruct (Z.leb_spec (i_held x) 0); [lia|].
    cbn. eexists. split; [reflexivity|]. cbn. split; [reflexivity|]. split; [reflexivity|].
    apply (nth_replace_eq _ _ _ _ X). }
  destruct E1 as (s1 & E1 & C1 & T1 & N1). rewrite E1. cbn [bind].
  assert (R1 : reach cfg s1) by (econstructor; [exact R| |exact E1]; cbn; rewrite X, P; reflexivity).
  assert (E2 : exists s2, step cfg s1 (MDispose i) = Ok s2 /\
            nth_error (insts s2) i = Some (Inst (i_kind x) (i_dev x) (i_proto x) 1 Removed false (i_held x - 1))).
  { cbn [step]. unfold dispose, with_inst. rewrite N1. cbn [i_phase i_kind i_refs i_dev]. rewrite C1, C, T1, T.
    cbn. destruct (remove l (i_dev x)); eexists; (split; [reflexivity|]); cbn; rewrite (nth_replace_eq _ _ _ _ N1); reflexivity. }
  destruct E2 as (s2 & E2 & N2). rewrite E2. cbn [bind].
  assert (R2 : reach cfg s2) by (econstructor; [exact R1| |exact E2]; reflexivity).
  assert (E3 : exists s3, step cfg s2 (MUnrefEnd i) = Ok s3 /\ exists y, nth_error (insts s3) i = Some y /\ i_freed y = true).
  { cbn [step]. unfold unref_end, with_inst. rewrite N2. cbn. eexists. split; [reflexivity|]. eexists.
    split; [apply (nth_replace_eq _ _ _ _ N2)|]. reflexivity. }
  destruct E3 as (s3 & E3 & N3). rewrite E3. cbn [bind]. exists s3. split; [reflexivity|]. split; [|exact N3].
  econstructor; [exact R2| |exact E3]. reflexivity.
Qed.

(* The table of another class *)
Ltac compute_with E1 E2 :=
  repeat (progress (lazy -[name_eqb ipc_dev ipc_protocol]; rewrite ?E1, ?E2, ?name_eqb_refl)).
Lemma other_kind cfg k dev rpc rpc2 :
  dev <> [] -> derived k = true ->
  exists s y, run cfg init [MNew Aidl dev rpc true; MNew k dev rpc2 true] = Ok s /\ returned s = Some 0%nat /\
    nth_error (insts s) 0 = Some y /\ i_kind y = Aidl.
Proof.
  intros D P. pose proof (name_eqb_refl dev) as E1.
  destruct k; cbn in P; try congruence;
    (eexists; eexists; split; [compute_with E1 E1; reflexivity|]; split; [reflexivity|]; split; reflexivity).
Qed.
Lemma freed_table cfg k a b c :
  a <> [] -> b <> [] -> a <> b -> derived k = true ->
  run cfg init ([MNew Aidl a None true; MNew k b None true] ++ release 0 ++ release 1 ++ [MNew Aidl c None true]) = Crash.
Proof.
  intros A B N P.
  assert (E1 : name_eqb a b = false) by (apply name_eqb_neq; exact N).
  assert (E2 : name_eqb b a = false) by (apply name_eqb_neq; congruence).
  assert (DA : ipc_dev a = a) by (destruct a; [congruence|reflexivity]).
  assert (DB : ipc_dev b = b) by (destruct b; [congruence|reflexivity]).
  destruct k; cbn in P; try congruence;
    (repeat (progress (lazy -[name_eqb ipc_dev ipc_protocol]; rewrite ?DA, ?DB, ?E1, ?E2, ?name_eqb_refl)); reflexivity).
Qed.
Lemma empty_device cfg : run cfg init ([MNew Aidl [] None true] ++ release 0 ++ [MNew Aidl [] None true]) = Crash.
Proof. lazy -[ipc_protocol]. reflexivity. Qed.
Lemma empty_device_two cfg :
  exists s x y, run cfg init [MNew Aidl [] None true; MNew Aidl DEFAULT_BINDER None true] = Ok s /\
    has s 0 x /\ has s 1 y /\ i_kind x = i_kind y /\ i_dev x = i_dev y.
Proof.
  eexists. eexists. eexists. split; [lazy -[ipc_protocol]; reflexivity|].
  split; [split; [reflexivity|reflexivity]|]. split; [split; [reflexivity|reflexivity]|]. split; reflexivity.
Qed.
Lemma two_threads_crash cfg k dev :
  dev <> [] ->
  run cfg init [MNew k dev None true; MUnref 0; MNew k dev None true; MDispose 0; MUnref 0; MUnrefEnd 0; MNew k dev None true] = Crash.
Proof.
  intros D.
  assert (DA : ipc_dev dev = dev) by (destruct dev; [congruence|reflexivity]).
  destruct k;
    (repeat (progress (lazy -[name_eqb ipc_dev ipc_protocol]; rewrite ?DA, ?name_eqb_refl)); reflexivity).
Qed.
