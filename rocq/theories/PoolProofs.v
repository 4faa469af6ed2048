(* Proofs about the pool of loopers. *)
From Verif Require Import Base.
From Verif Require Import PoolModel PoolSpec.
Definition b2z (b : bool) : Z := if b then 1 else 0.
Local Arguments Z.add : simpl never.
Local Arguments Z.sub : simpl never.

(* If [e], the driver never refuses BC_ENTER_LOOPER *)
Section Entered.
Context (e : bool).
Inductive place := InP | InB | InS | Nowhere.
Definition listed (p : place) : bool := match p with Nowhere => false | _ => true end.
Definition place_ok (p : place) (x : looper) : Prop :=
  match p with
  | InP => has_ipc x = true /\ ph x <> Waiting true /\ (e = true -> ph x <> Last /\ ph x <> Gone)
  | InB => has_ipc x = true /\ (ph x = Waiting true \/ exit_ x = true)
  | InS => has_ipc x = true /\ exit_ x = true /\ ph x <> Waiting true
  | Nowhere => ph x = Last \/ ph x = Gone \/ (has_ipc x = false /\ exit_ x = true /\ (ph x = Running \/ ph x = Leaving))
  end.
Record good (p : place) (x : looper) : Prop := Good {
  g_refs : refs x = b2z (listed p) + b2z (negb (is_gone (ph x))) + waits x;
  g_waits : 0 <= waits x;
  g_freed : freed x = (refs x =? 0);
  g_place : place_ok p x
}.
Definition of_stop (st : stopper) : option nat := match st with NoStop => None | Stopping w _ _ => w end.
Record inv (pl : nat -> place) (P B S : list nat) (s : state) : Prop := Inv {
  i_P : primaries s P; i_B : blockeds s B; i_S : stopping s S;
  i_nP : NoDup P; i_nB : NoDup B; i_nS : NoDup S;
  i_inP : forall i, In i P <-> (i < cnt s)%nat /\ pl i = InP;
  i_inB : forall i, In i B <-> (i < cnt s)%nat /\ pl i = InB;
  i_inS : forall i, In i S <-> (i < cnt s)%nat /\ pl i = InS;
  i_good : forall i, (i < cnt s)%nat -> good (pl i) (lp s i);
  i_none : forall i, (cnt s <= i)%nat -> lp s i = nobody;
  i_stopper : forall w, of_stop (stop s) = Some w -> (w < cnt s)%nat /\ ph (lp s w) = Running;
  i_five : (length P <= 5)%nat
}.
Definition Inv_ (s : state) : Prop := exists pl P B S, inv pl P B S s.

(* Lists *)
Lemma upd_same f i x : upd f i x i = x.
Proof. unfold upd. now rewrite Nat.eqb_refl. Qed.
Lemma upd_other f i x j : j <> i -> upd f i x j = f j.
Proof. intros H. unfold upd. apply Nat.eqb_neq in H. now rewrite H. Qed.
Lemma links_ext f g h l : (forall i, In i l -> next (g i) = next (f i)) -> links f h l -> links g h l.
Proof.
  revert h. induction l as [|i l IH]; intros h E; cbn; [auto|]. intros [-> H]. split; [reflexivity|].
  rewrite E by (cbn; auto). apply IH; [|exact H]. intros. apply E. cbn. auto.
Qed.
Lemma links_fun f h l m : links f h l -> links f h m -> l = m.
Proof.
  revert h m. induction l as [|i l IH]; destruct m as [|j m]; cbn; try congruence.
  - intros -> [? _]; discriminate.
  - intros [-> _]; discriminate.
  - intros [-> A] [[= <-] C]. f_equal. eapply IH; eauto.
Qed.
Lemma walk_links f h l n :
  links f h l -> (forall i, In i l -> freed (f i) = false) -> (length l <= n)%nat -> walk n f h = Some l.
Proof.
  revert h n. induction l as [|i l IH]; cbn [links length]; intros h n.
  - intros ->. destruct n; reflexivity.
  - intros [-> A] C D. destruct n as [|n]; [lia|]. cbn. rewrite C by (cbn; auto).
    rewrite (IH _ n); [reflexivity|exact A| |lia]. intros. apply C. cbn; auto.
Qed.
Lemma len_bound n l : NoDup l -> (forall i, In i l -> (i < n)%nat) -> (length l <= n)%nat.
Proof.
  intros N A. rewrite <- (seq_length n 0). apply NoDup_incl_length; [exact N|].
  intros i H. apply in_seq. specialize (A i H). lia.
Qed.
Definition rm (i : nat) (l : list nat) : list nat := filter (fun j => negb (Nat.eqb j i)) l.
Lemma in_rm i j l : In j (rm i l) <-> In j l /\ j <> i.
Proof. unfold rm. rewrite filter_In, negb_true_iff, Nat.eqb_neq. tauto. Qed.
Lemma rm_notin i l : ~ In i l -> rm i l = l.
Proof.
  intros H. induction l as [|a l IH]; cbn; [reflexivity|]. cbn in H.
  destruct (Nat.eqb_spec a i); [subst; tauto|]. cbn. f_equal. apply IH. tauto.
Qed.
Lemma rm_nodup i l : NoDup l -> NoDup (rm i l).
Proof. apply NoDup_filter. Qed.
Lemma rm_length i l : (length (rm i l) <= length l)%nat.
Proof. unfold rm. induction l as [|a l IH]; cbn; [lia|]. destruct (negb _); cbn; lia. Qed.

Definition core (x : looper) : looper := set_next x None.
Definition no_next (f g : nat -> looper) : Prop := forall j, core (g j) = core (f j).

Lemma before_spec f h l i :
  links f h l -> NoDup l -> In i l -> h <> Some i ->
  exists p, before l i = Some p /\ In p l /\ p <> i /\
    forall g, (forall j, j <> p -> j <> i -> next (g j) = next (f j)) -> next (g p) = next (f i) -> links g h (rm i l).
Proof.
  revert h. induction l as [|a l IH]; intros h A N I H; [contradiction|].
  cbn [links] in A. destruct A as [-> A]. inversion N as [|? ? Na Nl]; subst.
  assert (a <> i) as Hai by congruence. destruct I as [I|I]; [congruence|].
  destruct l as [|b l]; [contradiction|]. cbn [before].
  destruct (Nat.eqb_spec b i) as [->|Hb].
  - exists a. split; [reflexivity|]. split; [cbn; auto|]. split; [exact Hai|].
    intros g G1 G2. unfold rm. cbn [filter]. rewrite (proj2 (Nat.eqb_neq a i) Hai), Nat.eqb_refl. cbn [negb links].
    split; [reflexivity|]. fold (rm i l). inversion Nl; subst. rewrite rm_notin by assumption.
    rewrite G2. destruct A as [A1 A2]. eapply links_ext; [|exact A2].
    intros j J. apply G1; intros ->; [apply Na; cbn; auto|contradiction].
  - destruct (IH (next (f a)) A Nl I) as (p & E1 & E2 & E3 & E4).
    { destruct A as [-> _]. congruence. }
    exists p. split; [exact E1|]. split; [right; exact E2|]. split; [exact E3|].
    intros g G1 G2. unfold rm. cbn [filter]. rewrite (proj2 (Nat.eqb_neq a i) Hai). cbn [negb links].
    split; [reflexivity|]. fold (rm i (b :: l)).
    rewrite G1; [apply E4; auto| |exact Hai]. intros ->. contradiction.
Qed.
Lemma before_none l i : ~ In i l -> before l i = None.
Proof.
  induction l as [|a l IH]; [reflexivity|]. intros H. cbn [before]. destruct l as [|b l]; [reflexivity|].
  destruct (Nat.eqb_spec b i); [subst; exfalso; apply H; cbn; auto|]. apply IH. intros I. apply H. cbn in *; tauto.
Qed.

Lemma remove_in s i h l :
  links (lp s) h l -> list_of s h = Some l -> NoDup l -> In i l ->
  exists s1 h1, remove_from s i h = Some (Some (s1, h1)) /\
    cnt s1 = cnt s /\ primary s1 = primary s /\ blocked s1 = blocked s /\ stop s1 = stop s /\
    no_next (lp s) (lp s1) /\ (forall j, ~ In j l -> lp s1 j = lp s j) /\ links (lp s1) h1 (rm i l).
Proof.
  intros L W N I. unfold remove_from. rewrite W.
  destruct l as [|a l]; [contradiction|]. pose proof L as [Hh L2]. inversion N as [|? ? Na Nl]; subst.
  destruct (Nat.eqb_spec a i) as [->|Ha].
  - do 2 eexists. split; [reflexivity|]. split; [reflexivity|]. split; [reflexivity|]. split; [reflexivity|]. split; [reflexivity|].
    cbn [change set_lp lp]. split.
    { intros j. destruct (Nat.eq_dec j i) as [->|]; [now rewrite upd_same|now rewrite upd_other]. }
    split. { intros j J. rewrite upd_other; [reflexivity|]. intros ->. apply J. cbn; auto. }
    unfold rm. cbn [filter]. rewrite Nat.eqb_refl. cbn [negb]. fold (rm i l). rewrite rm_notin by assumption.
    eapply links_ext; [|exact L2]. intros j J. rewrite upd_other; [reflexivity|]. intros ->. contradiction.
  - destruct (before_spec (lp s) (Some a) (a :: l) i L N I) as (p & E1 & E2 & E3 & E4). { congruence. }
    rewrite E1. do 2 eexists. split; [reflexivity|]. split; [reflexivity|]. split; [reflexivity|]. split; [reflexivity|]. split; [reflexivity|].
    cbn [change set_lp lp]. split.
    { intros j. destruct (Nat.eq_dec j i) as [->|Hji].
      - rewrite upd_same, upd_other by congruence. reflexivity.
      - rewrite upd_other by congruence. destruct (Nat.eq_dec j p) as [->|]; [now rewrite upd_same|now rewrite upd_other]. }
    split.
    { intros j J. rewrite upd_other by (intros ->; contradiction). rewrite upd_other by (intros ->; contradiction). reflexivity. }
    apply E4.
    + intros j J1 J2. now rewrite !upd_other by congruence.
    + rewrite upd_other by congruence. now rewrite upd_same.
Qed.
Lemma remove_out s i h l :
  links (lp s) h l -> list_of s h = Some l -> ~ In i l -> remove_from s i h = Some None.
Proof.
  intros L W I. unfold remove_from. rewrite W.
  destruct l as [|a l].
  - cbn in L. subst h. reflexivity.
  - destruct L as [-> _]. destruct (Nat.eqb_spec a i); [subst; exfalso; apply I; cbn; auto|].
    now rewrite before_none.
Qed.

(* The invariant *)
Section K.
Context (pl : nat -> place) (P B S : list nat) (s : state) (V : inv pl P B S s).
Lemma alive_listed i : (i < cnt s)%nat -> listed (pl i) = true -> freed (lp s i) = false.
Proof.
  intros A L. destruct (i_good _ _ _ _ _ V i A) as [R W F _]. rewrite F, R, L. apply Z.eqb_neq.
  unfold b2z. destruct (negb _); lia.
Qed.
Lemma inP i : In i P -> (i < cnt s)%nat /\ pl i = InP. Proof. apply (i_inP _ _ _ _ _ V). Qed.
Lemma inB i : In i B -> (i < cnt s)%nat /\ pl i = InB. Proof. apply (i_inB _ _ _ _ _ V). Qed.
Lemma inS i : In i S -> (i < cnt s)%nat /\ pl i = InS. Proof. apply (i_inS _ _ _ _ _ V). Qed.
Lemma list_P : list_of s (primary s) = Some P.
Proof.
  apply walk_links; [apply (i_P _ _ _ _ _ V)| |].
  - intros i I. apply inP in I. apply alive_listed; [tauto|]. now rewrite (proj2 I).
  - apply len_bound; [apply (i_nP _ _ _ _ _ V)|]. intros i I. now apply inP in I.
Qed.
Lemma list_B : list_of s (blocked s) = Some B.
Proof.
  apply walk_links; [apply (i_B _ _ _ _ _ V)| |].
  - intros i I. apply inB in I. apply alive_listed; [tauto|]. now rewrite (proj2 I).
  - apply len_bound; [apply (i_nB _ _ _ _ _ V)|]. intros i I. now apply inB in I.
Qed.
End K.

Lemma stopping_ext s s' l :
  stop s' = stop s -> (forall i, In i l -> next (lp s' i) = next (lp s i)) -> stopping s l -> stopping s' l.
Proof.
  intros E N. unfold stopping. rewrite E. destruct (stop s) as [|w t [j|]]; [auto| |].
  - intros (r & -> & L). exists r. split; [reflexivity|]. eapply links_ext; [|exact L]. intros. apply N. cbn; auto.
  - intros L. eapply links_ext; [|exact L]. exact N.
Qed.
Lemma inv_change pl P B S s s' i :
  inv pl P B S s -> (i < cnt s)%nat -> cnt s' = cnt s -> primary s' = primary s -> blocked s' = blocked s -> stop s' = stop s ->
  (forall j, j <> i -> lp s' j = lp s j) -> next (lp s' i) = next (lp s i) -> good (pl i) (lp s' i) ->
  (of_stop (stop s) = Some i -> ph (lp s' i) = Running) -> inv pl P B S s'.
Proof.
  intros [A1 A2 A3 A4 A5 A6 A7 A8 A9 A10 A11 A12 A13] Hi E1 E2 E3 E4 F N G W.
  assert (forall j, next (lp s' j) = next (lp s j)) as Nx.
  { intros j. destruct (Nat.eq_dec j i) as [->|D]; [exact N|now rewrite F]. }
  constructor; auto; rewrite ?E1; auto.
  - unfold primaries. rewrite E2. eapply links_ext; [|exact A1]. auto.
  - unfold blockeds. rewrite E3. eapply links_ext; [|exact A2]. auto.
  - eapply stopping_ext; [exact E4| |exact A3]. auto.
  - intros j J. destruct (Nat.eq_dec j i) as [->|D]; [exact G|rewrite F by exact D; auto].
  - intros j J. rewrite F by lia. auto.
  - rewrite E4. intros w Hw. destruct (A12 w Hw). split; [assumption|].
    destruct (Nat.eq_dec w i) as [->|D]; [auto|rewrite F by exact D; auto].
Qed.
Lemma change_same s i g : lp (change s i g) i = g (lp s i).
Proof. apply upd_same. Qed.
Lemma change_other s i g j : j <> i -> lp (change s i g) j = lp s j.
Proof. apply upd_other. Qed.

Lemma unref_spec s i :
  freed (lp s i) = false ->
  exists s', unref s i = Ok s' /\ cnt s' = cnt s /\ primary s' = primary s /\ blocked s' = blocked s /\ stop s' = stop s /\
    (forall j, j <> i -> lp s' j = lp s j) /\
    lp s' i = Looper (refs (lp s i) - 1) (exit_ (lp s i)) (ph (lp s i)) (next (lp s i)) (has_ipc (lp s i)) (refs (lp s i) - 1 =? 0) (waits (lp s i)).
Proof.
  intros F. unfold unref. rewrite F. eexists. split; [reflexivity|]. cbn [cnt primary blocked stop set_lp lp].
  do 4 (split; [reflexivity|]). split. { intros. now apply upd_other. }
  rewrite upd_same. destruct (_ =? 0); unfold free, set_refs; cbn; now rewrite ?F.
Qed.

Definition outcome (o : out) : Prop := o = Misuse \/ exists s', o = Ok s' /\ Inv_ s'.

Lemma in_phase_cases s i f k :
  in_phase s i f k = Misuse \/
  ((i < cnt s)%nat /\ f (ph (lp s i)) = true /\ is_stopper s i = false /\ in_phase s i f k = if freed (lp s i) then Crash else k).
Proof.
  unfold in_phase. destruct (Nat.ltb_spec i (cnt s)); cbn; [|auto].
  destruct (f _); cbn; [|auto]. destruct (is_stopper s i); cbn; auto.
Qed.
Lemma not_stopper s i : is_stopper s i = false -> of_stop (stop s) <> Some i.
Proof.
  unfold is_stopper, of_stop. destruct (stop s) as [|[w|] t j]; try congruence.
  intros H [= ->]. rewrite Nat.eqb_refl in H. discriminate.
Qed.

(* What only changes the looper itself *)
Lemma ok_change pl P B S s i g :
  inv pl P B S s -> (i < cnt s)%nat -> is_stopper s i = false -> next (g (lp s i)) = next (lp s i) ->
  good (pl i) (g (lp s i)) -> Inv_ (change s i g).
Proof.
  intros V A NS N G. exists pl, P, B, S. eapply inv_change; try exact V; try reflexivity; auto.
  - exact A.
  - intros. now apply change_other.
  - now rewrite change_same.
  - now rewrite change_same.
  - intros E. exfalso. eapply not_stopper; eauto.
Qed.
Lemma good_not_freed p x : good p x -> ph x <> Gone -> freed x = false.
Proof.
  intros [R W F _] D. rewrite F, R. apply Z.eqb_neq. unfold b2z. destruct (ph x); try congruence; destruct (listed p); cbn; lia.
Qed.

Ltac ph_case V i H :=
  let G := fresh "G" in
  pose proof (i_good _ _ _ _ _ V i ltac:(assumption)) as G;
  destruct (ph _) eqn:E in H; try discriminate H; clear H;
  assert (freed (lp _ i) = false) by (eapply good_not_freed; [exact G|congruence]).

Lemma set_ph_good p x q :
  good p x -> is_gone (ph x) = is_gone q -> place_ok p (set_ph x q) -> good p (set_ph x q).
Proof. intros [R W F C] E K. constructor; cbn; auto. rewrite <- E. exact R. Qed.

Lemma ok_enter s i ok : Inv_ s -> (ok = false -> e = false) -> outcome (enter s i ok).
Proof.
  intros (pl & P & B & S & V) He. unfold enter.
  destruct (in_phase_cases s i is_starting (Ok (change s i (fun x => set_ph x (if ok then Running else Last))))) as [E|(A & F & NS & ->)]; [left; exact E|].
  pose proof (i_good _ _ _ _ _ V i A) as G.
  assert (ph (lp s i) = Starting) as Hp by (destruct (ph (lp s i)); cbn in F; congruence).
  rewrite (good_not_freed _ _ G) by congruence.
  right. eexists. split; [reflexivity|]. eapply ok_change; eauto.
  apply set_ph_good; [exact G|rewrite Hp; destruct ok; reflexivity|].
  destruct G as [_ _ _ C]. destruct (pl i); cbn in *.
  - split; [tauto|]. destruct ok; (split; [discriminate|]); [split; discriminate|]. rewrite He by reflexivity. discriminate.
  - rewrite Hp in C. destruct C as [C [|]]; [discriminate|auto].
  - destruct ok; split; try tauto; split; try tauto; discriminate.
  - rewrite Hp in C. intuition discriminate.
Qed.
Ltac simple_phase :=
  match goal with
  | V : inv _ _ _ _ ?s |- outcome (in_phase ?s ?i ?f ?k) =>
    let E := fresh "E" in let A := fresh "A" in let F := fresh "F" in let NS := fresh "NS" in let G := fresh "G" in
    destruct (in_phase_cases s i f k) as [E|(A & F & NS & ->)]; [left; exact E|];
    pose proof (i_good _ _ _ _ _ V i A) as G;
    destruct (ph (lp s i)) eqn:Hp; cbn in F; try discriminate F; clear F;
    rewrite (good_not_freed _ _ G) by congruence
  end.
Lemma ok_read s i : Inv_ s -> outcome (read s i).
Proof.
  intros (pl & P & B & S & V). unfold read. simple_phase.
  destruct (exit_ (lp s i)) eqn:Ex; [left; reflexivity|].
  assert (has_ipc (lp s i) = true) as Hi.
  { pose proof (g_place _ _ G) as C. destruct (pl i); cbn in C; try tauto. rewrite Hp, Ex in C. intuition discriminate. }
  rewrite Hi. cbn [negb]. right. eexists. split; [reflexivity|]. eapply ok_change; eauto.
  apply set_ph_good; [exact G|now rewrite Hp|].
  destruct G as [_ _ _ C]. destruct (pl i); cbn in *; rewrite ?Hp, ?Ex in *; intuition congruence.
Qed.
Lemma ok_read_end s i : Inv_ s -> outcome (read_end s i).
Proof.
  intros (pl & P & B & S & V). unfold read_end. simple_phase.
  right. eexists. split; [reflexivity|]. eapply ok_change; eauto.
  apply set_ph_good; [exact G|now rewrite Hp|].
  destruct G as [_ _ _ C]. destruct (pl i); cbn in *; rewrite ?Hp in *; intuition congruence.
Qed.
Lemma has_ipc_of p x : good p x -> match ph x with Starting | Reading | Handling | Waiting _ => True | _ => False end -> has_ipc x = true.
Proof. intros [_ _ _ C] K. destruct p; cbn in C; try tauto. destruct (ph x); intuition discriminate. Qed.
Lemma ok_transact s i : Inv_ s -> outcome (transact s i).
Proof.
  intros (pl & P & B & S & V). unfold transact. simple_phase.
  rewrite (has_ipc_of _ _ G) by now rewrite Hp. cbn [negb].
  right. eexists. split; [reflexivity|]. eapply ok_change; eauto.
  apply set_ph_good; [exact G|now rewrite Hp|].
  destruct G as [_ _ _ C]. destruct (pl i); cbn in *; rewrite ?Hp in *; intuition congruence.
Qed.
Lemma ok_handled s i : Inv_ s -> outcome (handled s i).
Proof.
  intros (pl & P & B & S & V). unfold handled. simple_phase.
  right. eexists. split; [reflexivity|]. eapply ok_change; eauto.
  apply set_ph_good; [exact G|now rewrite Hp|].
  destruct G as [_ _ _ C]. destruct (pl i); cbn in *; rewrite ?Hp in *; intuition congruence.
Qed.
Lemma ok_loop_end s i : Inv_ s -> outcome (loop_end s i).
Proof.
  intros (pl & P & B & S & V). unfold loop_end. simple_phase.
  right. eexists. split; [reflexivity|]. eapply ok_change; eauto.
  apply set_ph_good; [exact G|now rewrite Hp|].
  destruct G as [_ _ _ C]. destruct (pl i); cbn in *; rewrite ?Hp in *; intuition congruence.
Qed.
Lemma good_core p x y : core y = core x -> good p x -> good p y.
Proof.
  destruct x, y. unfold core, set_next. cbn. intros [= <- <- <- <- <- <-] [R W F C]. cbn in *.
  constructor; cbn; auto.
Qed.
Lemma core_ph x y : core y = core x -> ph y = ph x.
Proof. intros E. apply (f_equal ph) in E. exact E. Qed.
Definition updp (pl : nat -> place) (i : nat) (q : place) : nat -> place := fun j => if Nat.eqb j i then q else pl j.
Lemma updp_same pl i q : updp pl i q i = q.
Proof. unfold updp. now rewrite Nat.eqb_refl. Qed.
Lemma updp_other pl i q j : j <> i -> updp pl i q j = pl j.
Proof. intros H. unfold updp. apply Nat.eqb_neq in H. now rewrite H. Qed.

Lemma inv_move pl P B S s s' i q P' B' :
  inv pl P B S s -> (i < cnt s)%nat -> of_stop (stop s) <> Some i -> pl i <> InS -> q <> InS ->
  cnt s' = cnt s -> stop s' = stop s ->
  primaries s' P' -> blockeds s' B' -> (forall j, In j S -> next (lp s' j) = next (lp s j)) ->
  NoDup P' -> NoDup B' ->
  (forall j, In j P' <-> (j = i /\ q = InP) \/ (j <> i /\ In j P)) ->
  (forall j, In j B' <-> (j = i /\ q = InB) \/ (j <> i /\ In j B)) ->
  (forall j, j <> i -> core (lp s' j) = core (lp s j)) -> good q (lp s' i) ->
  (forall j, (cnt s <= j)%nat -> lp s' j = lp s j) ->
  (length P' <= 5)%nat -> inv (updp pl i q) P' B' S s'.
Proof.
  intros [A1 A2 A3 A4 A5 A6 A7 A8 A9 A10 A11 A12 A13] Hi W NS QS Ec Es LP LB LS NP NB MP MB CO G NN Five.
  constructor; auto.
  - eapply stopping_ext; [exact Es|exact LS|exact A3].
  - intros j. rewrite MP, Ec, A7. destruct (Nat.eq_dec j i) as [->|D].
    + rewrite updp_same. intuition congruence.
    + rewrite updp_other by exact D. intuition congruence.
  - intros j. rewrite MB, Ec, A8. destruct (Nat.eq_dec j i) as [->|D].
    + rewrite updp_same. intuition congruence.
    + rewrite updp_other by exact D. intuition congruence.
  - intros j. rewrite Ec, A9. destruct (Nat.eq_dec j i) as [->|D].
    + rewrite updp_same. intuition congruence.
    + rewrite updp_other by exact D. intuition congruence.
  - intros j J. rewrite Ec in J. destruct (Nat.eq_dec j i) as [->|D].
    + rewrite updp_same. exact G.
    + rewrite updp_other by exact D. eapply good_core; [apply CO; exact D|apply A10; exact J].
  - intros j J. rewrite Ec in J. rewrite NN by exact J. auto.
  - rewrite Es, Ec. intros w Hw. destruct (A12 w Hw) as [K1 K2]. split; [exact K1|].
    rewrite (core_ph (lp s w) (lp s' w)); [exact K2|apply CO; congruence].
Qed.

Lemma inv_add pl P B S s : inv pl P B S s -> primary s = None -> Inv_ (add_looper s).
Proof.
  intros V H. assert (P = []) as ->.
  { pose proof (i_P _ _ _ _ _ V) as L. unfold primaries in L. rewrite H in L. destruct P; [reflexivity|]. cbn in L. now destruct L. }
  destruct V as [A1 A2 A3 A4 A5 A6 A7 A8 A9 A10 A11 A12 A13].
  exists (updp pl (cnt s) InP), [cnt s], B, S.
  assert (forall j, j <> cnt s -> lp (add_looper s) j = lp s j) as Lo by (intros; apply upd_other; assumption).
  assert (lp (add_looper s) (cnt s) = fresh) as Ls by apply upd_same.
  constructor; auto.
  - unfold primaries. cbn [add_looper primary links]. split; [reflexivity|]. now rewrite Ls.
  - unfold blockeds in *. cbn [add_looper blocked]. eapply links_ext; [|exact A2]. intros j J. rewrite Lo; [reflexivity|].
    apply A8 in J. lia.
  - eapply stopping_ext; [|intros j J; rewrite Lo; [reflexivity|apply A9 in J; lia]|exact A3]. reflexivity.
  - constructor; [intros []|constructor].
  - intros j. cbn [add_looper cnt In]. specialize (A7 j). cbn in A7. destruct (Nat.eq_dec j (cnt s)) as [->|D].
    + rewrite updp_same. intuition lia.
    + rewrite updp_other by exact D. split; [intros [<-|[]]; congruence|]. intros [K1 K2]. exfalso. apply A7. split; [lia|exact K2].
  - intros j. rewrite A8. cbn [add_looper cnt]. destruct (Nat.eq_dec j (cnt s)) as [->|D].
    + rewrite updp_same. intuition (try lia; try discriminate).
    + rewrite updp_other by exact D. intuition lia.
  - intros j. rewrite A9. cbn [add_looper cnt]. destruct (Nat.eq_dec j (cnt s)) as [->|D].
    + rewrite updp_same. intuition (try lia; try discriminate).
    + rewrite updp_other by exact D. intuition lia.
  - intros j J. cbn [add_looper cnt] in J. destruct (Nat.eq_dec j (cnt s)) as [->|D].
    + rewrite updp_same, Ls. constructor; cbn; try reflexivity; try lia. split; [reflexivity|]. split; [discriminate|]. split; discriminate.
    + rewrite updp_other, Lo by exact D. apply A10. lia.
  - intros j J. cbn [add_looper cnt] in J. rewrite Lo by lia. apply A11. lia.
  - intros w Hw. destruct (A12 w Hw) as [K1 K2]. cbn [add_looper cnt]. split; [lia|]. rewrite Lo by lia. exact K2.
Qed.
Lemma ok_check s ok : Inv_ s -> outcome (check s ok).
Proof.
  intros Vs. pose proof Vs as (pl & P & B & S & V). unfold check. destruct (primary s) eqn:E.
  - right. eauto.
  - destruct ok; right; eexists; (split; [reflexivity|]); [eapply inv_add; eauto|exact Vs].
Qed.

Lemma ok_started s i : Inv_ s -> outcome (started s i).
Proof.
  intros (pl & P & B & S & V). unfold started. destruct (Z.leb_spec (waits (lp s i)) 0) as [|Hw]; [left; reflexivity|].
  assert (i < cnt s)%nat as A.
  { destruct (Nat.lt_ge_cases i (cnt s)) as [|K]; [assumption|]. rewrite (i_none _ _ _ _ _ V i K) in Hw. cbn in Hw. lia. }
  pose proof (i_good _ _ _ _ _ V i A) as G. pose proof G as [R W F C].
  assert (0 < refs (lp s i)) as Hr. { rewrite R. unfold b2z. destruct (listed _), (negb _); lia. }
  destruct (unref_spec (change s i (fun x => set_waits x (waits x - 1))) i) as (s' & E & E1 & E2 & E3 & E4 & E5 & E6).
  { rewrite change_same. cbn. rewrite F. apply Z.eqb_neq. lia. }
  right. exists s'. split; [exact E|]. exists pl, P, B, S.
  rewrite change_same in E6. cbn in E6.
  eapply inv_change with (s := s) (i := i); try eassumption.
  - intros j J. rewrite E5 by exact J. now apply change_other.
  - rewrite E6. reflexivity.
  - rewrite E6. constructor; cbn.
    + rewrite R. lia.
    + lia.
    + reflexivity.
    + destruct (pl i); cbn in *; auto.
  - rewrite E6. cbn. intros Hs. now apply (i_stopper _ _ _ _ _ V).
Qed.
Lemma ok_thread_end s i : Inv_ s -> outcome (thread_end s i).
Proof.
  intros (pl & P & B & S & V). unfold thread_end. simple_phase. pose proof G as [R W F C].
  destruct (unref_spec (change s i (fun x => set_ph x Gone)) i) as (s' & E & E1 & E2 & E3 & E4 & E5 & E6).
  { rewrite change_same. cbn. apply (good_not_freed _ _ G). congruence. }
  right. exists s'. split; [exact E|]. exists pl, P, B, S.
  rewrite change_same in E6. cbn in E6.
  eapply inv_change with (s := s) (i := i); try eassumption.
  - intros j J. rewrite E5 by exact J. now apply change_other.
  - rewrite E6. reflexivity.
  - rewrite E6. constructor; cbn.
    + rewrite R, Hp. cbn. lia.
    + lia.
    + reflexivity.
    + destruct (pl i); cbn in *; rewrite ?Hp in *; intuition congruence.
  - intros K. exfalso. eapply not_stopper; eauto.
Qed.

(* Where a looper which is not being stopped is *)
Lemma inP_iff pl P B S s i : inv pl P B S s -> (i < cnt s)%nat -> (In i P <-> pl i = InP).
Proof. intros V A. rewrite (i_inP _ _ _ _ _ V i). tauto. Qed.
Lemma inB_iff pl P B S s i : inv pl P B S s -> (i < cnt s)%nat -> (In i B <-> pl i = InB).
Proof. intros V A. rewrite (i_inB _ _ _ _ _ V i). tauto. Qed.
Lemma place_dec (a b : place) : {a = b} + {a <> b}.
Proof. decide equality. Qed.

Lemma block_ok s i ok pl P B S :
  inv pl P B S s -> outcome (block s i ok) /\
  forall s', block s i ok = Ok s' -> ph (lp s' i) = Waiting true ->
    In i P /\ blocked s' = Some i /\
    match rm i P with
    | [] => if ok then primary s' = Some (cnt s) /\ lp s' (cnt s) = fresh else primary s' = None
    | _ => primaries s' (rm i P) /\ cnt s' = cnt s /\ forall j, j <> i -> ph (lp s' j) = ph (lp s j)
    end.
Proof.
  intros V. unfold block.
  match goal with |- context [in_phase ?s ?i ?f ?k] => destruct (in_phase_cases s i f k) as [E|(A & F & NS & ->)] end.
  { rewrite E. split; [left; reflexivity|discriminate]. }
  pose proof (i_good _ _ _ _ _ V i A) as G.
  destruct (ph (lp s i)) eqn:Hp; cbn in F; try discriminate F; clear F.
  rewrite (good_not_freed _ _ G) by congruence.
  rewrite (has_ipc_of _ _ G) by now rewrite Hp. cbn [negb].
  destruct (place_dec (pl i) InP) as [D|D].
  - destruct (remove_in s i (primary s) P (i_P _ _ _ _ _ V) (list_P _ _ _ _ _ V) (i_nP _ _ _ _ _ V)) as (s1 & h1 & E & E1 & E2 & E3 & E4 & E5 & E6 & E7).
    { now apply (inP_iff _ _ _ _ _ _ V A). }
    rewrite E. cbv zeta.
    set (s2 := set_lists (change s1 i (fun x => set_ph (set_next x (blocked s)) (Waiting true))) h1 (Some i)).
    assert (lp s2 i = set_ph (set_next (lp s1 i) (blocked s)) (Waiting true)) as L2i by (apply change_same).
    assert (forall j, j <> i -> lp s2 j = lp s1 j) as L2o by (intros; now apply change_other).
    assert (inv (updp pl i InB) (rm i P) (i :: B) S s2) as V2.
    { eapply inv_move with (P := P) (B := B); try exact V; try assumption.
      - now apply not_stopper.
      - congruence.
      - discriminate.
      - change (links (lp s2) h1 (rm i P)). eapply links_ext; [|exact E7].
        intros j J. apply in_rm in J. rewrite L2o by tauto. reflexivity.
      - unfold blockeds. cbn [s2 set_lists blocked links]. split; [reflexivity|].
        change (links (lp s2) (next (lp s2 i)) B). rewrite L2i. cbn [set_ph set_next next].
        eapply links_ext; [|exact (i_B _ _ _ _ _ V)]. intros j J. apply (inB _ _ _ _ _ V) in J.
        rewrite L2o by (intros ->; destruct J; congruence). rewrite E6; [reflexivity|]. intros K. apply (inP _ _ _ _ _ V) in K. destruct J, K; congruence.
      - intros j J. apply (inS _ _ _ _ _ V) in J. rewrite L2o by (intros ->; destruct J; congruence).
        rewrite E6; [reflexivity|]. intros K. apply (inP _ _ _ _ _ V) in K. destruct J, K; congruence.
      - apply rm_nodup. apply (i_nP _ _ _ _ _ V).
      - constructor; [|apply (i_nB _ _ _ _ _ V)]. intros K. apply (inB _ _ _ _ _ V) in K. destruct K; congruence.
      - intros j. rewrite in_rm. intuition (try discriminate).
      - intros j. cbn. destruct (Nat.eq_dec j i) as [->|]; intuition congruence.
      - intros j J. rewrite L2o by exact J. apply E5.
      - rewrite L2i. pose proof (good_core _ _ _ (E5 i) G) as [R W Fr C].
        assert (ph (lp s1 i) = Handling) as Hp1 by (rewrite (core_ph _ _ (E5 i)); exact Hp).
        constructor; cbn; auto.
        + rewrite R, D, Hp1. reflexivity.
        + rewrite D in C. destruct C as [C _]. auto.
      - intros j J. rewrite L2o by lia. apply E6. intros K. apply (inP _ _ _ _ _ V) in K. lia.
      - pose proof (i_five _ _ _ _ _ V). pose proof (rm_length i P). lia. }
    assert (In i P) as HiP by now apply (inP_iff _ _ _ _ _ _ V A).
    assert (cnt s2 = cnt s) as Hc by exact E1.
    destruct h1 as [a|].
    + split; [right; exists s2; split; [reflexivity|]; do 4 eexists; exact V2|].
      intros s' [= <-] _. split; [exact HiP|]. split; [reflexivity|].
      pose proof (i_P _ _ _ _ _ V2) as L. unfold primaries in *. cbn [s2 set_lists primary] in *.
      destruct (rm i P) as [|b r] eqn:Er; [cbn in L; discriminate|].
      split; [exact L|]. split; [exact Hc|]. intros j J. rewrite L2o by exact J. apply core_ph, E5.
    + assert (rm i P = []) as Er.
      { pose proof (i_P _ _ _ _ _ V2) as L. unfold primaries in L. destruct (rm i P); [reflexivity|]. cbn in L. now destruct L. }
      destruct ok.
      * split; [right; eexists; split; [reflexivity|]; eapply inv_add; [exact V2|reflexivity]|].
        intros s' [= <-] _. split; [exact HiP|]. split; [reflexivity|]. rewrite Er.
        cbn [add_looper primary lp]. rewrite Hc. split; [reflexivity|]. apply upd_same.
      * split; [right; eexists; split; [reflexivity|]; do 4 eexists; exact V2|].
        intros s' [= <-] _. split; [exact HiP|]. split; [reflexivity|]. rewrite Er. reflexivity.
  - rewrite (remove_out s i (primary s) P (i_P _ _ _ _ _ V) (list_P _ _ _ _ _ V)).
    2:{ intros K. apply D. now apply (inP_iff _ _ _ _ _ _ V A). }
    split.
    + right. eexists. split; [reflexivity|]. eapply ok_change; eauto.
      apply set_ph_good; [exact G|now rewrite Hp|].
      destruct G as [_ _ _ C]. destruct (pl i); cbn in *; rewrite ?Hp in *; intuition congruence.
    + intros s' [= <-]. rewrite change_same. discriminate.
Qed.
Lemma ok_unblock s i : Inv_ s -> outcome (unblock s i).
Proof.
  intros (pl & P & B & S & V). unfold unblock. destruct (ph (lp s i)) eqn:Hp; try (left; reflexivity).
  match goal with |- context [in_phase ?s ?i ?f ?k] => destruct (in_phase_cases s i f k) as [E|(A & F & NS & ->)] end.
  { rewrite E. left; reflexivity. }
  pose proof (i_good _ _ _ _ _ V i A) as G. rewrite (good_not_freed _ _ G) by congruence.
  destruct was_blocked; cbn [negb].
  - assert (pl i = InB) as D.
    { pose proof (g_place _ _ G) as C. destruct (pl i); cbn in C; rewrite ?Hp in C; try reflexivity; intuition congruence. }
    rewrite (list_P _ _ _ _ _ V). destruct (Nat.leb_spec MAX_PRIMARY_LOOPERS (length P)) as [|Hl].
    + right. eexists. split; [reflexivity|]. eapply ok_change; eauto.
      destruct G as [R W Fr C]. constructor; cbn; auto.
      * rewrite R, Hp. reflexivity.
      * rewrite D in *. cbn in *. tauto.
    + destruct (remove_in s i (blocked s) B (i_B _ _ _ _ _ V) (list_B _ _ _ _ _ V) (i_nB _ _ _ _ _ V)) as (s1 & h1 & E & E1 & E2 & E3 & E4 & E5 & E6 & E7).
      { now apply (inB_iff _ _ _ _ _ _ V A). }
      rewrite E.
      set (s2 := set_lists (change s1 i (fun x => set_ph (set_next x (primary s)) Reading)) (Some i) h1).
      assert (lp s2 i = set_ph (set_next (lp s1 i) (primary s)) Reading) as L2i by (apply change_same).
      assert (forall j, j <> i -> lp s2 j = lp s1 j) as L2o by (intros; now apply change_other).
      right. exists s2. split; [reflexivity|]. exists (updp pl i InP), (i :: P), (rm i B), S.
      eapply inv_move with (P := P) (B := B); try exact V; try assumption.
      * now apply not_stopper.
      * congruence.
      * discriminate.
      * unfold primaries. cbn [s2 set_lists primary links]. split; [reflexivity|].
        change (links (lp s2) (next (lp s2 i)) P). rewrite L2i. cbn [set_ph set_next next].
        eapply links_ext; [|exact (i_P _ _ _ _ _ V)]. intros j J. apply (inP _ _ _ _ _ V) in J.
        rewrite L2o by (intros ->; destruct J; congruence). rewrite E6; [reflexivity|]. intros K. apply (inB _ _ _ _ _ V) in K. destruct J, K; congruence.
      * change (links (lp s2) h1 (rm i B)). eapply links_ext; [|exact E7].
        intros j J. apply in_rm in J. rewrite L2o by tauto. reflexivity.
      * intros j J. apply (inS _ _ _ _ _ V) in J. rewrite L2o by (intros ->; destruct J; congruence).
        rewrite E6; [reflexivity|]. intros K. apply (inB _ _ _ _ _ V) in K. destruct J, K; congruence.
      * constructor; [|apply (i_nP _ _ _ _ _ V)]. intros K. apply (inP _ _ _ _ _ V) in K. destruct K; congruence.
      * apply rm_nodup. apply (i_nB _ _ _ _ _ V).
      * intros j. cbn. destruct (Nat.eq_dec j i) as [->|]; intuition congruence.
      * intros j. rewrite in_rm. intuition (try discriminate).
      * intros j J. rewrite L2o by exact J. apply E5.
      * rewrite L2i. pose proof (good_core _ _ _ (E5 i) G) as [R W Fr C].
        assert (ph (lp s1 i) = Waiting true) as Hp1 by (rewrite (core_ph _ _ (E5 i)); exact Hp).
        constructor; cbn; auto.
        -- rewrite R, D, Hp1. reflexivity.
        -- rewrite D in C. destruct C as [C _]. split; [exact C|]. split; [discriminate|]. split; discriminate.
      * intros j J. rewrite L2o by lia. apply E6. intros K. apply (inB _ _ _ _ _ V) in K. lia.
  - right. eexists. split; [reflexivity|]. eapply ok_change; eauto.
    apply set_ph_good; [exact G|now rewrite Hp|].
    destruct G as [_ _ _ C]. destruct (pl i); cbn in *; rewrite ?Hp in *; intuition congruence.
Qed.
Lemma links_head_ext s s' h l : (forall j, In j l -> lp s' j = lp s j) -> links (lp s) h l -> links (lp s') h l.
Proof. intros E. apply links_ext. intros j J. now rewrite E. Qed.
Lemma ok_leave s i : Inv_ s -> outcome (leave s i).
Proof.
  intros (pl & P & B & S & V). unfold leave. simple_phase. cbv zeta.
  destruct (has_ipc (lp s i)) eqn:Hi.
  2:{ right. eexists. split; [reflexivity|]. eapply ok_change; eauto.
      apply set_ph_good; [exact G|now rewrite Hp|].
      destruct G as [_ _ _ C]. destruct (pl i); cbn in *; rewrite ?Hp in *; intuition congruence. }
  destruct (place_dec (pl i) InB) as [D|D].
  { destruct (remove_in s i (blocked s) B (i_B _ _ _ _ _ V) (list_B _ _ _ _ _ V) (i_nB _ _ _ _ _ V)) as (s1 & h1 & E & E1 & E2 & E3 & E4 & E5 & E6 & E7).
    { now apply (inB_iff _ _ _ _ _ _ V A). }
    rewrite E. pose proof (good_core _ _ _ (E5 i) G) as G1.
    assert (ph (lp s1 i) = Leaving) as Hp1 by (rewrite (core_ph _ _ (E5 i)); exact Hp).
    destruct (unref_spec (change (set_lists s1 (primary s) h1) i (fun x => set_ph x Last)) i) as (s' & U & U1 & U2 & U3 & U4 & U5 & U6).
    { rewrite change_same. cbn. apply (good_not_freed _ _ G1). congruence. }
    right. exists s'. split; [exact U|]. exists (updp pl i Nowhere), P, (rm i B), S.
    rewrite change_same in U6. cbn in U1, U2, U3, U4, U6.
    assert (forall j, j <> i -> lp s' j = lp s1 j) as Lo. { intros j J. rewrite U5 by exact J. now rewrite change_other by exact J. }
    eapply inv_move with (P := P) (B := B); try exact V; try assumption.
    - now apply not_stopper.
    - congruence.
    - discriminate.
    - congruence.
    - congruence.
    - unfold primaries. rewrite U2. eapply links_ext; [|exact (i_P _ _ _ _ _ V)]. intros j J. apply (inP _ _ _ _ _ V) in J.
      rewrite Lo by (intros ->; destruct J; congruence). rewrite E6; [reflexivity|]. intros K. apply (inB _ _ _ _ _ V) in K. destruct J, K; congruence.
    - unfold blockeds. rewrite U3. eapply links_ext; [|exact E7].
      intros j J. apply in_rm in J. rewrite Lo by tauto. reflexivity.
    - intros j J. apply (inS _ _ _ _ _ V) in J. rewrite Lo by (intros ->; destruct J; congruence).
      rewrite E6; [reflexivity|]. intros K. apply (inB _ _ _ _ _ V) in K. destruct J, K; congruence.
    - apply (i_nP _ _ _ _ _ V).
    - apply rm_nodup. apply (i_nB _ _ _ _ _ V).
    - intros j. destruct (Nat.eq_dec j i) as [->|]; [|intuition congruence].
      split; [|intros [[]|[]]; congruence]. intros K. apply (inP _ _ _ _ _ V) in K. destruct K; congruence.
    - intros j. rewrite in_rm. intuition (try discriminate).
    - intros j J. rewrite Lo by exact J. apply E5.
    - rewrite U6. destruct G1 as [R W Fr C]. constructor; cbn; auto.
      rewrite R, D, Hp1. cbn. lia.
    - intros j J. rewrite Lo by lia. apply E6. intros K. apply (inB _ _ _ _ _ V) in K. lia.
    - apply (i_five _ _ _ _ _ V). }
  rewrite (remove_out s i (blocked s) B (i_B _ _ _ _ _ V) (list_B _ _ _ _ _ V)).
  2:{ intros K. apply D. now apply (inB_iff _ _ _ _ _ _ V A). }
  destruct (place_dec (pl i) InP) as [D'|D'].
  { destruct (remove_in s i (primary s) P (i_P _ _ _ _ _ V) (list_P _ _ _ _ _ V) (i_nP _ _ _ _ _ V)) as (s1 & h1 & E & E1 & E2 & E3 & E4 & E5 & E6 & E7).
    { now apply (inP_iff _ _ _ _ _ _ V A). }
    rewrite E. pose proof (good_core _ _ _ (E5 i) G) as G1.
    assert (ph (lp s1 i) = Leaving) as Hp1 by (rewrite (core_ph _ _ (E5 i)); exact Hp).
    destruct (unref_spec (change (set_lists s1 h1 (blocked s)) i (fun x => set_ph x Last)) i) as (s' & U & U1 & U2 & U3 & U4 & U5 & U6).
    { rewrite change_same. cbn. apply (good_not_freed _ _ G1). congruence. }
    right. exists s'. split; [exact U|]. exists (updp pl i Nowhere), (rm i P), B, S.
    rewrite change_same in U6. cbn in U1, U2, U3, U4, U6.
    assert (forall j, j <> i -> lp s' j = lp s1 j) as Lo. { intros j J. rewrite U5 by exact J. now rewrite change_other by exact J. }
    eapply inv_move with (P := P) (B := B); try exact V; try assumption.
    - now apply not_stopper.
    - congruence.
    - discriminate.
    - congruence.
    - congruence.
    - unfold primaries. rewrite U2. eapply links_ext; [|exact E7].
      intros j J. apply in_rm in J. rewrite Lo by tauto. reflexivity.
    - unfold blockeds. rewrite U3. eapply links_ext; [|exact (i_B _ _ _ _ _ V)]. intros j J. apply (inB _ _ _ _ _ V) in J.
      rewrite Lo by (intros ->; destruct J; congruence). rewrite E6; [reflexivity|]. intros K. apply (inP _ _ _ _ _ V) in K. destruct J, K; congruence.
    - intros j J. apply (inS _ _ _ _ _ V) in J. rewrite Lo by (intros ->; destruct J; congruence).
      rewrite E6; [reflexivity|]. intros K. apply (inP _ _ _ _ _ V) in K. destruct J, K; congruence.
    - apply rm_nodup. apply (i_nP _ _ _ _ _ V).
    - apply (i_nB _ _ _ _ _ V).
    - intros j. rewrite in_rm. intuition (try discriminate).
    - intros j. destruct (Nat.eq_dec j i) as [->|]; [|intuition congruence].
      split; [|intros [[]|[]]; congruence]. intros K. apply (inB _ _ _ _ _ V) in K. destruct K; congruence.
    - intros j J. rewrite Lo by exact J. apply E5.
    - rewrite U6. destruct G1 as [R W Fr C]. constructor; cbn; auto.
      rewrite R, D', Hp1. cbn. lia.
    - intros j J. rewrite Lo by lia. apply E6. intros K. apply (inP _ _ _ _ _ V) in K. lia.
    - pose proof (i_five _ _ _ _ _ V). pose proof (rm_length i P). lia. }
  rewrite (remove_out s i (primary s) P (i_P _ _ _ _ _ V) (list_P _ _ _ _ _ V)).
  2:{ intros K. apply D'. now apply (inP_iff _ _ _ _ _ _ V A). }
  right. eexists. split; [reflexivity|]. eapply ok_change; eauto.
  apply set_ph_good; [exact G|now rewrite Hp|].
  destruct G as [_ _ _ C]. destruct (pl i); cbn in *; rewrite ?Hp in *; intuition congruence.
Qed.

(* Stopping *)
Lemma fold_stop l : forall f h a,
  NoDup l -> (forall j, In j l -> ~ In j a) -> links f h a ->
  let r := fold_left stop_one l (f, h) in
  links (fst r) (snd r) (rev l ++ a) /\
  (forall j, ~ In j l -> fst r j = f j) /\
  (forall j, In j l -> exists n, fst r j = set_next (set_exit (f j)) n).
Proof.
  induction l as [|i l IH]; intros f h a N D L; cbn [fold_left rev].
  - split; [exact L|]. split; [reflexivity|]. intros j [].
  - inversion N as [|? ? Ni Nl]; subst. unfold stop_one at 2 4 6 8. cbn [fst snd].
    destruct (IH (upd f i (set_next (set_exit (f i)) h)) (Some i) (i :: a)) as (A1 & A2 & A3).
    + exact Nl.
    + intros j J [<-|K]; [contradiction|]. apply (D j); cbn; auto.
    + cbn. split; [reflexivity|]. rewrite upd_same. cbn. eapply links_ext; [|exact L].
      intros j J. rewrite upd_other; [reflexivity|]. intros ->. apply (D i); cbn; auto.
    + split; [rewrite <- app_assoc; exact A1|]. split.
      * intros j J. rewrite A2 by (cbn in J; tauto). apply upd_other. intros ->. apply J. cbn; auto.
      * intros j J. destruct (in_dec Nat.eq_dec j l) as [K|K].
        -- destruct (A3 j K) as [n E]. exists n. rewrite E. rewrite upd_other; [reflexivity|]. intros ->. contradiction.
        -- destruct J as [<-|J]; [|contradiction]. rewrite A2 by exact K. rewrite upd_same. eauto.
Qed.
Lemma nodup_rev2 (l m : list nat) : NoDup l -> NoDup m -> (forall j, In j l -> ~ In j m) -> NoDup (rev l ++ rev m).
Proof.
  intros A C D. rewrite <- rev_app_distr. apply NoDup_rev. induction C as [|a m Ha C IH]; [exact A|].
  cbn. constructor.
  - rewrite in_app_iff. intros [K|K]; [contradiction|]. apply (D a K). cbn; auto.
  - apply IH. intros j J K. apply (D j J). cbn; auto.
Qed.
Lemma good_exit p q x : good p x -> (listed p = listed q) -> place_ok q (set_exit x) -> good q (set_exit x).
Proof. intros [R W F C] E K. constructor; cbn; auto. now rewrite <- E. Qed.
Lemma round_ok s who pl P B :
  inv pl P B [] s -> (forall i, ~ is_blocked s i) ->
  (forall w, who = Some w -> (w < cnt s)%nat /\ ph (lp s w) = Running) ->
  exists s', stop_round s who = Ok s' /\ primary s' = None /\ blocked s' = None /\ cnt s' = cnt s /\
    (forall j, ph (lp s' j) = ph (lp s j)) /\
    match rev B ++ rev P with
    | [] => stop s' = NoStop
    | i :: _ => stop s' = Stopping who (Some i) None
    end /\
    inv (fun j => match pl j with Nowhere => Nowhere | _ => InS end) [] [] (rev B ++ rev P) s'.
Proof.
  intros V NB HW. unfold stop_round. rewrite (list_P _ _ _ _ _ V), (list_B _ _ _ _ _ V).
  destruct (fold_stop P (lp s) None [] (i_nP _ _ _ _ _ V)) as (A1 & A2 & A3); [auto|reflexivity|].
  destruct (fold_left stop_one P (lp s, None)) as [f1 h1] eqn:Ef. cbn [fst snd] in *. rewrite app_nil_r in A1.
  destruct (fold_stop B f1 h1 (rev P) (i_nB _ _ _ _ _ V)) as (B1 & B2 & B3); [|exact A1|].
  { intros j J K. apply in_rev in K. apply (inB _ _ _ _ _ V) in J. apply (inP _ _ _ _ _ V) in K. destruct J, K; congruence. }
  destruct (fold_left stop_one B (f1, h1)) as [f2 h2] eqn:Eg. cbn [fst snd] in *.
  assert (forall j, ph (f2 j) = ph (lp s j)) as Hph.
  { intros j. destruct (in_dec Nat.eq_dec j B) as [K|K].
    - destruct (B3 j K) as [n E]. rewrite E. cbn. rewrite A2; [reflexivity|]. intros I.
      apply (inB _ _ _ _ _ V) in K. apply (inP _ _ _ _ _ V) in I. destruct I, K; congruence.
    - rewrite B2 by exact K. destruct (in_dec Nat.eq_dec j P) as [I|I].
      + destruct (A3 j I) as [n E]. rewrite E. reflexivity.
      + now rewrite A2. }
  eexists. split; [reflexivity|]. cbn [primary blocked cnt lp stop].
  split; [reflexivity|]. split; [reflexivity|]. split; [reflexivity|]. split; [exact Hph|].
  assert (match rev B ++ rev P with [] => h2 = None | i :: _ => h2 = Some i end) as Hh.
  { destruct (rev B ++ rev P); cbn in B1; tauto. }
  split. { destruct (rev B ++ rev P); rewrite Hh; reflexivity. }
  assert (forall j, In j (rev B ++ rev P) <-> In j B \/ In j P) as HI.
  { intros j. rewrite in_app_iff, <- !in_rev. tauto. }
  pose proof V as [V1 V2 V3 V4 V5 V6 V7 V8 V9 V10 V11 V12 V13].
  constructor; cbn [cnt lp stop].
  - reflexivity.
  - reflexivity.
  - unfold stopping. cbn [stop lp]. destruct (rev B ++ rev P) eqn:El; rewrite Hh; [reflexivity|]. now rewrite Hh in B1.
  - constructor.
  - constructor.
  - apply nodup_rev2; auto. intros j J K. apply V8 in J. apply V7 in K. destruct J, K; congruence.
  - intros i. split; [intros []|]. destruct (pl i); intros [_ [=]].
  - intros i. split; [intros []|]. destruct (pl i); intros [_ [=]].
  - intros i. rewrite HI. split.
    + intros [H|H]; [apply V8 in H|apply V7 in H]; destruct H as [? ->]; auto.
    + intros [H1 H2]. destruct (pl i) eqn:Ep; try discriminate H2.
      * right. apply V7. auto.
      * left. apply V8. auto.
      * exfalso. apply (proj2 (V9 i)). auto.
  - intros j J. pose proof (V10 j J) as G. destruct (in_dec Nat.eq_dec j B) as [K|K].
    + destruct (B3 j K) as [n E]. pose proof K as K'. apply V8 in K'. destruct K' as [_ K'].
      rewrite E, A2. 2:{ intros I. apply V7 in I. destruct I; congruence. }
      eapply good_core with (x := set_exit (lp s j)); [reflexivity|]. eapply good_exit; [exact G|now rewrite K'|].
      rewrite K' in *. destruct G as [_ _ _ [C _]]. cbn. split; [exact C|]. split; [reflexivity|].
      intros D. apply (NB j). split; assumption.
    + rewrite B2 by exact K. destruct (in_dec Nat.eq_dec j P) as [I|I].
      * destruct (A3 j I) as [n E]. pose proof I as I'. apply V7 in I'. destruct I' as [_ I'].
        rewrite E. eapply good_core with (x := set_exit (lp s j)); [reflexivity|]. eapply good_exit; [exact G|now rewrite I'|].
        rewrite I' in *. destruct G as [_ _ _ (C & D & _)]. cbn. auto.
      * rewrite A2 by exact I. destruct (pl j) eqn:Ep; auto.
        -- exfalso. apply I. apply V7. auto.
        -- exfalso. apply K. apply V8. auto.
  - intros j J. rewrite B2, A2; auto.
    + intros K. apply V7 in K. lia.
    + intros K. apply V8 in K. lia.
  - intros w. destruct (rev B ++ rev P); rewrite Hh; cbn; [discriminate|]. intros E. rewrite Hph. auto.
  - cbn. lia.
Qed.
Lemma ok_stop_begin s who : Inv_ s -> (forall i, ~ is_blocked s i) -> outcome (stop_begin s who).
Proof.
  intros (pl & P & B & S & V) NB. unfold stop_begin. destruct (stop s) eqn:Es; [|left; reflexivity].
  assert (S = []) as ->. { pose proof (i_S _ _ _ _ _ V) as L. unfold stopping in L. now rewrite Es in L. }
  destruct who as [w|].
  - match goal with |- context [in_phase ?s ?i ?f ?k] => destruct (in_phase_cases s i f k) as [E|(A & F & NS & ->)] end.
    { rewrite E. left; reflexivity. }
    pose proof (i_good _ _ _ _ _ V w A) as G.
    assert (ph (lp s w) = Running) as Hp by (destruct (ph (lp s w)); cbn in F; congruence).
    rewrite (good_not_freed _ _ G) by congruence.
    destruct (round_ok s (Some w) pl P B V NB) as (s' & E & _ & _ & _ & _ & _ & V').
    { intros w' [= <-]. auto. }
    right. exists s'. split; [exact E|]. do 4 eexists. exact V'.
  - destruct (round_ok s None pl P B V NB) as (s' & E & _ & _ & _ & _ & _ & V'); [discriminate|].
    right. exists s'. split; [exact E|]. do 4 eexists. exact V'.
Qed.
Lemma ok_stop_again s : Inv_ s -> (forall i, ~ is_blocked s i) -> outcome (stop_again s).
Proof.
  intros (pl & P & B & S & V) NB. unfold stop_again. destruct (stop s) as [|who [t|] [j|]] eqn:Es; try (left; reflexivity).
  assert (S = []) as ->.
  { pose proof (i_S _ _ _ _ _ V) as L. unfold stopping in L. rewrite Es in L. destruct S; [reflexivity|]. cbn in L. now destruct L. }
  destruct (round_ok s who pl P B V NB) as (s' & E & _ & _ & _ & _ & _ & V').
  { intros w ->. apply (i_stopper _ _ _ _ _ V). now rewrite Es. }
  right. exists s'. split; [exact E|]. do 4 eexists. exact V'.
Qed.
Lemma next_ok pl P B S s who i :
  inv pl P B S s -> stop s = Stopping who (Some i) None ->
  exists s', stop_next s = Ok s' /\ inv pl P B S s' /\ (exists t, stop s' = Stopping who t (Some i)) /\
    cnt s' = cnt s /\ primary s' = primary s /\ blocked s' = blocked s /\ (forall j, ph (lp s' j) = ph (lp s j)).
Proof.
  intros V Es. pose proof V as [V1 V2 V3 V4 V5 V6 V7 V8 V9 V10 V11 V12 V13].
  unfold stopping in V3. rewrite Es in V3.
  destruct S as [|i' r]; cbn in V3; [discriminate|]. destruct V3 as [[= <-] L].
  assert (In i (i :: r)) as Hin by (cbn; auto).
  apply V9 in Hin. destruct Hin as [Hi Hpl].
  unfold stop_next. rewrite Es, (alive_listed _ _ _ _ _ V i Hi) by now rewrite Hpl.
  eexists. split; [reflexivity|].
  set (s' := set_stop _ _).
  assert (lp s' i = set_next (lp s i) None) as Li by apply change_same.
  assert (forall j, j <> i -> lp s' j = lp s j) as Lo by (intros; now apply change_other).
  assert (forall j, core (lp s' j) = core (lp s j)) as Co.
  { intros j. destruct (Nat.eq_dec j i) as [->|D]; [now rewrite Li|now rewrite Lo]. }
  inversion V6 as [|? ? Nr N']; subst.
  split.
  2:{ split; [eexists; reflexivity|]. do 3 (split; [reflexivity|]). intros j. apply core_ph, Co. }
  constructor; auto.
  - unfold primaries. eapply links_ext; [|exact V1]. intros j J. apply V7 in J. rewrite Lo; [reflexivity|]. intros ->. destruct J; congruence.
  - unfold blockeds. eapply links_ext; [|exact V2]. intros j J. apply V8 in J. rewrite Lo; [reflexivity|]. intros ->. destruct J; congruence.
  - unfold stopping. cbn [s' set_stop stop]. exists r. split; [reflexivity|].
    eapply links_ext; [|exact L]. intros j J. change (next (lp s' j) = next (lp s j)). rewrite Lo; [reflexivity|]. intros ->. contradiction.
  - intros j J. eapply good_core; [apply Co|]. apply V10. exact J.
  - intros j J. change (cnt s <= j)%nat in J. rewrite Lo by lia. auto.
  - intros w Hw. rewrite Es in V12. destruct (V12 w Hw). split; [assumption|]. rewrite (core_ph (lp s w) (lp s' w)); [assumption|apply Co].
Qed.
Lemma join_ok pl P B S s who t i :
  inv pl P B S s -> stop s = Stopping who t (Some i) ->
  (who = Some i \/ ph (lp s i) = Gone) ->
  exists s', stop_join s = Ok s' /\ inv (updp pl i Nowhere) P B (tl S) s' /\ stop s' = Stopping who t None /\
    cnt s' = cnt s /\ primary s' = primary s /\ blocked s' = blocked s /\ (forall j, ph (lp s' j) = ph (lp s j)).
Proof.
  intros V Es Hw. pose proof V as [V1 V2 V3 V4 V5 V6 V7 V8 V9 V10 V11 V12 V13].
  unfold stopping in V3. rewrite Es in V3.
  destruct V3 as (r & -> & L). cbn [tl].
  assert (In i (i :: r)) as Hin by (cbn; auto).
  apply V9 in Hin. destruct Hin as [Hi Hpl].
  pose proof (alive_listed _ _ _ _ _ V i Hi ltac:(now rewrite Hpl)) as Fr.
  unfold stop_join. rewrite Es, Fr.
  replace (match who with Some j => Nat.eqb i j | None => false end || is_gone (ph (lp s i))) with true.
  2:{ symmetry. apply orb_true_iff. destruct Hw as [-> | ->]; [left; apply Nat.eqb_refl|right; reflexivity]. }
  destruct (unref_spec (set_stop (change s i no_ipc) (Stopping who t None)) i) as (s' & U & U1 & U2 & U3 & U4 & U5 & U6).
  { cbn [set_stop lp]. rewrite change_same. exact Fr. }
  assert (lp (set_stop (change s i no_ipc) (Stopping who t None)) i = no_ipc (lp s i)) as Ex by (apply change_same).
  rewrite Ex in U6. cbn in U6. cbn in U1, U2, U3, U4.
  assert (forall j, j <> i -> lp s' j = lp s j) as Lo.
  { intros j J. rewrite U5 by exact J. cbn [set_stop lp]. now rewrite change_other. }
  exists s'. split; [exact U|].
  assert (forall j, ph (lp s' j) = ph (lp s j)) as Hph.
  { intros j. destruct (Nat.eq_dec j i) as [->|D]; [now rewrite U6|now rewrite Lo]. }
  split. 2:{ split; [exact U4|]. do 3 (split; [assumption|]). exact Hph. }
  inversion V6 as [|? ? Nr N']; subst.
  constructor; auto.
  - unfold primaries. rewrite U2. eapply links_ext; [|exact V1]. intros j J. apply V7 in J. rewrite Lo; [reflexivity|]. intros ->. destruct J; congruence.
  - unfold blockeds. rewrite U3. eapply links_ext; [|exact V2]. intros j J. apply V8 in J. rewrite Lo; [reflexivity|]. intros ->. destruct J; congruence.
  - unfold stopping. rewrite U4. eapply links_ext; [|exact L]. intros j J. rewrite Lo; [reflexivity|]. intros ->. contradiction.
  - intros j. rewrite V7, U1. destruct (Nat.eq_dec j i) as [->|D]; [rewrite updp_same; intuition congruence|now rewrite updp_other].
  - intros j. rewrite V8, U1. destruct (Nat.eq_dec j i) as [->|D]; [rewrite updp_same; intuition congruence|now rewrite updp_other].
  - intros j. rewrite U1. destruct (Nat.eq_dec j i) as [->|D]; [rewrite updp_same; intuition congruence|rewrite updp_other by exact D].
    rewrite <- V9. cbn. intuition congruence.
  - intros j J. rewrite U1 in J. destruct (Nat.eq_dec j i) as [->|D].
    + rewrite updp_same, U6. pose proof (V10 i Hi) as [R W F C]. rewrite Hpl in *. constructor; cbn; auto.
      * rewrite R. cbn. lia.
      * destruct C as (C1 & C2 & C3). destruct Hw as [->|Hg].
        -- right. right. split; [reflexivity|]. split; [exact C2|]. left. rewrite Es in V12. apply (V12 i). reflexivity.
        -- right. left. exact Hg.
    + rewrite updp_other, Lo by exact D. auto.
  - intros j J. rewrite U1 in J. rewrite Lo by lia. auto.
  - intros w. rewrite U4, U1. cbn. intros Ew. rewrite Es in V12. destruct (V12 w Ew). split; [assumption|]. now rewrite Hph.
Qed.
Lemma ok_stop_next s : Inv_ s -> outcome (stop_next s).
Proof.
  intros (pl & P & B & S & V). destruct (stop s) as [|who [i|] [j|]] eqn:Es; try (left; unfold stop_next; now rewrite Es).
  destruct (next_ok _ _ _ _ _ _ _ V Es) as (s' & E & V' & _). right. exists s'. split; [exact E|]. do 4 eexists. exact V'.
Qed.
Lemma ok_stop_join s : Inv_ s -> outcome (stop_join s).
Proof.
  intros (pl & P & B & S & V). destruct (stop s) as [|who t [i|]] eqn:Es; try (left; unfold stop_join; now rewrite Es).
  destruct (match who with Some j => Nat.eqb i j | None => false end || is_gone (ph (lp s i))) eqn:Ew.
  - destruct (join_ok _ _ _ _ _ _ _ _ V Es) as (s' & E & V' & _).
    { apply orb_true_iff in Ew. destruct Ew as [Ew|Ew].
      - destruct who as [j|]; [|discriminate]. apply Nat.eqb_eq in Ew. subst. auto.
      - right. destruct (ph (lp s i)); cbn in Ew; congruence. }
    right. exists s'. split; [exact E|]. do 4 eexists. exact V'.
  - left. unfold stop_join. rewrite Es, Ew.
    assert (In i S) as Hi. { pose proof (i_S _ _ _ _ _ V) as L. unfold stopping in L. rewrite Es in L. destruct L as (r & -> & _). cbn; auto. }
    apply (inS _ _ _ _ _ V) in Hi. rewrite (alive_listed _ _ _ _ _ V i) by (try tauto; now rewrite (proj2 Hi)). reflexivity.
Qed.

Lemma ok_step s mv : Inv_ s -> careful s mv -> (e = true -> forall i, mv <> MEnter i false) -> outcome (step s mv).
Proof.
  intros V C He. destruct mv; cbn [step careful] in *.
  - now apply ok_check.
  - now apply ok_started.
  - apply ok_enter; [exact V|]. intros ->. destruct e; [|reflexivity]. destruct (He eq_refl i eq_refl).
  - now apply ok_read.
  - now apply ok_read_end.
  - now apply ok_transact.
  - now apply ok_handled.
  - destruct V as (pl & P & B & S & V). exact (proj1 (block_ok s i ok _ _ _ _ V)).
  - now apply ok_unblock.
  - now apply ok_loop_end.
  - now apply ok_leave.
  - now apply ok_thread_end.
  - now apply ok_stop_begin.
  - now apply ok_stop_next.
  - now apply ok_stop_join.
  - now apply ok_stop_again.
Qed.
Lemma inv_init : Inv_ init.
Proof.
  exists (fun _ => Nowhere), [], [], []. constructor; try (constructor; fail); try reflexivity.
  - intros i. cbn. split; [tauto|]. intros []; lia.
  - intros i. cbn. split; [tauto|]. intros []; lia.
  - intros i. cbn. split; [tauto|]. intros []; lia.
  - cbn. intros. lia.
  - discriminate.
  - cbn. lia.
Qed.
End Entered.
Lemma leads_inv s s' : Inv_ false s -> leads s s' -> Inv_ false s'.
Proof.
  intros V H. induction H as [|s1 mv s2 H IH C E]; [exact V|].
  destruct (ok_step false s1 mv IH C ltac:(discriminate)) as [M|(s3 & M & V3)]; congruence.
Qed.
Lemma entered_inv s s' : Inv_ true s -> leads_entered s s' -> Inv_ true s'.
Proof.
  intros V H. induction H as [|s1 mv s2 H IH C N E]; [exact V|].
  destruct (ok_step true s1 mv IH C ltac:(auto)) as [M|(s3 & M & V3)]; congruence.
Qed.
Lemma reach_inv s : reach s -> Inv_ false s.
Proof. apply leads_inv, inv_init. Qed.
Lemma entered_reach s s' : leads_entered s s' -> leads s s'.
Proof. induction 1; [constructor|]. econstructor; eauto. Qed.
Lemma leads_trans a b c : leads a b -> leads b c -> leads a c.
Proof. intros H K. induction K; [exact H|]. econstructor; eauto. Qed.

(* Consequences *)
Lemma lists_ok s : reach s ->
  exists P B S, primaries s P /\ blockeds s B /\ stopping s S /\ NoDup (P ++ B ++ S) /\
    (forall i, In i (P ++ B ++ S) -> alive s i) /\
    (forall i, working s i -> In i (P ++ B ++ S) \/ (has_ipc (lp s i) = false /\ exit_ (lp s i) = true)) /\
    (forall i, In i S -> exit_ (lp s i) = true) /\
    (forall i, is_blocked s i -> In i B) /\
    (forall i, In i B -> is_blocked s i \/ exit_ (lp s i) = true).
Proof.
  intros H. destruct (reach_inv s H) as (pl & P & B & S & V). exists P, B, S.
  pose proof V as [V1 V2 V3 V4 V5 V6 V7 V8 V9 V10 V11 V12 V13].
  do 3 (split; [assumption|]). split.
  { assert (forall l m : list nat, NoDup l -> NoDup m -> (forall j, In j l -> ~ In j m) -> NoDup (l ++ m)) as AP.
    { clear. intros l m A C D. induction A as [|a l Ha A IH]; [exact C|]. cbn. constructor.
      - rewrite in_app_iff. intros [K|K]; [contradiction|]. apply (D a); cbn; auto.
      - apply IH. intros j J. apply D. cbn; auto. }
    apply AP; [assumption| |].
    - apply AP; auto. intros j J K. apply V8 in J. apply V9 in K. destruct J, K; congruence.
    - intros j J K. apply V7 in J. apply in_app_iff in K. destruct K as [K|K]; [apply V8 in K|apply V9 in K]; destruct J, K; congruence. }
  split.
  { intros i I. rewrite !in_app_iff in I.
    assert ((i < cnt s)%nat /\ listed (pl i) = true) as [K1 K2].
    { destruct I as [I|[I|I]]; [apply V7 in I|apply V8 in I|apply V9 in I]; destruct I as [? ->]; auto. }
    split; [exact K1|]. eapply alive_listed; eauto. }
  split.
  { intros i [A W]. rewrite !in_app_iff, V7, V8, V9. destruct (pl i) eqn:E; auto. right.
    pose proof (g_place _ _ _ (V10 i A)) as C. rewrite E in C. cbn in C. destruct (ph (lp s i)); intuition (try discriminate). }
  split.
  { intros i I. apply V9 in I. destruct I as [A E]. pose proof (g_place _ _ _ (V10 i A)) as C. rewrite E in C. cbn in C. tauto. }
  split.
  { intros i [A W]. apply V8. split; [exact A|]. pose proof (g_place _ _ _ (V10 i A)) as C.
    destruct (pl i); cbn in C; rewrite ?W in C; intuition (try congruence). }
  intros i I. apply V8 in I. destruct I as [A E]. pose proof (g_place _ _ _ (V10 i A)) as C. rewrite E in C. cbn in C.
  destruct C as [_ [C|C]]; [left; split; assumption|auto].
Qed.
Lemma five_ok s P : reach s -> primaries s P -> (length P <= 5)%nat.
Proof.
  intros H L. destruct (reach_inv s H) as (pl & P' & B & S & V).
  rewrite (links_fun _ _ _ _ L (i_P _ _ _ _ _ _ V)). apply (i_five _ _ _ _ _ _ V).
Qed.
Lemma no_crash s mv : reach s -> careful s mv -> step s mv <> Crash.
Proof.
  intros H C. destruct (ok_step false s mv (reach_inv s H) C ltac:(discriminate)) as [->|(s' & -> & _)]; discriminate.
Qed.
Lemma freed_when s i : reach s -> (i < cnt s)%nat ->
  freed (lp s i) = true <-> (ph (lp s i) = Gone /\ waits (lp s i) = 0 /\
    forall P B S, primaries s P -> blockeds s B -> stopping s S -> ~ In i (P ++ B ++ S)).
Proof.
  intros H A. destruct (reach_inv s H) as (pl & P & B & S & V).
  pose proof V as [V1 V2 V3 V4 V5 V6 V7 V8 V9 V10 V11 V12 V13].
  pose proof (V10 i A) as [R W F C]. rewrite F, Z.eqb_eq, R. split.
  - intros Z. assert (listed (pl i) = false) as E.
    { destruct (listed (pl i)); [|reflexivity]. exfalso. revert Z. unfold b2z. destruct (negb _); lia. }
    assert (negb (is_gone (ph (lp s i))) = false) as G.
    { destruct (negb _); [|reflexivity]. exfalso. revert Z. unfold b2z. destruct (listed _); lia. }
    rewrite E, G in Z. cbn in Z. split; [|split; [lia|]].
    + destruct (ph (lp s i)); cbn in G; congruence.
    + intros P' B' S' L1 L2 L3. rewrite (links_fun _ _ _ _ L1 V1), (links_fun _ _ _ _ L2 V2).
      assert (S' = S) as ->.
      { unfold stopping in *. destruct (stop s) as [|w t [j|]]; [congruence| |eapply links_fun; eauto].
        destruct L3 as (r' & -> & L3), V3 as (r & -> & V3'). f_equal. eapply links_fun; eauto. }
      rewrite !in_app_iff, V7, V8, V9. intros K. destruct (pl i); cbn in E; try discriminate; intuition discriminate.
  - intros (G & Z & K). rewrite G, Z. specialize (K P B S V1 V2 V3). rewrite !in_app_iff, V7, V8, V9 in K.
    destruct (pl i); cbn; try reflexivity; exfalso; apply K; auto.
Qed.
Lemma still_primary s i ok s' : reach s -> step s (MBlock i ok) = Ok s' -> is_blocked s' i ->
  (exists j P, j <> i /\ primaries s' P /\ In j P) \/ (ok = false /\ primaries s [i]).
Proof.
  intros H E [_ W]. destruct (reach_inv s H) as (pl & P & B & S & V).
  destruct (proj2 (block_ok false s i ok pl P B S V) s' E W) as (I & Bl & K).
  destruct (rm i P) as [|a r] eqn:Er.
  - destruct ok.
    + destruct K as [K1 K2]. left. exists (cnt s), [cnt s]. split.
      * apply (inP _ _ _ _ _ _ V) in I. lia.
      * split; [|cbn; auto]. unfold primaries. rewrite K1. cbn. split; [reflexivity|]. now rewrite K2.
    + right. split; [reflexivity|]. destruct P as [|b P]; [contradiction|]. unfold rm in Er. cbn in Er.
      destruct (Nat.eqb_spec b i) as [->|D]; [|discriminate]. cbn in Er. fold (rm i P) in Er.
      pose proof (i_nP _ _ _ _ _ _ V) as N. inversion N; subst. rewrite rm_notin in Er by assumption. subst.
      apply (i_P _ _ _ _ _ _ V).
  - left. destruct K as (K1 & K2 & K3). exists a, (a :: r). split; [|split; [exact K1|cbn; auto]].
    assert (In a (rm i P)) as J by (rewrite Er; cbn; auto). apply in_rm in J. tauto.
Qed.
Lemma still_primary_entered s i s' : reach_entered s -> step s (MBlock i true) = Ok s' -> is_blocked s' i ->
  exists j P, j <> i /\ primaries s' P /\ In j P /\ working s' j.
Proof.
  intros H E Ib. pose proof Ib as [_ W]. destruct (entered_inv init s (inv_init true) H) as (pl & P & B & S & V).
  destruct (proj2 (block_ok true s i true pl P B S V) s' E W) as (I & Bl & K).
  destruct (entered_inv init s' (inv_init true)) as (pl' & P' & B' & S' & V').
  { eapply (le_step init s (MBlock i true)); [exact H|exact Logic.I|discriminate|exact E]. }
  assert (exists j, j <> i /\ In j P') as (j & J1 & J2).
  { destruct (still_primary s i true s' (entered_reach _ _ H) E) as [(j & P2 & J1 & J2 & J3)|[? _]]; [|exists j|discriminate].
    - exact Ib.
    - split; [exact J1|]. now rewrite <- (links_fun _ _ _ _ J2 (i_P _ _ _ _ _ _ V')). }
  exists j, P'. split; [exact J1|]. split; [apply (i_P _ _ _ _ _ _ V')|]. split; [exact J2|].
  apply (inP _ _ _ _ _ _ V') in J2. destruct J2 as [A E2]. split; [exact A|].
  pose proof (g_place _ _ _ (i_good _ _ _ _ _ _ V' j A)) as C. rewrite E2 in C. cbn in C. destruct C as (_ & _ & C).
  destruct (C eq_refl). destruct (ph (lp s' j)); auto.
Qed.
Lemma stop_empty s : Inv_ false s -> stop s = NoStop -> primary s = None -> blocked s = None ->
  forall i, working s i -> has_ipc (lp s i) = false /\ exit_ (lp s i) = true.
Proof.
  intros (pl & P & B & S & V) E1 E2 E3 i [A W].
  pose proof V as [V1 V2 V3 V4 V5 V6 V7 V8 V9 V10 V11 V12 V13].
  unfold primaries in V1. unfold blockeds in V2. unfold stopping in V3. rewrite E2 in V1. rewrite E3 in V2. rewrite E1 in V3. subst S.
  destruct P; [|cbn in V1; now destruct V1]. destruct B; [|cbn in V2; now destruct V2].
  specialize (V7 i). specialize (V8 i). specialize (V9 i). cbn in V7, V8, V9.
  pose proof (g_place _ _ _ (V10 i A)) as C.
  destruct (pl i); cbn in C; try (exfalso; tauto). destruct (ph (lp s i)); intuition discriminate.
Qed.
Lemma stop_ends s mv s' : reach s -> careful s mv -> (mv = MStopAgain \/ exists who, mv = MStop who) ->
  step s mv = Ok s' -> stop s' = NoStop ->
  primary s' = None /\ blocked s' = None /\ forall i, working s' i -> has_ipc (lp s' i) = false /\ exit_ (lp s' i) = true.
Proof.
  intros H C M E N.
  assert (Inv_ false s') as V'. { apply reach_inv. econstructor; eauto. }
  assert (exists who, stop_round s who = Ok s') as (who & R).
  { destruct M as [->|[who ->]]; cbn [step] in E.
    - unfold stop_again in E. destruct (stop s) as [|w [|] [|]]; try discriminate. eauto.
    - unfold stop_begin in E. destruct (stop s); try discriminate. destruct who as [w|]; [|eauto].
      unfold in_phase in E. destruct (_ && _ && _); [|discriminate]. destruct (freed _); [discriminate|]. eauto. }
  assert (primary s' = None /\ blocked s' = None) as [E1 E2].
  { unfold stop_round in R. destruct (list_of s (primary s)), (list_of s (blocked s)); try discriminate. injection R as <-. auto. }
  split; [exact E1|]. split; [exact E2|]. now apply stop_empty.
Qed.

(* Once asked to exit, always asked to exit *)
Definition keeps (s s' : state) : Prop :=
  (cnt s <= cnt s')%nat /\ forall i, (i < cnt s)%nat -> exit_ (lp s i) = true -> exit_ (lp s' i) = true.
Lemma keeps_refl s : keeps s s.
Proof. split; auto. Qed.
Lemma keeps_trans a b c : keeps a b -> keeps b c -> keeps a c.
Proof. intros [A1 A2] [B1 B2]. split; [lia|]. intros i I E. apply B2; [lia|]. auto. Qed.
Lemma keeps_change s i g : (exit_ (lp s i) = true -> exit_ (g (lp s i)) = true) -> keeps s (change s i g).
Proof.
  intros H. split; [reflexivity|]. intros j J E. destruct (Nat.eq_dec j i) as [->|D]; [rewrite change_same; auto|now rewrite change_other].
Qed.
Lemma keeps_lp s s' : cnt s' = cnt s -> (forall j, lp s' j = lp s j) -> keeps s s'.
Proof. intros C E. split; [lia|]. intros i _ H. now rewrite E. Qed.
Lemma keeps_unref s i s' : unref s i = Ok s' -> keeps s s'.
Proof.
  unfold unref. destruct (freed (lp s i)); [discriminate|]. intros [= <-]. split; [reflexivity|].
  intros j _ E. cbn [set_lp lp]. destruct (Nat.eq_dec j i) as [->|D]; [rewrite upd_same; destruct (_ =? 0); exact E|now rewrite upd_other].
Qed.
Lemma keeps_add s : keeps s (add_looper s).
Proof. split; [cbn; lia|]. intros i I E. unfold add_looper. cbn [lp]. rewrite upd_other by lia. exact E. Qed.
Lemma keeps_remove s i h s1 h1 : remove_from s i h = Some (Some (s1, h1)) -> keeps s s1.
Proof.
  unfold remove_from. destruct (list_of s h) as [l|]; [|discriminate].
  destruct (match h with Some j => Nat.eqb j i | None => false end).
  - intros [= <- <-]. apply keeps_change. auto.
  - destruct (before l i); [|discriminate]. intros [= <- <-].
    eapply keeps_trans; apply keeps_change; cbn; auto.
Qed.
Lemma keeps_fold l f h j : exit_ (f j) = true -> exit_ (fst (fold_left stop_one l (f, h)) j) = true.
Proof.
  revert f h. induction l as [|a l IH]; intros f h E; cbn [fold_left]; [exact E|].
  unfold stop_one at 2. cbn [fst snd]. apply IH. destruct (Nat.eq_dec j a) as [->|D]; [rewrite upd_same; reflexivity|now rewrite upd_other].
Qed.
Lemma keeps_round s who s' : stop_round s who = Ok s' -> keeps s s'.
Proof.
  unfold stop_round. destruct (list_of s (primary s)) as [p|], (list_of s (blocked s)) as [b|]; try discriminate.
  intros [= <-]. split; [reflexivity|]. intros j _ E. cbn [lp].
  destruct (fold_left stop_one p (lp s, None)) as [f1 h1] eqn:Ef. apply keeps_fold.
  change f1 with (fst (f1, h1)). rewrite <- Ef. now apply keeps_fold.
Qed.
Lemma keeps_phase s i f k s' : in_phase s i f k = Ok s' -> k = Ok s'.
Proof. unfold in_phase. destruct (_ && _ && _); [|discriminate]. destruct (freed _); [discriminate|]. auto. Qed.
Lemma keeps_step s mv s' : step s mv = Ok s' -> keeps s s'.
Proof.
  assert (forall g i, (forall x, exit_ (g x) = exit_ x \/ exit_ (g x) = true) -> keeps s (change s i g)) as CH.
  { intros g i H. apply keeps_change. destruct (H (lp s i)) as [->| ->]; auto. }
  destruct mv; cbn [step].
  - unfold check. destruct (primary s); [intros [= <-]; apply keeps_refl|]. destruct ok; intros [= <-]; [apply keeps_add|apply keeps_refl].
  - unfold started. destruct (_ <=? 0); [discriminate|]. intros U. eapply keeps_trans; [|eapply keeps_unref; exact U]. apply CH. auto.
  - intros K. apply keeps_phase in K. injection K as <-. apply CH. auto.
  - intros K. apply keeps_phase in K. destruct (exit_ _); [discriminate|]. destruct (negb _); [discriminate|]. injection K as <-. apply CH. auto.
  - intros K. apply keeps_phase in K. injection K as <-. apply CH. auto.
  - intros K. apply keeps_phase in K. destruct (negb _); [discriminate|]. injection K as <-. apply CH. auto.
  - intros K. apply keeps_phase in K. injection K as <-. apply CH. auto.
  - intros K. apply keeps_phase in K. destruct (negb _); [discriminate|].
    destruct (remove_from s i (primary s)) as [[[s1 h1]|]|] eqn:R; [| |discriminate].
    + set (s2 := set_lists _ _ _) in K.
      assert (keeps s s2) as K2.
      { eapply keeps_trans; [eapply keeps_remove; exact R|]. eapply keeps_trans; [|apply keeps_lp; reflexivity].
        apply keeps_change. auto. }
      destruct h1; [injection K as <-; exact K2|]. destruct ok; injection K as <-; [|exact K2].
      eapply keeps_trans; [exact K2|apply keeps_add].
    + injection K as <-. apply CH. auto.
  - unfold unblock. destruct (ph (lp s i)); try discriminate. intros K. apply keeps_phase in K.
    destruct (negb _); [injection K as <-; apply CH; auto|].
    destruct (list_of s (primary s)); [|discriminate]. destruct (Nat.leb _ _); [injection K as <-; apply CH; auto|].
    destruct (remove_from s i (blocked s)) as [[[s1 h1]|]|] eqn:R; [| |discriminate]; injection K as <-.
    + eapply keeps_trans; [eapply keeps_remove; exact R|]. eapply keeps_trans; [|apply keeps_lp; reflexivity].
      apply keeps_change. auto.
    + eapply keeps_trans; [|apply keeps_lp; reflexivity]. apply CH. auto.
  - intros K. apply keeps_phase in K. injection K as <-. apply CH. auto.
  - intros K. apply keeps_phase in K. cbv zeta in K.
    destruct (has_ipc _); [|injection K as <-; apply CH; auto].
    destruct (remove_from s i (blocked s)) as [[[s1 h1]|]|] eqn:R; [| |discriminate].
    + eapply keeps_trans; [eapply keeps_remove; exact R|]. eapply keeps_trans; [|eapply keeps_unref; exact K].
      eapply keeps_trans; [apply keeps_lp with (s' := set_lists s1 (primary s) h1); reflexivity|]. apply keeps_change. auto.
    + destruct (remove_from s i (primary s)) as [[[s1 h1]|]|] eqn:R2; [| |discriminate].
      * eapply keeps_trans; [eapply keeps_remove; exact R2|]. eapply keeps_trans; [|eapply keeps_unref; exact K].
        eapply keeps_trans; [apply keeps_lp with (s' := set_lists s1 h1 (blocked s)); reflexivity|]. apply keeps_change. auto.
      * injection K as <-. apply CH. auto.
  - intros K. apply keeps_phase in K. eapply keeps_trans; [|eapply keeps_unref; exact K]. apply CH. auto.
  - unfold stop_begin. destruct (stop s); [|discriminate]. destruct who as [w|]; [intros K; apply keeps_phase in K|intros K]; eapply keeps_round; exact K.
  - unfold stop_next. destruct (stop s) as [|w [t|] [j|]]; try discriminate. destruct (freed _); [discriminate|].
    intros [= <-]. eapply keeps_trans; [|apply keeps_lp; reflexivity]. apply CH. auto.
  - unfold stop_join. destruct (stop s) as [|w t [j|]]; try discriminate. destruct (freed _); [discriminate|].
    destruct (_ || _); [|discriminate]. intros K. eapply keeps_trans; [|eapply keeps_unref; exact K].
    eapply keeps_trans; [|apply keeps_lp; reflexivity]. apply CH. auto.
  - unfold stop_again. destruct (stop s) as [|w [t|] [j|]]; try discriminate. apply keeps_round.
Qed.
Lemma keeps_leads s s' : leads s s' -> keeps s s'.
Proof. induction 1; [apply keeps_refl|]. eapply keeps_trans; [eassumption|]. eapply keeps_step; eassumption. Qed.
Lemma exit_no_read s s' i s2 :
  leads s s' -> (i < cnt s)%nat -> exit_ (lp s i) = true -> step s' (MRead i) <> Ok s2.
Proof.
  intros L I E K. apply keeps_phase in K. rewrite (proj2 (keeps_leads _ _ L) i I E) in K. discriminate.
Qed.

(* Stopping can always complete *)
Definition rank (p : phase) : nat :=
  match p with Starting => 7 | Handling => 6 | Waiting _ => 6 | Reading => 5 | Running => 4 | Leaving => 3 | Last => 2 | Gone => 1 end.
Section Own.
Context (pl : nat -> place) (P B S : list nat) (i : nat).
Definition like (s s' : state) : Prop :=
  inv false pl P B S s' /\ cnt s' = cnt s /\ primary s' = primary s /\ blocked s' = blocked s /\ stop s' = stop s /\
  (forall j, j <> i -> ph (lp s' j) = ph (lp s j)).
Lemma own_change s q mv :
  inv false pl P B S s -> (i < cnt s)%nat -> pl i = InS -> is_stopper s i = false ->
  is_gone q = false -> is_gone (ph (lp s i)) = false -> q <> Waiting true ->
  careful s mv -> step s mv = Ok (change s i (fun x => set_ph x q)) ->
  exists s', leads s s' /\ like s s' /\ ph (lp s' i) = q.
Proof.
  intros V A Hp NS Hq Hg Hw C E. eexists. split; [econstructor; [constructor|exact C|exact E]|].
  split. 2:{ now rewrite change_same. }
  split. 2:{ do 4 (split; [reflexivity|]). intros j J. now rewrite change_other. }
  eapply inv_change with (i := i); try exact V; try reflexivity; auto.
  - intros. now apply change_other.
  - now rewrite change_same.
  - rewrite change_same. pose proof (i_good _ _ _ _ _ _ V i A) as G. apply set_ph_good; [exact G|congruence|].
    rewrite Hp in *. destruct G as [_ _ _ C0]. cbn in *. intuition.
  - intros K. exfalso. eapply not_stopper; eauto.
Qed.
Lemma own_step s :
  inv false pl P B S s -> (i < cnt s)%nat -> pl i = InS -> is_stopper s i = false -> ph (lp s i) <> Gone ->
  exists s', leads s s' /\ like s s' /\ (rank (ph (lp s' i)) < rank (ph (lp s i)))%nat.
Proof.
  intros V A Hp NS Hg. pose proof (i_good _ _ _ _ _ _ V i A) as G.
  pose proof (good_not_freed _ _ _ G Hg) as Fr.
  assert (has_ipc (lp s i) = true /\ exit_ (lp s i) = true /\ ph (lp s i) <> Waiting true) as (Hi & He & Hb).
  { destruct G as [_ _ _ C]. rewrite Hp in C. exact C. }
  assert (forall f k, f (ph (lp s i)) = true -> in_phase s i f k = k) as IP.
  { intros f k F. unfold in_phase. apply Nat.ltb_lt in A. rewrite A, F, NS, Fr. reflexivity. }
  destruct (ph (lp s i)) eqn:E; try congruence.
  - destruct (own_change s Running (MEnter i true)) as (s' & L & K & Q); auto; try discriminate; rewrite ?E; auto.
    { cbn [careful]. exact Logic.I. } { cbn [step]. unfold enter. now rewrite IP. }
    exists s'. rewrite Q. split; [exact L|]. split; [exact K|]. cbn. lia.
  - destruct (own_change s Leaving (MLoopEnd i)) as (s' & L & K & Q); auto; try discriminate; rewrite ?E; auto.
    { cbn [careful]. exact Logic.I. } { cbn [step]. unfold loop_end. now rewrite IP. }
    exists s'. rewrite Q. split; [exact L|]. split; [exact K|]. cbn. lia.
  - destruct (own_change s Running (MReadEnd i)) as (s' & L & K & Q); auto; try discriminate; rewrite ?E; auto.
    { cbn [careful]. exact Logic.I. } { cbn [step]. unfold read_end. now rewrite IP. }
    exists s'. rewrite Q. split; [exact L|]. split; [exact K|]. cbn. lia.
  - destruct (own_change s Reading (MHandled i)) as (s' & L & K & Q); auto; try discriminate; rewrite ?E; auto.
    { cbn [careful]. exact Logic.I. } { cbn [step]. unfold handled. now rewrite IP. }
    exists s'. rewrite Q. split; [exact L|]. split; [exact K|]. cbn. lia.
  - destruct was_blocked; [congruence|].
    destruct (own_change s Reading (MUnblock i)) as (s' & L & K & Q); auto; try discriminate; rewrite ?E; auto.
    { cbn [careful]. exact Logic.I. } { cbn [step]. unfold unblock. rewrite E. now rewrite IP. }
    exists s'. rewrite Q. split; [exact L|]. split; [exact K|]. cbn. lia.
  - destruct (own_change s Last (MLeave i)) as (s' & L & K & Q); auto; try discriminate; rewrite ?E; auto.
    { cbn [careful]. exact Logic.I. }
    { cbn [step]. unfold leave. rewrite IP by reflexivity. cbv zeta. rewrite Hi.
      rewrite (remove_out s i (blocked s) B (i_B _ _ _ _ _ _ V) (list_B _ _ _ _ _ _ V)).
      2:{ intros K. apply (inB _ _ _ _ _ _ V) in K. destruct K; congruence. }
      rewrite (remove_out s i (primary s) P (i_P _ _ _ _ _ _ V) (list_P _ _ _ _ _ _ V)).
      2:{ intros K. apply (inP _ _ _ _ _ _ V) in K. destruct K; congruence. }
      reflexivity. }
    exists s'. rewrite Q. split; [exact L|]. split; [exact K|]. cbn. lia.
  - destruct (unref_spec (change s i (fun x => set_ph x Gone)) i) as (s' & U & E1 & E2 & E3 & E4 & E5 & E6).
    { rewrite change_same. exact Fr. }
    exists s'. rewrite change_same in E6. cbn in E6. split.
    { econstructor; [constructor|exact (Logic.I : careful s (MThreadEnd i))|]. cbn [step]. unfold thread_end. rewrite IP by reflexivity. exact U. }
    split; [|rewrite E6; cbn; lia].
    split. 2:{ do 4 (split; [assumption|]). intros j J. rewrite E5 by exact J. now rewrite change_other. }
    eapply inv_change with (s := s) (i := i); try eassumption.
    + intros j J. rewrite E5 by exact J. now apply change_other.
    + rewrite E6. reflexivity.
    + rewrite E6. destruct G as [R W F C]. rewrite Hp in *. constructor; cbn; auto.
      * rewrite R, E. cbn. lia.
      * cbn in C. intuition discriminate.
    + intros K. exfalso. eapply not_stopper; eauto.
Qed.
Lemma own_gone n : forall s, (rank (ph (lp s i)) <= n)%nat ->
  inv false pl P B S s -> (i < cnt s)%nat -> pl i = InS -> is_stopper s i = false ->
  exists s', leads s s' /\ like s s' /\ ph (lp s' i) = Gone.
Proof.
  induction n as [|n IH]; intros s Hn V A Hp NS; [destruct (ph (lp s i)); cbn in Hn; lia|].
  destruct (is_gone (ph (lp s i))) eqn:Eg.
  - exists s. split; [constructor|]. split; [|destruct (ph (lp s i)); cbn in Eg; congruence].
    split; [exact V|]. do 4 (split; [reflexivity|]). reflexivity.
  - destruct (own_step s V A Hp NS) as (s1 & L1 & (V1 & C1 & P1 & B1 & S1 & H1) & R1).
    { intros K. rewrite K in Eg. discriminate. }
    destruct (IH s1) as (s2 & L2 & (V2 & C2 & P2 & B2 & S2 & H2) & R2); auto; try lia.
    { unfold is_stopper in *. now rewrite S1. }
    exists s2. split; [eapply leads_trans; eauto|]. split; [|exact R2].
    split; [exact V2|]. do 4 (split; [congruence|]). intros j J. rewrite H2 by exact J. now apply H1.
Qed.
End Own.
Lemma stopper_running pl P B S s i :
  inv false pl P B S s -> ph (lp s i) <> Running -> is_stopper s i = false.
Proof.
  intros V H. unfold is_stopper. pose proof (i_stopper _ _ _ _ _ _ V) as W.
  destruct (stop s) as [|[w|] t j]; try reflexivity. destruct (Nat.eqb_spec w i) as [->|]; [|reflexivity].
  destruct (W i eq_refl). congruence.
Qed.
Lemma finish_round P B n : forall s pl S who t j,
  (length S <= n)%nat -> inv false pl P B S s -> stop s = Stopping who t j ->
  exists s' pl', leads s s' /\ inv false pl' P B [] s' /\ stop s' = Stopping who None None.
Proof.
  assert (forall n s pl S who t i, (length S <= Datatypes.S n)%nat -> inv false pl P B S s -> stop s = Stopping who t (Some i) ->
    (forall s pl S who t j, (length S <= n)%nat -> inv false pl P B S s -> stop s = Stopping who t j ->
      exists s' pl', leads s s' /\ inv false pl' P B [] s' /\ stop s' = Stopping who None None) ->
    exists s' pl', leads s s' /\ inv false pl' P B [] s' /\ stop s' = Stopping who None None) as JO.
  { clear n. intros n s pl S who t i Hn V Es IH.
    assert (In i S) as Hi. { pose proof (i_S _ _ _ _ _ _ V) as L. unfold stopping in L. rewrite Es in L. destruct L as (r & -> & _). cbn; auto. }
    apply (inS _ _ _ _ _ _ V) in Hi. destruct Hi as [A Hp].
    assert (exists s1, leads s s1 /\ inv false pl P B S s1 /\ stop s1 = Stopping who t (Some i) /\ (who = Some i \/ ph (lp s1 i) = Gone)) as (s1 & L1 & V1 & E1 & W1).
    { destruct (is_stopper s i) eqn:Ei.
      - exists s. split; [constructor|]. split; [exact V|]. split; [exact Es|]. left.
        unfold is_stopper in Ei. rewrite Es in Ei. destruct who as [w|]; [|discriminate]. apply Nat.eqb_eq in Ei. congruence.
      - destruct (own_gone pl P B S i 7 s) as (s1 & L & (V1 & _ & _ & _ & E1 & _) & G); auto.
        { destruct (ph (lp s i)); cbn; lia. }
        exists s1. split; [exact L|]. split; [exact V1|]. split; [congruence|]. auto. }
    destruct (join_ok false pl P B S s1 who t i V1 E1 W1) as (s2 & J & V2 & E2 & _).
    assert (length (tl S) <= n)%nat as Hl by (destruct S; cbn in *; lia).
    destruct (IH s2 _ _ who t None Hl V2 E2) as (s3 & pl3 & L3 & V3 & E3).
    - exists s3, pl3. split; [|auto]. eapply leads_trans; [exact L1|]. eapply leads_trans; [|exact L3].
      econstructor; [constructor|exact (Logic.I : careful s1 MStopJoin)|exact J]. }
  induction n as [|n IH]; intros s pl S who t j Hn V Es.
  - destruct S; [|cbn in Hn; lia]. pose proof (i_S _ _ _ _ _ _ V) as L. unfold stopping in L. rewrite Es in L.
    destruct j as [i|]; [destruct L as (r & [=] & _)|]. cbn in L. subst t. exists s, pl. split; [constructor|]. auto.
  - destruct j as [i|]; [eapply JO; eauto|].
    destruct t as [i|].
    + destruct (next_ok false pl P B S s who i V Es) as (s1 & E & V1 & (t & E1) & _).
      destruct (JO n s1 pl S who t i Hn V1 E1 IH) as (s2 & pl2 & L2 & R2).
      exists s2, pl2. split; [|exact R2]. eapply leads_trans; [|exact L2].
      econstructor; [constructor|exact (Logic.I : careful s MStopNext)|exact E].
    + exists s, pl. split; [constructor|]. split; [|exact Es].
      pose proof (i_S _ _ _ _ _ _ V) as L. unfold stopping in L. rewrite Es in L. destruct S; [exact V|]. cbn in L. now destruct L.
Qed.

Definition waitingb (s : state) (i : nat) : bool := match ph (lp s i) with Waiting true => true | _ => false end.
Definition nblk (s : state) : nat := length (filter (waitingb s) (seq 0 (cnt s))).
Lemma filter_less {A} (f g : A -> bool) l x :
  In x l -> f x = true -> g x = false -> (forall y, g y = true -> f y = true) -> (length (filter g l) < length (filter f l))%nat.
Proof.
  intros I F G H. assert (forall m, (length (filter g m) <= length (filter f m))%nat) as LE.
  { induction m as [|a m IH]; cbn; [lia|]. destruct (g a) eqn:E; [rewrite (H a E); cbn; lia|destruct (f a); cbn; lia]. }
  induction l as [|a l IH]; [contradiction|]. cbn. destruct I as [->|I].
  - rewrite F, G. cbn. specialize (LE l). lia.
  - specialize (IH I). destruct (g a) eqn:E; [rewrite (H a E); cbn; lia|destruct (f a); cbn; lia].
Qed.
Lemma remove_no_next s i h s1 h1 : remove_from s i h = Some (Some (s1, h1)) ->
  no_next (lp s) (lp s1) /\ cnt s1 = cnt s /\ stop s1 = stop s.
Proof.
  assert (forall s i n, no_next (lp s) (lp (change s i (fun x => set_next x n)))) as CH.
  { intros s' i' n j. destruct (Nat.eq_dec j i') as [->|D]; [now rewrite change_same|now rewrite change_other]. }
  unfold remove_from. destruct (list_of s h) as [l|]; [|discriminate].
  destruct (match h with Some j => Nat.eqb j i | None => false end).
  - intros [= <- <-]. split; [apply CH|]. auto.
  - destruct (before l i) as [p|]; [|discriminate]. intros [= <- <-]. split; [|auto].
    intros j. rewrite (CH _ i None j). apply CH.
Qed.
Lemma unblock_effect s i s' : unblock s i = Ok s' ->
  cnt s' = cnt s /\ stop s' = stop s /\ ph (lp s' i) = Reading /\ forall j, j <> i -> ph (lp s' j) = ph (lp s j).
Proof.
  assert (forall s g, cnt (change s i g) = cnt s /\ stop (change s i g) = stop s) as CS by auto.
  assert (forall s g, (forall x, ph (g x) = Reading) -> ph (lp (change s i g) i) = Reading /\ forall j, j <> i -> ph (lp (change s i g) j) = ph (lp s j)) as CP.
  { intros s0 g H. split; [rewrite change_same; apply H|]. intros. now rewrite change_other. }
  unfold unblock. destruct (ph (lp s i)); try discriminate. intros K. apply keeps_phase in K.
  destruct (negb _). { injection K as <-. split; [reflexivity|]. split; [reflexivity|]. apply CP. reflexivity. }
  destruct (list_of s (primary s)); [|discriminate].
  destruct (Nat.leb _ _). { injection K as <-. split; [reflexivity|]. split; [reflexivity|]. apply CP. reflexivity. }
  destruct (remove_from s i (blocked s)) as [[[s1 h1]|]|] eqn:R; [| |discriminate]; injection K as <-.
  - destruct (remove_no_next _ _ _ _ _ R) as (N & C & S). split; [exact C|]. split; [exact S|].
    destruct (CP s1 (fun x => set_ph (set_next x (primary s)) Reading)) as [A1 A2]; [reflexivity|].
    split; [exact A1|]. intros j J. change (ph (lp (change s1 i (fun x => set_ph (set_next x (primary s)) Reading)) j) = ph (lp s j)).
    rewrite A2 by exact J. apply core_ph, N.
  - split; [reflexivity|]. split; [reflexivity|].
    exact (CP s (fun x => set_ph (set_next x (primary s)) Reading) ltac:(reflexivity)).
Qed.
Lemma unblock_all n : forall s, (nblk s <= n)%nat -> Inv_ false s ->
  exists s', leads s s' /\ Inv_ false s' /\ stop s' = stop s /\ forall i, ~ is_blocked s' i.
Proof.
  induction n as [|n IH]; intros s Hn V.
  - exists s. split; [constructor|]. split; [exact V|]. split; [reflexivity|]. intros i [A W].
    assert (In i (filter (waitingb s) (seq 0 (cnt s)))) as K.
    { apply filter_In. split; [apply in_seq; lia|]. unfold waitingb. now rewrite W. }
    unfold nblk in Hn. destruct (filter (waitingb s) (seq 0 (cnt s))); [contradiction|]. cbn in Hn. lia.
  - destruct (filter (waitingb s) (seq 0 (cnt s))) as [|i r] eqn:Ef.
    { apply IH; [unfold nblk; rewrite Ef; cbn; lia|exact V]. }
    assert (In i (seq 0 (cnt s)) /\ waitingb s i = true) as [K1 K2]. { apply filter_In. rewrite Ef. cbn; auto. }
    assert (ph (lp s i) = Waiting true) as W. { unfold waitingb in K2. destruct (ph (lp s i)) as [| | | |[]| | |]; congruence. }
    assert (i < cnt s)%nat as A by (apply in_seq in K1; lia).
    assert (exists s1, unblock s i = Ok s1 /\ Inv_ false s1) as (s1 & U & V1).
    { destruct (ok_unblock false s i V) as [M|K]; [exfalso|exact K].
      destruct V as (pl & P & B & S & V). unfold unblock in M. rewrite W in M. unfold in_phase in M.
      pose proof (proj2 (Nat.ltb_lt _ _) A) as A'. rewrite A', (stopper_running _ _ _ _ _ i V) in M by congruence. cbn [negb andb] in M.
      destruct (freed (lp s i)); [discriminate|]. destruct (list_of s (primary s)); [|discriminate].
      destruct (Nat.leb _ _); [discriminate|]. destruct (remove_from s i (blocked s)) as [[[]|]|]; discriminate. }
    destruct (unblock_effect _ _ _ U) as (C1 & S1 & W1 & O1).
    destruct (IH s1) as (s2 & L2 & V2 & S2 & N2).
    + assert (nblk s1 < nblk s)%nat; [|lia]. unfold nblk. rewrite C1. apply filter_less with (x := i); auto.
      * unfold waitingb. now rewrite W1.
      * intros y. unfold waitingb. destruct (Nat.eq_dec y i) as [->|D]; [rewrite W1; discriminate|now rewrite O1].
    + exact V1.
    + exists s2. split; [|split; [exact V2|split; [congruence|exact N2]]].
      eapply leads_trans; [|exact L2]. econstructor; [constructor|exact (Logic.I : careful s (MUnblock i))|exact U].
Qed.
Lemma stop_completes s : reach s -> exists s', leads s s' /\ stop s' = NoStop.
Proof.
  intros H. destruct (stop s) as [|who t j] eqn:Es; [exists s; split; [constructor|exact Es]|].
  destruct (reach_inv s H) as (pl & P & B & S & V).
  destruct (finish_round P B (length S) s pl S who t j (le_n _) V Es) as (s1 & pl1 & L1 & V1 & E1).
  destruct (unblock_all (nblk s1) s1 (le_n _)) as (s2 & L2 & (pl2 & P2 & B2 & S2 & V2) & E2 & N2); [do 4 eexists; exact V1|].
  rewrite E1 in E2.
  assert (S2 = []) as ->.
  { pose proof (i_S _ _ _ _ _ _ V2) as L. unfold stopping in L. rewrite E2 in L. destruct S2; [reflexivity|]. cbn in L. now destruct L. }
  destruct (round_ok false s2 who pl2 P2 B2 V2 N2) as (s3 & R3 & P3 & B3 & C3 & H3 & M3 & V3).
  { intros w ->. apply (i_stopper _ _ _ _ _ _ V2). now rewrite E2. }
  assert (leads s s3) as L3.
  { eapply leads_trans; [exact L1|]. eapply leads_trans; [exact L2|].
    econstructor; [constructor|exact (N2 : careful s2 MStopAgain)|]. cbn [step]. unfold stop_again. rewrite E2. exact R3. }
  destruct (rev B2 ++ rev P2) as [|i r] eqn:El; [exists s3; auto|].
  destruct (finish_round [] [] (length (i :: r)) s3 _ _ who _ _ (le_n _) V3 M3) as (s4 & pl4 & L4 & V4 & E4).
  assert (forall i, ~ is_blocked s4 i) as N4.
  { intros k [A W]. pose proof (g_place _ _ _ (i_good _ _ _ _ _ _ V4 k A)) as C.
    assert (pl4 k <> InB) as D. { intros K. apply (proj2 (i_inB _ _ _ _ _ _ V4 k)). auto. }
    destruct (pl4 k); cbn in C; rewrite ?W in C; try congruence; intuition congruence. }
  destruct (round_ok false s4 who pl4 [] [] V4 N4) as (s5 & R5 & _ & _ & _ & _ & M5 & _).
  { intros w ->. apply (i_stopper _ _ _ _ _ _ V4). now rewrite E4. }
  exists s5. split; [|exact M5]. eapply leads_trans; [exact L3|]. eapply leads_trans; [exact L4|].
  econstructor; [constructor|exact (N4 : careful s4 MStopAgain)|]. cbn [step]. unfold stop_again. rewrite E4. exact R5.
Qed.

(* Running a given history *)
Definition carefulb (s : state) (mv : move) : bool :=
  match mv with MStop _ | MStopAgain => Nat.eqb (nblk s) 0 | _ => true end.
Definition entersb (mv : move) : bool := match mv with MEnter _ ok => ok | _ => true end.
Fixpoint runc (s : state) (l : list move) : option state :=
  match l with
  | [] => Some s
  | mv :: r => if carefulb s mv then match step s mv with Ok s1 => runc s1 r | _ => None end else None
  end.
Lemma carefulb_ok s mv : carefulb s mv = true -> careful s mv.
Proof.
  assert (Nat.eqb (nblk s) 0 = true -> forall i, ~ is_blocked s i) as NB.
  { intros E i [A W]. apply Nat.eqb_eq in E. unfold nblk in E.
    assert (In i (filter (waitingb s) (seq 0 (cnt s)))) as K.
    { apply filter_In. split; [apply in_seq; lia|]. unfold waitingb. now rewrite W. }
    destruct (filter (waitingb s) (seq 0 (cnt s))); [contradiction|discriminate]. }
  destruct mv; cbn; auto.
Qed.
Lemma runc_leads l s s' : runc s l = Some s' -> leads s s'.
Proof.
  intros H. assert (forall l a b c, leads a b -> runc b l = Some c -> leads a c) as K.
  { clear. induction l as [|mv r IH]; cbn; intros a b c L E; [congruence|].
    destruct (carefulb b mv) eqn:C; [|discriminate]. destruct (step b mv) eqn:S; try discriminate.
    apply carefulb_ok in C. eapply IH; [|exact E]. econstructor; eauto. }
  eapply K; [constructor|exact H].
Qed.
Lemma runc_entered l s s' : forallb entersb l = true -> runc s l = Some s' -> leads_entered s s'.
Proof.
  intros F H. assert (forall l a b c, forallb entersb l = true -> leads_entered a b -> runc b l = Some c -> leads_entered a c) as K.
  { clear. induction l as [|mv r IH]; cbn; intros a b c F L E; [congruence|].
    apply andb_true_iff in F. destruct F as [F1 F2].
    destruct (carefulb b mv) eqn:C; [|discriminate]. destruct (step b mv) eqn:S; try discriminate.
    apply carefulb_ok in C. eapply IH; [exact F2| |exact E]. econstructor; eauto. intros i ->. discriminate F1. }
  eapply K; [exact F|constructor|exact H].
Qed.
