(* Proofs about watches which depend on polling *)
From Verif Require Import Base AwModel AwSpec PollProofs.
From Coq Require Import Sorted.
From Coq Require Permutation.

Lemma str_eqb_refl n : str_eqb n n = true.
Proof. destruct (str_eqbP n n); congruence. Qed.
Lemma str_eqb_neq a b : a <> b -> str_eqb a b = false.
Proof. destruct (str_eqbP a b); congruence. Qed.
Lemma upd_eq {A} (f : nat -> A) i x : upd f i x i = x.
Proof. unfold upd. now rewrite Nat.eqb_refl. Qed.
Lemma upd_neq {A} (f : nat -> A) i j x : j <> i -> upd f i x j = f j.
Proof. intros H. unfold upd. apply Nat.eqb_neq in H. now rewrite H. Qed.
Lemma updn_eq {A} (f : bytes -> A) n x : updn f n x n = x.
Proof. unfold updn. now rewrite str_eqb_refl. Qed.
Lemma updn_neq {A} (f : bytes -> A) n m x : m <> n -> updn f n x m = f m.
Proof. intros H. unfold updn. now rewrite str_eqb_neq. Qed.
Lemma name_dec (a b : bytes) : {a = b} + {a <> b}.
Proof. apply list_eq_dec, Z.eq_dec. Qed.

(* The handlers are those of the living watches, and everything has its reference *)
Record base (s : state) : Prop := {
  b_new : forall i, (nwatches s <= i)%nat -> w_alive (watches s i) = false;
  b_notify : forall i, w_notify (watches s i) = true -> w_alive (watches s i) = true;
  b_table : forall n i, table s n = Some i <-> w_alive (watches s i) = true /\ w_name (watches s i) = n;
  b_none : poll_ s = None -> frames s = [] /\ forall i, w_alive (watches s i) = false;
  b_refs : forall p, poll_ s = Some p ->
    p_refs p = Z.of_nat (length (p_handlers p)) + Z.of_nat (length (frames s)) /\ 1 <= p_refs p /\
    p_timer p = true /\ NoDup (p_handlers p) /\
    forall i, In i (p_handlers p) <-> w_alive (watches s i) = true;
  b_wait : waiting (trace s) <-> exists p, poll_ s = Some p /\ p_call p = true;
  b_watched : forall n, watched (trace s) n <-> table s n <> None;
  b_frames : Forall (fun f => f_todo f <> None -> f_new f <> []) (frames s);
  b_requests : each (fun e b => e = EvRequest -> ~ waiting b) (trace s)
}.

Lemma each_cons (P : event -> list event -> Prop) e tr : P e tr -> each P tr -> each P (e :: tr).
Proof.
  intros H1 H2 a x b E. destruct a as [|y a]; cbn in E; injection E; intros; subst; [exact H1|].
  eapply H2. reflexivity.
Qed.
Lemma each_head (P : event -> list event -> Prop) e tr : each P (e :: tr) -> P e tr.
Proof. intros H. apply (H [] e tr). reflexivity. Qed.
Lemma each_tail (P : event -> list event -> Prop) e tr : each P (e :: tr) -> each P tr.
Proof. intros H a x b E. apply (H (e :: a) x b). cbn. rewrite E. reflexivity. Qed.
Lemma each_nil (P : event -> list event -> Prop) : each P [].
Proof. intros a e b E. destruct a; discriminate. Qed.

Lemma base_init : base init.
Proof.
  split; cbn; intros; try tauto; try discriminate; auto.
  - split; [discriminate|intros [H _]; discriminate].
  - split; [contradiction|intros (p & H & _); discriminate].
  - apply each_nil.
Qed.

Lemma filter_length_nodup l i : NoDup l -> In i l ->
  S (length (filter (fun x => negb (Nat.eqb x i)) l)) = length l.
Proof.
  induction l as [|a l IH]; intros N I; [contradiction|]. inversion N; subst. cbn [filter].
  destruct (Nat.eqb_spec a i) as [->|D]; cbn [negb length].
  - f_equal. clear IH N I H2. induction l as [|b l IH]; [reflexivity|]. cbn [filter].
    destruct (Nat.eqb_spec b i) as [->|D]; [exfalso; apply H1; left; reflexivity|]. cbn. f_equal. apply IH.
    intros H. apply H1. right. exact H.
  - destruct I as [E|I]; [congruence|]. now rewrite (IH H2 I).
Qed.

(* A watch is freed *)
Lemma watch_free_ok s i p :
  w_alive (watches s i) = true -> poll_ s = Some p ->
  watch_free s i =
  Ok (set_watch
    (let h := filter (fun x => negb (Nat.eqb x i)) (p_handlers p) in
     if p_refs p <=? 1 then (if p_call p then say (set_poll s None) EvCancel else set_poll s None)
     else set_poll s (Some (Poll (p_refs p - 1) (p_list p) (p_call p) (p_timer p) h)))
    i (Watch (w_name (watches s i)) false false)).
Proof.
  intros A P. unfold watch_free, remove_handler, poll_unref, with_poll. rewrite A, P. cbn [bind poll_ set_poll p_refs p_call p_list p_timer p_handlers].
  destruct (p_refs p <=? 1); [destruct (p_call p)|]; reflexivity.
Qed.

Lemma unwatch_ok s n : base s -> exists s1, aidl_unwatch s n = Ok s1 /\ base s1 /\
  frames s1 = frames s /\
  (exists c, trace s1 = c ++ EvUnwatch n :: trace s /\ (c = [] \/ c = [EvCancel] /\ poll_ s1 = None)) /\
  (forall m, m <> n -> table s1 m = table s m) /\ table s1 n = None /\
  (forall p1, poll_ s1 = Some p1 -> exists p, poll_ s = Some p /\ p_list p1 = p_list p /\ p_call p1 = p_call p /\
     (forall i, In i (p_handlers p1) -> In i (p_handlers p))) /\
  (poll_ s1 = None -> frames s = []) /\
  (forall i, w_name (watches s1 i) = w_name (watches s i) /\
             (w_notify (watches s1 i) = true -> w_notify (watches s i) = true) /\
             (w_name (watches s i) <> n -> watches s1 i = watches s i)).
Proof.
  intros B. unfold aidl_unwatch. cbn [table say]. destruct (table s n) as [i|] eqn:T.
  - pose proof (proj1 (b_table _ B n i) T) as [A N].
    destruct (poll_ s) as [p|] eqn:P; [|destruct (b_none _ B P) as [_ X]; rewrite X in A; discriminate].
    destruct (b_refs _ B p P) as (R1 & R2 & R3 & R4 & R5).
    assert (I : In i (p_handlers p)) by (apply R5; exact A).
    pose proof (filter_length_nodup _ _ R4 I) as L.
    rewrite (watch_free_ok _ i p) by assumption. cbn zeta. cbn [watches set_table say]. rewrite N.
    set (h := filter (fun x => negb (Nat.eqb x i)) (p_handlers p)) in *.
    assert (H5 : forall j, In j h <-> In j (p_handlers p) /\ j <> i).
    { intros j. unfold h. rewrite filter_In. destruct (Nat.eqb_spec j i); cbn; intuition congruence. }
    assert (TT : forall m, updn (table s) n None m = if str_eqb m n then None else table s m) by reflexivity.
    destruct (p_refs p <=? 1) eqn:LE.
    + apply Z.leb_le in LE. assert (F0 : frames s = []) by (destruct (frames s); [reflexivity|cbn [length] in *; lia]).
      assert (H0 : h = []) by (destruct h; [reflexivity|cbn [length] in *; lia]).
      assert (AL : forall j, j <> i -> w_alive (watches s j) = false).
      { intros j D. destruct (w_alive (watches s j)) eqn:E; [|reflexivity]. apply R5 in E. exfalso.
        assert (X : In j h) by (apply H5; auto). rewrite H0 in X. exact X. }
      assert (W : forall j, w_alive (upd (watches s) i (Watch n false false) j) = false).
      { intros j. destruct (Nat.eq_dec j i) as [->|D]; [rewrite upd_eq; reflexivity|rewrite upd_neq by exact D; auto]. }
      set (s2 := if p_call p then _ else _).
      assert (ES : exists c, s2 = State (watches s) (nwatches s) (updn (table s) n None) None (frames s) (nlists s) (c ++ EvUnwatch n :: trace s) /\
                   ((c = [] /\ p_call p = false) \/ (c = [EvCancel] /\ p_call p = true))).
      { unfold s2. destruct (p_call p); [exists [EvCancel]|exists []]; split; auto. }
      destruct ES as (c & ES & EC). rewrite ES. clear s2 ES. eexists. split; [reflexivity|].
      assert (ET : forall m, updn (table s) n None m = None).
      { intros m. rewrite TT. destruct (str_eqbP m n) as [_|D]; [reflexivity|]. destruct (table s m) as [j|] eqn:E; [|reflexivity].
        apply (b_table _ B) in E. destruct E as [E1 E2]. destruct (Nat.eq_dec j i) as [->|D2]; [congruence|].
        rewrite AL in E1 by exact D2. discriminate. }
      split; [|cbn; split; [reflexivity|split; [exists c; split; [reflexivity|]; destruct EC as [[-> _]|[-> _]]; auto|]]].
      * split; cbn -[updn].
        -- intros j Hj. apply W.
        -- intros j. unfold set_watch; cbn. destruct (Nat.eq_dec j i) as [->|D]; [rewrite upd_eq; discriminate|].
           rewrite upd_neq by exact D. intros Hn. apply (b_notify _ B) in Hn. rewrite AL in Hn by exact D. discriminate.
        -- intros m j. rewrite ET, W. split; [discriminate|intros [H _]; discriminate].
        -- auto.
        -- discriminate.
        -- split; [|intros (q & H & _); discriminate]. destruct EC as [[-> C]|[-> C]]; cbn; [|tauto].
           intros Hw. apply (b_wait _ B) in Hw. destruct Hw as (q & Hq & Hc). congruence.
        -- intros m. rewrite ET. assert (X : ~ watched (EvUnwatch n :: trace s) m).
           { cbn. intros [D Hw]. apply (b_watched _ B) in Hw. specialize (ET m). rewrite TT, str_eqb_neq in ET by congruence. congruence. }
           destruct EC as [[-> C]|[-> C]]; cbn; cbn in X; tauto.
        -- rewrite F0. constructor.
        -- destruct EC as [[-> C]|[-> C]]; cbn [app]; repeat apply each_cons; try discriminate; apply (b_requests _ B).
      * split; [intros m D; now rewrite updn_neq|]. split; [apply updn_eq|]. split; [discriminate|]. split; [auto|].
        intros j. destruct (Nat.eq_dec j i) as [->|D]; [rewrite upd_eq|rewrite upd_neq by exact D]; cbn; [|auto].
        rewrite N. split; [reflexivity|]. split; [discriminate|congruence].
    + apply Z.leb_gt in LE. eexists. split; [reflexivity|].
      assert (W : forall j, j <> i -> upd (watches s) i (Watch n false false) j = watches s j) by (intros; now apply upd_neq).
      split; [|cbn; split; [reflexivity|split; [exists []; auto|]]].
      * split; cbn -[updn].
        -- intros j Hj. destruct (Nat.eq_dec j i) as [->|D]; [rewrite upd_eq; reflexivity|rewrite W by exact D; now apply (b_new _ B)].
        -- intros j. destruct (Nat.eq_dec j i) as [->|D]; [rewrite upd_eq; discriminate|rewrite W by exact D; apply (b_notify _ B)].
        -- intros m j. rewrite TT. destruct (str_eqbP m n) as [->|D].
           ++ split; [discriminate|]. destruct (Nat.eq_dec j i) as [->|D]; [rewrite upd_eq; intros [H _]; discriminate|].
              rewrite W by exact D. intros H. apply (b_table _ B) in H. congruence.
           ++ rewrite (b_table _ B). destruct (Nat.eq_dec j i) as [->|D2]; [rewrite upd_eq; cbn|now rewrite W].
              split; [intros [_ H]; congruence|intros [H _]; discriminate].
        -- discriminate.
        -- intros q Hq. injection Hq as <-. cbn. split; [rewrite R1; lia|]. split; [lia|]. split; [exact R3|].
           split; [apply NoDup_filter; exact R4|]. intros j. rewrite H5, R5.
           destruct (Nat.eq_dec j i) as [->|D]; [rewrite upd_eq; cbn; intuition congruence|rewrite W by exact D; tauto].
        -- rewrite (b_wait _ B). split; intros (q & Hq & Hc).
           ++ exists (Poll (p_refs p - 1) (p_list p) (p_call p) (p_timer p) h). split; [reflexivity|]. cbn. congruence.
           ++ injection Hq as <-. exists p. auto.
        -- intros m. rewrite TT. rewrite (b_watched _ B). destruct (str_eqbP m n) as [->|D]; intuition congruence.
        -- apply (b_frames _ B).
        -- apply each_cons; [discriminate|apply (b_requests _ B)].
      * split; [intros m D; now rewrite updn_neq|]. split; [apply updn_eq|].
        split; [intros q Hq; injection Hq as <-; exists p; cbn; repeat split; auto; intros j Hj; apply H5 in Hj; tauto|]. split; [discriminate|].
        intros j. destruct (Nat.eq_dec j i) as [->|D]; [rewrite upd_eq|rewrite W by exact D]; cbn; [|auto].
        rewrite N. split; [reflexivity|]. split; [discriminate|congruence].
  - eexists. split; [reflexivity|]. cbn. split.
    + split; cbn; [apply (b_new _ B)|apply (b_notify _ B)|apply (b_table _ B)|apply (b_none _ B)|apply (b_refs _ B)|apply (b_wait _ B)| |apply (b_frames _ B)|].
      * intros m. rewrite (b_watched _ B). split; [tauto|]. intros H. split; [intros ->; congruence|exact H].
      * apply each_cons; [discriminate|apply (b_requests _ B)].
    + split; [reflexivity|]. split; [exists []; auto|]. split; [auto|]. split; [exact T|].
      split; [intros p1 P1; exists p1; auto|]. split; [apply (b_none _ B)|]. auto.
Qed.

(* What becomes of the state when a watch is replaced or added *)
Lemma watch_cases s n : base s ->
  exists ws p c,
  (exists s1, aidl_watch s n = Ok s1 /\
     nwatches s1 = S (nwatches s) /\ table s1 = updn (table s) n (Some (nwatches s)) /\ poll_ s1 = Some p /\
     frames s1 = frames s /\ nlists s1 = nlists s /\ trace s1 = c ++ EvWatch n :: trace s /\
     forall i, watches s1 i = upd ws (nwatches s) (Watch n (known_name s n) true) i) /\
  match poll_ s with
  | None => c = [EvRequest; EvStart] /\ p = Poll 1 None true true [nwatches s] /\ ws = watches s /\ table s n = None
  | Some q => c = [] /\
    match table s n with
    | None => ws = watches s /\ p = Poll (p_refs q + 1) (p_list q) (p_call q) (p_timer q) (p_handlers q ++ [nwatches s])
    | Some j => ws = upd (watches s) j (Watch n false false) /\
        p = Poll (p_refs q) (p_list q) (p_call q) (p_timer q) (filter (fun x => negb (Nat.eqb x j)) (p_handlers q) ++ [nwatches s])
    end
  end.
Proof.
  intros B. unfold aidl_watch, watch_new, add_handler, with_poll, poll_new. cbn [poll_ say].
  destruct (poll_ s) as [q|] eqn:P.
  - cbn [poll_ set_poll add_watch table say set_table bind p_refs p_list p_call p_timer p_handlers].
    destruct (b_refs _ B q P) as (R1 & R2 & R3 & R4 & R5).
    destruct (table s n) as [j|] eqn:T.
    + pose proof (proj1 (b_table _ B n j) T) as [A N].
      assert (JN : j <> nwatches s) by (intros ->; rewrite (b_new _ B) in A by lia; discriminate).
      assert (IJ : In j (p_handlers q)) by (apply R5; exact A).
      match goal with |- context [watch_free ?s0 j] => set (s2 := s0) end.
      assert (A2 : watches s2 j = watches s j) by (unfold s2; cbn; now rewrite upd_neq).
      rewrite (watch_free_ok s2 j (Poll (p_refs q + 1) (p_list q) (p_call q) (p_timer q) (p_handlers q ++ [nwatches s])));
        [|rewrite A2; exact A|reflexivity].
      cbn zeta. cbn [p_refs p_handlers p_list p_call p_timer]. replace (p_refs q + 1 <=? 1) with false by lia.
      cbn [bind]. rewrite A2, N.
      exists (upd (watches s) j (Watch n false false)),
        (Poll (p_refs q) (p_list q) (p_call q) (p_timer q) (filter (fun x => negb (Nat.eqb x j)) (p_handlers q) ++ [nwatches s])), [].
      split; [|auto].
      assert (EF : filter (fun x => negb (Nat.eqb x j)) (p_handlers q ++ [nwatches s]) = filter (fun x => negb (Nat.eqb x j)) (p_handlers q) ++ [nwatches s]).
      { rewrite filter_app. f_equal. cbn. replace (Nat.eqb (nwatches s) j) with false; [reflexivity|]. symmetry. apply Nat.eqb_neq. congruence. }
      match goal with |- context [known_name ?x n] => replace (known_name x n) with (known_name s n) end.
      2: { unfold known_name. rewrite P. reflexivity. }
      assert (U : forall w i, upd (upd (upd (watches s) (nwatches s) (Watch n false true)) j (Watch n false false)) (nwatches s) w i
                   = upd (upd (watches s) j (Watch n false false)) (nwatches s) w i).
      { intros w i. unfold upd. destruct (Nat.eqb i (nwatches s)), (Nat.eqb i j); reflexivity. }
      destruct (known_name s n); eexists; (split; [reflexivity|]); cbn -[upd updn]; rewrite EF;
        replace (p_refs q + 1 - 1) with (p_refs q) by lia; repeat (split; [reflexivity|]); intros i.
      * apply U.
      * rewrite <- U. unfold upd. destruct (Nat.eqb_spec i (nwatches s)) as [->|D].
        -- replace (Nat.eqb (nwatches s) j) with false; [reflexivity|]. symmetry. apply Nat.eqb_neq. congruence.
        -- destruct (Nat.eqb i j); reflexivity.
    + exists (watches s), (Poll (p_refs q + 1) (p_list q) (p_call q) (p_timer q) (p_handlers q ++ [nwatches s])), [].
      split; [|auto]. cbn [bind].
      match goal with |- context [known_name ?x n] => replace (known_name x n) with (known_name s n) end.
      2: { unfold known_name. rewrite P. reflexivity. }
      destruct (known_name s n); eexists; (split; [reflexivity|]); cbn -[upd updn]; repeat (split; [reflexivity|]); intros i; [|reflexivity].
      unfold upd. destruct (Nat.eqb i (nwatches s)); reflexivity.
  - assert (T : table s n = None).
    { destruct (table s n) as [j|] eqn:T; [|reflexivity]. apply (b_table _ B) in T. destruct T as [T _].
      destruct (b_none _ B P) as [_ X]. rewrite X in T. discriminate. }
    cbn [poll_ set_poll add_watch table say set_table bind p_refs p_list p_call p_timer p_handlers]. rewrite T.
    exists (watches s), (Poll 1 None true true [nwatches s]), [EvRequest; EvStart].
    split; [|auto]. cbn [bind].
    assert (K : known_name s n = false) by (unfold known_name; now rewrite P). rewrite K.
    match goal with |- context [known_name ?x n] => replace (known_name x n) with false by reflexivity end.
    eexists; (split; [reflexivity|]); cbn -[upd updn]; repeat (split; [reflexivity|]); intros i; reflexivity.
Qed.

Lemma nodup_snoc {A} (l : list A) x : NoDup l -> ~ In x l -> NoDup (l ++ [x]).
Proof.
  intros N I. apply (Permutation.Permutation_NoDup (l := x :: l)); [apply Permutation.Permutation_cons_append|].
  constructor; assumption.
Qed.

Lemma watch_ok s n : base s -> exists s1, aidl_watch s n = Ok s1 /\ base s1 /\
  frames s1 = frames s /\
  (exists c, trace s1 = c ++ EvWatch n :: trace s /\ (c = [] /\ poll_ s <> None \/ c = [EvRequest; EvStart] /\ poll_ s = None)) /\
  table s1 n = Some (nwatches s) /\ (forall m, m <> n -> table s1 m = table s m) /\
  (exists p1, poll_ s1 = Some p1 /\ p_list p1 = match poll_ s with Some p => p_list p | None => None end) /\
  watches s1 (nwatches s) = Watch n (known_name s n) true /\
  (forall i, i <> nwatches s -> w_name (watches s i) <> n -> watches s1 i = watches s i) /\
  (forall i, i <> nwatches s -> w_alive (watches s1 i) = true -> watches s1 i = watches s i /\ w_name (watches s i) <> n).
Proof.
  intros B. destruct (watch_cases s n B) as (ws & p & c & (s1 & E & E2 & E3 & E4 & E5 & E6 & E7 & E8) & M).
  exists s1. split; [exact E|].
  assert (TT : forall m, table s1 m = if str_eqb m n then Some (nwatches s) else table s m) by (intros m; rewrite E3; reflexivity).
  assert (WN : watches s1 (nwatches s) = Watch n (known_name s n) true) by (rewrite E8; apply upd_eq).
  assert (WO : forall i, i <> nwatches s -> watches s1 i = ws i) by (intros i D; rewrite E8; now apply upd_neq).
  assert (K1 : forall i, i <> nwatches s -> w_name (watches s i) <> n -> ws i = watches s i).
  { intros i D D2. destruct (poll_ s) as [q|]; [|destruct M as (_ & _ & -> & _); reflexivity].
    destruct M as [_ M]. destruct (table s n) as [j|] eqn:T; [|destruct M as [-> _]; reflexivity]. destruct M as [-> _].
    apply upd_neq. intros ->. apply (b_table _ B) in T. tauto. }
  assert (K2 : forall i, i <> nwatches s -> w_alive (ws i) = true -> ws i = watches s i /\ w_name (watches s i) <> n).
  { intros i D A. destruct (name_dec (w_name (watches s i)) n) as [N|N]; [exfalso|auto].
    destruct (poll_ s) as [q|] eqn:P.
    - destruct M as [_ M]. destruct (table s n) as [j|] eqn:T; destruct M as [-> _].
      + destruct (Nat.eq_dec i j) as [->|D2]; [rewrite upd_eq in A; discriminate|]. rewrite upd_neq in A by exact D2.
        assert (X : table s n = Some i) by (apply (b_table _ B); auto). congruence.
      + assert (X : table s n = Some i) by (apply (b_table _ B); auto). congruence.
    - destruct M as (_ & _ & -> & _). destruct (b_none _ B P) as [_ X]. rewrite X in A. discriminate. }
  assert (K3 : forall i, i <> nwatches s -> w_notify (ws i) = true -> w_alive (ws i) = true).
  { intros i D A. destruct (poll_ s) as [q|].
    - destruct M as [_ M]. destruct (table s n) as [j|]; destruct M as [-> _]; [|now apply (b_notify _ B)].
      destruct (Nat.eq_dec i j) as [->|D2]; [rewrite upd_eq in A; discriminate|]. rewrite upd_neq in * by exact D2. now apply (b_notify _ B).
    - destruct M as (_ & _ & -> & _). now apply (b_notify _ B). }
  assert (HP : p_refs p = Z.of_nat (length (p_handlers p)) + Z.of_nat (length (frames s)) /\ 1 <= p_refs p /\ p_timer p = true /\ NoDup (p_handlers p) /\
               (forall i, In i (p_handlers p) <-> w_alive (watches s1 i) = true) /\
               p_list p = match poll_ s with Some p => p_list p | None => None end /\
               p_call p = match poll_ s with Some p => p_call p | None => true end).
  { destruct (poll_ s) as [q|] eqn:P.
    - destruct M as [-> M]. destruct (b_refs _ B q P) as (R1 & R2 & R3 & R4 & R5).
      assert (NI : ~ In (nwatches s) (p_handlers q)) by (rewrite R5, (b_new _ B) by lia; discriminate).
      destruct (table s n) as [j|] eqn:T; destruct M as [-> ->]; cbn [p_refs p_handlers p_list p_call p_timer].
      + pose proof (proj1 (b_table _ B n j) T) as [A N].
        assert (I : In j (p_handlers q)) by (apply R5; exact A).
        pose proof (filter_length_nodup _ _ R4 I) as L. rewrite app_length. cbn [length].
        split; [lia|]. split; [lia|]. split; [exact R3|].
        split; [apply nodup_snoc; [now apply NoDup_filter|rewrite filter_In; tauto]|]. split; [|auto].
        intros i. rewrite in_app_iff, filter_In, R5. cbn. destruct (Nat.eq_dec i (nwatches s)) as [->|D]; [rewrite WN; cbn; intuition|].
        rewrite WO by exact D. destruct (Nat.eqb_spec i j) as [->|D2]; [rewrite upd_eq|rewrite upd_neq by exact D2]; cbn; intuition congruence.
      + rewrite app_length. cbn [length]. split; [lia|]. split; [lia|]. split; [exact R3|]. split; [now apply nodup_snoc|]. split; [|auto].
        intros i. rewrite in_app_iff, R5. cbn. destruct (Nat.eq_dec i (nwatches s)) as [->|D]; [rewrite WN; cbn; intuition|].
        rewrite WO by exact D. intuition congruence.
    - destruct M as (_ & -> & -> & _). destruct (b_none _ B P) as [F X]. rewrite F. cbn. repeat (split; [try lia; reflexivity|]).
      split; [repeat constructor; auto|]. split; [|auto].
      intros i. destruct (Nat.eq_dec i (nwatches s)) as [->|D]; [rewrite WN; cbn; intuition|]. rewrite WO, X by exact D. intuition congruence. }
  destruct HP as (H1 & H2 & H3 & H4 & H5 & H6 & H7).
  split; [split|].
  - intros i Hi. rewrite E2 in Hi. rewrite WO by lia. assert (D : i <> nwatches s) by lia.
    destruct (w_alive (ws i)) eqn:A; [|reflexivity]. destruct (K2 i D A) as [X _]. rewrite X, (b_new _ B) in A by lia. discriminate.
  - intros i. destruct (Nat.eq_dec i (nwatches s)) as [->|D]; [rewrite WN; reflexivity|]. rewrite WO by exact D. now apply K3.
  - intros m i. rewrite TT. destruct (Nat.eq_dec i (nwatches s)) as [->|D].
    + rewrite WN. cbn. destruct (str_eqbP m n) as [->|D2]; [tauto|]. split; [|intros [_ H]; congruence].
      intros H. apply (b_table _ B) in H. destruct H as [H _]. rewrite (b_new _ B) in H by lia. discriminate.
    + rewrite WO by exact D. destruct (str_eqbP m n) as [->|D2].
      * split; [congruence|]. intros [A N]. destruct (K2 i D A) as [X Y]. rewrite X in N. contradiction.
      * rewrite (b_table _ B). split.
        -- intros [A N]. rewrite K1; [auto|exact D|congruence].
        -- intros [A N]. destruct (K2 i D A) as [X Y]. rewrite X in A, N. auto.
  - rewrite E4. discriminate.
  - intros p0. rewrite E4, E5. intros [= <-]. auto.
  - rewrite E4, E7. split.
    + intros Hw. exists p. split; [reflexivity|]. rewrite H7. destruct (poll_ s) as [q|] eqn:P; [|reflexivity].
      destruct M as [-> _]. cbn in Hw. apply (b_wait _ B) in Hw. destruct Hw as (q1 & Q1 & Q2). congruence.
    + intros (p0 & [= <-] & C). rewrite H7 in C. destruct (poll_ s) as [q|] eqn:P.
      * destruct M as [-> _]. cbn. apply (b_wait _ B). exists q. auto.
      * destruct M as [-> _]. cbn. auto.
  - intros m. assert (X : watched (trace s1) m <-> n = m \/ watched (trace s) m).
    { rewrite E7. destruct (poll_ s); destruct M as [-> _]; cbn; tauto. }
    rewrite X, (b_watched _ B), TT. destruct (str_eqbP m n) as [->|D]; [split; [discriminate|auto]|].
    split; [intros [H|H]; congruence|auto].
  - rewrite E5. apply (b_frames _ B).
  - rewrite E7. destruct (poll_ s) as [q|] eqn:P; destruct M as [-> _]; cbn [app]; repeat apply each_cons; try discriminate; try apply (b_requests _ B).
    cbn. intros _ Hw. apply (b_wait _ B) in Hw. destruct Hw as (q1 & Q1 & Q2). congruence.
  - split; [exact E5|]. split; [exists c; split; [exact E7|]; destruct (poll_ s); destruct M as [-> _]; [left; split; [reflexivity|discriminate]|auto]|].
    split; [rewrite TT, str_eqb_refl; reflexivity|]. split; [intros m D; now rewrite TT, str_eqb_neq|].
    split; [exists p; auto|]. split; [exact WN|]. split; [intros i D D2; rewrite WO by exact D; now apply K1|].
    intros i D. rewrite WO by exact D. now apply K2.
Qed.

Definition report (s : state) (i : nat) : state :=
  say (set_watch s i (Watch (w_name (watches s i)) false true)) (EvReport (w_name (watches s i))).

Lemma base_report s i : base s -> w_alive (watches s i) = true -> base (report s i).
Proof.
  intros B A. unfold report.
  assert (AL : forall j, w_alive (upd (watches s) i (Watch (w_name (watches s i)) false true) j) = w_alive (watches s j)).
  { intros j. unfold upd. destruct (Nat.eqb_spec j i) as [->|D]; [symmetry; exact A|reflexivity]. }
  assert (NM : forall j, w_name (upd (watches s) i (Watch (w_name (watches s i)) false true) j) = w_name (watches s j)).
  { intros j. unfold upd. destruct (Nat.eqb_spec j i) as [->|D]; reflexivity. }
  split; cbn -[upd].
  - intros j Hj. rewrite AL. now apply (b_new _ B).
  - intros j. rewrite AL. unfold upd. destruct (Nat.eqb_spec j i) as [->|D]; [discriminate|apply (b_notify _ B)].
  - intros n j. rewrite AL, NM. apply (b_table _ B).
  - intros P. destruct (b_none _ B P) as [F X]. split; [exact F|]. intros j. rewrite AL. apply X.
  - intros p P. destruct (b_refs _ B p P) as (R1 & R2 & R3 & R4 & R5). repeat (split; [assumption|]). intros j. rewrite AL. apply R5.
  - apply (b_wait _ B).
  - apply (b_watched _ B).
  - apply (b_frames _ B).
  - apply each_cons; [discriminate|apply (b_requests _ B)].
Qed.

Lemma base_frames s fs : base s -> length fs = length (frames s) ->
  Forall (fun f => f_todo f <> None -> f_new f <> []) fs -> base (set_frames s fs).
Proof.
  intros B L F. split; cbn.
  - apply (b_new _ B).
  - apply (b_notify _ B).
  - apply (b_table _ B).
  - intros P. destruct (b_none _ B P) as [E X]. rewrite E in L. destruct fs; [auto|discriminate].
  - intros p P. rewrite L. apply (b_refs _ B p P).
  - apply (b_wait _ B).
  - apply (b_watched _ B).
  - exact F.
  - apply (b_requests _ B).
Qed.

Lemma notify_ok s i : base s -> w_notify (watches s i) = true ->
  watch_notify s i = Ok (report s i) /\ w_alive (watches s i) = true.
Proof.
  intros B H. pose proof (b_notify _ B i H) as A. unfold watch_notify, with_poll. rewrite H, A.
  destruct (poll_ s) as [p|] eqn:P; [auto|]. destruct (b_none _ B P) as [_ X]. rewrite X in A. discriminate.
Qed.

Lemma timer_base s s1 : base s -> poll_timer s = Ok s1 -> base s1.
Proof.
  intros B. unfold poll_timer. destruct (poll_ s) as [p|] eqn:P; [|discriminate].
  destruct (b_refs _ B p P) as (R1 & R2 & R3 & R4 & R5). rewrite R3.
  destruct (p_call p) eqn:C; intros [= <-]; [exact B|]. split; cbn; try discriminate.
  - apply (b_new _ B).
  - apply (b_notify _ B).
  - apply (b_table _ B).
  - intros q [= <-]. cbn. auto.
  - split; [eauto|auto].
  - apply (b_watched _ B).
  - apply (b_frames _ B).
  - apply each_cons; [|apply (b_requests _ B)]. intros _ H. apply (b_wait _ B) in H. destruct H as (q & Q1 & Q2). congruence.
Qed.

(* Everything but the number of references *)
Record almost (s : state) : Prop := {
  a_new : forall i, (nwatches s <= i)%nat -> w_alive (watches s i) = false;
  a_notify : forall i, w_notify (watches s i) = true -> w_alive (watches s i) = true;
  a_table : forall n i, table s n = Some i <-> w_alive (watches s i) = true /\ w_name (watches s i) = n;
  a_refs : exists p, poll_ s = Some p /\
    p_refs p = Z.of_nat (length (p_handlers p)) + Z.of_nat (length (frames s)) + 1 /\
    p_timer p = true /\ NoDup (p_handlers p) /\
    forall i, In i (p_handlers p) <-> w_alive (watches s i) = true;
  a_wait : waiting (trace s) <-> exists p, poll_ s = Some p /\ p_call p = true;
  a_watched : forall n, watched (trace s) n <-> table s n <> None;
  a_frames : Forall (fun f => f_todo f <> None -> f_new f <> []) (frames s);
  a_requests : each (fun e b => e = EvRequest -> ~ waiting b) (trace s)
}.

Lemma done_ok s v : almost s -> exists s1 p, list_done s v = Ok s1 /\ base s1 /\ poll_ s = Some p /\
  frames s1 = frames s /\ watches s1 = watches s /\ table s1 = table s /\
  (poll_ s1 = None /\ frames s = [] /\ (trace s1 = trace s \/ trace s1 = EvCancel :: trace s) /\ (forall i, w_alive (watches s i) = false) \/
   trace s1 = trace s /\ poll_ s1 = Some (Poll (p_refs p - 1) v (p_call p) (p_timer p) (p_handlers p))).
Proof.
  intros A. destruct (a_refs _ A) as (p & P & R1 & R3 & R4 & R5). unfold list_done, poll_unref, with_poll. rewrite P.
  cbn [poll_ set_poll p_refs p_call p_list p_timer p_handlers].
  destruct (p_refs p <=? 1) eqn:LE.
  - apply Z.leb_le in LE. assert (H0 : p_handlers p = []) by (destruct (p_handlers p); [reflexivity|cbn [length] in *; lia]).
    assert (F0 : frames s = []) by (destruct (frames s); [reflexivity|cbn [length] in *; lia]).
    assert (W : forall i, w_alive (watches s i) = false).
    { intros i. destruct (w_alive (watches s i)) eqn:E; [|reflexivity]. apply R5 in E. rewrite H0 in E. contradiction. }
    assert (X : forall c, ((c = [] /\ p_call p = false) \/ (c = [EvCancel] /\ p_call p = true)) ->
      base (State (watches s) (nwatches s) (table s) None (frames s) (nlists s) (c ++ trace s))).
    { intros c EC. split; cbn; try discriminate; auto.
      - apply (a_notify _ A).
      - apply (a_table _ A).
      - split; [|intros (q & H & _); discriminate]. destruct EC as [[-> C]|[-> C]]; cbn; [|tauto].
        intros Hw. apply (a_wait _ A) in Hw. destruct Hw as (q & Hq & Hc). congruence.
      - intros m. rewrite <- (a_watched _ A). destruct EC as [[-> C]|[-> C]]; cbn; tauto.
      - rewrite F0. constructor.
      - destruct EC as [[-> C]|[-> C]]; cbn [app]; repeat apply each_cons; try discriminate; apply (a_requests _ A). }
    destruct (p_call p) eqn:C.
    + do 2 eexists. split; [reflexivity|]. split; [apply (X [EvCancel]); auto|]. split; [reflexivity|]. cbn.
      repeat (split; [reflexivity|]). left. auto.
    + do 2 eexists. split; [reflexivity|]. split; [apply (X []); auto|]. split; [reflexivity|]. cbn.
      repeat (split; [reflexivity|]). left. auto.
  - apply Z.leb_gt in LE. do 2 eexists. split; [reflexivity|]. split; [|split; [reflexivity|]; cbn; repeat (split; [reflexivity|]); right; auto].
    split; cbn; try discriminate.
    + apply (a_new _ A).
    + apply (a_notify _ A).
    + apply (a_table _ A).
    + intros q [= <-]. cbn. split; [lia|]. split; [lia|]. auto.
    + rewrite (a_wait _ A). split; intros (q & Hq & Hc).
      * eexists. split; [reflexivity|]. cbn. congruence.
      * injection Hq as <-. exists p. auto.
    + apply (a_watched _ A).
    + apply (a_frames _ A).
    + apply (a_requests _ A).
Qed.

Lemma begin_almost s p c l : base s -> poll_ s = Some p ->
  almost (say (set_poll s (Some (Poll (p_refs p + 1) c false (p_timer p) (p_handlers p)))) (EvAnswer l)).
Proof.
  intros B P. destruct (b_refs _ B p P) as (R1 & R2 & R3 & R4 & R5). split; cbn.
  - apply (b_new _ B).
  - apply (b_notify _ B).
  - apply (b_table _ B).
  - eexists. split; [reflexivity|]. cbn. split; [lia|auto].
  - split; [contradiction|]. intros (q & [= <-] & C). discriminate.
  - apply (b_watched _ B).
  - apply (b_frames _ B).
  - apply each_cons; [discriminate|apply (b_requests _ B)].
Qed.

Lemma almost_frame s f : almost s -> f_todo f = None -> base (set_frames s (f :: frames s)).
Proof.
  intros A T. destruct (a_refs _ A) as (p & P & R1 & R3 & R4 & R5). split; cbn -[Z.of_nat].
  - apply (a_new _ A).
  - apply (a_notify _ A).
  - apply (a_table _ A).
  - congruence.
  - intros q Q. rewrite P in Q. injection Q as <-. split; [lia|]. split; [lia|]. auto.
  - apply (a_wait _ A).
  - apply (a_watched _ A).
  - constructor; [congruence|apply (a_frames _ A)].
  - apply (a_requests _ A).
Qed.

Lemma end_almost s f r : base s -> frames s = f :: r -> almost (next_list (set_frames s r)).
Proof.
  intros B F. assert (P : exists p, poll_ s = Some p).
  { destruct (poll_ s) as [p|] eqn:P; [eauto|]. destruct (b_none _ B P) as [E _]. congruence. }
  destruct P as [p P]. destruct (b_refs _ B p P) as (R1 & R2 & R3 & R4 & R5). rewrite F in R1. cbn [length] in R1.
  split; cbn.
  - apply (b_new _ B).
  - apply (b_notify _ B).
  - apply (b_table _ B).
  - exists p. split; [exact P|]. split; [lia|]. auto.
  - apply (b_wait _ B).
  - apply (b_watched _ B).
  - pose proof (b_frames _ B) as X. rewrite F in X. now inversion X.
  - apply (b_requests _ B).
Qed.

Lemma begin_ok sort s p l : base s -> poll_ s = Some p -> p_call p = true ->
  exists s1, list_begin sort s l = Ok s1 /\ base s1 /\ watches s1 = watches s /\ table s1 = table s /\
  match l with
  | None => frames s1 = frames s /\
    (poll_ s1 = None /\ frames s = [] /\ (trace s1 = EvAnswer None :: trace s \/ trace s1 = EvCancel :: EvAnswer None :: trace s) /\
       (forall i, w_alive (watches s i) = false) \/
     trace s1 = EvAnswer None :: trace s /\ exists p1, poll_ s1 = Some p1 /\ p_list p1 = None)
  | Some x => trace s1 = EvAnswer l :: trace s /\ frames s1 = Frame (sort x) (p_list p) None (sort x) :: frames s /\
     exists p1, poll_ s1 = Some p1 /\ p_list p1 = p_list p
  end.
Proof.
  intros B P C. unfold list_begin. rewrite P, C. destruct l as [x|].
  - eexists. split; [reflexivity|]. split.
    + pose proof (begin_almost s p (p_list p) (Some x) B P) as A.
      apply (almost_frame _ (Frame (sort x) (p_list p) None (sort x)) A). reflexivity.
    + cbn. eauto 10.
  - destruct (done_ok _ None (begin_almost s p (p_list p) None B P)) as (s1 & q & E & B1 & P1 & F1 & W1 & T1 & H).
    exists s1. split; [exact E|]. split; [exact B1|]. split; [exact W1|]. split; [exact T1|]. split; [exact F1|].
    cbn [poll_ say set_poll] in P1. injection P1 as <-. cbn in H. destruct H as [H|[H1 H2]]; [left; exact H|right]. split; [exact H1|].
    eexists. split; [exact H2|]. reflexivity.
Qed.

(* What processing an answer does next *)
Inductive next_case (s : state) (f : frame) (r : list frame) (p : pollobj) : out -> Prop :=
| nx_call i t x nw : f_todo f = Some (i :: t) -> f_new f = x :: nw -> In i (p_handlers p) -> w_name (watches s i) = x ->
    next_case s f r p (Ok (report (set_frames s (Frame (x :: nw) (f_old f) (Some t) (f_services f) :: r)) i))
| nx_skip i t x nw : f_todo f = Some (i :: t) -> f_new f = x :: nw -> ~ (In i (p_handlers p) /\ w_name (watches s i) = x) ->
    next_case s f r p (Ok (set_frames s (Frame (x :: nw) (f_old f) (Some t) (f_services f) :: r)))
| nx_next x nw : f_todo f = Some [] -> f_new f = x :: nw ->
    next_case s f r p (Ok (set_frames s (Frame nw (f_old f) None (f_services f) :: r)))
| nx_done : f_todo f = None -> f_new f = [] ->
    next_case s f r p (list_done (next_list (set_frames s r)) (Some (nlists s, f_services f)))
| nx_emit x nw : f_todo f = None -> f_new f = x :: nw ->
    match f_old f with Some (v, o) => o <> [] /\ strv_find o x = None | None => True end ->
    next_case s f r p (Ok (set_frames s (Frame (x :: nw) (f_old f) (Some (p_handlers p)) (f_services f) :: r)))
| nx_old_end x nw v : f_todo f = None -> f_new f = x :: nw -> f_old f = Some (v, []) ->
    next_case s f r p (Ok (set_frames s (Frame (x :: nw) None None (f_services f) :: r)))
| nx_known x nw v o k : f_todo f = None -> f_new f = x :: nw -> f_old f = Some (v, o) -> o <> [] -> strv_find o x = Some k ->
    next_case s f r p (Ok (set_frames s (Frame nw (Some (v, skipn (S k) o)) None (f_services f) :: r)))
| nx_freed x nw v o : f_todo f = None -> f_new f = x :: nw -> f_old f = Some (v, o) ->
    match p_list p with Some (v1, _) => v <> v1 | None => True end -> next_case s f r p Crash.

Lemma next_cases s f r p : base s -> frames s = f :: r -> poll_ s = Some p -> next_case s f r p (list_next s).
Proof.
  intros B F P. pose proof (b_frames _ B) as FN. rewrite F in FN. inversion FN as [|? ? FN1 _]; subst. clear FN.
  destruct (b_refs _ B p P) as (_ & _ & _ & _ & R5).
  unfold list_next. rewrite F. unfold with_poll. rewrite P.
  destruct (f_todo f) as [[|i t]|] eqn:T.
  - destruct (f_new f) as [|x nw] eqn:N; [exfalso; apply FN1; [discriminate|reflexivity]|]. eapply nx_next; eassumption.
  - destruct (f_new f) as [|x nw] eqn:N; [exfalso; apply FN1; [discriminate|reflexivity]|].
    destruct (existsb (Nat.eqb i) (p_handlers p)) eqn:E.
    + apply existsb_exists in E. destruct E as (j & Hj & Ej). apply Nat.eqb_eq in Ej. subst j.
      unfold watch_proc. cbn [watches set_frames]. rewrite (proj1 (R5 i) Hj).
      destruct (str_eqbP x (w_name (watches s i))) as [->|D].
      * apply (nx_call s f r p i t _ nw); auto.
      * eapply nx_skip; eauto. intros [_ X]. congruence.
    + eapply nx_skip; eauto. intros [X _]. assert (H : existsb (Nat.eqb i) (p_handlers p) = true); [|congruence].
      apply existsb_exists. exists i. split; [exact X|apply Nat.eqb_refl].
  - destruct (f_new f) as [|x nw] eqn:N; [now apply nx_done|].
    destruct (f_old f) as [[v o]|] eqn:O.
    + destruct (p_list p) as [[v1 l1]|] eqn:PL.
      * destruct (Nat.eqb_spec v v1) as [->|D]; [|eapply nx_freed; eauto; now rewrite PL].
        destruct o as [|o1 o2]; [eapply nx_old_end; eassumption|].
        destruct (strv_find (o1 :: o2) x) as [k|] eqn:SF.
        -- eapply nx_known; eauto. discriminate.
        -- rewrite <- O. eapply nx_emit; eauto. rewrite O. split; [discriminate|exact SF].
      * eapply nx_freed; eauto. now rewrite PL.
    + rewrite <- O. eapply nx_emit; eauto. now rewrite O.
Qed.

Lemma next_base s s1 : base s -> list_next s = Ok s1 -> base s1.
Proof.
  intros B E. destruct (frames s) as [|f r] eqn:F; [unfold list_next in E; rewrite F in E; discriminate|].
  destruct (poll_ s) as [p|] eqn:P; [|destruct (b_none _ B P); congruence].
  pose proof (b_frames _ B) as FN. rewrite F in FN. inversion FN as [|? ? FN1 FN2]; subst.
  destruct (b_refs _ B p P) as (_ & _ & _ & _ & R5).
  assert (Q : forall f1, (f_todo f1 <> None -> f_new f1 <> []) -> base (set_frames s (f1 :: r))).
  { intros f1 H. apply base_frames; [exact B|rewrite F; reflexivity|constructor; assumption]. }
  pose proof (next_cases s f r p B F P) as C. rewrite E in C.
  remember (Ok s1) as z eqn:Z. destruct C; subst; try (injection Z as <-); try discriminate;
    try (apply Q; cbn; congruence).
  - apply base_report; [apply Q; cbn; discriminate|]. cbn. now apply R5.
  - destruct (done_ok _ (Some (nlists s, f_services f)) (end_almost s f r B F)) as (s2 & q & E2 & B2 & _). congruence.
Qed.

Lemma base_step sort s m s1 : base s -> step sort s m = Ok s1 -> base s1.
Proof.
  intros B. destruct m as [n|n|i| |l|]; cbn [step]; intros E.
  - destruct (watch_ok s n B) as (s2 & E2 & B2 & _). congruence.
  - destruct (unwatch_ok s n B) as (s2 & E2 & B2 & _). congruence.
  - destruct (w_notify (watches s i)) eqn:W; [|unfold watch_notify in E; rewrite W in E; discriminate].
    destruct (notify_ok s i B W) as [E2 A]. rewrite E2 in E. injection E as <-. now apply base_report.
  - eapply timer_base; eassumption.
  - assert (X := E). unfold list_begin in X. destruct (poll_ s) as [p|] eqn:P; [|discriminate]. destruct (p_call p) eqn:C; [|discriminate]. clear X.
    destruct (begin_ok sort s p l B P C) as (s2 & E2 & B2 & _). congruence.
  - eapply next_base; eassumption.
Qed.

Lemma reach_base sort ok s : reach sort ok s -> base s.
Proof. induction 1; [apply base_init|eapply base_step; eassumption]. Qed.

Lemma reach_weaken sort (ok ok1 : state -> move -> Prop) s :
  (forall s m, ok s m -> ok1 s m) -> reach sort ok s -> reach sort ok1 s.
Proof. intros H. induction 1; [constructor|econstructor; eauto]. Qed.

(* Polling *)
Lemma polling_iff sort s : reach sort anything s ->
  (idle s -> (polling s <-> exists n, watched (trace s) n)) /\ ((exists n, watched (trace s) n) -> polling s) /\
  each (fun e b => e = EvRequest -> ~ waiting b) (trace s) /\
  (polling s -> exists s1, step sort s MTimer = Ok s1 /\ waiting (trace s1)).
Proof.
  intros R. apply reach_base in R. rename R into B.
  assert (X : (exists n, watched (trace s) n) -> polling s).
  { intros (n & H). apply (b_watched _ B) in H. destruct (table s n) as [i|] eqn:T; [|congruence].
    apply (b_table _ B) in T. destruct T as [T _]. destruct (poll_ s) as [p|] eqn:P; [exists p; split; [exact P|apply (b_refs _ B p P)]|].
    destruct (b_none _ B P) as [_ Y]. rewrite Y in T. discriminate. }
  split; [|split; [exact X|split; [apply (b_requests _ B)|]]].
  - intros I. split; [|exact X]. intros (p & P & _). destruct (b_refs _ B p P) as (R1 & R2 & R3 & R4 & R5).
    rewrite I in R1. destruct (p_handlers p) as [|i h] eqn:H; [cbn in R1; lia|].
    assert (A : w_alive (watches s i) = true) by (apply R5; left; reflexivity).
    exists (w_name (watches s i)). apply (b_watched _ B). rewrite (proj2 (b_table _ B (w_name (watches s i)) i)); [discriminate|auto].
  - intros (p & P & T). cbn [step]. unfold poll_timer. rewrite P, T. destruct (p_call p) eqn:C.
    + exists s. split; [reflexivity|]. apply (b_wait _ B). eauto.
    + eexists. split; [reflexivity|]. exact I.
Qed.

(* Without nesting, the list which is being compared is the one of the poll object *)
Definition plist (s : state) : list bytes :=
  match poll_ s with
  | Some p => match p_list p with Some (_, l) => l | None => [] end
  | None => []
  end.
Record calm (s : state) : Prop := {
  c_base : base s;
  c_len : frames s = [] \/ exists f, frames s = [f];
  c_old : forall f, frames s = [f] ->
    match f_old f with
    | Some (v, o) => exists p l, poll_ s = Some p /\ p_list p = Some (v, l)
    | None => True
    end
}.

Lemma calm_old s s1 : calm s -> base s1 -> frames s1 = frames s ->
  (forall p, poll_ s = Some p -> frames s <> [] -> exists p1, poll_ s1 = Some p1 /\ p_list p1 = p_list p) -> calm s1.
Proof.
  intros C B F H. split; [exact B|rewrite F; apply (c_len _ C)|]. intros f Hf. rewrite F in Hf. pose proof (c_old _ C f Hf) as O.
  destruct (f_old f) as [[v o]|]; [|exact I]. destruct O as (p & l & P & L).
  destruct (H p P ltac:(congruence)) as (p1 & P1 & L1). exists p1, l. split; [exact P1|congruence].
Qed.

Lemma calm_step sort s m s1 : calm s -> not_nested s m -> step sort s m = Ok s1 -> calm s1.
Proof.
  intros C OK E. pose proof (c_base _ C) as B. pose proof (base_step sort s m s1 B E) as B1.
  destruct m as [n|n|i| |l|]; cbn [step not_nested] in *.
  - destruct (watch_ok s n B) as (s2 & E2 & _ & F & _ & _ & _ & (p1 & P1 & L1) & _). assert (s2 = s1) by congruence. subst s2.
    apply (calm_old s); auto. intros p P _. rewrite P in L1. eauto.
  - destruct (unwatch_ok s n B) as (s2 & E2 & _ & F & _ & _ & _ & H & HN & _). assert (s2 = s1) by congruence. subst s2.
    apply (calm_old s); auto. intros p P NF. destruct (poll_ s1) as [p1|]; [|exfalso; auto].
    destruct (H p1 eq_refl) as (p0 & P0 & L0 & _). exists p1. split; [reflexivity|congruence].
  - destruct (w_notify (watches s i)) eqn:W; [|unfold watch_notify in E; rewrite W in E; discriminate].
    destruct (notify_ok s i B W) as [E2 A]. rewrite E2 in E. injection E as <-. apply (calm_old s); auto. intros p P _. exists p. auto.
  - assert (X := E). unfold poll_timer in X. destruct (poll_ s) as [p|] eqn:P; [|discriminate]. destruct (p_timer p); [|discriminate].
    apply (calm_old s); auto; [|intros p0 P0 _]; destruct (p_call p); injection X as <-; try reflexivity.
    + exists p0. auto.
    + rewrite P in P0. injection P0 as <-. eexists. split; reflexivity.
  - assert (X := E). unfold list_begin in X. destruct (poll_ s) as [p|] eqn:P; [|discriminate]. destruct (p_call p) eqn:Cl; [|discriminate]. clear X.
    destruct (begin_ok sort s p l B P Cl) as (s2 & E2 & _ & _ & _ & H). assert (s2 = s1) by congruence. subst s2. rewrite OK in H.
    destruct l as [x|].
    + destruct H as (_ & F & p1 & P1 & L1). split; [exact B1|right; eauto|]. intros f Hf. rewrite F in Hf. injection Hf as <-. cbn.
      destruct (p_list p) as [[v o]|] eqn:PL; [|exact I]. exists p1, o. auto.
    + destruct H as (F & _). split; [exact B1|auto|]. intros f Hf. congruence.
  - destruct (c_len _ C) as [F|[f F]]; [unfold list_next in E; rewrite F in E; discriminate|].
    destruct (poll_ s) as [p|] eqn:P; [|destruct (b_none _ B P); congruence].
    pose proof (next_cases s f [] p B F P) as N. rewrite E in N. pose proof (c_old _ C f F) as O.
    remember (Ok s1) as z eqn:Z. destruct N; subst; try (injection Z as <-); try discriminate;
      try (split; [exact B1|right; eexists; reflexivity|]; intros f1 [= <-]; cbn; try exact O; auto).
    + destruct (done_ok _ (Some (nlists s, f_services f)) (end_almost s f [] B F)) as (s2 & q & E2 & _ & _ & F2 & _).
      assert (s2 = s1) by congruence. subst s2. cbn in F2. split; [exact B1|auto|]. intros f1 Hf. congruence.
    + rewrite H1 in O. exact O.
Qed.

Lemma reach_calm sort s : reach sort not_nested s -> calm s.
Proof.
  induction 1; [|eapply calm_step; eassumption]. split; [apply base_init|left; reflexivity|intros f H; discriminate].
Qed.

Lemma calm_no_crash sort s m : calm s -> step sort s m <> Crash.
Proof.
  intros C E. pose proof (c_base _ C) as B. destruct m as [n|n|i| |l|]; cbn [step] in E.
  - destruct (watch_ok s n B) as (s2 & E2 & _). congruence.
  - destruct (unwatch_ok s n B) as (s2 & E2 & _). congruence.
  - destruct (w_notify (watches s i)) eqn:W; [|unfold watch_notify in E; rewrite W in E; discriminate].
    destruct (notify_ok s i B W) as [E2 A]. congruence.
  - unfold poll_timer in E. destruct (poll_ s) as [p|]; [|discriminate]. destruct (p_timer p); [|discriminate]. destruct (p_call p); discriminate.
  - assert (X := E). unfold list_begin in X. destruct (poll_ s) as [p|] eqn:P; [|discriminate]. destruct (p_call p) eqn:Cl; [|discriminate]. clear X.
    destruct (begin_ok sort s p l B P Cl) as (s2 & E2 & _). congruence.
  - destruct (c_len _ C) as [F|[f F]]; [unfold list_next in E; rewrite F in E; discriminate|].
    destruct (poll_ s) as [p|] eqn:P; [|destruct (b_none _ B P); congruence].
    pose proof (next_cases s f [] p B F P) as N. rewrite E in N. pose proof (c_old _ C f F) as O.
    remember Crash as z eqn:Z. destruct N; subst; try discriminate.
    + destruct (done_ok _ (Some (nlists s, f_services f)) (end_almost s f [] B F)) as (s2 & q & E2 & _). congruence.
    + rewrite H1 in O. destruct O as (q & l & Q & L). rewrite P in Q. injection Q as <-. rewrite L in H2. congruence.
Qed.

(* What is left to be reported by an answer *)
Definition rest_old (f : frame) : list bytes := match f_old f with Some (_, o) => o | None => [] end.
Definition due (f : frame) : list bytes :=
  match f_todo f with None => new_names (rest_old f) (f_new f) | Some _ => new_names (rest_old f) (tl (f_new f)) end.
Definition emit_in (s : state) (f : frame) (n : bytes) : Prop :=
  In n (due f) \/ exists t i r, f_todo f = Some t /\ f_new f = n :: r /\ table s n = Some i /\ In i t.

Lemma known_plist s n : known_name s n = true <-> In n (plist s).
Proof.
  unfold known_name, plist. destruct (poll_ s) as [p|]; [|split; [discriminate|contradiction]].
  destruct (p_list p) as [[v l]|]; [|split; [discriminate|contradiction]].
  destruct (strv_find l n) as [k|] eqn:E.
  - split; [|reflexivity]. intros _. apply find_some in E. destruct E as (a & b & -> & _). apply in_or_app. right. left. reflexivity.
  - split; [discriminate|]. intros H. apply find_none in E. contradiction.
Qed.

Lemma listed_seen tr n : watched tr n -> listed tr n -> seen tr n.
Proof.
  induction tr as [|e tr IH]; [contradiction|]. destruct e as [m|m| | | |[l|]|m]; cbn; intros W L; try tauto.
  destruct (str_eqbP m n) as [E|D]; [exact L|]. apply IH; [|exact L]. destruct W; [contradiction|assumption].
Qed.

(* How other events leave things as they are *)
Definition same_for (n : bytes) (e : event) : Prop :=
  match e with EvWatch m | EvUnwatch m => m <> n | EvRequest | EvCancel => True | _ => False end.
Lemma same_reported n e tr : same_for n e -> reported (e :: tr) n <-> reported tr n.
Proof. destruct e; cbn; tauto. Qed.
Lemma same_seen n e tr : same_for n e -> seen (e :: tr) n <-> seen tr n.
Proof. destruct e; cbn; try tauto. intros H. now rewrite str_eqb_neq. Qed.
Lemma same_absent n e tr : same_for n e -> absent_since (e :: tr) n <-> absent_since tr n.
Proof. destruct e; cbn; tauto. Qed.
Lemma same_listed n m e tr : same_for m e -> listed (e :: tr) n <-> listed tr n.
Proof. destruct e; cbn; tauto. Qed.

Section Care.
Variable sort : list bytes -> list bytes.
Hypothesis Hsort : strv_sort_contract sort.

Lemma sort_in l n : In n (sort l) <-> In n l.
Proof.
  destruct (Hsort l) as [P _]. split; apply Permutation.Permutation_in; [apply Permutation.Permutation_sym|]; exact P.
Qed.

Record care (s : state) : Prop := {
  k_calm : calm s;
  k_list : idle s -> poll_ s <> None -> forall n, In n (plist s) <-> listed (trace s) n;
  k_idle : idle s -> forall n i, table s n = Some i -> In n (plist s) -> reported (trace s) n \/ w_notify (watches s i) = true;
  k_frame : forall f, frames s = [f] ->
    (forall n, In n (f_services f) <-> listed (trace s) n) /\
    (exists c, f_services f = c ++ f_new f) /\
    forall n i, table s n = Some i -> In n (f_services f) ->
      reported (trace s) n \/ w_notify (watches s i) = true \/ emit_in s f n;
  k_seen : forall i, w_notify (watches s i) = true -> seen (trace s) (w_name (watches s i));
  k_watched : forall n, reported (trace s) n -> table s n <> None;
  k_reports : each (fun e b => forall n, e = EvReport n -> watched b n /\ seen b n) (trace s)
}.

Lemma care_init : care init.
Proof.
  split; cbn; try contradiction; try discriminate; auto.
  - split; [apply base_init|left; reflexivity|intros f H; discriminate].
  - apply each_nil.
Qed.

(* Events which don't report *)
Definition quiet (e : event) : Prop := match e with EvReport _ => False | _ => True end.
Lemma each_quiet c tr : Forall quiet c -> each (fun e b => forall n, e = EvReport n -> watched b n /\ seen b n) tr ->
  each (fun e b => forall n, e = EvReport n -> watched b n /\ seen b n) (c ++ tr).
Proof.
  intros Q H. induction Q as [|e c Q1 Q2 IH]; [exact H|]. cbn [app]. apply each_cons; [|exact IH]. intros n ->. contradiction.
Qed.

Lemma care_watch s n s1 : care s -> idle s -> aidl_watch s n = Ok s1 -> care s1.
Proof.
  intros K I E. pose proof (k_calm _ K) as C. pose proof (c_base _ C) as B.
  pose proof (calm_step sort s (MWatch n) s1 C Logic.I E) as C1.
  destruct (watch_ok s n B) as (s2 & E2 & B1 & F & (c & TR & EC) & T1 & T2 & (p1 & P1 & L1) & W1 & W2 & W3).
  assert (s2 = s1) by congruence. subst s2. clear E2.
  assert (PL : plist s1 = plist s).
  { unfold plist. rewrite P1, L1. destruct (poll_ s) as [p|]; [|reflexivity]. reflexivity. }
  assert (QL : forall m, listed (trace s1) m <-> (poll_ s <> None /\ listed (trace s) m)).
  { intros m. rewrite TR. destruct EC as [[-> X]|[-> X]]; cbn; tauto. }
  assert (QR : forall m, m <> n -> (reported (trace s1) m <-> reported (trace s) m)).
  { intros m D. rewrite TR. destruct EC as [[-> X]|[-> X]]; cbn; intuition congruence. }
  assert (QN : ~ reported (trace s1) n).
  { rewrite TR. destruct EC as [[-> X]|[-> X]]; cbn; intuition congruence. }
  assert (QS : forall m, m <> n -> seen (trace s) m -> seen (trace s1) m).
  { intros m D H. rewrite TR. destruct EC as [[-> X]|[-> X]]; cbn; rewrite str_eqb_neq by congruence; exact H. }
  split; [exact C1| | | | | |].
  - intros _ _ m. rewrite PL, QL. destruct (poll_ s) as [p|] eqn:P.
    + rewrite (k_list _ K I) by (rewrite P; discriminate). split; [split; [discriminate|assumption]|tauto].
    + unfold plist. rewrite P. cbn. split; [contradiction|intros [H _]; congruence].
  - intros _ m i T IN. rewrite PL in IN. destruct (name_dec m n) as [->|D].
    + right. rewrite T1 in T. injection T as <-. rewrite W1. cbn. now apply known_plist.
    + rewrite T2 in T by exact D. rewrite QR by exact D. destruct (k_idle _ K I m i T IN) as [H|H]; [auto|right].
      apply (b_table _ B) in T. destruct T as [A N]. rewrite W2; [exact H| |congruence].
      intros ->. rewrite (b_new _ B) in A by lia. discriminate.
  - intros f Hf. rewrite F, I in Hf. discriminate.
  - intros i Hi. destruct (Nat.eq_dec i (nwatches s)) as [->|D].
    + rewrite W1 in *. cbn in *. apply known_plist in Hi. destruct (poll_ s) as [p|] eqn:P.
      * rewrite (k_list _ K I) in Hi by (rewrite P; discriminate). rewrite TR. destruct EC as [[-> X]|[-> X]]; [|discriminate].
        cbn. now rewrite str_eqb_refl.
      * unfold plist in Hi. rewrite P in Hi. contradiction.
    + destruct (W3 i D (b_notify _ B1 i Hi)) as [X Y]. rewrite X in *. apply QS; [exact Y|]. now apply (k_seen _ K).
  - intros m H. destruct (name_dec m n) as [->|D]; [contradiction|]. rewrite T2 by exact D. apply (k_watched _ K). now apply QR.
  - rewrite TR. replace (c ++ EvWatch n :: trace s) with ((c ++ [EvWatch n]) ++ trace s) by (rewrite <- app_assoc; reflexivity).
    apply each_quiet; [|apply (k_reports _ K)]. destruct EC as [[-> X]|[-> X]]; repeat constructor.
Qed.

Lemma care_unwatch s n s1 : care s -> aidl_unwatch s n = Ok s1 -> care s1.
Proof.
  intros K E. pose proof (k_calm _ K) as C. pose proof (c_base _ C) as B.
  pose proof (calm_step sort s (MUnwatch n) s1 C Logic.I E) as C1.
  destruct (unwatch_ok s n B) as (s2 & E2 & B1 & F & (c & TR & EC) & T2 & T1 & PS & PN & W).
  assert (s2 = s1) by congruence. subst s2. clear E2.
  assert (PL : poll_ s1 <> None -> plist s1 = plist s /\ poll_ s <> None).
  { destruct (poll_ s1) as [p1|] eqn:P1; [|congruence]. intros _. destruct (PS p1 eq_refl) as (p & P & L & _).
    unfold plist. rewrite P1, P, L. split; [reflexivity|discriminate]. }
  assert (QL : forall m, listed (trace s1) m <-> listed (trace s) m).
  { intros m. rewrite TR. destruct EC as [->|[-> _]]; cbn; tauto. }
  assert (QR : forall m, m <> n -> (reported (trace s1) m <-> reported (trace s) m)).
  { intros m D. rewrite TR. destruct EC as [->|[-> X]]; cbn; intuition congruence. }
  assert (QN : ~ reported (trace s1) n).
  { rewrite TR. destruct EC as [->|[-> X]]; cbn; intuition congruence. }
  assert (QS : forall m, m <> n -> seen (trace s) m -> seen (trace s1) m).
  { intros m D H. rewrite TR. destruct EC as [->|[-> X]]; cbn; intuition congruence. }
  assert (NP : forall m i, m <> n -> table s m = Some i -> watches s1 i = watches s i).
  { intros m i D T. apply W. apply (b_table _ B) in T. destruct T as [_ N]. congruence. }
  split; [exact C1| | | | | |].
  - intros I NP1 m. destruct (PL NP1) as [PE PS0]. rewrite PE, QL. apply (k_list _ K); [unfold idle in *; congruence|exact PS0].
  - intros I m i T IN. destruct (name_dec m n) as [->|D]; [congruence|]. rewrite T2 in T by exact D.
    assert (NP1 : poll_ s1 <> None) by (intros X; unfold plist in IN; rewrite X in IN; exact IN).
    destruct (PL NP1) as [PE PS0]. rewrite PE in IN. rewrite QR by exact D. rewrite (NP m i D T).
    apply (k_idle _ K); auto. unfold idle in *; congruence.
  - intros f Hf. rewrite F in Hf. destruct (k_frame _ K f Hf) as (K1 & K2 & K3). split; [intros m; rewrite QL; apply K1|]. split; [exact K2|].
    intros m i T IN. destruct (name_dec m n) as [->|D]; [congruence|]. rewrite T2 in T by exact D.
    rewrite QR by exact D. rewrite (NP m i D T). destruct (K3 m i T IN) as [H|[H|H]]; auto. right. right.
    destruct H as [H|(t & j & r & H1 & H2 & H3 & H4)]; [left; exact H|right]. exists t, j, r. rewrite T2 by exact D. auto.
  - intros i Hi. destruct (W i) as (X & Y & Z). rewrite X. apply QS; [|apply (k_seen _ K); auto].
    intros N. pose proof (b_notify _ B1 i Hi) as A. assert (T : table s1 n = Some i) by (apply (b_table _ B1); split; congruence). congruence.
  - intros m H. destruct (name_dec m n) as [->|D]; [contradiction|]. rewrite T2 by exact D. apply (k_watched _ K). now apply QR.
  - rewrite TR. replace (c ++ EvUnwatch n :: trace s) with ((c ++ [EvUnwatch n]) ++ trace s) by (rewrite <- app_assoc; reflexivity).
    apply each_quiet; [|apply (k_reports _ K)]. destruct EC as [->|[-> X]]; repeat constructor.
Qed.

(* What is said about a state in which a service is reported *)
Lemma care_report s i f1 : care s -> w_alive (watches s i) = true -> seen (trace s) (w_name (watches s i)) ->
  (frames s = [] /\ f1 = [] \/
   exists f g, frames s = [f] /\ f1 = [g] /\ f_services g = f_services f /\ f_old g = f_old f /\ (exists c, f_new f = c ++ f_new g) /\
     (f_todo g <> None -> f_new g <> []) /\
     forall n j, table s n = Some j -> emit_in s f n -> n = w_name (watches s i) \/ emit_in s g n) ->
  care (report (set_frames s f1) i).
Proof.
  intros K A HS HF. pose proof (k_calm _ K) as C. pose proof (c_base _ C) as B.
  assert (B1 : base (report (set_frames s f1) i)).
  { apply base_report; [|exact A]. apply base_frames; [exact B| |].
    - destruct HF as [[-> ->]|(f & g & -> & -> & _)]; reflexivity.
    - destruct HF as [[_ ->]|(f & g & _ & -> & _ & _ & _ & H & _)]; constructor; [exact H|constructor]. }
  assert (TI : table s (w_name (watches s i)) = Some i) by (apply (b_table _ B); auto).
  assert (QR : forall m, reported (trace s) m \/ w_name (watches s i) = m -> reported (trace (report (set_frames s f1) i)) m) by (intros m; cbn; tauto).
  assert (QW : forall j, w_notify (watches (report (set_frames s f1) i) j) = true -> w_notify (watches s j) = true /\ watches (report (set_frames s f1) i) j = watches s j).
  { intros j. cbn. unfold upd. destruct (Nat.eqb_spec j i) as [->|D]; [discriminate|auto]. }
  assert (QU : forall m j, table s m = Some j -> w_notify (watches s j) = true ->
    reported (trace (report (set_frames s f1) i)) m \/ w_notify (watches (report (set_frames s f1) i) j) = true).
  { intros m j T H. cbn -[upd]. unfold upd. destruct (Nat.eqb_spec j i) as [->|D]; [|auto]. left. left.
    apply (b_table _ B) in T. tauto. }
  split.
  - split; [exact B1| |].
    + cbn. destruct HF as [[_ ->]|(f & g & _ & -> & _)]; [auto|right; eauto].
    + intros f0 Hf0. cbn in Hf0. destruct HF as [[_ ->]|(f & g & F & -> & _ & O & _)]; [discriminate|]. injection Hf0 as <-.
      rewrite O. apply (c_old _ C f F).
  - intros I P n. cbn in I |- *. apply (k_list _ K); [|exact P]. destruct HF as [[F _]|(f & g & _ & -> & _)]; [exact F|discriminate].
  - intros I n j T IN. cbn in I. assert (I0 : idle s) by (destruct HF as [[F _]|(f & g & _ & -> & _)]; [exact F|discriminate]).
    destruct (k_idle _ K I0 n j T IN) as [H|H]; [left; apply QR; auto|]. now apply QU.
  - intros f0 Hf0. cbn in Hf0. destruct HF as [[_ ->]|(f & g & F & -> & SV & O & SF & _ & EM)]; [discriminate|]. injection Hf0 as <-.
    destruct (k_frame _ K f F) as (K1 & (c1 & K2) & K3). rewrite SV. split; [exact K1|].
    split; [destruct SF as [c2 SF]; exists (c1 ++ c2); rewrite K2, SF, app_assoc; reflexivity|].
    intros n j T IN. destruct (K3 n j T IN) as [H|[H|H]].
    + left. apply QR. auto.
    + destruct (QU n j T H); auto.
    + destruct (EM n j T H) as [->|H2]; [left; apply QR; auto|auto].
  - intros j Hj. destruct (QW j Hj) as [H1 H2]. rewrite H2. cbn. apply (k_seen _ K). exact H1.
  - intros n H. cbn in H |- *. destruct H as [<-|H]; [rewrite TI; discriminate|]. now apply (k_watched _ K).
  - cbn. apply each_cons; [|apply (k_reports _ K)]. intros n [= <-]. split; [|exact HS].
    apply (b_watched _ B). rewrite TI. discriminate.
Qed.

(* The same without a report *)
Lemma care_move s f g : care s -> frames s = [f] -> f_services g = f_services f -> (forall v o, f_old g = Some (v, o) -> exists o1, f_old f = Some (v, o1)) ->
  (exists c, f_new f = c ++ f_new g) -> (f_todo g <> None -> f_new g <> []) ->
  (forall n j, table s n = Some j -> emit_in s f n -> emit_in s g n) -> care (set_frames s [g]).
Proof.
  intros K F SV O [c2 SF] H EM. pose proof (k_calm _ K) as C. pose proof (c_base _ C) as B.
  split; cbn; try discriminate.
  - split; [|right; eexists; reflexivity|].
    + apply base_frames; [exact B|rewrite F; reflexivity|constructor; [exact H|constructor]].
    + intros f0 Hf0. cbn in Hf0. injection Hf0 as <-. cbn. pose proof (c_old _ C f F) as X. destruct (f_old g) as [[v o]|] eqn:G; [|exact I].
      destruct (O v o eq_refl) as [o1 O1]. rewrite O1 in X. exact X.
  - intros f0 Hf0. injection Hf0 as <-. destruct (k_frame _ K f F) as (K1 & (c1 & K2) & K3). rewrite SV. split; [exact K1|].
    split; [exists (c1 ++ c2); rewrite K2, SF, app_assoc; reflexivity|].
    intros n j T IN. destruct (K3 n j T IN) as [X|[X|X]]; auto. right. right. now apply (EM n j).
  - apply (k_seen _ K).
  - apply (k_watched _ K).
  - apply (k_reports _ K).
Qed.

Lemma care_next s s1 : care s -> list_next s = Ok s1 -> care s1.
Proof.
  intros K E. pose proof (k_calm _ K) as C. pose proof (c_base _ C) as B.
  pose proof (calm_step sort s MNext s1 C I E) as C1.
  destruct (c_len _ C) as [F|[f F]]; [unfold list_next in E; rewrite F in E; discriminate|].
  destruct (poll_ s) as [p|] eqn:P; [|destruct (b_none _ B P); congruence].
  destruct (b_refs _ B p P) as (_ & _ & _ & _ & R5).
  pose proof (next_cases s f [] p B F P) as N. rewrite E in N. destruct (k_frame _ K f F) as (K1 & (c1 & K2) & K3).
  remember (Ok s1) as z eqn:Z. destruct N as [i t x nw H1 H2 H3 H4|i t x nw H1 H2 H3|x nw H1 H2|H1 H2|x nw H1 H2 H3|x nw v H1 H2 H3|x nw v o k H1 H2 H3 H4 H5|];
    subst; try (injection Z as <-); try discriminate.
  - (* a handler is called *)
    assert (LI : listed (trace s) (w_name (watches s i))) by (apply K1; rewrite K2, H2; apply in_or_app; right; left; reflexivity).
    assert (A : w_alive (watches s i) = true) by (now apply R5).
    assert (T : table s (w_name (watches s i)) = Some i) by (apply (b_table _ B); auto).
    apply care_report; [exact K|exact A|apply listed_seen; [apply (b_watched _ B); congruence|exact LI]|].
    right. exists f. eexists. split; [exact F|]. split; [reflexivity|]. cbn. split; [reflexivity|]. split; [reflexivity|].
    split; [exists []; exact H2|]. split; [discriminate|]. intros n j Tj [H|(t0 & j0 & r0 & X1 & X2 & X3 & X4)].
    + right. left. unfold due in *. rewrite H1, H2 in H. cbn in *. exact H.
    + rewrite H1 in X1. injection X1 as <-. rewrite H2 in X2. injection X2 as X2 <-. destruct X4 as [<-|X4]; [left; symmetry; exact X2|].
      right. right. exists t, j0, nw. cbn. repeat split; auto. congruence.
  - apply (care_move s f); [exact K|exact F|reflexivity|cbn; eauto|exists []; exact H2|cbn; congruence|].
    intros n j Tj [H|(t0 & j0 & r0 & X1 & X2 & X3 & X4)].
    + left. unfold due in *. rewrite H1, H2 in H. cbn in *. exact H.
    + right. rewrite H1 in X1. injection X1 as <-. rewrite H2 in X2. injection X2 as X2 <-. destruct X4 as [<-|X4].
      * exfalso. apply H3. apply (b_table _ B) in X3. destruct X3 as [X3 X5]. split; [now apply R5|congruence].
      * exists t, j0, nw. cbn. repeat split; auto. congruence.
  - apply (care_move s f); [exact K|exact F|reflexivity|cbn; eauto|exists [x]; exact H2|cbn; congruence|].
    intros n j Tj [H|(t0 & j0 & r0 & X1 & X2 & X3 & X4)].
    + left. unfold due in *. rewrite H1, H2 in H. cbn in *. exact H.
    + rewrite H1 in X1. injection X1 as <-. contradiction.
  - (* the end *)
    destruct (done_ok _ (Some (nlists s, f_services f)) (end_almost s f [] B F)) as (s2 & q & E2 & B1 & P1 & F1 & W1 & T1 & H).
    assert (s2 = s1) by congruence. subst s2. cbn in W1, T1, F1. cbn [poll_ next_list set_frames] in P1. rewrite P in P1. injection P1 as <-.
    assert (ND : forall n i, table s n = Some i -> In n (f_services f) -> reported (trace s) n \/ w_notify (watches s i) = true).
    { intros n i T IN. destruct (K3 n i T IN) as [X|[X|X]]; auto. exfalso.
      destruct X as [X|(t0 & j0 & r0 & X1 & _)]; [|congruence]. unfold due in X. rewrite H1, H2 in X. exact X. }
    destruct H as [(PN & _ & TR & AL)|(TR & PS)]; cbn in TR.
    + cbn in AL. assert (TN : forall n, table s n = None).
      { intros n. destruct (table s n) as [j|] eqn:T; [|reflexivity]. apply (b_table _ B) in T. destruct T as [T _]. rewrite AL in T. discriminate. }
      assert (QR : forall n, ~ reported (trace s1) n).
      { intros n X. assert (Y : reported (trace s) n) by (destruct TR as [TR|TR]; rewrite TR in X; exact X).
        apply (k_watched _ K) in Y. apply Y. apply TN. }
      split; [exact C1|congruence| | | | |].
      * intros _ n i T. rewrite T1, TN in T. discriminate.
      * intros f0 Hf0. congruence.
      * intros i Hi. apply (b_notify _ B1) in Hi. rewrite W1, AL in Hi. discriminate.
      * intros n X. exfalso. exact (QR n X).
      * destruct TR as [TR|TR]; rewrite TR; [apply (k_reports _ K)|]. apply each_cons; [discriminate|apply (k_reports _ K)].
    + assert (PL : plist s1 = f_services f) by (unfold plist; rewrite PS; reflexivity).
      split; [exact C1| | | | | |].
      * intros _ _ n. rewrite PL, TR. apply K1.
      * intros _ n i T IN. rewrite PL in IN. rewrite T1 in T. rewrite TR, W1. now apply ND.
      * intros f0 Hf0. congruence.
      * intros i Hi. rewrite W1 in *. rewrite TR. now apply (k_seen _ K).
      * intros n X. rewrite TR in X. rewrite T1. now apply (k_watched _ K).
      * rewrite TR. apply (k_reports _ K).
  - apply (care_move s f); [exact K|exact F|reflexivity|cbn; eauto|exists []; exact H2|cbn; congruence|].
    intros n j Tj [H|(t0 & j0 & r0 & X1 & _)]; [|congruence].
    unfold due in H. rewrite H1, H2 in H. unfold emit_in, due. cbn [f_todo f_new tl].
    assert (NN : new_names (rest_old f) (x :: nw) = x :: new_names (rest_old f) nw).
    { unfold rest_old in *. cbn [new_names]. destruct (f_old f) as [[v o]|]; [|reflexivity]. destruct H3 as [H3 H4].
      destruct o; [contradiction|]. now rewrite H4. }
    rewrite NN in H. destruct H as [<-|H]; [|left; exact H]. right. exists (p_handlers p), j, nw. repeat split; auto.
    apply R5. apply (b_table _ B) in Tj. tauto.
  - apply (care_move s f); [exact K|exact F|reflexivity|cbn; discriminate|exists []; exact H2|cbn; congruence|].
    intros n j Tj [H|(t0 & j0 & r0 & X1 & _)]; [|congruence]. left. unfold due, rest_old in *. rewrite H1, H2, H3 in H. exact H.
  - apply (care_move s f); [exact K|exact F|reflexivity|cbn; intros v0 o0 [= <- _]; eauto|exists [x]; exact H2|cbn; congruence|].
    intros n j Tj [H|(t0 & j0 & r0 & X1 & _)]; [|congruence]. left. unfold due, rest_old in *. rewrite H1, H2, H3 in H. cbn [f_todo f_old f_new].
    cbn [new_names] in H. destruct o; [contradiction|]. rewrite H5 in H. exact H.
Qed.

Lemma care_step s m s1 : care s -> no_late_watch s m -> step sort s m = Ok s1 -> care s1.
Proof.
  intros K OK E. pose proof (k_calm _ K) as C. pose proof (c_base _ C) as B.
  assert (C1 : calm s1) by (apply (calm_step sort s m); [exact C|destruct m; cbn in *; auto|exact E]).
  destruct m as [n|n|i| |l|]; cbn [step no_late_watch] in *.
  - eapply care_watch; eassumption.
  - eapply care_unwatch; eassumption.
  - destruct (w_notify (watches s i)) eqn:W; [|unfold watch_notify in E; rewrite W in E; discriminate].
    destruct (notify_ok s i B W) as [E2 A]. rewrite E2 in E. injection E as <-.
    assert (X : s = set_frames s (frames s)) by (destruct s; reflexivity). rewrite X at 1. apply care_report; [exact K|exact A|now apply (k_seen _ K)|].
    destruct (c_len _ C) as [F|[f F]]; [left; auto|right]. exists f, f. repeat split; auto; [exists []; reflexivity|].
    pose proof (b_frames _ B) as FN. rewrite F in FN. now inversion FN.
  - assert (X := E). unfold poll_timer in X. destruct (poll_ s) as [p|] eqn:P; [|discriminate]. destruct (p_timer p); [|discriminate].
    destruct (p_call p); injection X as <-; [exact K|].
    assert (PL : forall c t h, plist (say (set_poll s (Some (Poll (p_refs p) (p_list p) c t h))) EvRequest) = plist s) by (intros; unfold plist; cbn; now rewrite P).
    split; [exact C1| | | | | |]; cbn -[plist].
    + intros I _ n. rewrite PL. apply (k_list _ K); [exact I|congruence].
    + intros I n i T. rewrite PL. now apply (k_idle _ K).
    + apply (k_frame _ K).
    + apply (k_seen _ K).
    + apply (k_watched _ K).
    + apply each_cons; [discriminate|apply (k_reports _ K)].
  - assert (X := E). unfold list_begin in X. destruct (poll_ s) as [p|] eqn:P; [|discriminate]. destruct (p_call p) eqn:Cl; [|discriminate]. clear X.
    destruct (begin_ok sort s p l B P Cl) as (s2 & E2 & B1 & W1 & T1 & H). assert (s2 = s1) by congruence. subst s2.
    destruct l as [x|].
    + destruct H as (TR & F & p1 & P1 & L1). rewrite OK in F. split; [exact C1| | | | | |].
      * intros I. unfold idle in I. congruence.
      * intros I. unfold idle in I. congruence.
      * intros f Hf. rewrite F in Hf. injection Hf as <-. cbn [f_services f_new]. rewrite TR.
        split; [intros n; cbn; apply sort_in|]. split; [exists []; reflexivity|]. intros n i T IN. rewrite T1 in T. rewrite W1.
        destruct (in_dec name_dec n (plist s)) as [Y|Y]; [destruct (k_idle _ K OK n i T Y); auto|].
        right. right. left. unfold due, rest_old. cbn. apply new_names_complete; [exact IN|].
        unfold plist in Y. rewrite P in Y. destruct (p_list p) as [[v o]|]; exact Y.
      * intros i Hi. rewrite TR, W1 in *. cbn. right. now apply (k_seen _ K).
      * intros n Hn. rewrite TR in Hn. rewrite T1. now apply (k_watched _ K).
      * rewrite TR. apply each_cons; [discriminate|apply (k_reports _ K)].
    + destruct H as (F & H). rewrite OK in F. split; [exact C1| | | | | |].
      * intros _ Y n. destruct H as [(PN & _)|(TR & p1 & P1 & L1)]; [congruence|]. unfold plist. rewrite P1, L1, TR. cbn. tauto.
      * intros _ n i T IN. exfalso. unfold plist in IN. destruct H as [(PN & _)|(TR & p1 & P1 & L1)]; [rewrite PN in IN|rewrite P1, L1 in IN]; exact IN.
      * intros f Hf. congruence.
      * intros i Hi. rewrite W1 in *. assert (Y : seen (trace s) (w_name (watches s i))) by (now apply (k_seen _ K)).
        destruct H as [(_ & _ & [TR|TR] & _)|(TR & _)]; rewrite TR; exact Y.
      * intros n Hn. rewrite T1. apply (k_watched _ K). destruct H as [(_ & _ & [TR|TR] & _)|(TR & _)]; rewrite TR in Hn; exact Hn.
      * destruct H as [(_ & _ & [TR|TR] & _)|(TR & _)]; rewrite TR; repeat (apply each_cons; [discriminate|]); apply (k_reports _ K).
  - eapply care_next; eassumption.
Qed.

Lemma reach_care s : reach sort no_late_watch s -> care s.
Proof. induction 1; [apply care_init|eapply care_step; eassumption]. Qed.

Lemma not_missed s n : care s -> idle s -> watched (trace s) n -> listed (trace s) n ->
  reported (trace s) n \/ exists i, table s n = Some i /\ w_notify (watches s i) = true.
Proof.
  intros K I W L. pose proof (c_base _ (k_calm _ K)) as B. apply (b_watched _ B) in W. destruct (table s n) as [i|] eqn:T; [|congruence].
  assert (P : poll_ s <> None).
  { intros P. destruct (b_none _ B P) as [_ X]. apply (b_table _ B) in T. destruct T as [T _]. rewrite X in T. discriminate. }
  apply (k_list _ K I P) in L. destruct (k_idle _ K I n i T L) as [H|H]; eauto.
Qed.

Notation sorted := (StronglySorted (fun a b => str_le a b = true)).
Definition once (e : event) (b : list event) : Prop := forall n, e = EvReport n -> reported b n -> absent_since b n.

Record order (s : state) : Prop := {
  o_care : care s;
  o_sorted : sorted (plist s);
  o_settled : frames s <> [] -> settled s;
  o_pending : forall i, w_notify (watches s i) = true -> ~ reported (trace s) (w_name (watches s i)) /\ In (w_name (watches s i)) (plist s);
  o_idle : idle s -> forall n, reported (trace s) n -> absent_since (trace s) n \/ In n (plist s);
  o_frame : forall f, frames s = [f] ->
    NoDup (f_services f) /\ sorted (f_services f) /\ (forall t, f_todo f = Some t -> NoDup t) /\
    forall n, reported (trace s) n ->
      (absent_since (trace s) n \/ ~ emit_in s f n) /\ (absent_since (trace s) n \/ In n (f_services f));
  o_once : each once (trace s)
}.

Lemma order_init : order init.
Proof.
  split; cbn; try discriminate; try contradiction; auto.
  - apply care_init.
  - constructor.
  - apply each_nil.
Qed.

Lemma each_once_quiet c tr : Forall quiet c -> each once tr -> each once (c ++ tr).
Proof.
  intros Q H. induction Q as [|e c Q1 Q2 IH]; [exact H|]. cbn [app]. apply each_cons; [|exact IH]. intros n ->. contradiction.
Qed.

Lemma order_watch s n s1 : order s -> idle s -> aidl_watch s n = Ok s1 -> order s1.
Proof.
  intros Or I E. pose proof (o_care _ Or) as K. pose proof (k_calm _ K) as C. pose proof (c_base _ C) as B.
  pose proof (care_watch s n s1 K I E) as K1.
  destruct (watch_ok s n B) as (s2 & E2 & B1 & F & (c & TR & EC) & T1 & T2 & (p1 & P1 & L1) & W1 & W2 & W3).
  assert (s2 = s1) by congruence. subst s2. clear E2.
  assert (PL : plist s1 = plist s) by (unfold plist; rewrite P1, L1; destruct (poll_ s); reflexivity).
  assert (QR : forall m, m <> n -> (reported (trace s1) m <-> reported (trace s) m)).
  { intros m D. rewrite TR. destruct EC as [[-> X]|[-> X]]; cbn; intuition congruence. }
  assert (QN : ~ reported (trace s1) n).
  { rewrite TR. destruct EC as [[-> X]|[-> X]]; cbn; intuition congruence. }
  assert (QA : forall m, absent_since (trace s1) m <-> absent_since (trace s) m).
  { intros m. rewrite TR. destruct EC as [[-> X]|[-> X]]; cbn; tauto. }
  split; [exact K1| | | | | |].
  - rewrite PL. apply (o_sorted _ Or).
  - intros X. rewrite F, I in X. congruence.
  - intros i Hi. rewrite PL. destruct (Nat.eq_dec i (nwatches s)) as [->|D].
    + rewrite W1 in *. cbn in *. split; [exact QN|]. now apply known_plist.
    + destruct (W3 i D (b_notify _ B1 i Hi)) as [X Y]. rewrite X in *. rewrite QR by exact Y. now apply (o_pending _ Or).
  - intros _ m H. rewrite PL, QA. destruct (name_dec m n) as [->|D]; [contradiction|]. apply (o_idle _ Or I). now apply QR.
  - intros f Hf. rewrite F, I in Hf. discriminate.
  - rewrite TR. replace (c ++ EvWatch n :: trace s) with ((c ++ [EvWatch n]) ++ trace s) by (rewrite <- app_assoc; reflexivity).
    apply each_once_quiet; [|apply (o_once _ Or)]. destruct EC as [[-> X]|[-> X]]; repeat constructor.
Qed.

Lemma order_unwatch s n s1 : order s -> aidl_unwatch s n = Ok s1 -> order s1.
Proof.
  intros Or E. pose proof (o_care _ Or) as K. pose proof (k_calm _ K) as C. pose proof (c_base _ C) as B.
  pose proof (care_unwatch s n s1 K E) as K1.
  destruct (unwatch_ok s n B) as (s2 & E2 & B1 & F & (c & TR & EC) & T2 & T1 & PS & PN & W).
  assert (s2 = s1) by congruence. subst s2. clear E2.
  assert (PL : plist s1 = plist s \/ poll_ s1 = None).
  { destruct (poll_ s1) as [p1|] eqn:P1; [|auto]. left. destruct (PS p1 eq_refl) as (p & P & L & _).
    unfold plist. rewrite P1, P, L. reflexivity. }
  assert (AL : poll_ s1 = None -> forall m, table s1 m = None).
  { intros P1 m. destruct (table s1 m) as [j|] eqn:T; [|reflexivity]. apply (b_table _ B1) in T. destruct (b_none _ B1 P1) as [_ X]. rewrite X in T. destruct T; discriminate. }
  assert (QR : forall m, m <> n -> (reported (trace s1) m <-> reported (trace s) m)).
  { intros m D. rewrite TR. destruct EC as [->|[-> X]]; cbn; intuition congruence. }
  assert (QN : ~ reported (trace s1) n).
  { rewrite TR. destruct EC as [->|[-> X]]; cbn; intuition congruence. }
  assert (QA : forall m, absent_since (trace s1) m <-> absent_since (trace s) m).
  { intros m. rewrite TR. destruct EC as [->|[-> X]]; cbn; tauto. }
  split; [exact K1| | | | | |].
  - destruct PL as [->|PL]; [apply (o_sorted _ Or)|]. unfold plist. rewrite PL. constructor.
  - intros X i. rewrite F in X. pose proof (o_settled _ Or X i) as Y. destruct (w_notify (watches s1 i)) eqn:Z; [|reflexivity].
    apply W in Z. congruence.
  - intros i Hi. destruct (W i) as (X & Y & Z). pose proof (b_notify _ B1 i Hi) as A.
    assert (T : table s1 (w_name (watches s i)) = Some i) by (apply (b_table _ B1); split; congruence).
    assert (D : w_name (watches s i) <> n) by (intros N; rewrite N in T; congruence).
    rewrite X, QR by exact D. destruct PL as [->|PL]; [now apply (o_pending _ Or); apply Y|]. rewrite AL in T by exact PL. discriminate.
  - intros I m H. rewrite QA. destruct PL as [->|PL]; [|exfalso; apply (k_watched _ K1) in H; apply H; now apply AL].
    destruct (name_dec m n) as [->|D]; [contradiction|]. apply (o_idle _ Or); [unfold idle in *; congruence|now apply QR].
  - intros f Hf. rewrite F in Hf. destruct (o_frame _ Or f Hf) as (O1 & O2 & O3 & O4). repeat (split; [assumption|]).
    intros m H. destruct (name_dec m n) as [->|D]; [contradiction|]. rewrite QA. apply QR in H; [|exact D]. destruct (O4 m H) as [X1 X2].
    split; [|exact X2]. destruct X1 as [X1|X1]; [auto|right]. intros [X|(t & i & r & Y1 & Y2 & Y3 & Y4)]; apply X1; [left; exact X|].
    right. exists t, i, r. rewrite <- T2 by exact D. auto.
  - rewrite TR. replace (c ++ EvUnwatch n :: trace s) with ((c ++ [EvUnwatch n]) ++ trace s) by (rewrite <- app_assoc; reflexivity).
    apply each_once_quiet; [|apply (o_once _ Or)]. destruct EC as [->|[-> X]]; repeat constructor.
Qed.

Lemma order_move s f g : order s -> care (set_frames s [g]) -> frames s = [f] -> f_services g = f_services f ->
  (forall t, f_todo g = Some t -> NoDup t) ->
  (forall n, emit_in s g n -> emit_in s f n) -> order (set_frames s [g]).
Proof.
  intros Or K1 F SV ND EM. destruct (o_frame _ Or f F) as (O1 & O2 & O3 & O4).
  split; [exact K1| | | | | |]; cbn -[plist].
  - apply (o_sorted _ Or).
  - intros _. apply (o_settled _ Or). rewrite F. discriminate.
  - apply (o_pending _ Or).
  - discriminate.
  - intros f0 [= <-]. rewrite SV. repeat (split; [assumption|]). intros n H. destruct (O4 n H) as [[X|X] Y]; auto.
    split; [right|exact Y]. intros Z. apply X. now apply EM.
  - apply (o_once _ Or).
Qed.

Lemma order_next s s1 : order s -> list_next s = Ok s1 -> order s1.
Proof.
  intros Or E. pose proof (o_care _ Or) as K. pose proof (k_calm _ K) as C. pose proof (c_base _ C) as B.
  pose proof (care_next s s1 K E) as K9.
  destruct (c_len _ C) as [F|[f F]]; [unfold list_next in E; rewrite F in E; discriminate|].
  destruct (poll_ s) as [p|] eqn:P; [|destruct (b_none _ B P); congruence].
  destruct (b_refs _ B p P) as (_ & _ & _ & R4 & R5).
  pose proof (next_cases s f [] p B F P) as N. rewrite E in N. destruct (k_frame _ K f F) as (K1 & (c1 & K2) & K3).
  destruct (o_frame _ Or f F) as (O1 & O2 & O3 & O4). pose proof (o_settled _ Or ltac:(congruence)) as ST.
  remember (Ok s1) as z eqn:Z. destruct N as [i t x nw H1 H2 H3 H4|i t x nw H1 H2 H3|x nw H1 H2|H1 H2|x nw H1 H2 H3|x nw v H1 H2 H3|x nw v o k H1 H2 H3 H4 H5|];
    subst; try (injection Z as <-); try discriminate.
  - set (x := w_name (watches s i)) in *.
    assert (A : w_alive (watches s i) = true) by (now apply R5).
    assert (T : table s x = Some i) by (apply (b_table _ B); auto).
    pose proof (O3 _ H1) as NDt. inversion NDt as [|? ? ND1 ND2]; subst.
    assert (NX : ~ In x nw).
    { rewrite K2, H2 in O1. apply NoDup_remove_2 in O1. intros X. apply O1. apply in_or_app. auto. }
    assert (IX : In x (f_services f)) by (rewrite K2, H2; apply in_or_app; right; left; reflexivity).
    assert (EX : emit_in s f x) by (right; exists (i :: t), i, nw; repeat split; auto; left; reflexivity).
    split; [exact K9| | | | | |]; cbn -[plist upd].
    + apply (o_sorted _ Or).
    + intros _ j. cbn -[upd]. unfold upd. destruct (Nat.eqb j i); [reflexivity|apply ST].
    + intros j. unfold upd. destruct (Nat.eqb j i); [discriminate|]. rewrite ST. discriminate.
    + discriminate.
    + intros f0 [= <-]. cbn [f_services f_todo]. split; [exact O1|]. split; [exact O2|]. split; [intros t0 [= <-]; exact ND2|].
      intros n H. destruct (name_dec n x) as [->|D].
      * split; [right|right; exact IX]. intros [X|(t0 & j0 & r0 & X1 & X2 & X3 & X4)].
        -- unfold due in X. cbn in X. apply new_names_in in X. contradiction.
        -- cbn in X1, X3. injection X1 as <-. rewrite T in X3. injection X3 as <-. contradiction.
      * destruct H as [X|H]; [(unfold x in *; congruence)|]. destruct (O4 n H) as [Y1 Y2]. split.
        -- destruct Y1 as [Y1|Y1]; [left; split; [(unfold x in *; congruence)|exact Y1]|right]. intros X. apply Y1.
           destruct X as [X|(t0 & j0 & r0 & X1 & X2 & X3 & X4)].
           ++ left. unfold due in *. rewrite H1, H2. exact X.
           ++ cbn in X1, X2, X3. injection X2 as X2 _. (unfold x in *; congruence).
        -- destruct Y2 as [Y2|Y2]; [left; split; [(unfold x in *; congruence)|exact Y2]|auto].
    + apply each_cons; [|apply (o_once _ Or)]. intros n [= <-] H. destruct (O4 _ H) as [[X|X] _]; [exact X|contradiction].
  - apply (order_move s f); auto; [cbn; intros t0 [= <-]; pose proof (O3 _ H1) as NDt; now inversion NDt|].
    intros n [X|(t0 & j0 & r0 & X1 & X2 & X3 & X4)].
    + left. unfold due in *. rewrite H1, H2. exact X.
    + right. cbn in X1, X2. injection X1 as <-. exists (i :: t), j0, r0. repeat split; auto; [congruence|right; exact X4].
  - apply (order_move s f); auto; [cbn; discriminate|]. intros n [X|(t0 & j0 & r0 & X1 & _)]; [|discriminate].
    left. unfold due in *. rewrite H1, H2. exact X.
  - destruct (done_ok _ (Some (nlists s, f_services f)) (end_almost s f [] B F)) as (s2 & q & E2 & B1 & P1 & F1 & W1 & T1 & H).
    assert (s2 = s1) by congruence. subst s2. cbn in W1, T1, F1. cbn [poll_ next_list set_frames] in P1. rewrite P in P1. injection P1 as <-.
    assert (NP : forall i, w_notify (watches s1 i) = true -> False) by (intros i Hi; rewrite W1, ST in Hi; discriminate).
    destruct H as [(PN & _ & TR & AL)|(TR & PS)]; cbn in TR.
    + cbn in AL. assert (QR : forall n, ~ reported (trace s1) n).
      { intros n X. apply (k_watched _ K9) in X. destruct (table s1 n) as [j|] eqn:T; [|congruence].
        apply (b_table _ B1) in T. rewrite W1, AL in T. destruct T; discriminate. }
      split; [exact K9| | | | | |].
      * unfold plist. rewrite PN. constructor.
      * congruence.
      * intros i Hi. destruct (NP i Hi).
      * intros _ n X. destruct (QR n X).
      * intros f0 Hf0. congruence.
      * destruct TR as [TR|TR]; rewrite TR; [apply (o_once _ Or)|]. apply each_cons; [discriminate|apply (o_once _ Or)].
    + assert (PL : plist s1 = f_services f) by (unfold plist; rewrite PS; reflexivity).
      split; [exact K9| | | | | |].
      * rewrite PL. exact O2.
      * congruence.
      * intros i Hi. destruct (NP i Hi).
      * intros _ n X. rewrite TR, PL in *. apply O4. exact X.
      * intros f0 Hf0. congruence.
      * rewrite TR. apply (o_once _ Or).
  - apply (order_move s f); auto; [cbn; intros t0 [= <-]; exact R4|].
    assert (NN : new_names (rest_old f) (x :: nw) = x :: new_names (rest_old f) nw).
    { unfold rest_old in *. cbn [new_names]. destruct (f_old f) as [[v o]|]; [|reflexivity]. destruct H3 as [H3 H4].
      destruct o; [contradiction|]. now rewrite H4. }
    intros n [X|(t0 & j0 & r0 & X1 & X2 & X3 & X4)]; left; unfold due; rewrite H1, H2, NN.
    + right. exact X.
    + left. cbn in X2. congruence.
  - apply (order_move s f); auto; [cbn; discriminate|]. intros n [X|(t0 & j0 & r0 & X1 & _)]; [|discriminate].
    left. unfold due, rest_old in *. rewrite H1, H2, H3. exact X.
  - apply (order_move s f); auto; [cbn; discriminate|]. intros n [X|(t0 & j0 & r0 & X1 & _)]; [|discriminate].
    left. unfold due, rest_old in *. rewrite H1, H2, H3. cbn [f_todo f_old f_new] in X. cbn [new_names]. destruct o; [contradiction|]. rewrite H5. exact X.
Qed.

Lemma orderly_late s m : orderly s m -> no_late_watch s m.
Proof. destruct m; cbn; tauto. Qed.

Lemma order_step s m s1 : order s -> orderly s m -> step sort s m = Ok s1 -> order s1.
Proof.
  intros Or OK E. pose proof (o_care _ Or) as K. pose proof (k_calm _ K) as C. pose proof (c_base _ C) as B.
  pose proof (care_step s m s1 K (orderly_late _ _ OK) E) as K1.
  destruct m as [n|n|i| |l|]; cbn [step orderly] in *.
  - eapply order_watch; eassumption.
  - eapply order_unwatch; eassumption.
  - destruct (w_notify (watches s i)) eqn:W; [|unfold watch_notify in E; rewrite W in E; discriminate].
    destruct (notify_ok s i B W) as [E2 A]. rewrite E2 in E. injection E as <-.
    assert (I : idle s).
    { destruct (frames s) as [|f r] eqn:F; [exact F|]. pose proof (o_settled _ Or ltac:(congruence) i). congruence. }
    destruct (o_pending _ Or i W) as [NR IP].
    split; [exact K1| | | | | |]; cbn -[plist upd].
    + apply (o_sorted _ Or).
    + intros X. congruence.
    + intros j. unfold upd. destruct (Nat.eqb_spec j i) as [->|D]; [discriminate|]. intros Hj. destruct (o_pending _ Or j Hj) as [X1 X2].
      split; [|exact X2]. intros [X|X]; [|contradiction]. apply D. pose proof (b_notify _ B j Hj) as Aj.
      pose proof (proj2 (b_table _ B _ i) (conj A eq_refl)) as Ti. pose proof (proj2 (b_table _ B _ j) (conj Aj eq_refl)) as Tj. congruence.
    + intros _ n [<-|H]; [right; exact IP|]. destruct (name_dec (w_name (watches s i)) n) as [<-|D]; [right; exact IP|].
      destruct (o_idle _ Or I n H) as [X|X]; [left; auto|right; exact X].
    + intros f Hf. unfold idle in I. congruence.
    + apply each_cons; [|apply (o_once _ Or)]. intros n [= <-] H. contradiction.
  - assert (X := E). unfold poll_timer in X. destruct (poll_ s) as [p|] eqn:P; [|discriminate]. destruct (p_timer p); [|discriminate].
    destruct (p_call p); injection X as <-; [exact Or|].
    assert (PL : forall c t h, plist (say (set_poll s (Some (Poll (p_refs p) (p_list p) c t h))) EvRequest) = plist s) by (intros; unfold plist; cbn; now rewrite P).
    split; [exact K1| | | | | |]; try rewrite PL; cbn -[plist].
    + apply (o_sorted _ Or).
    + apply (o_settled _ Or).
    + intros i Hi. now apply (o_pending _ Or).
    + intros I n. now apply (o_idle _ Or).
    + apply (o_frame _ Or).
    + apply each_cons; [discriminate|apply (o_once _ Or)].
  - destruct OK as (I & ST & x & -> & ND).
    assert (X := E). unfold list_begin in X. destruct (poll_ s) as [p|] eqn:P; [|discriminate]. destruct (p_call p) eqn:Cl; [|discriminate]. clear X.
    destruct (begin_ok sort s p (Some x) B P Cl) as (s2 & E2 & B1 & W1 & T1 & TR & F & p1 & P1 & L1). assert (s2 = s1) by congruence. subst s2.
    rewrite I in F. assert (PL : plist s1 = plist s) by (unfold plist; rewrite P1, P, L1; reflexivity).
    destruct (Hsort x) as [HP HS]. assert (NDs : NoDup (sort x)) by (eapply Permutation.Permutation_NoDup; eassumption).
    split; [exact K1| | | | | |].
    + rewrite PL. apply (o_sorted _ Or).
    + intros _ i. rewrite W1. apply ST.
    + intros i Hi. rewrite W1, ST in Hi. discriminate.
    + intros X. unfold idle in X. congruence.
    + intros f Hf. rewrite F in Hf. injection Hf as <-. cbn [f_services f_todo]. split; [exact NDs|]. split; [exact HS|]. split; [discriminate|].
      intros n H. rewrite TR in *. cbn in H |- *. split.
      * destruct (o_idle _ Or I n H) as [X|X]; [auto|right]. intros [Y|(t & j & r & Y1 & _)]; [|discriminate].
        unfold due, rest_old in Y. cbn in Y. pose proof (o_sorted _ Or) as SO.
        assert (EQ : plist s = match p_list p with Some (_, o) => o | None => [] end) by (unfold plist; rewrite P; reflexivity).
        rewrite EQ in X, SO. exact (new_names_sound _ _ _ HS NDs SO Y X).
      * destruct (in_dec name_dec n (sort x)) as [Y|Y]; [auto|]. left. left. intros Z. apply Y. now apply sort_in.
    + rewrite TR. apply each_cons; [discriminate|apply (o_once _ Or)].
  - eapply order_next; eassumption.
Qed.

Lemma reach_order s : reach sort orderly s -> order s.
Proof. induction 1; [apply order_init|eapply order_step; eassumption]. Qed.

(* A service which has got into the list without having been reported isn't reported as long as it's
   listed *)
Record lost (n : bytes) (s : state) : Prop := {
  l_calm : calm s;
  l_rep : ~ reported (trace s) n;
  l_rest : table s n = None \/
    ((forall i, table s n = Some i -> w_notify (watches s i) = false) /\
     sorted (plist s) /\ (idle s -> In n (plist s)) /\
     forall f, frames s = [f] -> NoDup (f_services f) /\ sorted (f_services f) /\ In n (f_services f) /\
       (exists c, f_services f = c ++ f_new f) /\ ~ emit_in s f n)
}.

Lemma lost_step n s m s1 : lost n s -> still_listed n s m -> step sort s m = Ok s1 -> lost n s1.
Proof.
  intros L OK E. pose proof (l_calm _ _ L) as C. pose proof (c_base _ C) as B.
  assert (C1 : calm s1) by (apply (calm_step sort s m); [exact C|destruct m; cbn in *; tauto|exact E]).
  pose proof (l_rep _ _ L) as NR.
  assert (QE : forall e, match e with EvReport x => x <> n | _ => True end -> forall tr, ~ reported tr n -> ~ reported (e :: tr) n).
  { intros e He tr H. destruct e; cbn; tauto. }
  destruct m as [x|x|i| |l|]; cbn [step still_listed] in *.
  - (* watch *)
    destruct (watch_ok s x B) as (s2 & E2 & B1 & F & (c & TR & EC) & T1 & T2 & (p1 & P1 & L1) & W1 & W2 & W3).
    assert (s2 = s1) by congruence. subst s2. clear E2.
    assert (PL : plist s1 = plist s) by (unfold plist; rewrite P1, L1; destruct (poll_ s); reflexivity).
    assert (Tn : table s1 n = table s n) by (apply T2; congruence).
    split; [exact C1|rewrite TR; destruct EC as [[-> _]|[-> _]]; cbn [app]; repeat (apply QE; [exact I|]); exact NR|].
    destruct (l_rest _ _ L) as [H|(H1 & H2 & H3 & H4)]; [left; congruence|right]. rewrite PL, Tn.
    split; [|split; [exact H2|split; [unfold idle; rewrite F; exact H3|]]].
    + intros i T. rewrite W2; [now apply H1| |]; apply (b_table _ B) in T; destruct T as [A N]; [|congruence].
      intros ->. rewrite (b_new _ B) in A by lia. discriminate.
    + intros f Hf. rewrite F in Hf. destruct (H4 f Hf) as (X1 & X2 & X3 & X4 & X5). repeat (split; [assumption|]).
      intros Y. apply X5. destruct Y as [Y|(t & j & r & Y1 & Y2 & Y3 & Y4)]; [left; exact Y|right]. exists t, j, r. rewrite <- Tn. auto.
  - (* unwatch *)
    destruct (unwatch_ok s x B) as (s2 & E2 & B1 & F & (c & TR & EC) & T2 & T1 & PS & PN & W).
    assert (s2 = s1) by congruence. subst s2. clear E2.
    split; [exact C1|rewrite TR; destruct EC as [->|[-> _]]; cbn [app]; repeat (apply QE; [exact I|]); exact NR|].
    destruct (name_dec n x) as [->|D]; [left; exact T1|].
    destruct (l_rest _ _ L) as [H|(H1 & H2 & H3 & H4)]; [left; now rewrite T2|].
    destruct (table s1 n) as [i|] eqn:T; [right|auto].
    assert (P1 : exists p1, poll_ s1 = Some p1).
    { destruct (poll_ s1) as [p1|] eqn:P; [eauto|]. apply (b_table _ B1) in T. destruct (b_none _ B1 P) as [_ X]. rewrite X in T. destruct T; discriminate. }
    destruct P1 as [p1 P1]. destruct (PS p1 P1) as (p & P & LL & _).
    assert (PL : plist s1 = plist s) by (unfold plist; rewrite P1, P, LL; reflexivity). rewrite PL.
    split; [|split; [exact H2|split; [unfold idle; rewrite F; exact H3|]]].
    + intros j [= <-]. rewrite T2 in T by exact D. destruct (w_notify (watches s1 i)) eqn:Z; [|reflexivity].
      apply W in Z. rewrite H1 in Z by exact T. discriminate.
    + intros f Hf. rewrite F in Hf. destruct (H4 f Hf) as (X1 & X2 & X3 & X4 & X5). repeat (split; [assumption|]).
      intros Y. apply X5. destruct Y as [Y|(t & j & r & Y1 & Y2 & Y3 & Y4)]; [left; exact Y|right]. exists t, j, r. rewrite <- T2 by exact D. auto.
  - (* idle callback *)
    destruct (w_notify (watches s i)) eqn:W; [|unfold watch_notify in E; rewrite W in E; discriminate].
    destruct (notify_ok s i B W) as [E2 A]. rewrite E2 in E. injection E as <-.
    pose proof (proj2 (b_table _ B _ i) (conj A eq_refl)) as T.
    assert (D : w_name (watches s i) <> n).
    { intros X. rewrite X in T. destruct (l_rest _ _ L) as [H|(H1 & _)]; [congruence|]. rewrite H1 in W by exact T. discriminate. }
    split; [exact C1|cbn [trace report say set_watch]; apply QE; [exact D|exact NR]|].
    destruct (l_rest _ _ L) as [H|(H1 & H2 & H3 & H4)]; [left; exact H|right]. split; [|split; [exact H2|split; [exact H3|exact H4]]].
    intros j Hj. cbn -[upd]. unfold upd. destruct (Nat.eqb j i); [reflexivity|now apply H1].
  - assert (X := E). unfold poll_timer in X. destruct (poll_ s) as [p|] eqn:P; [|discriminate]. destruct (p_timer p); [|discriminate].
    destruct (p_call p); injection X as <-; [exact L|].
    assert (PL : forall c t h, plist (say (set_poll s (Some (Poll (p_refs p) (p_list p) c t h))) EvRequest) = plist s) by (intros; unfold plist; cbn; now rewrite P).
    split; [exact C1|exact NR|]. rewrite PL. exact (l_rest _ _ L).
  - destruct OK as (I & x & -> & ND & IN).
    assert (X := E). unfold list_begin in X. destruct (poll_ s) as [p|] eqn:P; [|discriminate]. destruct (p_call p) eqn:Cl; [|discriminate]. clear X.
    destruct (begin_ok sort s p (Some x) B P Cl) as (s2 & E2 & B1 & W1 & T1 & TR & F & p1 & P1 & L1). assert (s2 = s1) by congruence. subst s2.
    rewrite I in F. assert (PL : plist s1 = plist s) by (unfold plist; rewrite P1, P, L1; reflexivity).
    destruct (Hsort x) as [HP HS]. assert (NDs : NoDup (sort x)) by (eapply Permutation.Permutation_NoDup; eassumption).
    split; [exact C1|rewrite TR; exact NR|].
    destruct (l_rest _ _ L) as [H|(H1 & H2 & H3 & H4)]; [left; congruence|right]. rewrite PL, T1, W1.
    split; [exact H1|]. split; [exact H2|]. split; [unfold idle; congruence|]. intros f Hf. rewrite F in Hf. injection Hf as <-. cbn [f_services f_new].
    split; [exact NDs|]. split; [exact HS|]. split; [now apply sort_in|]. split; [exists []; reflexivity|].
    intros [Y|(t & j & r & Y1 & _)]; [|discriminate]. unfold due, rest_old in Y. cbn in Y. specialize (H3 I).
    assert (EQ : plist s = match p_list p with Some (_, o) => o | None => [] end) by (unfold plist; rewrite P; reflexivity).
    rewrite EQ in H2, H3. exact (new_names_sound _ _ _ HS NDs H2 Y H3).
  - destruct (c_len _ C) as [F|[f F]]; [unfold list_next in E; rewrite F in E; discriminate|].
    destruct (poll_ s) as [p|] eqn:P; [|destruct (b_none _ B P); congruence].
    destruct (b_refs _ B p P) as (_ & _ & _ & R4 & R5).
    pose proof (next_cases s f [] p B F P) as N. rewrite E in N.
    assert (MV : forall g, (frames s = [f] -> f_services g = f_services f) -> (exists c, f_new f = c ++ f_new g) ->
       (emit_in s g n -> table s n <> None -> emit_in s f n) -> s1 = set_frames s [g] -> lost n s1).
    { intros g SV [c2 SF] EM ->. specialize (SV F). split; [exact C1|exact NR|].
      destruct (l_rest _ _ L) as [H|(H1 & H2 & H3 & H4)]; [left; exact H|]. destruct (table s n) as [i|] eqn:T; [right|left; exact T].
      destruct (H4 f F) as (X1 & X2 & X3 & (c1 & X4) & X5).
      cbn -[plist]. rewrite T. split; [exact H1|]. split; [exact H2|]. split; [discriminate|]. intros f0 [= <-]. rewrite SV.
      split; [exact X1|]. split; [exact X2|]. split; [exact X3|]. split; [exists (c1 ++ c2); rewrite X4, SF, app_assoc; reflexivity|].
      intros Y. apply X5. apply EM; [exact Y|discriminate]. }
    remember (Ok s1) as z eqn:Z. destruct N as [i t x nw H1 H2 H3 H4|i t x nw H1 H2 H3|x nw H1 H2|H1 H2|x nw H1 H2 H3|x nw v H1 H2 H3|x nw v o k H1 H2 H3 H4 H5|];
      subst; try (injection Z as Z); try discriminate.
    + assert (A : w_alive (watches s i) = true) by (now apply R5).
      pose proof (proj2 (b_table _ B _ i) (conj A eq_refl)) as T.
      assert (D : w_name (watches s i) <> n).
      { intros X. rewrite X in *. destruct (l_rest _ _ L) as [H|(_ & _ & _ & Y)]; [congruence|]. destruct (Y f F) as (_ & _ & _ & _ & Y5).
        apply Y5. right. exists (i :: t), i, nw. repeat split; auto. left. reflexivity. }
      subst s1. split; [exact C1|cbn [trace report say set_watch]; apply QE; [exact D|exact NR]|].
      destruct (l_rest _ _ L) as [H|(X1 & X2 & X3 & X4)]; [left; exact H|right]. destruct (X4 f F) as (Y1 & Y2 & Y3 & Y4 & Y5).
      split; [intros j Hj; cbn -[upd]; unfold upd; destruct (Nat.eqb j i); [reflexivity|now apply X1]|].
      split; [exact X2|]. split; [discriminate|]. intros f0 [= <-]. cbn [f_services f_new]. split; [exact Y1|]. split; [exact Y2|]. split; [exact Y3|].
      split; [rewrite <- H2; exact Y4|]. intros [X|(t0 & j0 & r0 & Q1 & Q2 & Q3 & Q4)].
      * apply Y5. left. unfold due in *. rewrite H1, H2. exact X.
      * cbn in Q2. congruence.
    + symmetry in Z. eapply MV; [| | |exact Z]; cbn; [reflexivity|exists []; exact H2|]. intros [X|(t0 & j0 & r0 & Q1 & Q2 & Q3 & Q4)] _.
      * left. unfold due in *. rewrite H1, H2. exact X.
      * right. cbn in Q1, Q2. injection Q1 as <-. exists (i :: t), j0, r0. repeat split; auto; [congruence|right; exact Q4].
    + symmetry in Z. eapply MV; [| | |exact Z]; cbn; [reflexivity|exists [x]; exact H2|]. intros [X|(t0 & j0 & r0 & Q1 & _)] _; [|discriminate].
      left. unfold due in *. rewrite H1, H2. exact X.
    + destruct (done_ok _ (Some (nlists s, f_services f)) (end_almost s f [] B F)) as (s2 & q & E2 & B1 & P1 & F1 & W1 & T1 & H).
      assert (s2 = s1) by congruence. subst s2. cbn in W1, T1, F1.
      split; [exact C1| |].
      * destruct H as [(_ & _ & [TR|TR] & _)|(TR & _)]; rewrite TR; exact NR.
      * destruct H as [(PN & _ & TR & AL)|(TR & PS)].
        -- left. rewrite T1. destruct (table s n) as [j|] eqn:T; [|reflexivity]. apply (b_table _ B) in T. cbn in AL. rewrite AL in T. destruct T; discriminate.
        -- destruct (l_rest _ _ L) as [H|(X1 & X2 & X3 & X4)]; [left; congruence|right]. destruct (X4 f F) as (Y1 & Y2 & Y3 & Y4 & Y5).
           assert (PL : plist s1 = f_services f) by (unfold plist; rewrite PS; reflexivity). rewrite PL, T1, W1.
           split; [exact X1|]. split; [exact Y2|]. split; [auto|]. intros f0 Hf0. congruence.
    + assert (NN : new_names (rest_old f) (x :: nw) = x :: new_names (rest_old f) nw).
      { unfold rest_old in *. cbn [new_names]. destruct (f_old f) as [[v o]|]; [|reflexivity]. destruct H3 as [H3 H4].
        destruct o; [contradiction|]. now rewrite H4. }
      symmetry in Z. eapply MV; [| | |exact Z]; cbn; [reflexivity|exists []; exact H2|]. intros [X|(t0 & j0 & r0 & Q1 & Q2 & Q3 & Q4)] _; left; unfold due; rewrite H1, H2, NN.
      * right. exact X.
      * left. cbn in Q2. congruence.
    + symmetry in Z. eapply MV; [| | |exact Z]; cbn; [reflexivity|exists []; exact H2|]. intros [X|(t0 & j0 & r0 & Q1 & _)] _; [|discriminate].
      left. unfold due, rest_old in *. rewrite H1, H2, H3. exact X.
    + symmetry in Z. eapply MV; [| | |exact Z]; cbn; [reflexivity|exists [x]; exact H2|]. intros [X|(t0 & j0 & r0 & Q1 & _)] _; [|discriminate].
      left. unfold due, rest_old in *. rewrite H1, H2, H3. cbn [f_todo f_old f_new] in X. cbn [new_names]. destruct o; [contradiction|]. rewrite H5. exact X.
Qed.

Lemma lost_forever n s s1 : lost n s -> path sort (still_listed n) s s1 -> ~ reported (trace s1) n.
Proof. intros L H. apply (l_rep n). induction H as [|s2 m s3 s4 OK E H IH]; [exact L|]. apply IH. eapply lost_step; eassumption. Qed.

End Care.

(* Processing an answer ends *)
Definition work (f : frame) (p : pollobj) : nat :=
  let h := (length (p_handlers p) + 2)%nat in
  (match f_todo f with None => length (f_new f) * h | Some t => length t + 1 + length (tl (f_new f)) * h end +
   match f_old f with Some _ => 1 | None => 0 end)%nat.

Lemma processed sort s : calm s -> exists k s1, run sort s (repeat MNext k) = Ok s1 /\ idle s1.
Proof.
  intros C. destruct (c_len _ C) as [F|[f F]]; [exists 0%nat, s; auto|].
  pose proof (c_base _ C) as B. destruct (poll_ s) as [p|] eqn:P; [|destruct (b_none _ B P); congruence].
  remember (work f p) as w eqn:W. revert s f p C F B P W.
  induction w as [w IH] using lt_wf_ind. intros s f p C F B P W.
  pose proof (calm_no_crash sort s MNext C) as NC. cbn [step] in NC.
  pose proof (next_cases s f [] p B F P) as N.
  assert (MV : forall s1, list_next s = Ok s1 -> (exists f1 p1, frames s1 = [f1] /\ poll_ s1 = Some p1 /\ (work f1 p1 < w)%nat) ->
     exists k s2, run sort s (repeat MNext k) = Ok s2 /\ idle s2).
  { intros s1 E1 (f1 & p1 & F1 & P1 & LT). assert (C1 : calm s1) by (apply (calm_step sort s MNext); [exact C|exact I|exact E1]).
    destruct (IH _ LT s1 f1 p1 C1 F1 (c_base _ C1) P1 eq_refl) as (k & s2 & R & H). exists (S k), s2.
    split; [|exact H]. cbn [repeat run step]. rewrite E1. exact R. }
  destruct (list_next s) as [| |s1] eqn:E; [|congruence|].
  { exfalso. unfold list_next in E. rewrite F in E. unfold with_poll in E. rewrite P in E.
    remember Disabled as z eqn:Z. destruct N; try discriminate.
    destruct (done_ok _ (Some (nlists s, f_services f)) (end_almost s f [] B F)) as (s2 & q & E2 & _). congruence. }
  clear IH. remember (Ok s1) as z eqn:Z. destruct N as [i t x nw H1 H2 H3 H4|i t x nw H1 H2 H3|x nw H1 H2|H1 H2|x nw H1 H2 H3|x nw v H1 H2 H3|x nw v o k H1 H2 H3 H4 H5|];
    try discriminate; try (injection Z as Z; subst s1; apply (MV _ eq_refl); do 2 eexists; split; [reflexivity|]; split; [exact P|];
      subst w; unfold work; rewrite H1, H2; cbn [f_todo f_new f_old tl length]; try rewrite H3; cbn [f_old]; lia).
  - destruct (done_ok _ (Some (nlists s, f_services f)) (end_almost s f [] B F)) as (s2 & q & E2 & _ & _ & F2 & _).
    exists 1%nat, s1. cbn [repeat run step]. rewrite E, Z. split; [reflexivity|]. assert (s2 = s1) by congruence. subst s2. exact F2.
Qed.

Lemma sort_one sort a : strv_sort_contract sort -> sort [a] = [a].
Proof. intros H. destruct (H [a]) as [P _]. now apply Permutation.Permutation_length_1_inv in P. Qed.
Lemma sort_nil sort : strv_sort_contract sort -> sort [] = [].
Proof. intros H. destruct (H []) as [P _]. now apply Permutation.Permutation_nil in P. Qed.
Lemma sort_two sort a b : strv_sort_contract sort -> str_le a b = true -> sort [a; b] = [a; b].
Proof.
  intros H L. destruct (H [a; b]) as [P S0]. apply Permutation.Permutation_length_2_inv in P. destruct P as [P|P]; [exact P|].
  rewrite P in *. inversion S0 as [|? ? _ S1]; subst. inversion S1 as [|? ? L2 _]; subst.
  assert (a = b) by (apply str_le_antisym; assumption). subst. reflexivity.
Qed.
