(* Proofs about DevModel *)
From Verif Require Import Base ObjModel DevModel DevSpec.

Lemma upd_same A (f : nat -> A) i x : upd f i x i = x.
Proof. unfold upd. rewrite Nat.eqb_refl. reflexivity. Qed.
Lemma upd_other A (f : nat -> A) i x j : j <> i -> upd f i x j = f j.
Proof. intros H. unfold upd. destruct (Nat.eqb_spec j i); [contradiction|reflexivity]. Qed.
Ltac ud :=
  repeat match goal with
  | |- context [upd _ ?i _ ?i] => rewrite upd_same
  | H : context [upd _ ?i _ ?i] |- _ => rewrite upd_same in H
  | H : ?j <> ?i |- context [upd _ ?i _ ?j] => rewrite (upd_other _ _ i _ j H)
  | H : ?j <> ?i, K : context [upd _ ?i _ ?j] |- _ => rewrite (upd_other _ _ i _ j H) in K
  | |- context [upd _ ?i _ ?j] => let E := fresh "E" in destruct (Nat.eq_dec j i) as [E|]; [first [subst j|subst i|rewrite E in *]|]
  | K : context [upd _ ?i _ ?j] |- _ => let E := fresh "E" in destruct (Nat.eq_dec j i) as [E|]; [first [subst j|subst i|rewrite E in *]|]
  end.

(* References of users *)
Definition one (x : user) (d : nat) : Z := if u_live x && Nat.eqb (u_driver x) d then 1 else 0.
Fixpoint lives (us : nat -> user) (n : nat) (d : nat) : Z :=
  match n with O => 0 | S m => lives us m d + one (us m) d end.
Lemma one_nonneg x d : 0 <= one x d. Proof. unfold one. destruct (_ && _); lia. Qed.
Lemma lives_nonneg us n d : 0 <= lives us n d.
Proof. induction n; cbn [lives]; [lia|]. pose proof (one_nonneg (us n) d). lia. Qed.
Lemma lives_out us n u x d : (n <= u)%nat -> lives (upd us u x) n d = lives us n d.
Proof. induction n; intros H; cbn [lives]; [reflexivity|]. rewrite IHn, upd_other by lia. reflexivity. Qed.
Lemma lives_upd us n u x d : (u < n)%nat -> lives (upd us u x) n d = lives us n d - one (us u) d + one x d.
Proof.
  induction n; intros H; [lia|]. cbn [lives]. destruct (Nat.eq_dec u n) as [->|N].
  - rewrite lives_out, upd_same by lia. lia.
  - rewrite IHn, upd_other by lia. lia.
Qed.
Lemma lives_one us n u d : (u < n)%nat -> one (us u) d <= lives us n d.
Proof.
  induction n; intros H; [lia|]. cbn [lives]. pose proof (one_nonneg (us n) d). pose proof (lives_nonneg us n d).
  destruct (Nat.eq_dec u n) as [->|N]; [lia|]. specialize (IHn ltac:(lia)). lia.
Qed.
Lemma lives_pos us n d : 0 < lives us n d -> exists u, (u < n)%nat /\ u_live (us u) = true /\ u_driver (us u) = d.
Proof.
  induction n; cbn [lives]; intros H; [lia|]. unfold one in H.
  destruct (u_live (us n)) eqn:E1; cbn [andb] in H.
  - destruct (Nat.eqb_spec (u_driver (us n)) d); [exists n; auto with arith|].
    destruct IHn as (u & A & B); [lia|]. exists u. split; [lia|exact B].
  - destruct IHn as (u & A & B); [lia|]. exists u. split; [lia|exact B].
Qed.

(* Counting events *)
Lemma opens_cons e tr f : opens (e :: tr) f = ((match e with EvOpen g => if Nat.eqb g f then 1 else 0 | _ => 0 end) + opens tr f)%nat.
Proof. unfold opens, how_many. cbn [filter]. destruct e; try destruct (Nat.eqb _ _); reflexivity. Qed.
Lemma closes_cons e tr f : closes (e :: tr) f = ((match e with EvClose g => if Nat.eqb g f then 1 else 0 | _ => 0 end) + closes tr f)%nat.
Proof. unfold closes, how_many. cbn [filter]. destruct e; try destruct (Nat.eqb _ _); reflexivity. Qed.
Lemma maps_cons e tr f : maps (e :: tr) f = ((match e with EvMap g => if Nat.eqb g f then 1 else 0 | _ => 0 end) + maps tr f)%nat.
Proof. unfold maps, how_many. cbn [filter]. destruct e; try destruct (Nat.eqb _ _); reflexivity. Qed.
Lemma unmaps_cons e tr f : unmaps (e :: tr) f = ((match e with EvUnmap g => if Nat.eqb g f then 1 else 0 | _ => 0 end) + unmaps tr f)%nat.
Proof. unfold unmaps, how_many. cbn [filter]. destruct e; try destruct (Nat.eqb _ _); reflexivity. Qed.
Definition device (tr : list event) (f : nat) : Prop := (0 < opens tr f)%nat.
Lemma is_device_spec tr f : is_device tr f = true <-> device tr f.
Proof.
  unfold device. induction tr as [|e tr IH]; [cbn; split; [discriminate|lia]|].
  cbn [is_device existsb]. fold (is_device tr f). rewrite opens_cons, orb_true_iff, IH.
  destruct e; try destruct (Nat.eqb _ _); intuition (try discriminate; try lia).
Qed.

Record Inv (ex : nat -> Z) (s : state) : Prop := {
  i_users : forall u, u_live (users s u) = true -> (u < ucount s)%nat /\ (u_driver (users s u) < dcount s)%nat;
  i_refs : forall d, (d < dcount s)%nat -> d_refs (drivers s d) = lives (users s) (ucount s) d + ex d;
  i_freed : forall d, (d < dcount s)%nat -> d_freed (drivers s d) = (d_refs (drivers s d) =? 0);
  i_gone : forall d, (d < dcount s)%nat -> d_freed (drivers s d) = true -> d_vm (drivers s d) = None;
  i_vm : forall d f, (d < dcount s)%nat -> d_vm (drivers s d) = Some f ->
    f = d_file (drivers s d) /\ mapped s f = true /\ exists n, d_fd (drivers s d) = Some n /\ fds s n = Some f;
  i_novm : forall d, (d < dcount s)%nat -> d_vm (drivers s d) = None ->
    d_fd (drivers s d) = None /\ mapped s (d_file (drivers s d)) = false /\ forall n, fds s n <> Some (d_file (drivers s d));
  i_fds : forall n f, fds s n = Some f -> (f < files s)%nat;
  i_dfile : forall d, (d < dcount s)%nat -> (d_file (drivers s d) < files s)%nat;
  i_inj : forall d e, (d < dcount s)%nat -> (e < dcount s)%nat -> d_file (drivers s d) = d_file (drivers s e) -> d = e;
  i_uniq : forall n m f, fds s n = Some f -> fds s m = Some f -> n = m;
  i_dev : forall f, device (trace s) f -> (f < files s)%nat /\ opens (trace s) f = 1%nat;
  i_open : forall n f, device (trace s) f -> fds s n = Some f ->
    closes (trace s) f = 0%nat /\ exists d, (d < dcount s)%nat /\ d_vm (drivers s d) = Some f;
  i_closed : forall f, device (trace s) f -> (forall n, fds s n <> Some f) -> closes (trace s) f = 1%nat;
  i_other : forall f, ~ device (trace s) f ->
    closes (trace s) f = 0%nat /\ maps (trace s) f = 0%nat /\ unmaps (trace s) f = 0%nat /\ mapped s f = false;
  i_map : forall f, mapped s f = true -> maps (trace s) f = 1%nat /\ unmaps (trace s) f = 0%nat;
  i_mapped : forall f, mapped s f = true -> exists d, (d < dcount s)%nat /\ d_vm (drivers s d) = Some f;
  i_unmap : forall f, mapped s f = false -> maps (trace s) f = unmaps (trace s) f /\ (maps (trace s) f <= 1)%nat
}.
Definition none : nat -> Z := fun _ => 0.
Lemma inv_init : Inv none init.
Proof. constructor; cbn; intros; try lia; try discriminate; try (unfold device in *; cbn in *; lia); auto. Qed.

(* References change, and nothing else *)
Lemma inv_refs ex ex' s d r b :
  Inv ex s -> (d < dcount s)%nat -> r = lives (users s) (ucount s) d + ex' d -> (forall e, e <> d -> ex' e = ex e) ->
  b = (r =? 0) -> (b = true -> d_vm (drivers s d) = None) ->
  Inv ex' (set_driver s d (Driver (d_fd (drivers s d)) (d_vm (drivers s d)) r b (d_file (drivers s d)))).
Proof.
  intros I Hd Hr He Hb Hv. destruct I. constructor; cbn [set_driver users ucount dcount drivers fds files mapped trace]; auto; intros.
  - ud; [exact Hr|]. rewrite He by assumption. auto.
  - ud; cbn [d_freed d_refs]; auto.
  - ud; cbn [d_vm d_freed] in *; auto.
  - ud; cbn [d_vm d_fd d_file] in *; auto.
  - ud; cbn [d_vm d_fd d_file] in *; auto.
  - ud; cbn [d_file] in *; auto.
  - ud; cbn [d_file] in *; auto.
  - destruct (i_open0 n f H H0) as (A & e & B & C). split; [exact A|]. exists e. split; [exact B|]. ud; auto.
  - destruct (i_mapped0 f H) as (e & B & C). exists e. split; [exact B|]. ud; auto.
Qed.
(* The device is unmapped and closed *)
Definition shut (s : state) (d f n : nat) (r : Z) (b : bool) : state :=
  set_driver (say (set_fd (say (set_mapped s f false) (EvUnmap f)) n None) (EvClose f)) d
    (Driver None None r b (d_file (drivers s d))).
Lemma inv_shut ex ex' s d f n r b :
  Inv ex s -> (d < dcount s)%nat -> d_vm (drivers s d) = Some f -> d_fd (drivers s d) = Some n ->
  r = lives (users s) (ucount s) d + ex' d -> (forall e, e <> d -> ex' e = ex e) -> b = (r =? 0) ->
  Inv ex' (shut s d f n r b).
Proof.
  intros I Hd Hvm Hfd Hr He Hb. pose proof I as I0. destruct I.
  destruct (i_vm0 d f Hd Hvm) as (Ef & Hm & m & Em & Hn). rewrite Hfd in Em. injection Em as <-.
  assert (Hdev : device (trace s) f).
  { destruct (Nat.eq_dec (opens (trace s) f) 0) as [Z|Z]; [|unfold device; lia].
    destruct (i_other0 f) as (_ & _ & _ & K); [unfold device; lia|congruence]. }
  assert (U : forall g, device (EvClose f :: EvUnmap f :: trace s) g <-> device (trace s) g)
    by (intros g; unfold device; rewrite !opens_cons; lia).
  destruct (i_map0 f Hm) as [M1 M2].
  constructor; cbn [shut say set_fd set_mapped set_driver users ucount dcount drivers fds files mapped trace]; auto.
  - intros e H. ud; [exact Hr|]. rewrite He by assumption. auto.
  - intros e H. ud; cbn [d_freed d_refs]; auto.
  - intros e H H1. ud; cbn [d_vm d_freed] in *; auto.
  - intros e g H H1. destruct (Nat.eq_dec e d) as [->|n0]; [rewrite upd_same in H1; discriminate|].
    rewrite (upd_other _ _ d _ e n0) in *.
    destruct (i_vm0 e g H H1) as (A & B & k & C & D). split; [exact A|].
    assert (g <> f). { intros ->. apply n0. apply i_inj0; auto. congruence. }
    ud; try contradiction. split; [exact B|]. exists k. split; [exact C|]. ud; [congruence|exact D].
  - intros e H H1. destruct (Nat.eq_dec e d) as [->|n0].
    + rewrite upd_same in *. cbn [d_vm d_fd d_file] in *. split; [reflexivity|]. rewrite <- Ef. ud. split; [reflexivity|]. intros k. ud; [discriminate|].
      intros K. assert (k = n) by (eapply i_uniq0; eauto). congruence.
    + rewrite (upd_other _ _ d _ e n0) in *. destruct (i_novm0 e H H1) as (A & B & C). split; [exact A|]. split; [ud; auto|].
      intros k. ud; [discriminate|apply C].
  - intros k g. ud; [discriminate|apply i_fds0].
  - intros e H. ud; cbn [d_file]; auto.
  - intros e g H1 H2 H3. ud; cbn [d_file] in *; auto.
  - intros k m g. ud; try discriminate. apply i_uniq0.
  - intros k g H1 H2. rewrite !closes_cons. ud; [discriminate|]. apply U in H1.
    destruct (Nat.eqb_spec f g) as [<-|N]; [exfalso; apply n0; eapply i_uniq0; eauto|].
    destruct (i_open0 k g H1 H2) as (A & e & B & C). split; [exact A|]. exists e. split; [exact B|]. ud; [congruence|exact C].
  - intros g H1 H2. rewrite !closes_cons. apply U in H1. destruct (Nat.eqb_spec f g) as [<-|N].
    + destruct (i_open0 n f H1 Hn) as [A _]. rewrite A. reflexivity.
    + apply i_closed0; [exact H1|]. intros k K. apply (H2 k). ud; [congruence|exact K].
  - intros g H. rewrite U in H. rewrite !closes_cons, !maps_cons, !unmaps_cons.
    assert (g <> f) by (intros ->; contradiction). destruct (Nat.eqb_spec f g); [congruence|].
    destruct (i_other0 g H) as (A & B & C & D). ud; auto.
  - intros g H. rewrite !maps_cons, !unmaps_cons. ud; [discriminate|]. destruct (Nat.eqb_spec f g); [congruence|]. exact (i_map0 g H).
  - intros g H. ud; [discriminate|]. destruct (i_mapped0 g H) as (e & B & C). exists e. split; [exact B|]. ud; [congruence|exact C].
  - intros g H. rewrite !maps_cons, !unmaps_cons. destruct (Nat.eqb_spec f g) as [<-|N].
    + rewrite M1, M2. lia.
    + ud; [contradiction|]. exact (i_unmap0 g H).
Qed.
Lemma sys_close_is s n f : fds s n = Some f -> sys_close s (Some n) = say (set_fd s n None) (EvClose f).
Proof. intros H. unfold sys_close. rewrite H. reflexivity. Qed.
Lemma close_is ex s d : Inv ex s -> (d < dcount s)%nat -> d_freed (drivers s d) = false ->
  (d_vm (drivers s d) = None /\ driver_close s d = Ok s) \/
  (exists f n, d_vm (drivers s d) = Some f /\ d_fd (drivers s d) = Some n /\
     driver_close s d = Ok (shut s d f n (d_refs (drivers s d)) false)).
Proof.
  intros I Hd Hf. unfold driver_close. rewrite Hf. destruct (d_vm (drivers s d)) as [f|] eqn:E; [|auto].
  right. destruct (i_vm _ _ I d f Hd E) as (A & B & n & C & D). exists f, n. split; [reflexivity|]. split; [exact C|].
  unfold sys_munmap. rewrite C, (sys_close_is _ n f) by exact D. reflexivity.
Qed.

(* Users *)
Lemma inv_user ex ex' s u x :
  Inv ex s -> (u < ucount s)%nat -> u_driver x = u_driver (users s u) -> (u_live x = true -> u_live (users s u) = true) ->
  (forall d, ex' d = ex d + one (users s u) d - one x d) -> Inv ex' (set_user s u x).
Proof.
  intros I Hu Hd Hl He. destruct I. constructor; cbn [set_user users ucount dcount drivers fds files mapped trace]; auto.
  - intros v. ud; [|auto]. intros K. rewrite Hd. auto.
  - intros d H. rewrite lives_upd, He by assumption. rewrite i_refs0 by assumption. lia.
Qed.
Lemma inv_loaded s u v : Inv none s -> u_live (users s u) = true -> Inv none (set_user s u (set_loaded (users s u) v)).
Proof.
  intros I L. apply inv_user with (ex := none); auto. { apply (i_users _ _ I), L. }
  intros d. unfold none, one, set_loaded. cbn [u_live u_driver]. lia.
Qed.
Definition owed (d : nat) : nat -> Z := fun e => if Nat.eqb e d then 1 else 0.
Lemma owed_same d : owed d d = 1. Proof. unfold owed. rewrite Nat.eqb_refl. reflexivity. Qed.
Lemma owed_other d e : e <> d -> owed d e = 0. Proof. intros H. unfold owed. destruct (Nat.eqb_spec e d); [contradiction|reflexivity]. Qed.
Lemma inv_released s u : Inv none s -> u_live (users s u) = true ->
  Inv (owed (u_driver (users s u))) (set_user s u (User (u_driver (users s u)) (u_kind (users s u)) false None)).
Proof.
  intros I L. apply inv_user with (ex := none); auto. { apply (i_users _ _ I), L. }
  intros d. unfold none, one, owed. cbn [u_live u_driver andb]. rewrite L. cbn [andb]. rewrite (Nat.eqb_sym d). lia.
Qed.
Lemma inv_new_user s d x : Inv (owed d) s -> (d < dcount s)%nat -> u_driver x = d -> u_live x = true -> Inv none (new_user s x).
Proof.
  intros I Hd Ed L. destruct I. constructor; cbn [new_user users ucount dcount drivers fds files mapped trace]; auto.
  - intros v. ud; [rewrite Ed; lia|]. intros K. destruct (i_users0 v K). lia.
  - intros e H. cbn [lives]. rewrite lives_out, upd_same by lia. rewrite i_refs0 by assumption.
    unfold one, owed, none. rewrite L, Ed. cbn [andb]. rewrite (Nat.eqb_sym e). lia.
Qed.
Lemma live_driver s u : Inv none s -> u_live (users s u) = true ->
  (u_driver (users s u) < dcount s)%nat /\ d_freed (drivers s (u_driver (users s u))) = false /\
  0 < d_refs (drivers s (u_driver (users s u))).
Proof.
  intros I L. destruct (i_users _ _ I u L) as [A B]. split; [exact B|].
  pose proof (lives_one (users s) (ucount s) u (u_driver (users s u)) A) as K. unfold one in K. rewrite L, Nat.eqb_refl in K. cbn [andb] in K.
  rewrite (i_freed _ _ I) by exact B. rewrite (i_refs _ _ I) by exact B. unfold none.
  split; [apply Z.eqb_neq; lia|lia].
Qed.
Definition ref_state (s : state) (d : nat) : state := set_driver s d (set_refs (drivers s d) (d_refs (drivers s d) + 1)).
Lemma ref_ok s d : Inv none s -> (d < dcount s)%nat -> d_freed (drivers s d) = false ->
  driver_ref s d = Ok (ref_state s d) /\ Inv (owed d) (ref_state s d).
Proof.
  intros I Hd Hf. unfold driver_ref, ref_state. rewrite Hf. split; [reflexivity|]. unfold set_refs. rewrite Hf.
  pose proof (lives_nonneg (users s) (ucount s) d).
  eapply inv_refs; eauto.
  - rewrite owed_same, (i_refs _ _ I) by exact Hd. unfold none. lia.
  - intros e N. rewrite owed_other by exact N. reflexivity.
  - rewrite (i_refs _ _ I) by exact Hd. unfold none. symmetry. apply Z.eqb_neq. lia.
  - discriminate.
Qed.

(* What driver_unref does *)
Definition less (s : state) (d : nat) : state :=
  let x := drivers s d in
  set_driver s d (Driver (d_fd x) (d_vm x) (d_refs x - 1) (d_refs x =? 1) (d_file x)).
(* States are compared up to equality of functions *)
Definition same (s t : state) : Prop :=
  (forall n, fds s n = fds t n) /\ files s = files t /\ (forall f, mapped s f = mapped t f) /\
  (forall d, drivers s d = drivers t d) /\ dcount s = dcount t /\ (forall u, users s u = users t u) /\
  ucount s = ucount t /\ trace s = trace t.

Lemma lives_ext us vs n d : (forall u, us u = vs u) -> lives us n d = lives vs n d.
Proof. intros H. induction n; cbn [lives]; [reflexivity|]. rewrite IHn, H. reflexivity. Qed.
Lemma inv_same ex s t : same s t -> Inv ex s -> Inv ex t.
Proof.
  intros (A & B & C & D & E & F & G & H) I. destruct I. destruct s as [sf sn sm sd sc su sk st], t as [tf tn tm td tc tu tk tt].
  cbn [users ucount dcount drivers fds files mapped trace] in *. subst. constructor; cbn [users ucount dcount drivers fds files mapped trace].
  - intros u. rewrite <- F. apply i_users0.
  - intros d Hd. rewrite <- D, <- (lives_ext su tu) by exact F. auto.
  - intros d Hd. rewrite <- D. auto.
  - intros d Hd. rewrite <- D. auto.
  - intros d f Hd. rewrite <- D. rewrite <- C. intros K. destruct (i_vm0 d f Hd K) as (X & Y & n & Z & W).
    repeat split; auto. exists n. rewrite <- A. auto.
  - intros d Hd. rewrite <- D, <- C. intros K. destruct (i_novm0 d Hd K) as (X & Y & Z). repeat split; auto. intros n. rewrite <- A. apply Z.
  - intros n f. rewrite <- A. apply i_fds0.
  - intros d Hd. rewrite <- D. auto.
  - intros d e Hd He. rewrite <- !D. auto.
  - intros n m f. rewrite <- !A. apply i_uniq0.
  - exact i_dev0.
  - intros n f K. rewrite <- A. intros L. destruct (i_open0 n f K L) as (X & d & Y & Z). split; [exact X|]. exists d. rewrite <- D. auto.
  - intros f K L. apply i_closed0; [exact K|]. intros n. rewrite A. apply L.
  - intros f K. rewrite <- C. auto.
  - intros f. rewrite <- C. auto.
  - intros f. rewrite <- C. intros K. destruct (i_mapped0 f K) as (d & X & Y). exists d. rewrite <- D. auto.
  - intros f. rewrite <- C. auto.
Qed.
Lemma unref_ok s d : Inv (owed d) s -> (d < dcount s)%nat -> d_freed (drivers s d) = false ->
  exists t, driver_unref s d = Ok t /\ Inv none t /\ users t = users s /\ ucount t = ucount s /\ dcount t = dcount s /\
    (forall e, e <> d -> drivers t e = drivers s e) /\ (d_freed (drivers t d) = false -> same t (less s d)) /\
    (forall e, d_file (drivers t e) = d_file (drivers s e)) /\
    (forall f g, In (EvCommand f g) (trace t) <-> In (EvCommand f g) (trace s)) /\
    (forall f v i, In (EvNew f v i) (trace t) <-> In (EvNew f v i) (trace s)).
Proof.
  intros I Hd Hf.
  pose proof (i_refs _ _ I d Hd) as R. rewrite owed_same in R. pose proof (lives_nonneg (users s) (ucount s) d) as P.
  unfold driver_unref. rewrite Hf. destruct (Z.eqb_spec (d_refs (drivers s d)) 1) as [E|E].
  - unfold driver_close. cbn [set_driver drivers]. rewrite upd_same. cbn [set_refs d_freed d_vm]. rewrite Hf.
    destruct (d_vm (drivers s d)) as [f|] eqn:V.
    + destruct (i_vm _ _ I d f Hd V) as (A & B & n & C & D). cbn [set_refs d_fd d_refs d_file]. rewrite ?C.
      rewrite (sys_close_is _ n f) by exact D. cbn [obind]. eexists. split; [reflexivity|].
      split.
      { eapply inv_same; [|apply (inv_shut (owed d) none s d f n 0 true I Hd V C)].
        - repeat split; cbn; auto. intros e. ud; cbn; [|reflexivity]. rewrite E. reflexivity.
        - unfold none. lia.
        - intros e N. rewrite owed_other by exact N. reflexivity.
        - reflexivity. }
      cbn. repeat (split; [reflexivity|]). split; [intros e N; ud; reflexivity|]. split; [rewrite upd_same; discriminate|].
      split; [intros e; ud; reflexivity|]. split; intros; (split; [intros [K|[K|K]]; try discriminate; exact K|auto]).
    + cbn [obind]. eexists. split; [reflexivity|]. split.
      { eapply inv_same; [|apply (inv_refs (owed d) none s d 0 true I Hd)].
        - repeat split; cbn; auto. intros e. ud; cbn; [|reflexivity]. rewrite E, V. reflexivity.
        - unfold none. lia.
        - intros e N. rewrite owed_other by exact N. reflexivity.
        - reflexivity.
        - auto. }
      cbn. repeat (split; [reflexivity|]). split; [intros e N; ud; reflexivity|]. split; [rewrite upd_same; discriminate|].
      split; [intros e; ud; reflexivity|]. split; intros; reflexivity.
  - eexists. split; [reflexivity|]. split.
    { unfold set_refs. rewrite Hf. apply (inv_refs (owed d) none s d _ _ I Hd).
      - unfold none. lia.
      - intros e N. rewrite owed_other by exact N. reflexivity.
      - symmetry. apply Z.eqb_neq. lia.
      - discriminate. }
    cbn. repeat (split; [reflexivity|]). split; [intros e N; ud; reflexivity|].
    split.
    { intros _. repeat split; cbn; auto. intros e. ud; [|reflexivity]. unfold set_refs. rewrite Hf.
      replace (d_refs (drivers s d) =? 1) with false by (symmetry; apply Z.eqb_neq; exact E). reflexivity. }
    split; [intros e; ud; reflexivity|]. split; intros; reflexivity.
Qed.

(* Commands are noted *)
Definition quiet (e : event) : Prop := match e with EvNew _ _ _ | EvFail | EvCommand _ _ => True | _ => False end.
Lemma inv_say ex s e : quiet e -> Inv ex s -> Inv ex (say s e).
Proof.
  intros Q I. destruct I.
  assert (U : forall g, device (e :: trace s) g <-> device (trace s) g)
    by (intros g; unfold device; rewrite !opens_cons; destruct e; cbn in Q; try contradiction; lia).
  assert (Uo : forall g, opens (e :: trace s) g = opens (trace s) g) by (intros g; rewrite opens_cons; destruct e; cbn in Q; try contradiction; reflexivity).
  assert (Uc : forall g, closes (e :: trace s) g = closes (trace s) g) by (intros g; rewrite closes_cons; destruct e; cbn in Q; try contradiction; reflexivity).
  assert (Um : forall g, maps (e :: trace s) g = maps (trace s) g) by (intros g; rewrite maps_cons; destruct e; cbn in Q; try contradiction; reflexivity).
  assert (Uu : forall g, unmaps (e :: trace s) g = unmaps (trace s) g) by (intros g; rewrite unmaps_cons; destruct e; cbn in Q; try contradiction; reflexivity).
  constructor; cbn [say users ucount dcount drivers fds files mapped trace]; auto.
  - intros f H. rewrite Uo. apply i_dev0, U, H.
  - intros n f H. rewrite Uc. apply i_open0, U, H.
  - intros f H. rewrite Uc. apply i_closed0, U, H.
  - intros f H. rewrite Uc, Um, Uu. apply i_other0. rewrite <- U. exact H.
  - intros f H. rewrite Um, Uu. auto.
  - intros f H. rewrite Um, Uu. auto.
Qed.
Lemma not_device ex s : Inv ex s -> ~ device (trace s) (files s).
Proof. intros I H. destruct (i_dev _ _ I _ H). lia. Qed.
Definition opened (s : state) (n : nat) : state :=
  State (upd (fds s) n (Some (files s))) (S (files s)) (mapped s) (drivers s) (dcount s) (users s) (ucount s) (trace s).
Lemma inv_other_open ex s n : Inv ex s -> fds s n = None -> Inv ex (opened s n).
Proof.
  intros I Hn. pose proof (not_device _ _ I) as ND. destruct I.
  constructor; cbn [opened users ucount dcount drivers fds files mapped trace]; auto.
  - intros d f Hd V. destruct (i_vm0 d f Hd V) as (A & B & k & C & D). repeat split; auto. exists k. split; [exact C|]. ud; [congruence|exact D].
  - intros d Hd V. destruct (i_novm0 d Hd V) as (A & B & C). repeat split; auto. intros k. ud; [|apply C].
    pose proof (i_dfile0 d Hd). intros [= K]. lia.
  - intros k f. ud; [intros [= <-]; lia|]. intros K. apply i_fds0 in K. lia.
  - intros d Hd. pose proof (i_dfile0 d Hd). lia.
  - intros k m f. destruct (Nat.eq_dec k n) as [->|N1], (Nat.eq_dec m n) as [->|N2]; auto.
    + rewrite upd_same, (upd_other _ _ n _ m N2). intros [= <-] K. apply i_fds0 in K. lia.
    + rewrite upd_same, (upd_other _ _ n _ k N1). intros K [= <-]. apply i_fds0 in K. lia.
    + rewrite (upd_other _ _ n _ k N1), (upd_other _ _ n _ m N2). apply i_uniq0.
  - intros f H. destruct (i_dev0 f H). split; [lia|assumption].
  - intros k f H. ud; [intros [= <-]; contradiction|]. apply i_open0, H.
  - intros f H K. apply i_closed0; [exact H|]. intros k L. apply (K k). ud; [congruence|exact L].
Qed.
Lemma vm_device ex s d f : Inv ex s -> (d < dcount s)%nat -> d_vm (drivers s d) = Some f -> device (trace s) f.
Proof.
  intros I Hd V. destruct (i_vm _ _ I d f Hd V) as (_ & M & _).
  destruct (Nat.eq_dec (opens (trace s) f) 0) as [Z|Z]; [|unfold device; lia].
  destruct (i_other _ _ I f) as (_ & _ & _ & K); [unfold device; lia|congruence].
Qed.
Lemma inv_other_close ex s n f : Inv ex s -> fds s n = Some f -> ~ device (trace s) f -> Inv ex (set_fd s n None).
Proof.
  intros I Hn ND. pose proof (fun d g => vm_device _ _ d g I) as VD. destruct I.
  constructor; cbn [set_fd users ucount dcount drivers fds files mapped trace]; auto.
  - intros d g Hd V. pose proof (VD d g Hd V). destruct (i_vm0 d g Hd V) as (A & B & k & C & D). repeat split; auto. exists k. split; [exact C|].
    ud; [|exact D]. exfalso. apply ND. congruence.
  - intros d Hd V. destruct (i_novm0 d Hd V) as (A & B & C). repeat split; auto. intros k. ud; [discriminate|apply C].
  - intros k g. ud; [discriminate|]. apply i_fds0.
  - intros k m g. ud; try discriminate. apply i_uniq0.
  - intros k g H. ud; [discriminate|]. apply i_open0, H.
  - intros g H K. apply i_closed0; [exact H|]. intros k L. apply (K k). ud; [|exact L]. exfalso. apply ND. congruence.
Qed.
(* The device can't be used *)
Lemma inv_fail s n : Inv none s -> fds s n = None ->
  Inv none (say (sys_close (say (opened s n) (EvOpen (files s))) (Some n)) EvFail).
Proof.
  intros I Hn. apply inv_say; [exact Logic.I|]. rewrite (sys_close_is _ n (files s)) by (cbn; apply upd_same).
  pose proof (not_device _ _ I) as ND.
  assert (OF : forall k, fds s k <> Some (files s)) by (intros k K; apply (i_fds _ _ I) in K; lia).
  assert (DF : forall d, (d < dcount s)%nat -> d_file (drivers s d) <> files s) by (intros d K E; pose proof (i_dfile _ _ I d K); lia).
  assert (O0 : opens (trace s) (files s) = 0%nat) by (unfold device in ND; lia).
  destruct (i_other _ _ I _ ND) as (C0 & M0 & U0 & MM).
  destruct I.
  constructor; cbn [opened say set_fd users ucount dcount drivers fds files mapped trace]; auto.
  - intros d f Hd V. destruct (i_vm0 d f Hd V) as (A & B & k & C & D). repeat split; auto. exists k. split; [exact C|]. ud; [congruence|exact D].
  - intros d Hd V. destruct (i_novm0 d Hd V) as (A & B & C). repeat split; auto. intros k. ud; [discriminate|apply C].
  - intros k f. ud; [discriminate|]. intros K. apply i_fds0 in K. lia.
  - intros d Hd. pose proof (i_dfile0 d Hd). lia.
  - intros k m f. ud; try discriminate. apply i_uniq0.
  - intros f H. unfold device in H. rewrite !opens_cons in H. rewrite !opens_cons. destruct (Nat.eqb_spec (files s) f) as [K0|N]; [rewrite <- K0 in *; lia|].
    destruct (i_dev0 f H). split; [lia|assumption].
  - intros k f H. ud; [discriminate|]. intros K. rewrite !closes_cons. unfold device in H. rewrite !opens_cons in H.
    destruct (Nat.eqb_spec (files s) f) as [K0|N]; [rewrite <- K0 in *; exfalso; exact (OF k K)|]. apply (i_open0 k f H K).
  - intros f H K. rewrite !closes_cons. unfold device in H. rewrite !opens_cons in H.
    destruct (Nat.eqb_spec (files s) f) as [K0|N]; [rewrite <- K0 in *; lia|]. cbn [Nat.add]. apply i_closed0; [exact H|]. intros k L. apply (K k). ud; [congruence|exact L].
  - intros f H. unfold device in H. rewrite !closes_cons, !maps_cons, !unmaps_cons. rewrite !opens_cons in H.
    destruct (Nat.eqb_spec (files s) f) as [K0|N]; [rewrite <- K0 in *; lia|]. apply i_other0. exact H.
Qed.
Lemma inv_new s n v i : Inv none s -> fds s n = None ->
  let f := files s in
  let s1 := say (set_mapped (say (opened s n) (EvOpen f)) f true) (EvMap f) in
  let d := dcount s1 in
  let s2 := State (fds s1) (files s1) (mapped s1) (upd (drivers s1) d (Driver (Some n) (Some f) 1 false f)) (S d)
             (users s1) (ucount s1) (trace s1) in
  Inv none (new_user (say s2 (EvNew f v i)) (User d Connection true None)).
Proof.
  intros I Hn f s1 d s2. apply inv_new_user with (d := d); [|unfold s2, s1; cbn; lia|reflexivity|reflexivity].
  apply inv_say; [exact Logic.I|].
  pose proof (not_device _ _ I) as ND. fold f in ND.
  assert (OF : forall k, fds s k <> Some f) by (intros k K; apply (i_fds _ _ I) in K; unfold f in K; lia).
  assert (DF : forall d, (d < dcount s)%nat -> d_file (drivers s d) <> f) by (intros e K E; pose proof (i_dfile _ _ I e K); unfold f in E; lia).
  assert (O0 : opens (trace s) f = 0%nat) by (unfold device in ND; lia).
  destruct (i_other _ _ I _ ND) as (C0 & M0 & U0 & MM).
  assert (L0 : lives (users s) (ucount s) d = 0).
  { pose proof (lives_nonneg (users s) (ucount s) d). destruct (Z.eq_dec (lives (users s) (ucount s) d) 0); [assumption|].
    destruct (lives_pos (users s) (ucount s) d) as (u & A & B & C); [lia|]. destruct (i_users _ _ I u B). unfold d, s1 in C. cbn in C. lia. }
  assert (ED : d = dcount s) by reflexivity.
  assert (EF : f = files s) by reflexivity.
  clearbody d f. destruct I.
  constructor; unfold s2, s1; cbn [opened say set_mapped users ucount dcount drivers fds files mapped trace]; auto.
  - intros u K. destruct (i_users0 u K). lia.
  - intros e H. ud; cbn [d_refs]; [rewrite owed_same; lia|]. rewrite owed_other by assumption. rewrite i_refs0 by lia. reflexivity.
  - intros e H. ud; cbn [d_freed d_refs]; [reflexivity|]. apply i_freed0. lia.
  - intros e H. ud; cbn [d_freed]; [discriminate|]. apply i_gone0. lia.
  - intros e g H V. destruct (Nat.eq_dec e d) as [E|N].
    + rewrite E, upd_same in *. cbn [d_vm d_file d_fd] in *. injection V as <-. rewrite upd_same. repeat split; auto. exists n. rewrite upd_same. rewrite EF. auto.
    + rewrite (upd_other _ _ d _ e N) in *. destruct (i_vm0 e g ltac:(lia) V) as (A & B & k & C & D). repeat split; auto.
      * ud; auto.
      * exists k. split; [exact C|]. ud; [congruence|exact D].
  - intros e H V. destruct (Nat.eq_dec e d) as [E|N]; [rewrite E, upd_same in V; discriminate|].
    rewrite (upd_other _ _ d _ e N) in *. destruct (i_novm0 e ltac:(lia) V) as (A & B & C). repeat split; auto.
    + rewrite upd_other; [exact B|]. apply DF. lia.
    + intros k. ud; [|apply C]. intros [= K]. apply (DF e); [lia|congruence].
  - intros k g. ud; [intros [= <-]; lia|]. intros K. apply i_fds0 in K. lia.
  - intros e H. ud; cbn [d_file]; [lia|]. pose proof (i_dfile0 e ltac:(lia)). lia.
  - intros e g H1 H2. destruct (Nat.eq_dec e d) as [E1|N1], (Nat.eq_dec g d) as [E2|N2]; try congruence.
    + rewrite E1, upd_same, (upd_other _ _ d _ g N2). cbn [d_file]. intros K. exfalso. apply (DF g); [lia|congruence].
    + rewrite E2, upd_same, (upd_other _ _ d _ e N1). cbn [d_file]. intros K. exfalso. apply (DF e); [lia|congruence].
    + rewrite (upd_other _ _ d _ g N2), (upd_other _ _ d _ e N1). apply i_inj0; lia.
  - intros k m g. destruct (Nat.eq_dec k n) as [->|N1], (Nat.eq_dec m n) as [->|N2]; auto.
    + rewrite upd_same, (upd_other _ _ n _ m N2). intros [= <-] K. apply i_fds0 in K. lia.
    + rewrite upd_same, (upd_other _ _ n _ k N1). intros K [= <-]. apply i_fds0 in K. lia.
    + rewrite (upd_other _ _ n _ k N1), (upd_other _ _ n _ m N2). apply i_uniq0.
  - intros g H. unfold device in H. rewrite !opens_cons in H. rewrite !opens_cons. destruct (Nat.eqb_spec f g) as [K0|N]; [rewrite <- K0 in *; lia|].
    destruct (i_dev0 g H). split; [lia|assumption].
  - intros k g H K. rewrite !closes_cons. cbn [Nat.add]. unfold device in H. rewrite !opens_cons in H.
    destruct (Nat.eqb_spec f g) as [K0|N].
    + rewrite <- K0 in *. split; [exact C0|]. exists d. split; [lia|]. rewrite upd_same. reflexivity.
    + destruct (Nat.eq_dec k n) as [E|N1]; [rewrite E, upd_same in K; congruence|]. rewrite (upd_other _ _ n _ k N1) in K.
      destruct (i_open0 k g H K) as (A & e & B & C). split; [exact A|]. exists e. split; [lia|]. rewrite upd_other by lia. exact C.
  - intros g H K. rewrite !closes_cons. cbn [Nat.add]. unfold device in H. rewrite !opens_cons in H.
    destruct (Nat.eqb_spec f g) as [K0|N]; [rewrite <- K0 in *; exfalso; apply (K n); rewrite upd_same, EF; reflexivity|].
    apply i_closed0; [exact H|]. intros k L. apply (K k). ud; [congruence|exact L].
  - intros g H. unfold device in H. rewrite !closes_cons, !maps_cons, !unmaps_cons. rewrite !opens_cons in H.
    destruct (Nat.eqb_spec f g) as [K0|N]; [rewrite <- K0 in *; lia|]. rewrite upd_other by congruence. apply i_other0. exact H.
  - intros g H. rewrite !maps_cons, !unmaps_cons. destruct (Nat.eqb_spec f g) as [K0|N]; [rewrite <- K0 in *; lia|]. rewrite upd_other in H by congruence. apply i_map0, H.
  - intros g H. destruct (Nat.eq_dec g f) as [E|N]; [exists d; rewrite upd_same, E; auto|]. rewrite (upd_other _ _ f _ g N) in H.
    destruct (i_mapped0 g H) as (e & B & C). exists e. split; [lia|]. rewrite upd_other by lia. exact C.
  - intros g H. rewrite !maps_cons, !unmaps_cons. destruct (Nat.eqb_spec f g) as [K0|N]; [rewrite <- K0 in *; rewrite upd_same in H; discriminate|].
    rewrite upd_other in H by congruence. apply i_unmap0, H.
Qed.

Lemma contents_free_ok s d o : Inv (owed d) s -> (d < dcount s)%nat -> d_freed (drivers s d) = false ->
  (contents_free s d o = Crash /\ o = true /\ mapped s (d_file (drivers s d)) = false) \/
  contents_free s d o = driver_unref (sys_ioctl s (d_file (drivers s d)) (d_fd (drivers s d))) d.
Proof.
  intros I Hd Hf. unfold contents_free. rewrite Hf. destruct o; [|right; reflexivity]. unfold read_data.
  destruct (mapped s (d_file (drivers s d))); [right; reflexivity|left; auto].
Qed.
Theorem step_inv s m t : Inv none s -> step s m = Ok t -> Inv none t.
Proof.
  intros I. destruct m; cbn [step].
  - unfold driver_new. destruct (a_fd a) as [n|].
    2:{ intros [= <-]. apply inv_say; [exact Logic.I|exact I]. }
    unfold sys_open. destruct (fds s n) eqn:Hn; [discriminate|]. cbn [obind]. fold (opened s n).
    pose proof (inv_fail s n I Hn) as F.
    destruct (a_version a) as [v|]; [|intros [= <-]; exact F].
    destruct (if v =? 7 then Some Io32 else if v =? 8 then Some Io64 else None) as [i|]; [|intros [= <-]; exact F].
    destruct (a_map a); [|intros [= <-]; exact F]. intros [= <-]. exact (inv_new s n v i I Hn).
  - destruct (u_live (users s u)) eqn:L; cbn [andb]; [|discriminate].
    destruct (live_driver s u I L) as (A & B & C). destruct (ref_ok s _ I A B) as [E J].
    destruct (match k with Connection => false | Looper => _ | Data _ => _ end); [|discriminate]. rewrite E. cbn [obind].
    intros [= <-]. eapply inv_new_user; [exact J|exact A|reflexivity|reflexivity].
  - destruct (u_live (users s u)) eqn:L; cbn [andb]; [|discriminate]. destruct (negb (loaded (users s u))); [|discriminate].
    destruct (live_driver s u I L) as (A & B & C). pose proof (inv_released s u I L) as J.
    assert (X : forall q, Inv (owed (u_driver (users s u))) q -> (u_driver (users s u) < dcount q)%nat ->
       d_freed (drivers q (u_driver (users s u))) = false -> driver_unref q (u_driver (users s u)) = Ok t -> Inv none t).
    { intros q J1 J2 J3 J4. destruct (unref_ok q _ J1 J2 J3) as (t' & E & K & _). congruence. }
    destruct (u_kind (users s u)) eqn:K; try (apply X; auto).
    destruct (contents_free_ok _ _ objects J A B) as [[E _]|E]; rewrite E; [discriminate|]. apply X; auto.
    apply inv_say; [exact Logic.I|exact J].
  - destruct (u_live (users s u) && is_data (u_kind (users s u))); [|discriminate]. unfold read_data.
    destruct (mapped s _); [|discriminate]. intros [= <-]. exact I.
  - destruct (u_live (users s u)) eqn:L; [|discriminate]. destruct (d_freed _); [discriminate|]. intros [= <-]. apply inv_loaded; assumption.
  - destruct (u_live (users s u)) eqn:L; [|discriminate]. destruct (u_loaded (users s u)) as [v|]; [|discriminate].
    destruct (d_freed _); [discriminate|]. intros [= <-].
    apply (inv_loaded (sys_ioctl s (d_file (drivers s (u_driver (users s u)))) v) u None); [apply inv_say; [exact Logic.I|exact I]|exact L].
  - destruct (u_live (users s u)) eqn:L; cbn [andb]; [|discriminate]. destruct (is_looper _); [|discriminate].
    destruct (live_driver s u I L) as (A & B & C). destruct (close_is _ s _ I A B) as [[_ E]|(f & n & V & F & E)]; rewrite E; intros [= <-]; [exact I|].
    eapply inv_shut; eauto. { apply (i_refs _ _ I), A. } symmetry. apply Z.eqb_neq. lia.
  - unfold sys_open. destruct (fds s n) eqn:Hn; [discriminate|]. intros [= <-]. apply (inv_other_open _ s n I Hn).
  - destruct (fds s n) as [f|] eqn:Hn; [|discriminate]. destruct (is_device (trace s) f) eqn:D; [discriminate|]. intros [= <-].
    eapply inv_other_close; eauto. intros K. apply is_device_spec in K. congruence.
Qed.
Theorem run_inv l : forall s t, Inv none s -> run s l = Ok t -> Inv none t.
Proof.
  induction l as [|m l IH]; cbn [run]; intros s t I; [intros [= <-]; exact I|].
  destruct (step s m) as [| |s1] eqn:E; try discriminate. apply IH. eapply step_inv; eauto.
Qed.

(* Loopers finish in time *)
Record Calm (s : state) : Prop := {
  c_vm : forall d, (d < dcount s)%nat -> d_freed (drivers s d) = false -> d_vm (drivers s d) <> None;
  c_loaded : forall u v, u_live (users s u) = true -> u_loaded (users s u) = Some v -> v = d_fd (drivers s (u_driver (users s u)));
  c_right : forall f g, In (EvCommand f g) (trace s) -> g = Some f
}.
Lemma calm_init : Calm init.
Proof. constructor; cbn; intros; try lia; try discriminate; contradiction. Qed.
Lemma calm_fd s d : Inv none s -> Calm s -> (d < dcount s)%nat -> d_freed (drivers s d) = false ->
  mapped s (d_file (drivers s d)) = true /\ exists n, d_fd (drivers s d) = Some n /\ fds s n = Some (d_file (drivers s d)).
Proof.
  intros I C Hd Hf. destruct (d_vm (drivers s d)) as [f|] eqn:V; [|exfalso; eapply c_vm; eauto].
  destruct (i_vm _ _ I d f Hd V) as (A & B & n & D & E). rewrite A in *. split; [exact B|]. exists n. auto.
Qed.
Lemma calm_same s t : same s t -> Calm s -> Calm t.
Proof.
  intros (A & B & C & D & E & F & G & H) [X Y Z]. constructor.
  - intros d. rewrite <- E, <- D. apply X.
  - intros u v. rewrite <- F, <- D. apply Y.
  - intros f g. rewrite <- H. apply Z.
Qed.
Theorem step_calm s m : Inv none s -> Calm s -> (match m with MStuck _ => False | _ => True end) ->
  step s m <> Crash /\ (forall t, step s m = Ok t -> Calm t).
Proof.
  intros I C T. destruct m; cbn [step]; try contradiction.
  - unfold driver_new. destruct (a_fd a) as [n|].
    2:{ split; [discriminate|]. intros t [= <-]. destruct C. constructor; auto. cbn. intros f g [K|K]; [discriminate|auto]. }
    unfold sys_open. destruct (fds s n) eqn:Hn; [split; discriminate|]. cbn [obind].
    assert (F : Calm (say (sys_close (say (opened s n) (EvOpen (files s))) (Some n)) EvFail)).
    { rewrite (sys_close_is _ n (files s)) by (cbn; apply upd_same). destruct C. constructor; auto. cbn.
      intros f g [K|[K|[K|K]]]; try discriminate. auto. }
    destruct (a_version a) as [v|]; [|split; [discriminate|]; intros t [= <-]; exact F].
    destruct (if v =? 7 then Some Io32 else if v =? 8 then Some Io64 else None) as [i|]; [|split; [discriminate|]; intros t [= <-]; exact F].
    destruct (a_map a); [|split; [discriminate|]; intros t [= <-]; exact F]. split; [discriminate|]. intros t [= <-].
    destruct C. constructor; cbn.
    + intros d H. ud; cbn; [discriminate|]. apply c_vm0. lia.
    + intros u v0. destruct (Nat.eq_dec u (ucount s)) as [->|N]; [rewrite upd_same; discriminate|]. rewrite (upd_other _ _ _ _ u N).
      intros L. destruct (i_users _ _ I u L). rewrite upd_other by lia. auto.
    + intros f g [K|[K|[K|K]]]; try discriminate. auto.
  - destruct (u_live (users s u)) eqn:L; cbn [andb]; [|split; discriminate].
    destruct (live_driver s u I L) as (A & B & D). destruct (ref_ok s _ I A B) as [E J].
    destruct (match k with Connection => false | Looper => _ | Data _ => _ end); [|split; discriminate]. rewrite E. cbn [obind].
    split; [discriminate|]. intros t [= <-]. destruct C. constructor; cbn.
    + intros d H. ud; cbn; auto.
    + intros w v. destruct (Nat.eq_dec w (ucount s)) as [->|N]; [rewrite upd_same; discriminate|]. rewrite (upd_other _ _ (ucount s) _ w N).
      intros L1 L2. specialize (c_loaded0 w v L1 L2). ud; [cbn; congruence|assumption].
    + exact c_right0.
  - destruct (u_live (users s u)) eqn:L; cbn [andb]; [|split; discriminate]. destruct (negb (loaded (users s u))); [|split; discriminate].
    destruct (live_driver s u I L) as (A & B & D). pose proof (inv_released s u I L) as J.
    set (s1 := set_user s u (User (u_driver (users s u)) (u_kind (users s u)) false None)) in *.
    assert (C1 : Calm s1).
    { destruct C. constructor; cbn; auto. intros w v. ud; [discriminate|]. auto. }
    assert (X : forall q, Inv (owed (u_driver (users s u))) q -> Calm q -> (u_driver (users s u) < dcount q)%nat ->
       d_freed (drivers q (u_driver (users s u))) = false ->
       driver_unref q (u_driver (users s u)) <> Crash /\ (forall t, driver_unref q (u_driver (users s u)) = Ok t -> Calm t)).
    { intros q J1 J2 J3 J4. destruct (unref_ok q _ J1 J3 J4) as (t' & E & K & U1 & U2 & U3 & U4 & U5 & U6 & U7 & U8).
      rewrite E. split; [discriminate|]. intros t [= <-]. destruct J2. constructor.
      - intros d. rewrite U3. intros H1 H2. destruct (Nat.eq_dec d (u_driver (users s u))) as [Ed|Nd].
        + rewrite Ed in *. specialize (U5 H2). destruct U5 as (_ & _ & _ & U5 & _). rewrite U5. cbn. rewrite upd_same. cbn. auto.
        + rewrite U4 in * by exact Nd. auto.
      - intros w v. rewrite U1. intros H1 H2. rewrite (c_loaded0 w v H1 H2).
        destruct (Nat.eq_dec (u_driver (users q w)) (u_driver (users s u))) as [Ed|Nd]; [|rewrite U4 by exact Nd; reflexivity].
        rewrite Ed. assert (F : d_freed (drivers t' (u_driver (users s u))) = false).
        { rewrite <- Ed. assert (H1' : u_live (users t' w) = true) by (rewrite U1; exact H1).
          destruct (live_driver t' w K H1') as (_ & Q & _). rewrite U1 in Q. exact Q. }
        destruct (U5 F) as (_ & _ & _ & U5' & _). rewrite U5'. cbn. rewrite upd_same. reflexivity.
      - intros f g. rewrite U7. apply c_right0. }
    destruct (u_kind (users s u)) eqn:K; try (apply X; auto).
    destruct (calm_fd s _ I C A B) as (M & n & N1 & N2).
    destruct (contents_free_ok s1 _ objects J A B) as [(E & _ & E2)|E]; [exfalso; cbn in E2; congruence|]. rewrite E.
    apply X; auto.
    + apply inv_say; [exact Logic.I|exact J].
    + destruct C1. constructor; auto. cbn. intros f g [G|G]; [|apply c_right0; exact G].
      injection G as <- <-. rewrite N1. exact N2.
  - destruct (u_live (users s u)) eqn:L; cbn [andb]; [|split; discriminate].
    destruct (live_driver s u I L) as (A & B & D). destruct (calm_fd s _ I C A B) as (M & _).
    destruct (is_data _); [|split; discriminate]. unfold read_data. rewrite M. split; [discriminate|]. intros t [= <-]. exact C.
  - destruct (u_live (users s u)) eqn:L; [|split; discriminate].
    destruct (live_driver s u I L) as (A & B & D). rewrite B. split; [discriminate|]. intros t [= <-].
    destruct C. constructor; cbn; auto. intros w v. ud; [|auto]. cbn. intros _ [= <-]. reflexivity.
  - destruct (u_live (users s u)) eqn:L; [|split; discriminate]. destruct (u_loaded (users s u)) as [v|] eqn:V; [|split; discriminate].
    destruct (live_driver s u I L) as (A & B & D). rewrite B. split; [discriminate|]. intros t [= <-].
    destruct (calm_fd s _ I C A B) as (M & n & N1 & N2). destruct C. constructor; cbn; auto.
    + intros w v'. ud; [discriminate|]. auto.
    + intros f g [G|G]; [|auto]. injection G as <- <-. rewrite (c_loaded0 u v L V), N1. exact N2.
  - unfold sys_open. destruct (fds s n) eqn:Hn; split; try discriminate. intros t [= <-]. destruct C. constructor; auto.
  - destruct (fds s n) as [f|] eqn:Hn; [|split; discriminate]. destruct (is_device (trace s) f); split; try discriminate.
    intros t [= <-]. destruct C. constructor; auto.
Qed.
Theorem run_calm l : forall s, Inv none s -> Calm s -> in_time l -> run s l <> Crash /\ (forall t, run s l = Ok t -> Calm t).
Proof.
  induction l as [|m l IH]; cbn [run]; intros s I C T; [split; [discriminate|intros t [= <-]; exact C]|].
  apply Forall_inv in T as T1. apply Forall_inv_tail in T. destruct (step_calm s m I C T1) as [A B].
  destruct (step s m) as [| |s1] eqn:E; try (split; discriminate); [contradiction|].
  apply IH; auto. eapply step_inv; eauto.
Qed.

(* ------------------------------------------------------------------ *)
Lemma reached l s : run init l = Ok s -> Inv none s.
Proof. apply run_inv, inv_init. Qed.
Lemma run_app l1 : forall s l2, run s (l1 ++ l2) = match run s l1 with Ok t => run t l2 | x => x end.
Proof. induction l1 as [|m l IH]; intros s l2; [reflexivity|]. cbn [run Datatypes.app]. destruct (step s m); auto. Qed.

Theorem released l s f : run init l = Ok s -> (0 < opens (trace s) f)%nat -> ~ in_use s f ->
  closes (trace s) f = 1%nat /\ unmaps (trace s) f = maps (trace s) f /\ (forall n, fds s n <> Some f) /\ mapped s f = false.
Proof.
  intros R O N. pose proof (reached _ _ R) as I.
  assert (V : forall d, (d < dcount s)%nat -> d_vm (drivers s d) <> Some f).
  { intros d Hd V. apply N. destruct (d_freed (drivers s d)) eqn:F; [rewrite (i_gone _ _ I d Hd F) in V; discriminate|].
    rewrite (i_freed _ _ I d Hd) in F. apply Z.eqb_neq in F. rewrite (i_refs _ _ I d Hd) in F. unfold none in F.
    pose proof (lives_nonneg (users s) (ucount s) d). destruct (lives_pos (users s) (ucount s) d) as (u & A & B & C); [lia|].
    exists u. split; [exact B|]. rewrite C. symmetry. apply (i_vm _ _ I d f Hd V). }
  assert (P : forall n, fds s n <> Some f).
  { intros n K. destruct (i_open _ _ I n f O K) as (_ & d & A & B). exact (V d A B). }
  assert (M : mapped s f = false).
  { destruct (mapped s f) eqn:M; [|reflexivity]. exfalso. destruct (i_mapped _ _ I f M) as (d & A & B). exact (V d A B). }
  split; [apply (i_closed _ _ I f O P)|]. destruct (i_unmap _ _ I f M). auto.
Qed.
Theorem right_close l s f : run init l = Ok s ->
  (closes (trace s) f <= opens (trace s) f <= 1)%nat /\ (unmaps (trace s) f <= maps (trace s) f <= opens (trace s) f)%nat.
Proof.
  intros R. pose proof (reached _ _ R) as I. destruct (Nat.eq_dec (opens (trace s) f) 0) as [Z|Z].
  - destruct (i_other _ _ I f) as (A & B & C & _); [unfold device; lia|]. lia.
  - assert (D : device (trace s) f) by (unfold device; lia). destruct (i_dev _ _ I f D) as [_ O].
    assert (C : (closes (trace s) f <= 1)%nat).
    { destruct (mapped s f) eqn:M.
      - destruct (i_mapped _ _ I f M) as (d & A & B). destruct (i_vm _ _ I d f A B) as (_ & _ & n & _ & F).
        destruct (i_open _ _ I n f D F) as [X _]. lia.
      - rewrite (i_closed _ _ I f D); [lia|]. intros n K. destruct (i_open _ _ I n f D K) as (_ & d & A & B).
        destruct (i_vm _ _ I d f A B) as (_ & X & _). congruence. }
    destruct (mapped s f) eqn:M; [destruct (i_map _ _ I f M)|destruct (i_unmap _ _ I f M)]; lia.
Qed.
Theorem held l s f : in_time l -> run init l = Ok s -> in_use s f ->
  opens (trace s) f = 1%nat /\ closes (trace s) f = 0%nat /\ maps (trace s) f = 1%nat /\ unmaps (trace s) f = 0%nat /\ exists n, fds s n = Some f.
Proof.
  intros T R (u & L & E). pose proof (reached _ _ R) as I. destruct (run_calm l init inv_init calm_init T) as [_ C]. specialize (C s R).
  destruct (live_driver s u I L) as (A & B & D). destruct (calm_fd s _ I C A B) as (M & n & N1 & N2). rewrite E in *.
  destruct (i_mapped _ _ I f M) as (d & X & Y). pose proof (vm_device _ _ d f I X Y) as Z.
  destruct (i_dev _ _ I f Z) as [_ O]. destruct (i_open _ _ I n f Z N2) as [P _]. destruct (i_map _ _ I f M) as [Q1 Q2].
  repeat split; auto. exists n. exact N2.
Qed.
Theorem right_file l s f g : in_time l -> run init l = Ok s -> In (EvCommand f g) (trace s) -> g = Some f.
Proof. intros T R. destruct (run_calm l init inv_init calm_init T) as [_ C]. apply (c_right s (C s R)). Qed.

Theorem stuck_reads l s u w o : run init l = Ok s ->
  u_live (users s u) = true -> u_kind (users s u) = Looper ->
  u_live (users s w) = true -> u_kind (users s w) = Data o -> u_driver (users s w) = u_driver (users s u) ->
  run init (l ++ [MStuck u; MRead w]) = Crash /\
  (o = true -> u_loaded (users s w) = None -> run init (l ++ [MStuck u; MDone w]) = Crash).
Proof.
  intros R L1 K1 L2 K2 E. pose proof (reached _ _ R) as I. rewrite !run_app, R. cbn [run step].
  rewrite L1, K1. cbn [andb is_looper]. destruct (live_driver s u I L1) as (A & B & C).
  assert (Q : exists s1, driver_close s (u_driver (users s u)) = Ok s1 /\ users s1 = users s /\
     mapped s1 (d_file (drivers s1 (u_driver (users s u)))) = false /\ d_freed (drivers s1 (u_driver (users s u))) = false).
  { destruct (close_is _ s _ I A B) as [[V Q]|(f & n & V & F & Q)].
    - exists s. split; [exact Q|]. split; [reflexivity|]. split; [apply (i_novm _ _ I _ A V)|exact B].
    - eexists. split; [exact Q|]. split; [reflexivity|]. cbn. rewrite upd_same. cbn.
      destruct (i_vm _ _ I _ f A V) as (X & _). rewrite <- X, upd_same. auto. }
  destruct Q as (s1 & Q1 & Q2 & Q3 & Q4). rewrite Q1, Q2, L2, K2. cbn [andb is_data]. unfold read_data. rewrite E, Q3. split; [reflexivity|].
  intros -> Hl. unfold loaded. rewrite Hl. cbn [negb]. unfold contents_free, read_data. cbn [set_user drivers mapped]. rewrite Q4, Q3. reflexivity.
Qed.
Theorem stuck_foreign l s u w n : run init l = Ok s ->
  u_live (users s u) = true -> u_kind (users s u) = Looper ->
  u_live (users s w) = true -> u_driver (users s w) = u_driver (users s u) ->
  d_fd (drivers s (u_driver (users s w))) = Some n -> u_loaded (users s w) = Some (Some n) ->
  exists t g, run init (l ++ [MStuck u; MOtherOpen n; MCommand w]) = Ok t /\
    hd EvFail (trace t) = EvCommand (d_file (drivers s (u_driver (users s w)))) (Some g) /\
    g <> d_file (drivers s (u_driver (users s w))) /\ opens (trace t) g = 0%nat.
Proof.
  intros R L1 K1 L2 E F W. pose proof (reached _ _ R) as I. rewrite run_app, R. cbn [run step].
  rewrite L1, K1. cbn [andb is_looper]. destruct (live_driver s u I L1) as (A & B & C).
  destruct (close_is _ s _ I A B) as [[V Q]|(f & n' & V & F' & Q)].
  { rewrite E in F. destruct (i_novm _ _ I _ A V) as (X & _). congruence. }
  rewrite Q. assert (n' = n) by (rewrite E in F; congruence). subst n'. destruct (i_vm _ _ I _ f A V) as (X & _ & n2 & N1 & N2).
  assert (n2 = n) by congruence. subst n2.
  cbn [step]. unfold sys_open. cbn [shut fds say set_fd set_driver set_mapped]. rewrite upd_same. cbn [users drivers shut fds say set_fd set_driver set_mapped files trace mapped dcount ucount].
  rewrite L2, W, E, upd_same. cbn [d_freed]. eexists. exists (files s). split; [reflexivity|]. cbn [set_user sys_ioctl say trace hd fds drivers].
  rewrite upd_same. split; [f_equal; cbn; rewrite upd_same; reflexivity|].
  pose proof (i_dfile _ _ I _ A). split; [lia|]. pose proof (not_device _ _ I) as ND. unfold device in ND.
  rewrite !opens_cons. cbn. lia.
Qed.
Theorem accepted l s a t : run init l = Ok s -> step s (MOpen a) = Ok t ->
  (exists f v i, trace t = EvNew f v i :: EvMap f :: EvOpen f :: trace s /\ in_use t f /\
     a_version a = Some v /\ a_map a = true /\ (v = 7 /\ i = Io32 \/ v = 8 /\ i = Io64)) \/
  (hd (EvOpen 0) (trace t) = EvFail /\ (a_fd a = None \/ a_map a = false \/ forall v, a_version a = Some v -> v <> 7 /\ v <> 8) /\
   (forall n, fds t n = fds s n) /\ (forall f, mapped t f = mapped s f)).
Proof.
  intros R. pose proof (reached _ _ R) as I. cbn [step]. unfold driver_new. destruct (a_fd a) as [n|].
  2:{ intros [= <-]. right. cbn. auto. }
  unfold sys_open. destruct (fds s n) eqn:Hn; [discriminate|]. cbn [obind].
  assert (F : forall t, Ok (say (sys_close (say (opened s n) (EvOpen (files s))) (Some n)) EvFail) = Ok t ->
     hd (EvOpen 0) (trace t) = EvFail /\ (forall n, fds t n = fds s n) /\ (forall f, mapped t f = mapped s f)).
  { intros t' H. rewrite (sys_close_is _ n (files s)) in H by (cbn; apply upd_same).
    apply (f_equal (fun r => match r with Ok x => x | _ => t' end)) in H. rewrite <- H. cbn. split; [reflexivity|]. split; [|reflexivity].
    intros k. ud; [auto|reflexivity]. }
  destruct (a_version a) as [v|].
  2:{ intros H. right. destruct (F t H) as (A & B & C). split; [exact A|]. split; [|auto]. right. right. intros; discriminate. }
  destruct (Z.eqb_spec v 7) as [->|N7]; [|destruct (Z.eqb_spec v 8) as [->|N8]].
  3:{ intros H. right. destruct (F t H) as (A & B & C). split; [exact A|]. split; [|auto]. right. right. intros w [= <-]. auto. }
  all: destruct (a_map a);
    [|intros H; right; destruct (F t H) as (A & B & C); auto].
  all: intros [= <-]; left; eexists _, _, _; split; [reflexivity|]; split;
    [exists (ucount s); cbn; repeat (rewrite !upd_same; cbn); auto|]; auto.
Qed.
