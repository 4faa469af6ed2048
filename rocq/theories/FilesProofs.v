(* Proofs for C72: files travel like values *)
From Verif Require Import Base CleanupModel CleanupSpec CleanupProofs CleanupSafe FilesModel FilesSpec FilesFrame.

(* A descriptor in a message is closed by the message, or it belongs to received data to which the message refers,
   or it's the one of the application *)
Definition backed (s : state) (x : msg) (d : Z) : Prop :=
  In (ItClose d) (cleanup_free (m_cleanup x)) \/
  (exists c k, In (ItContents c) (cleanup_free (m_cleanup x)) /\ at_ (conts s) c = Some k /\ In d (c_fds k)) \/
  fdt s d = Some OwApp.

Record pinv (P : proc) (hs : Z -> option nat) (pk : nat -> list nat) (gt : list (list nat)) : Prop := {
  v_safe : safe (pst P);
  v_refs : exists h, refs_ok h (pst P);
  v_has : forall fd f, hs fd = Some f <-> fdt (pst P) fd = Some OwApp /\ file P fd = f;
  v_len : length gt = length (bufs (pst P));
  v_bufs : forall b c k, at_ (bufs (pst P)) b = Some c -> at_ (conts (pst P)) c = Some k ->
           nth b gt [] = map (file P) (c_fds k);
  v_msgs : forall m x, at_ (msgs (pst P)) m = Some x ->
           pk m = map (file P) (carries P m) /\ Forall (backed (pst P) x) (carries P m);
  v_none : forall m, (length (msgs (pst P)) <= m)%nat -> carries P m = [] /\ pk m = []
}.

Lemma backed_open s m x d : safe s -> at_ (msgs s) m = Some x -> backed s x d -> fdt s d <> None.
Proof.
  intros Hs Hx [Hi|[(c & k & Hi & Hk & Hd)|Ha]]; [| |congruence].
  - rewrite (registered_open _ _ _ _ Hs Hx Hi). discriminate.
  - destruct (held_live s c Hs (msg_item_own _ _ _ _ Hx Hi)) as (k2 & Hk2 & Hf).
    assert (k2 = k) by congruence. subst. rewrite (Hf _ Hd). discriminate.
Qed.

Lemma buffer_open s b c k d : safe s -> at_ (bufs s) b = Some c -> at_ (conts s) c = Some k -> In d (c_fds k) -> fdt s d <> None.
Proof.
  intros Hs Hb Hk Hd. destruct (held_live s c Hs (holds_of_buf _ _ _ Hb)) as (k2 & Hk2 & Hf).
  assert (k2 = k) by congruence. subst. rewrite (Hf _ Hd). discriminate.
Qed.

Lemma add_item_parts a n it s1 t : add_item a n it = Done s1 t -> conts s1 = conts a /\ bufs s1 = bufs a /\ fdt s1 = fdt a.
Proof. unfold add_item. destruct (at_ (msgs a) n); [|discriminate]. intros X. injection X as <- <-. auto. Qed.

Lemma step_fds s o s1 t c k k1 : step s o = Done s1 t -> at_ (conts s) c = Some k -> at_ (conts s1) c = Some k1 -> c_fds k1 = c_fds k.
Proof.
  intros E Hk Hk1. destruct (opens o) eqn:Ho.
  - destruct o as [| | | | | |n fd [d|]| | |fds| | | | | |fd|]; try discriminate; cbn [step] in E.
    + destruct (fdt s d); [discriminate|]. destruct (add_item_parts _ _ _ _ _ E) as (-> & _ & _) in Hk1.
      cbn [set_fdt conts] in Hk1. congruence.
    + destruct (_ && _); [|discriminate]. injection E as <- <-. cbn [conts] in Hk1. rewrite at_app in Hk1.
      destruct (Nat.eqb_spec c (length (conts s))) as [->|]; [|congruence]. pose proof (at_lt _ _ _ Hk). lia.
    + destruct (fdt s fd); [discriminate|]. injection E as <- <-. cbn [set_fdt conts] in Hk1. congruence.
  - destruct (step_quiet _ _ _ _ Ho E) as [Q _]. destruct (Q _ _ Hk1) as (k2 & Hk2 & Hf). congruence.
Qed.

Lemma backed_step s o s1 t m x x1 d : safe s1 -> step s o = Done s1 t -> at_ (msgs s1) m = Some x1 ->
  incl (cleanup_free (m_cleanup x)) (cleanup_free (m_cleanup x1)) -> (fdt s d = Some OwApp -> fdt s1 d = Some OwApp) ->
  backed s x d -> backed s1 x1 d.
Proof.
  intros Hs E Hx1 Hi Ha [H|[(c & k & H & Hk & Hd)|H]]; [left; auto|right; left|right; right; auto].
  destruct (held_live s1 c Hs (msg_item_own _ _ _ _ Hx1 (Hi _ H))) as (k1 & Hk1 & _).
  exists c, k1. split; [auto|]. split; [exact Hk1|]. rewrite (step_fds _ _ _ _ _ _ _ E Hk Hk1). exact Hd.
Qed.

(* Nobody but the application closes its descriptors *)
Lemma app_stays s o s1 t d : safe s -> step s o = Done s1 t -> o <> OAppClose d -> fdt s d = Some OwApp -> fdt s1 d = Some OwApp.
Proof.
  intros Hs E Hc Hd. destruct (opens o) eqn:Ho.
  - destruct o as [| | | | | |n fd [x|]| | |fds| | | | | |fd|]; try discriminate; cbn [step] in E.
    + destruct (fdt s x) eqn:Ex; [discriminate|]. destruct (add_item_parts _ _ _ _ _ E) as (_ & _ & ->).
      cbn [set_fdt fdt]. unfold fd_set. destruct (Z.eqb_spec d x) as [->|]; congruence.
    + destruct (_ && _) eqn:Ec; [|discriminate]. injection E as <- <-. cbn [fdt]. rewrite fold_fds.
      destruct (in_dec Z.eq_dec d fds) as [Hi|]; [|exact Hd]. apply andb_true_iff in Ec. destruct Ec as [Ec _].
      rewrite forallb_forall in Ec. specialize (Ec _ Hi). rewrite Hd in Ec. discriminate.
    + destruct (fdt s fd) eqn:Ex; [discriminate|]. injection E as <- <-. cbn [set_fdt fdt]. unfold fd_set.
      destruct (Z.eqb_spec d fd) as [->|]; congruence.
  - destruct (step_quiet _ _ _ _ Ho E) as [_ Q]. pose proof (step_safe s o Hs) as H. rewrite E in H. destruct H as (_ & H & _).
    destruct (Q d) as [Eq|(Eq & Hin)]; [congruence|]. rewrite Hd in Hin.
    destruct (H _ _ Hin) as [(_ & X)|[(m & X & _)|(c & X & _)]]; try discriminate. contradiction.
Qed.

Lemma map_agree (f g : Z -> nat) l : (forall d, In d l -> f d = g d) -> map f l = map g l.
Proof. intros H. apply map_ext_in. exact H. Qed.

Lemma pinv_step P hs pk gt o s1 t file1 carries1 hs1 pk1 gt1 :
  pinv P hs pk gt -> step (pst P) o = Done s1 t ->
  (forall fd, fdt (pst P) fd <> None -> file1 fd = file P fd) ->
  (forall m d, at_ (msgs (pst P)) m <> None -> In d (carries P m) -> o <> OAppClose d) ->
  (forall fd f, hs1 fd = Some f <-> fdt s1 fd = Some OwApp /\ file1 fd = f) ->
  length gt1 = length (bufs s1) ->
  (forall b c k, at_ (bufs s1) b = Some c -> at_ (conts s1) c = Some k ->
     (at_ (bufs (pst P)) b = Some c /\ nth b gt1 [] = nth b gt []) \/ nth b gt1 [] = map file1 (c_fds k)) ->
  (forall m, ((forall b l, o <> OSetContents m b l) /\ carries1 m = carries P m /\ pk1 m = pk m) \/
     ((m < length (msgs s1))%nat /\ forall x, at_ (msgs s1) m = Some x -> pk1 m = map file1 (carries1 m) /\ Forall (backed s1 x) (carries1 m))) ->
  pinv {| pst := s1; file := file1; carries := carries1 |} hs1 pk1 gt1.
Proof.
  intros V E Hf Hcl Hh Hl Hb Hm. destruct V as [V1 (h & V2) V3 V4 V5 V6 V7].
  pose proof (step_safe (pst P) o V1) as Hs. rewrite E in Hs. destruct Hs as (Hs & _ & _).
  destruct (step_msgs _ _ _ _ E) as [M1 M2].
  constructor; cbn [pst file carries].
  - exact Hs.
  - exists (h ++ [o]). exact (step_refs _ _ _ _ _ V2 E).
  - exact Hh.
  - exact Hl.
  - intros b c k H1 H2. destruct (Hb b c k H1 H2) as [(H3 & ->)|H3]; [|exact H3].
    destruct (held_live _ c V1 (holds_of_buf _ _ _ H3)) as (k0 & Hk0 & _).
    rewrite (step_fds _ _ _ _ _ _ _ E Hk0 H2), (V5 _ _ _ H3 Hk0). apply map_agree.
    intros d Hd. symmetry. apply Hf. exact (buffer_open _ _ _ _ _ V1 H3 Hk0 Hd).
  - intros m x Hx. destruct (Hm m) as [(Ho & -> & ->)|(_ & H)]; [|exact (H x Hx)].
    destruct (Nat.ltb_spec m (length (msgs (pst P)))) as [Hlt|Hge].
    + destruct (M2 _ _ Hx Hlt) as (x0 & Hx0). destruct (V6 _ _ Hx0) as [E1 B1]. rewrite E1. split.
      * apply map_agree. intros d Hd. symmetry. apply Hf. rewrite Forall_forall in B1. exact (backed_open _ _ _ _ V1 Hx0 (B1 _ Hd)).
      * rewrite Forall_forall in B1 |- *. intros d Hd. eapply backed_step; [exact Hs|exact E|exact Hx| | |exact (B1 _ Hd)].
        -- exact (step_kept h _ _ _ _ _ _ _ V2 E Hx0 Hx Ho).
        -- apply (app_stays _ _ _ _ _ V1 E). apply (Hcl m); [congruence|exact Hd].
    + destruct (V7 m Hge) as [-> ->]. split; [reflexivity|constructor].
  - intros m Hm1. destruct (Hm m) as [(_ & -> & ->)|(H & _)]; [apply V7; lia|lia].
Qed.

(* Deeds which leave the table of descriptors of the application alone *)
Lemma has_same P hs pk gt o s1 t : pinv P hs pk gt -> step (pst P) o = Done s1 t -> opens o = false -> (forall x, o <> OAppClose x) ->
  forall fd f, hs fd = Some f <-> fdt s1 fd = Some OwApp /\ file P fd = f.
Proof.
  intros V E Ho Hc fd f. rewrite (v_has _ _ _ _ V), (step_app _ _ _ _ fd (v_safe _ _ _ _ V) E Ho Hc). reflexivity.
Qed.

Lemma bufs_same P o s1 t gt : step (pst P) o = Done s1 t -> makes_buffer o = false ->
  forall b c (k : cont), at_ (bufs s1) b = Some c -> at_ (conts s1) c = Some k ->
  (at_ (bufs (pst P)) b = Some c /\ nth b gt [] = nth b gt []) \/ nth b gt [] = map (file P) (c_fds k).
Proof. intros E Ho b c k H1 _. left. split; [exact (proj2 (step_bufs _ _ _ _ Ho E) b c H1)|reflexivity]. Qed.

Lemma fdt_other (t : Z -> option owner) d o fd : t d = None -> t fd <> None -> fd_set t d o fd = t fd.
Proof. intros H1 H2. unfold fd_set. destruct (Z.eqb_spec fd d) as [->|]; [contradiction|reflexivity]. Qed.

Lemma open_step P hs pk gt fd f P1 : pinv P hs pk gt ->
  after (step (pst P) (OAppOpen fd)) (fset (file P) fd f) (carries P) = Fine P1 ->
  pinv P1 (setz hs fd (Some f)) pk gt.
Proof.
  intros V. destruct (step (pst P) (OAppOpen fd)) as [s1 t| |] eqn:E; try discriminate. intros X. injection X as <-.
  assert (E0 := E). cbn [step] in E0. destruct (fdt (pst P) fd) eqn:Ef; [discriminate|]. injection E0 as <- <-.
  eapply (pinv_step P hs pk gt _ _ _ _ _ _ _ _ V E).
  - intros x Hx. unfold fset. destruct (Z.eqb_spec x fd) as [->|]; [contradiction|reflexivity].
  - discriminate.
  - intros x g. cbn [set_fdt fdt]. unfold setz, fset, fd_set. destruct (Z.eqb_spec x fd) as [->|Hne].
    + split; [intros [= ->]; auto|intros [_ ->]; reflexivity].
    + exact (v_has _ _ _ _ V x g).
  - exact (v_len _ _ _ _ V).
  - intros b c k H1 _. left. split; [exact H1|reflexivity].
  - intros m. left. split; [discriminate|]. split; reflexivity.
Qed.

Lemma close_step P hs pk gt fd P1 : pinv P hs pk gt ->
  (forall m, at_ (msgs (pst P)) m <> None -> ~ In fd (carries P m)) ->
  after (step (pst P) (OAppClose fd)) (file P) (carries P) = Fine P1 ->
  pinv P1 (setz hs fd None) pk gt.
Proof.
  intros V Hcl. destruct (step (pst P) (OAppClose fd)) as [s1 t| |] eqn:E; try discriminate. intros X. injection X as <-.
  assert (E0 := E). cbn [step] in E0. destruct (fdt (pst P) fd) as [[]|] eqn:Ef; try discriminate. injection E0 as <- <-.
  eapply (pinv_step P hs pk gt _ _ _ _ _ _ _ _ V E).
  - reflexivity.
  - intros m d H1 H2 [= <-]. exact (Hcl m H1 H2).
  - intros x g. cbn [do_close fst set_fdt fdt]. unfold setz, fd_set. destruct (Z.eqb_spec x fd) as [->|Hne].
    + split; [discriminate|intros [? _]; discriminate].
    + exact (v_has _ _ _ _ V x g).
  - exact (v_len _ _ _ _ V).
  - intros b c k H1 _. left. split; [exact H1|reflexivity].
  - intros m. left. split; [discriminate|]. split; reflexivity.
Qed.

(* What the application means by a descriptor *)
Lemma read_means P hs pk gt b i fd : pinv P hs pk gt -> read_fd (pst P) b i = Some fd ->
  fdt (pst P) fd <> None /\ nth_error (nth b gt []) i = Some (file P fd).
Proof.
  intros V. unfold read_fd, buffer_fds. destruct (at_ (bufs (pst P)) b) as [c|] eqn:Eb; [|discriminate].
  destruct (at_ (conts (pst P)) c) as [k|] eqn:Ec; [|discriminate]. intros Hn. split.
  - exact (buffer_open _ _ _ _ _ (v_safe _ _ _ _ V) Eb Ec (nth_error_In _ _ Hn)).
  - rewrite (v_bufs _ _ _ _ V _ _ _ Eb Ec). apply map_nth_error. exact Hn.
Qed.

Definition meant1 (hs : Z -> option nat) (gt : list (list nat)) (src : source) : list nat :=
  match src with
  | Own fd => match hs fd with Some f => [f] | None => [] end
  | Received b n => match nth_error (nth b gt []) n with Some f => [f] | None => [] end
  end.

Lemma source_means P hs pk gt src fd : pinv P hs pk gt -> descriptor (pst P) src = Some fd ->
  fdt (pst P) fd <> None /\ meant1 hs gt src = [file P fd].
Proof.
  intros V. destruct src as [x|b i]; cbn [descriptor meant1].
  - destruct (fdt (pst P) x) as [[]|] eqn:Ef; try discriminate. intros [= ->]. split; [congruence|].
    rewrite (proj2 (v_has _ _ _ _ V fd (file P fd)) (conj Ef eq_refl)). reflexivity.
  - intros H. destruct (read_means _ _ _ _ _ _ _ V H) as [H1 H2]. split; [exact H1|]. rewrite H2. reflexivity.
Qed.

Lemma append_step P hs pk gt m src d P1 : pinv P hs pk gt -> does P (Append m src (Some d)) = Fine P1 ->
  pinv P1 hs (set1 pk m (pk m ++ meant1 hs gt src)) gt.
Proof.
  intros V. cbn [does]. destruct (descriptor (pst P) src) as [fd|] eqn:Es; [|discriminate].
  destruct (source_means _ _ _ _ _ _ V Es) as [Hopen Hmean].
  destruct (step (pst P) (OAppendFd m fd (Some d))) as [s1 t| |] eqn:E; try discriminate. intros X. injection X as <-.
  assert (E0 := E). cbn [step] in E0. destruct (fdt (pst P) d) eqn:Ef; [discriminate|].
  destruct (add_item_parts _ _ _ _ _ E0) as (Ec & Eb & Et). cbn [set_fdt conts bufs fdt] in Ec, Eb, Et.
  destruct (add_item_count _ _ _ _ _ E0) as (_ & x & Hx & Hm & _). cbn [set_fdt msgs] in Hx, Hm.
  assert (Hagree : forall z, fdt (pst P) z <> None -> fset (file P) d (file P fd) z = file P z).
  { intros z Hz. unfold fset. destruct (Z.eqb_spec z d) as [->|]; [contradiction|reflexivity]. }
  eapply (pinv_step P hs pk gt _ _ _ _ _ _ _ _ V E Hagree).
  - discriminate.
  - intros z g. rewrite Et. unfold fd_set. rewrite (v_has _ _ _ _ V z g). destruct (Z.eqb_spec z d) as [->|Hne].
    + split; intros [H _]; congruence.
    + unfold fset. destruct (Z.eqb_spec z d); [contradiction|reflexivity].
  - rewrite Eb. exact (v_len _ _ _ _ V).
  - intros b c k H1 _. rewrite Eb in H1. left. split; [exact H1|reflexivity].
  - intros n. unfold cset, set1. destruct (Nat.eqb_spec n m) as [->|Hne]; [right|left; split; [discriminate|auto]].
    split; [rewrite Hm, length_set_at; exact (at_lt _ _ _ Hx)|].
    intros x1 Hx1. destruct (v_msgs _ _ _ _ V m x Hx) as [Hp Hbk]. split.
    + rewrite map_app, Hp, Hmean. cbn [map]. f_equal.
      * apply map_agree. intros z Hz. symmetry. apply Hagree. rewrite Forall_forall in Hbk.
        exact (backed_open _ _ _ _ (v_safe _ _ _ _ V) Hx (Hbk _ Hz)).
      * unfold fset. rewrite Z.eqb_refl. reflexivity.
    + pose proof (step_safe (pst P) (OAppendFd m fd (Some d)) (v_safe _ _ _ _ V)) as Hs. rewrite E in Hs. destruct Hs as (Hs & _ & _).
      destruct (v_refs _ _ _ _ V) as (h & R). apply Forall_app. split.
      * eapply Forall_impl; [|exact Hbk]. intros z Hz. eapply backed_step; [exact Hs|exact E|exact Hx1| | |exact Hz].
        -- exact (step_kept h _ _ _ _ _ _ _ R E Hx Hx1 ltac:(discriminate)).
        -- exact (app_stays _ _ _ _ _ (v_safe _ _ _ _ V) E ltac:(discriminate)).
      * constructor; [|constructor]. left. rewrite Hm, at_set_at, Nat.eqb_refl in Hx1 by (eapply at_lt; exact Hx).
        injection Hx1 as <-. cbn [with_cleanup m_cleanup]. destruct (m_cleanup x); cbn [cleanup_add cleanup_free];
          [apply in_app_iff; right|]; left; reflexivity.
Qed.

Lemma append_own P hs pk gt m fd P1 : pinv P hs pk gt -> does P (Append m (Own fd) None) = Fine P1 ->
  pinv P1 hs (set1 pk m (pk m ++ meant1 hs gt (Own fd))) gt.
Proof.
  intros V. cbn [does]. destruct (descriptor (pst P) (Own fd)) as [fd0|] eqn:Es; [|discriminate].
  destruct (source_means _ _ _ _ _ _ V Es) as [Hopen Hmean]. cbn [descriptor] in Es.
  destruct (fdt (pst P) fd) as [[]|] eqn:Ef; try discriminate. injection Es as <-.
  destruct (step (pst P) (OAppendFd m fd None)) as [s1 t| |] eqn:E; try discriminate. intros X. injection X as <-.
  assert (E0 := E). cbn [step] in E0.
  destruct (add_item_parts _ _ _ _ _ E0) as (Ec & Eb & Et).
  destruct (add_item_count _ _ _ _ _ E0) as (_ & x & Hx & Hm & _).
  eapply (pinv_step P hs pk gt _ _ _ _ _ _ _ _ V E); [reflexivity|discriminate| | | |].
  - rewrite Et. exact (v_has _ _ _ _ V).
  - rewrite Eb. exact (v_len _ _ _ _ V).
  - intros b c k H1 _. rewrite Eb in H1. left. split; [exact H1|reflexivity].
  - intros n. unfold cset, set1. destruct (Nat.eqb_spec n m) as [->|Hne]; [right|left; split; [discriminate|auto]].
    split; [rewrite Hm, length_set_at; exact (at_lt _ _ _ Hx)|].
    intros x1 Hx1. destruct (v_msgs _ _ _ _ V m x Hx) as [Hp Hbk]. split.
    + rewrite map_app, Hp, Hmean. reflexivity.
    + pose proof (step_safe (pst P) (OAppendFd m fd None) (v_safe _ _ _ _ V)) as Hs. rewrite E in Hs. destruct Hs as (Hs & _ & _).
      destruct (v_refs _ _ _ _ V) as (h & R). apply Forall_app. split.
      * eapply Forall_impl; [|exact Hbk]. intros z Hz. eapply backed_step; [exact Hs|exact E|exact Hx1| | |exact Hz].
        -- exact (step_kept h _ _ _ _ _ _ _ R E Hx Hx1 ltac:(discriminate)).
        -- exact (app_stays _ _ _ _ _ (v_safe _ _ _ _ V) E ltac:(discriminate)).
      * constructor; [|constructor]. right. right. rewrite Et. exact Ef.
Qed.

Lemma In_skipn {A} (x : A) n l : In x (skipn n l) -> In x l.
Proof. revert l. induction n as [|n IH]; intros [|y l]; cbn [skipn]; auto. intros H. right. auto. Qed.

Lemma skipn_map' {A B} (f : A -> B) n l : skipn n (map f l) = map f (skipn n l).
Proof. revert l. induction n as [|n IH]; intros [|y l]; cbn [skipn map]; auto. Qed.

Definition in_some1 (gt : list (list nat)) (b : option nat) : list nat :=
  match b with Some n => nth n gt [] | None => [] end.

Lemma copied_means P hs pk gt b ba s1 t m locals o x1 : pinv P hs pk gt ->
  o = OAppendContents m b locals \/ o = OSetContents m b locals ->
  buf_arg (pst P) b = Some ba -> step (pst P) o = Done s1 t -> at_ (msgs s1) m = Some x1 ->
  in_some1 gt b = map (file P) (copied (pst P) b) /\ Forall (backed s1 x1) (copied (pst P) b).
Proof.
  intros V Ho Hb E Hx1. pose proof (step_safe (pst P) o (v_safe _ _ _ _ V)) as Hs. rewrite E in Hs. destruct Hs as (Hs & _ & _).
  destruct b as [b|]; cbn [in_some1 copied buf_arg] in *; [|split; [reflexivity|constructor]].
  unfold buffer_fds. destruct (at_ (bufs (pst P)) b) as [c|] eqn:Eb; [|discriminate].
  destruct (held_live _ c (v_safe _ _ _ _ V) (holds_of_buf _ _ _ Eb)) as (k & Hk & _). rewrite Hk. split.
  - exact (v_bufs _ _ _ _ V _ _ _ Eb Hk).
  - apply Forall_forall. intros d Hd. right. left. pose proof (copy_holds _ _ _ _ _ _ _ _ _ Ho Eb E Hx1) as Hi.
    destruct (held_live s1 c Hs (msg_item_own _ _ _ _ Hx1 Hi)) as (k1 & Hk1 & _).
    exists c, k1. split; [exact Hi|]. split; [exact Hk1|]. rewrite (step_fds _ _ _ _ _ _ _ E Hk Hk1). exact Hd.
Qed.

Lemma copy_step P hs pk gt m b skip locals P1 : pinv P hs pk gt -> does P (Copy m b skip locals) = Fine P1 ->
  pinv P1 hs (set1 pk m (pk m ++ skipn skip (in_some1 gt b))) gt.
Proof.
  intros V. cbn [does]. destruct (step (pst P) (OAppendContents m b locals)) as [s1 t| |] eqn:E; try discriminate.
  intros X. injection X as <-.
  assert (E0 := E). cbn [step] in E0. destruct (at_ (msgs (pst P)) m) as [x|] eqn:Ex; [|discriminate].
  destruct (buf_arg (pst P) b) as [ba|] eqn:Eb; [|discriminate]. clear E0.
  eapply (pinv_step P hs pk gt _ _ _ _ _ _ _ _ V E); [reflexivity|discriminate| | | |].
  - exact (has_same _ _ _ _ (OAppendContents m b locals) _ _ V E eq_refl ltac:(discriminate)).
  - rewrite (proj1 (step_bufs _ (OAppendContents m b locals) _ _ eq_refl E)). exact (v_len _ _ _ _ V).
  - exact (bufs_same P (OAppendContents m b locals) _ _ gt E eq_refl).
  - intros n. unfold cset, set1. destruct (Nat.eqb_spec n m) as [->|Hne]; [right|left; split; [discriminate|auto]].
    split; [pose proof (proj1 (step_msgs _ _ _ _ E)); pose proof (at_lt _ _ _ Ex); lia|].
    intros x1 Hx1. destruct (v_msgs _ _ _ _ V m x Ex) as [Hp Hbk].
    destruct (copied_means _ _ _ _ _ _ _ _ _ _ _ _ V (or_introl eq_refl) Eb E Hx1) as [H1 H2]. split.
    + rewrite map_app, Hp, H1, skipn_map'. reflexivity.
    + pose proof (step_safe (pst P) (OAppendContents m b locals) (v_safe _ _ _ _ V)) as Hs. rewrite E in Hs. destruct Hs as (Hs & _ & _).
      destruct (v_refs _ _ _ _ V) as (h & R). apply Forall_app. split.
      * eapply Forall_impl; [|exact Hbk]. intros z Hz. eapply backed_step; [exact Hs|exact E|exact Hx1| | |exact Hz].
        -- exact (step_kept h _ _ _ _ _ _ _ R E Ex Hx1 ltac:(discriminate)).
        -- exact (app_stays _ _ _ _ _ (v_safe _ _ _ _ V) E ltac:(discriminate)).
      * rewrite Forall_forall in H2 |- *. intros z Hz. apply H2. exact (In_skipn _ _ _ Hz).
Qed.

Lemma replace_step P hs pk gt m b locals P1 : pinv P hs pk gt -> does P (Replace m b locals) = Fine P1 ->
  pinv P1 hs (set1 pk m (in_some1 gt b)) gt.
Proof.
  intros V. cbn [does]. destruct (step (pst P) (OSetContents m b locals)) as [s1 t| |] eqn:E; try discriminate.
  intros X. injection X as <-.
  assert (E0 := E). cbn [step] in E0. destruct (at_ (msgs (pst P)) m) as [x|] eqn:Ex; [|discriminate].
  destruct (buf_arg (pst P) b) as [ba|] eqn:Eb; [|discriminate]. clear E0.
  eapply (pinv_step P hs pk gt _ _ _ _ _ _ _ _ V E); [reflexivity|discriminate| | | |].
  - exact (has_same _ _ _ _ (OSetContents m b locals) _ _ V E eq_refl ltac:(discriminate)).
  - rewrite (proj1 (step_bufs _ (OSetContents m b locals) _ _ eq_refl E)). exact (v_len _ _ _ _ V).
  - exact (bufs_same P (OSetContents m b locals) _ _ gt E eq_refl).
  - intros n. unfold cset, set1. destruct (Nat.eqb_spec n m) as [->|Hne]; [right|left; split; [congruence|auto]].
    split; [pose proof (proj1 (step_msgs _ _ _ _ E)); pose proof (at_lt _ _ _ Ex); lia|].
    intros x1 Hx1. exact (copied_means _ _ _ _ _ _ _ _ _ _ _ _ V (or_intror eq_refl) Eb E Hx1).
Qed.

Definition added1 (gt : list (list nat)) (o : op) : list (list nat) :=
  match o with OBufChild b => gt ++ [nth b gt []] | _ => gt end.

Lemma other_step P hs pk gt o P1 : pinv P hs pk gt -> does P (Other o) = Fine P1 -> pinv P1 hs pk (added1 gt o).
Proof.
  intros V. cbn [does]. destruct (neutral o) eqn:Hn; [|discriminate].
  destruct (step (pst P) o) as [s1 t| |] eqn:E; try discriminate. intros X. injection X as <-.
  assert (Ho : opens o = false) by (destruct o as [| | | | | | | | | | | | | | | |]; try discriminate; reflexivity).
  assert (Hc : forall x, o <> OAppClose x) by (intros x ->; discriminate).
  assert (Hset : forall m b l, o <> OSetContents m b l) by (intros m b l ->; discriminate).
  destruct (makes_buffer o) eqn:Hmk.
  - destruct o; try discriminate. cbn [added1].
    assert (E0 := E). cbn [step] in E0. destruct (at_ (bufs (pst P)) b) as [c|] eqn:Eb; [|discriminate].
    destruct (contents_ref (pst P) c) as [s2|] eqn:E2; [|discriminate]. injection E0 as <- <-.
    destruct (contents_ref_same _ _ _ E2) as (_ & B2 & _).
    eapply (pinv_step P hs pk gt _ _ _ _ _ _ _ _ V E); [reflexivity|intros ? ? _ _; apply Hc| | | |].
    + exact (has_same _ _ _ _ (OBufChild b) _ _ V E eq_refl Hc).
    + cbn [set_bufs bufs]. rewrite !app_length, B2, (v_len _ _ _ _ V). reflexivity.
    + intros n z k. cbn [set_bufs bufs conts]. rewrite B2, at_app. intros H1 H2.
      destruct (Nat.eqb_spec n (length (bufs (pst P)))) as [->|Hne].
      * right. injection H1 as <-. rewrite app_nth2 by (rewrite (v_len _ _ _ _ V); lia).
        rewrite (v_len _ _ _ _ V), Nat.sub_diag. cbn [nth].
        destruct (held_live _ c (v_safe _ _ _ _ V) (holds_of_buf _ _ _ Eb)) as (k0 & Hk0 & _).
        rewrite (v_bufs _ _ _ _ V _ _ _ Eb Hk0). rewrite (step_fds _ _ _ _ _ _ _ E Hk0 H2). reflexivity.
      * left. split; [exact H1|]. rewrite app_nth1; [reflexivity|]. rewrite (v_len _ _ _ _ V). exact (at_lt _ _ _ H1).
    + intros m. left. split; [exact (Hset m)|]. split; reflexivity.
  - assert (Hg : added1 gt o = gt) by (destruct o; try discriminate; reflexivity). rewrite Hg.
    eapply (pinv_step P hs pk gt _ _ _ _ _ _ _ _ V E); [reflexivity|intros ? ? _ _; apply Hc| | | |].
    + exact (has_same _ _ _ _ _ _ _ V E Ho Hc).
    + rewrite (proj1 (step_bufs _ _ _ _ Hmk E)). exact (v_len _ _ _ _ V).
    + exact (bufs_same P _ _ _ gt E Hmk).
    + intros m. left. split; [exact (Hset m)|]. split; reflexivity.
Qed.

Lemma install_other fds : forall f files d, ~ In d fds -> install f fds files d = f d.
Proof.
  induction fds as [|x r IH]; intros f files d H; cbn [install]; [reflexivity|]. destruct files as [|y l]; [reflexivity|].
  rewrite IH by (intros Hi; apply H; right; exact Hi). unfold fset. destruct (Z.eqb_spec d x) as [->|]; [|reflexivity].
  exfalso. apply H. left. reflexivity.
Qed.

Lemma install_files fds : forall f files, NoDup fds -> length fds = length files -> map (install f fds files) fds = files.
Proof.
  induction fds as [|x r IH]; intros f files Hd Hl; destruct files as [|y l]; try discriminate; [reflexivity|].
  cbn [map install]. inversion_clear Hd. f_equal.
  - rewrite install_other by assumption. unfold fset. rewrite Z.eqb_refl. reflexivity.
  - apply IH; [assumption|]. cbn [length] in Hl. lia.
Qed.

Lemma receive_step P hs pk gt fds files P1 : pinv P hs pk gt -> length fds = length files ->
  after (step (pst P) (OBufNew fds)) (install (file P) fds files) (carries P) = Fine P1 ->
  pinv P1 hs pk (gt ++ [files]).
Proof.
  intros V Hl. destruct (step (pst P) (OBufNew fds)) as [s1 t| |] eqn:E; try discriminate. intros X. injection X as <-.
  assert (E0 := E). cbn [step] in E0. destruct (_ && _) eqn:Hc; [|discriminate]. injection E0 as <- <-.
  apply andb_true_iff in Hc. destruct Hc as [Hc1 Hc2]. apply all_different_nodup in Hc2. rewrite forallb_forall in Hc1.
  assert (Hnew : forall d, In d fds -> fdt (pst P) d = None).
  { intros d Hd. specialize (Hc1 d Hd). destruct (fdt (pst P) d); [discriminate|reflexivity]. }
  assert (Hagree : forall z, fdt (pst P) z <> None -> install (file P) fds files z = file P z).
  { intros z Hz. apply install_other. intros Hi. apply Hz, Hnew, Hi. }
  eapply (pinv_step P hs pk gt _ _ _ _ _ _ _ _ V E Hagree).
  - discriminate.
  - intros z g. cbn [fdt]. rewrite fold_fds. rewrite (v_has _ _ _ _ V z g). destruct (in_dec Z.eq_dec z fds) as [Hi|Hi].
    + rewrite (Hnew _ Hi). split; intros [? _]; discriminate.
    + rewrite install_other by exact Hi. reflexivity.
  - cbn [bufs]. rewrite !app_length, (v_len _ _ _ _ V). reflexivity.
  - intros b c k. cbn [bufs conts]. rewrite at_app. intros H1 H2.
    destruct (Nat.eqb_spec b (length (bufs (pst P)))) as [->|Hne].
    + right. injection H1 as <-. rewrite at_app, Nat.eqb_refl in H2. injection H2 as <-. cbn [c_fds].
      rewrite app_nth2 by (rewrite (v_len _ _ _ _ V); lia). rewrite (v_len _ _ _ _ V), Nat.sub_diag. cbn [nth].
      symmetry. apply install_files; assumption.
    + left. split; [exact H1|]. rewrite app_nth1; [reflexivity|]. rewrite (v_len _ _ _ _ V). exact (at_lt _ _ _ H1).
  - intros m. left. split; [discriminate|]. split; reflexivity.
Qed.

(* All processes *)
Definition winv (w : world) (i : ideal) : Prop := forall p, pinv (w p) (has i p) (packed i p) (got i p).

Lemma does_step w i p d P1 : winv w i -> careful w (Does p d) -> does (w p) d = Fine P1 ->
  winv (wset w p P1) (ideally i (Does p d)).
Proof.
  intros W Hd E q. pose proof (W q) as Wq. unfold wset.
  destruct (Nat.eqb_spec q p) as [->|Hne].
  - destruct d as [fd f|fd|m src dup|m b skip locals|m b locals|b n fd|o]; cbn [ideally].
    + unfold set_has. cbn [has packed got]. unfold set1 at 1. rewrite Nat.eqb_refl.
      exact (open_step _ _ _ _ _ _ _ Wq E).
    + unfold set_has. cbn [has packed got]. unfold set1 at 1. rewrite Nat.eqb_refl.
      exact (close_step _ _ _ _ _ _ Wq Hd E).
    + unfold set_packed. cbn [has packed got]. unfold set1 at 1. rewrite Nat.eqb_refl.
      destruct dup as [dd|]; [exact (append_step _ _ _ _ _ _ _ _ Wq E)|].
      destruct src as [fd|b n]; [|destruct Hd]. exact (append_own _ _ _ _ _ _ _ Wq E).
    + unfold set_packed. cbn [has packed got]. unfold set1 at 1. rewrite Nat.eqb_refl.
      exact (copy_step _ _ _ _ _ _ _ _ _ Wq E).
    + unfold set_packed. cbn [has packed got]. unfold set1 at 1. rewrite Nat.eqb_refl.
      exact (replace_step _ _ _ _ _ _ _ _ Wq E).
    + unfold set_has. cbn [has packed got]. unfold set1 at 1. rewrite Nat.eqb_refl. cbn [does] in E.
      destruct (read_fd (pst (w p)) b n) as [x|] eqn:Er; [|discriminate].
      destruct (read_means _ _ _ _ _ _ _ Wq Er) as [_ Hm]. unfold in_buffer. rewrite Hm.
      exact (open_step _ _ _ _ _ _ _ Wq E).
    + pose proof (other_step _ _ _ _ _ _ Wq E) as V.
      destruct o; cbn [added1] in V; try exact V. unfold add_got. cbn [has packed got]. unfold set1 at 1. rewrite Nat.eqb_refl. exact V.
  - destruct d as [fd f|fd|m src dup|m b skip locals|m b locals|b n fd|o]; cbn [ideally];
      try (unfold set_has, set_packed; cbn [has packed got]; unfold set1 at 1; destruct (Nat.eqb_spec q p); [contradiction|]; exact Wq).
    destruct o; try exact Wq. unfold add_got. cbn [has packed got]. unfold set1 at 1. destruct (Nat.eqb_spec q p); [contradiction|]. exact Wq.
Qed.

Lemma carried_open P hs pk gt m x : pinv P hs pk gt -> at_ (msgs (pst P)) m = Some x ->
  forallb (open_in (pst P)) (carries P m) = true.
Proof.
  intros V Hx. apply forallb_forall. intros d Hd. destruct (v_msgs _ _ _ _ V m x Hx) as [_ Hb]. rewrite Forall_forall in Hb.
  pose proof (backed_open _ _ _ _ (v_safe _ _ _ _ V) Hx (Hb _ Hd)) as H. unfold open_in. destruct (fdt (pst P) d); [reflexivity|contradiction].
Qed.

Lemma sends_step w i p m q fds w1 : winv w i -> sends w p m q fds = Fine w1 -> winv w1 (ideally i (Sends p m q fds)).
Proof.
  intros W. unfold sends. destruct (at_ (msgs (pst (w p))) m) as [x|] eqn:Ex; [|discriminate].
  rewrite (carried_open _ _ _ _ _ _ (W p) Ex). destruct (Nat.eqb_spec (length fds) (length (carries (w p) m))) as [Hl|]; [|discriminate].
  destruct (after _ _ _) as [P1| |] eqn:E; try discriminate. intros X. injection X as <-.
  intros k. unfold wset. cbn [ideally]. unfold add_got. cbn [has packed got]. unfold set1 at 1.
  destruct (Nat.eqb_spec k q) as [->|Hne]; [|exact (W k)].
  rewrite (proj1 (v_msgs _ _ _ _ (W p) m x Ex)).
  eapply (receive_step _ _ _ _ fds _ _ (W q)); [|exact E]. rewrite map_length. exact Hl.
Qed.

Lemma start_winv : winv start nothing.
Proof.
  intros p. constructor; cbn [start new_proc pst file carries nothing has packed got].
  - exact safe_init.
  - exists []. exact refs_init.
  - intros fd f. cbn [init_state fdt]. split; [discriminate|intros [? _]; discriminate].
  - reflexivity.
  - intros b c k H. cbn [init_state bufs] in H. unfold at_ in H. destruct b; discriminate.
  - intros m x H. cbn [init_state msgs] in H. unfold at_ in H. destruct m; discriminate.
  - auto.
Qed.

Lemma moves_winv w i v w1 : winv w i -> careful w v -> moves w v = Fine w1 -> winv w1 (ideally i v).
Proof.
  intros W Hv E. destruct v as [p d|p m q fds]; cbn [moves] in E.
  - destruct (does (w p) d) as [P1| |] eqn:E2; try discriminate. injection E as <-. exact (does_step _ _ _ _ _ W Hv E2).
  - exact (sends_step _ _ _ _ _ _ _ W E).
Qed.

Lemma happens_winv h : forall w i w1, winv w i -> carefully w h -> happens w h = Fine w1 -> winv w1 (fold_left ideally h i).
Proof.
  induction h as [|v h IH]; intros w i w1 W Hd; cbn [happens fold_left]; [intros [= <-]; exact W|].
  destruct Hd as [Hv Hr]. destruct (moves w v) as [w2| |] eqn:E; try discriminate. intros H.
  exact (IH w2 _ _ (moves_winv _ _ _ _ W Hv E) Hr H).
Qed.

(* The library doesn't use what it has freed, even if descriptors can't be duplicated *)
Definition wsafe (w : world) : Prop := forall p, safe (pst (w p)).

Lemma after_safe s o f c : safe s -> match after (step s o) f c with Fine x => safe (pst x) | Wrong => True | Broken => False end.
Proof.
  intros Hs. pose proof (step_safe s o Hs) as H. unfold after. destruct (step s o); [exact (proj1 H)|exact H|exact H].
Qed.

Lemma does_safe P d : safe (pst P) -> match does P d with Fine x => safe (pst x) | Wrong => True | Broken => False end.
Proof.
  intros Hs. destruct d as [fd f|fd|m src dup|m b skip locals|m b locals|b n fd|o]; cbn [does]; try (apply after_safe; exact Hs).
  - destruct (descriptor (pst P) src); [|exact I]. destruct dup; apply after_safe; exact Hs.
  - destruct (read_fd (pst P) b n); [apply after_safe; exact Hs|exact I].
  - destruct (neutral o); [apply after_safe; exact Hs|exact I].
Qed.

Lemma moves_safe w v : wsafe w -> match moves w v with Fine x => wsafe x | Wrong => True | Broken => False end.
Proof.
  intros W. assert (Hset : forall q x, safe (pst x) -> wsafe (wset w q x)).
  { intros q x Hx k. unfold wset. destruct (Nat.eqb k q); [exact Hx|exact (W k)]. }
  destruct v as [p d|p m q fds]; cbn [moves].
  - pose proof (does_safe (w p) d (W p)) as H. destruct (does (w p) d); [apply Hset; exact H|exact I|exact H].
  - unfold sends. destruct (at_ (msgs (pst (w p))) m); [|exact I]. destruct (forallb _ _); [|exact W].
    destruct (Nat.eqb _ _); [|exact I].
    match goal with |- context [after ?a ?b ?c] => pose proof (after_safe (pst (w q)) (OBufNew fds) b c (W q)) as H end.
    destruct (after _ _ _); [apply Hset; exact H|exact I|exact H].
Qed.

Lemma happens_safe h : forall w, wsafe w -> match happens w h with Fine x => wsafe x | Wrong => True | Broken => False end.
Proof.
  induction h as [|v h IH]; intros w W; cbn [happens]; [exact W|].
  pose proof (moves_safe w v W) as H. destruct (moves w v); [apply IH; exact H|exact I|exact H].
Qed.

Lemma start_safe : wsafe start. Proof. intros p. exact safe_init. Qed.

(* Nothing is left open *)
Lemma idle_closed s : safe s -> (forall m, at_ (msgs s) m = None) -> (forall b, at_ (bufs s) b = None) ->
  (forall l, at_ (lists s) l = None) -> forall fd, fdt s fd = None \/ fdt s fd = Some OwApp.
Proof.
  intros [C [D1 D2]] Hm Hb Hl fd. destruct (fdt s fd) as [[|m|c]|] eqn:Ef; auto; exfalso.
  - specialize (D1 m fd). unfold mclaims in D1. rewrite Hm in D1. rewrite (proj2 (opened_by_msg s fd m) Ef) in D1. lia.
  - specialize (D2 c fd). rewrite (proj2 (opened_by_cont s fd c) Ef) in D2. unfold cclaims in D2.
    specialize (C c). destruct (at_ (conts s) c) as [k|]; [|lia]. destruct C as [C1 C2].
    assert (Z0 : forall (A : Type) (f : nat -> option A -> Z) (l : list (option A)), (forall j, f j None = 0) ->
      (forall n, at_ l n = None) -> isum f 0 l = 0).
    { intros A f l Hf Hn. apply isum_zero. intros n y Hy. destruct y as [y|]; [|apply Hf].
      specialize (Hn n). unfold at_ in Hn. rewrite Hy in Hn. discriminate. }
    unfold own in C1. rewrite (Z0 _ (mown c) (msgs s)), (Z0 _ (bown c) (bufs s)), (Z0 _ (lown c) (lists s)) in C1;
      [lia|reflexivity|exact Hl|reflexivity|exact Hb|reflexivity|exact Hm].
Qed.

(* A buffer stays until it's freed *)
Lemma kept_fds s o s1 t b l : safe s -> step s o = Done s1 t -> o <> OBufFree b -> buffer_fds s b = Some l -> buffer_fds s1 b = Some l.
Proof.
  intros Hs E Ho. unfold buffer_fds. destruct (at_ (bufs s) b) as [c|] eqn:Eb; [|discriminate].
  destruct (at_ (conts s) c) as [k|] eqn:Ek; [|discriminate]. intros [= <-].
  pose proof (step_bufs_forward _ _ _ _ _ _ E Ho Eb) as Eb1. rewrite Eb1.
  pose proof (step_safe s o Hs) as H. rewrite E in H. destruct H as (Hs1 & _ & _).
  destruct (held_live s1 c Hs1 (holds_of_buf _ _ _ Eb1)) as (k1 & Hk1 & _). rewrite Hk1.
  rewrite (step_fds _ _ _ _ _ _ _ E Ek Hk1). reflexivity.
Qed.

Lemma after_kept s o f c P1 b l : safe s -> after (step s o) f c = Fine P1 -> o <> OBufFree b -> buffer_fds s b = Some l ->
  buffer_fds (pst P1) b = Some l.
Proof.
  intros Hs. unfold after. destruct (step s o) as [s1 t| |] eqn:E; try discriminate. intros [= <-]. exact (kept_fds _ _ _ _ _ _ Hs E).
Qed.

Lemma does_kept P d P1 b l : safe (pst P) -> does P d = Fine P1 -> d <> Other (OBufFree b) -> buffer_fds (pst P) b = Some l ->
  buffer_fds (pst P1) b = Some l.
Proof.
  intros Hs E Hd Hl. destruct d as [fd f|fd|m src dup|m n skip locals|m n locals|x n fd|o]; cbn [does] in E;
    try (refine (after_kept _ _ _ _ _ _ _ Hs E _ Hl); discriminate).
  - destruct (descriptor (pst P) src); [|discriminate]. destruct dup; refine (after_kept _ _ _ _ _ _ _ Hs E _ Hl); discriminate.
  - destruct (read_fd (pst P) x n); [|discriminate]. refine (after_kept _ _ _ _ _ _ _ Hs E _ Hl); discriminate.
  - destruct (neutral o); [|discriminate]. refine (after_kept _ _ _ _ _ _ _ Hs E _ Hl). congruence.
Qed.

Lemma moves_kept w v w1 q b l : wsafe w -> moves w v = Fine w1 -> v <> Does q (Other (OBufFree b)) ->
  buffer_fds (pst (w q)) b = Some l -> buffer_fds (pst (w1 q)) b = Some l.
Proof.
  intros W E Hv Hl. destruct v as [p d|p m k fds]; cbn [moves] in E.
  - destruct (does (w p) d) as [P1| |] eqn:E2; try discriminate. injection E as <-. unfold wset.
    destruct (Nat.eqb_spec q p) as [->|]; [|exact Hl]. apply (does_kept _ _ _ _ _ (W p) E2); [congruence|exact Hl].
  - unfold sends in E. destruct (at_ (msgs (pst (w p))) m); [|discriminate]. destruct (forallb _ _); [|injection E as <-; exact Hl].
    destruct (Nat.eqb _ _); [|discriminate]. destruct (after _ _ _) as [P1| |] eqn:E2; try discriminate. injection E as <-. unfold wset.
    destruct (Nat.eqb_spec q k) as [->|]; [|exact Hl]. refine (after_kept _ _ _ _ _ _ _ (W k) E2 _ Hl). discriminate.
Qed.

Lemma happens_kept h : forall w w1 q b l, wsafe w -> happens w h = Fine w1 -> ~ In (Does q (Other (OBufFree b))) h ->
  buffer_fds (pst (w q)) b = Some l -> buffer_fds (pst (w1 q)) b = Some l.
Proof.
  induction h as [|v h IH]; intros w w1 q b l W; cbn [happens]; [intros [= <-] _ H; exact H|].
  destruct (moves w v) as [w2| |] eqn:E; try discriminate. intros H Hn Hl.
  pose proof (moves_safe w v W) as W2. rewrite E in W2. apply (IH w2); [exact W2|exact H|intros X; apply Hn; right; exact X|].
  apply (moves_kept _ _ _ _ _ _ W E); [|exact Hl]. intros ->. apply Hn. left. reflexivity.
Qed.

Lemma happens_app h1 h2 : forall w, happens w (h1 ++ h2) = match happens w h1 with Fine w1 => happens w1 h2 | x => x end.
Proof.
  induction h1 as [|v h IH]; intros w; cbn [app happens]; [reflexivity|]. destruct (moves w v); [apply IH|reflexivity|reflexivity].
Qed.

Lemma carefully_app h1 h2 : forall w, carefully w (h1 ++ h2) <->
  carefully w h1 /\ match happens w h1 with Fine w1 => carefully w1 h2 | _ => True end.
Proof.
  induction h1 as [|v h IH]; intros w; cbn [app carefully happens]; [tauto|].
  destruct (moves w v); [rewrite IH; tauto|tauto|tauto].
Qed.

(* The files in a buffer don't change *)
Lemma got_grows v i q b : (b < length (got i q))%nat -> nth b (got (ideally i v) q) [] = nth b (got i q) [] /\
  (length (got i q) <= length (got (ideally i v) q))%nat.
Proof.
  intros Hb.
  assert (A : forall k x, nth b (got (add_got i k x) q) [] = nth b (got i q) [] /\
    (length (got i q) <= length (got (add_got i k x) q))%nat).
  { intros k x. unfold add_got. cbn [got]. unfold set1. destruct (Nat.eqb_spec q k) as [->|]; [|auto].
    rewrite app_nth1 by exact Hb. rewrite app_length. split; [reflexivity|lia]. }
  destruct v as [p d|p m k fds]; cbn [ideally]; [|apply A].
  destruct d as [fd f|fd|m src dup|m n skip locals|m n locals|x n fd|o]; auto. destruct o; auto.
Qed.

Lemma got_stays h : forall i q b, (b < length (got i q))%nat -> nth b (got (fold_left ideally h i) q) [] = nth b (got i q) [].
Proof.
  induction h as [|v h IH]; intros i q b Hb; cbn [fold_left]; [reflexivity|].
  destruct (got_grows v i q b Hb) as [E L]. rewrite IH by lia. exact E.
Qed.

(* Descriptors of the application stay until it closes them *)
Lemma has_moves w i v w1 p d f : winv w i -> careful w v -> moves w v = Fine w1 -> v <> Does p (Close d) ->
  has i p d = Some f -> has (ideally i v) p d = Some f.
Proof.
  intros W Hc E Hv Hd. pose proof (proj1 (v_has _ _ _ _ (W p) d f) Hd) as [Ho _].
  assert (A : forall fd x, has (set_has i p fd x) p d = if d =? fd then x else Some f).
  { intros fd x. unfold set_has. cbn [has]. unfold set1, setz. rewrite Nat.eqb_refl. destruct (d =? fd); congruence. }
  assert (B : forall q fd x, q <> p -> has (set_has i q fd x) p d = Some f).
  { intros q fd x Hne. unfold set_has. cbn [has]. unfold set1. destruct (Nat.eqb_spec p q); [congruence|exact Hd]. }
  assert (O : forall fd f0 c0 P1, after (step (pst (w p)) (OAppOpen fd)) f0 c0 = Fine P1 -> d <> fd).
  { intros fd f0 c0 P1 X ->. cbn [step] in X. rewrite Ho in X. discriminate X. }
  destruct v as [q dd|q m k fds]; cbn [ideally moves] in *; [|exact Hd].
  destruct (does (w q) dd) as [P1| |] eqn:E2; try discriminate.
  destruct dd as [fd g|fd|m src dup|m n skip locals|m n locals|x n fd|o]; try exact Hd.
  - destruct (Nat.eq_dec q p) as [->|Hne]; [|apply B; exact Hne]. rewrite A. destruct (Z.eqb_spec d fd) as [->|]; [|reflexivity].
    destruct (O _ _ _ _ E2 eq_refl).
  - destruct (Nat.eq_dec q p) as [->|Hne]; [|apply B; exact Hne]. rewrite A. destruct (Z.eqb_spec d fd) as [->|]; [|reflexivity].
    destruct (Hv eq_refl).
  - destruct (Nat.eq_dec q p) as [->|Hne]; [|apply B; exact Hne]. rewrite A. destruct (Z.eqb_spec d fd) as [->|]; [|reflexivity].
    cbn [does] in E2. destruct (read_fd (pst (w p)) x n); [|discriminate]. destruct (O _ _ _ _ E2 eq_refl).
  - destruct o; exact Hd.
Qed.

Lemma has_stays h : forall w i w1 p d f, winv w i -> carefully w h -> happens w h = Fine w1 -> ~ In (Does p (Close d)) h ->
  has i p d = Some f -> has (fold_left ideally h i) p d = Some f.
Proof.
  induction h as [|v h IH]; intros w i w1 p d f W Hc; cbn [happens fold_left]; [auto|].
  destruct Hc as [Hv Hr]. destruct (moves w v) as [w2| |] eqn:E; try discriminate. intros H Hn Hd.
  apply (IH w2 _ w1); [exact (moves_winv _ _ _ _ W Hv E)|exact Hr|exact H|intros X; apply Hn; right; exact X|].
  apply (has_moves _ _ _ _ _ _ _ W Hv E); [|exact Hd]. intros ->. apply Hn. left. reflexivity.
Qed.

Lemma refer_map P l : (forall d, In d l -> fdt (pst P) d <> None) -> refer P l (map (file P) l).
Proof.
  intros H. unfold refer. induction l as [|d l IH]; cbn [map]; constructor.
  - split; [apply H; left; reflexivity|reflexivity].
  - apply IH. intros x Hx. apply H. right. exact Hx.
Qed.

Lemma buffer_refers P hs pk gt b l : pinv P hs pk gt -> buffer_fds (pst P) b = Some l -> refer P l (nth b gt []).
Proof.
  intros V. unfold buffer_fds. destruct (at_ (bufs (pst P)) b) as [c|] eqn:Eb; [|discriminate].
  destruct (at_ (conts (pst P)) c) as [k|] eqn:Ek; [|discriminate]. intros [= <-].
  rewrite (v_bufs _ _ _ _ V _ _ _ Eb Ek). apply refer_map. intros d Hd. exact (buffer_open _ _ _ _ _ (v_safe _ _ _ _ V) Eb Ek Hd).
Qed.

Lemma message_refers P hs pk gt m : pinv P hs pk gt -> at_ (msgs (pst P)) m <> None -> refer P (carries P m) (pk m).
Proof.
  intros V Hm. destruct (at_ (msgs (pst P)) m) as [x|] eqn:Ex; [|contradiction].
  destruct (v_msgs _ _ _ _ V _ _ Ex) as [-> Hb]. apply refer_map. intros d Hd. rewrite Forall_forall in Hb.
  exact (backed_open _ _ _ _ (v_safe _ _ _ _ V) Ex (Hb _ Hd)).
Qed.
