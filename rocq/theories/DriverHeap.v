(* References to kernel buffers *)
From Coq Require Permutation.
From Verif Require Import Base BaseLemmas KernelModel TxModel DriverModel DriverSpec.

Definition cnt (T : list nat) (i : nat) : Z := Z.of_nat (count_occ Nat.eq_dec T i).
Lemma cnt_app T U i : cnt (T ++ U) i = cnt T i + cnt U i.
Proof. unfold cnt. rewrite count_occ_app. lia. Qed.
Lemma cnt_cons x T i : cnt (x :: T) i = (if Nat.eq_dec x i then 1 else 0) + cnt T i.
Proof. unfold cnt. cbn [count_occ]. destruct (Nat.eq_dec x i); lia. Qed.
Lemma cnt_nil i : cnt [] i = 0.
Proof. reflexivity. Qed.
Lemma cnt_nonneg T i : 0 <= cnt T i.
Proof. unfold cnt. lia. Qed.

(* buffers at this address which have references *)
Fixpoint live (a : Z) (h : list (Z * Z)) : Z :=
  match h with [] => 0 | (b, n) :: r => (if (b =? a) && (0 <? n) then 1 else 0) + live a r end.
Lemma live_app a h g : live a (h ++ g) = live a h + live a g.
Proof. induction h as [|[b n] h IH]; [reflexivity|]. cbn [Datatypes.app live]. rewrite IH. lia. Qed.

Lemma nth_set_refs h id n j : nth j (set_refs h id n) (0, 0) =
  if Nat.eqb j id then (if (id <? length h)%nat then (fst (nth id h (0, 0)), n) else (0, 0)) else nth j h (0, 0).
Proof.
  unfold set_refs. revert h j. induction id as [|id IH]; intros h j.
  - destruct h as [|[b m] h]; cbn [firstn skipn Datatypes.app].
    + destruct j; reflexivity.
    + destruct j; reflexivity.
  - destruct h as [|[b m] h]; cbn [firstn skipn Datatypes.app].
    + destruct (Nat.eqb j (S id)); destruct j; reflexivity.
    + destruct j as [|j]; [reflexivity|]. cbn [nth Nat.eqb length]. rewrite IH. reflexivity.
Qed.
Lemma live_set_refs a h id n : (id < length h)%nat ->
  live a (set_refs h id n) = live a h
    - (if (fst (nth id h (0, 0)) =? a) && (0 <? snd (nth id h (0, 0))) then 1 else 0)
    + (if (fst (nth id h (0, 0)) =? a) && (0 <? n) then 1 else 0).
Proof.
  unfold set_refs. revert id. induction h as [|[b m] h IH]; intros id Hid; [cbn in Hid; lia|].
  destruct id as [|id]; cbn [firstn skipn Datatypes.app live nth fst snd].
  - lia.
  - cbn [length] in Hid. rewrite IH by lia. lia.
Qed.

(* T: all references; D: addresses of buffers which have just come *)
Definition hinv (T : list nat) (D : Z -> Z) (s : dstate) : Prop :=
  (forall i, refs_of s i = cnt T i) /\
  (forall a, a <> 0 -> came a (trace s) = went a (trace s) + live a (heap s) + ignored a (trace s) + D a).

Lemma hinv_conv T T' D D' s : hinv T D s -> (forall i, cnt T i = cnt T' i) -> (forall a, a <> 0 -> D a = D' a) -> hinv T' D' s.
Proof. intros [H1 H2] HT HD. split; [intros i; rewrite <- HT; apply H1|]. intros a Ha. rewrite <- HD by exact Ha. apply H2, Ha. Qed.

Definition none (a : Z) : Z := 0.
Definition okB {A} (m : M A) (pre : list nat) (post : A -> list nat) (din : Z -> Z) (dout : A -> Z -> Z) (Q : A -> Prop) : Prop :=
  forall R D s, hinv (R ++ pre ++ app s) (fun a => D a + din a) s ->
  match m s with
  | Done a s' => Q a /\ hinv (R ++ post a ++ app s') (fun x => D x + dout a x) s'
  | Stop w s' => w <> Faulted /\ exists T D', hinv (T ++ app s') D' s' /\ (forall a, D a <= D' a) /\ (w = Blocked -> forall a, D' a = D a)
  end.

Lemma okB_bind {A B} (m : M A) (f : A -> M B) pre mid post din dmid dout Q1 Q2 :
  okB m pre mid din dmid Q1 -> (forall a, Q1 a -> okB (f a) (mid a) post (dmid a) dout Q2) -> okB (bindM m f) pre post din dout Q2.
Proof.
  intros H1 H2 R D s Hs. unfold bindM. specialize (H1 R D s Hs). destruct (m s) as [a s1|w s1].
  - destruct H1 as [Hq H1]. exact (H2 a Hq R D s1 H1).
  - exact H1.
Qed.
Lemma okB_conv {A} (m : M A) pre pre' post post' din din' dout dout' Q (Q' : A -> Prop) :
  okB m pre post din dout Q -> (forall i, cnt pre i = cnt pre' i) -> (forall a i, Q a -> cnt (post a) i = cnt (post' a) i) ->
  (forall a, a <> 0 -> din a = din' a) -> (forall r a, a <> 0 -> dout r a = dout' r a) -> (forall a, Q a -> Q' a) -> okB m pre' post' din' dout' Q'.
Proof.
  intros H Hpre Hpost Hdin Hdout HQ R D s Hs. specialize (H R D s). destruct (m s) as [a s1|w s1].
  - destruct H as [Hq H].
    + eapply hinv_conv; [exact Hs| |]; intros; [rewrite !cnt_app, Hpre; reflexivity|rewrite Hdin by assumption; reflexivity].
    + split; [apply HQ; exact Hq|]. eapply hinv_conv; [exact H| |]; intros; [rewrite !cnt_app, Hpost by exact Hq; reflexivity|cbv beta; f_equal; apply Hdout; assumption].
  - apply H. eapply hinv_conv; [exact Hs| |]; intros; [rewrite !cnt_app, Hpre; reflexivity|rewrite Hdin by assumption; reflexivity].
Qed.
Lemma okB_frame {A} (m : M A) X pre post din dout Q : okB m pre post din dout Q -> okB m (X ++ pre) (fun a => X ++ post a) din dout Q.
Proof.
  intros H R D s Hs. specialize (H (R ++ X) D s). rewrite <- !app_assoc in *. specialize (H Hs).
  destruct (m s) as [a s1|w s1]; [|exact H]. destruct H as [Hq H]. rewrite <- !app_assoc in *. auto.
Qed.
Lemma okB_ret {A} (a : A) pre post din dout (Q : A -> Prop) :
  (forall i, cnt pre i = cnt (post a) i) -> (forall x, x <> 0 -> din x = dout a x) -> Q a -> okB (ret a) pre post din dout Q.
Proof.
  intros H1 H2 H3 R D s Hs. cbn [ret]. split; [exact H3|]. eapply hinv_conv; [exact Hs| |]; intros.
  - rewrite !cnt_app, H1. reflexivity.
  - cbv beta. f_equal. apply H2. assumption.
Qed.

Definition tok (c : option nat) : list nat := match c with Some id => [id] | None => [] end.
Definition yes {A} (a : A) : Prop := True.

(* ------------------------------------------------------------------ *)
Lemma came_app a t u : came a (t ++ u) = came a t + came a u.
Proof. induction t as [|e t IH]; [reflexivity|]. cbn [Datatypes.app came]. destruct e; try exact IH. destruct c; lia. Qed.
Lemma went_app a t u : went a (t ++ u) = went a t + went a u.
Proof. induction t as [|e t IH]; [reflexivity|]. cbn [Datatypes.app went]. destruct e; try exact IH. destruct w; lia. Qed.
Lemma ignored_app a t u : ignored a (t ++ u) = ignored a t + ignored a u.
Proof. induction t as [|e t IH]; [reflexivity|]. cbn [Datatypes.app ignored]. destruct e; try exact IH. destruct c; lia. Qed.

Definition neutral (e : dev) : Prop :=
  match e with Got _ _ (RTransaction _ | RReply _) | Wrote (WFreeBuffer _) | Unexpected (RReply _) => False | _ => True end.
Lemma neutral_counts e a : neutral e -> came a [e] = 0 /\ went a [e] = 0 /\ ignored a [e] = 0.
Proof. destruct e; try (split; [|split]; reflexivity); [destruct c|destruct w|destruct c]; try contradiction; intros _; (split; [|split]; reflexivity). Qed.

Lemma okB_emit e pre : neutral e -> okB (emit e) pre (fun _ => pre) none (fun _ => none) yes.
Proof.
  intros He R D s [H1 H2]. cbn [emit app]. split; [exact I|]. split; [exact H1|].
  intros a Ha. cbn [trace heap]. rewrite came_app, went_app, ignored_app. destruct (neutral_counts e a He) as (-> & -> & ->). specialize (H2 a Ha). lia.
Qed.
Lemma okB_history pre : okB history pre (fun _ => pre) none (fun _ => none) yes.
Proof. intros R D s H. split; [exact I|exact H]. Qed.

Lemma okB_free b pre : okB (free_buffer b) pre (fun _ => pre) (fun a => Z.b2z (b =? a)) (fun _ => none) yes.
Proof.
  intros R D s [H1 H2]. unfold free_buffer. destruct (Z.eqb_spec b 0) as [->|Hb].
  - cbn [ret]. split; [exact I|]. split; [exact H1|]. intros a Ha. specialize (H2 a Ha). unfold none. destruct (Z.eqb_spec 0 a); [lia|]. cbn [Z.b2z] in H2. lia.
  - cbn [emit app]. split; [exact I|]. split; [exact H1|]. intros a Ha. cbn [trace heap]. rewrite came_app, went_app, ignored_app.
    cbn [came went ignored]. specialize (H2 a Ha). unfold none. lia.
Qed.

Lemma okB_new b pre : okB (contents_new b) pre (fun id => id :: pre) (fun a => Z.b2z (b =? a)) (fun _ => none) yes.
Proof.
  intros R D s [H1 H2]. cbn [contents_new]. split; [exact I|]. split.
  - intros i. unfold refs_of. cbn [heap app]. rewrite !cnt_app, !cnt_cons.
    assert (Hi := H1 i). unfold refs_of in Hi. rewrite !cnt_app in Hi. destruct (Nat.eq_dec (length (heap s)) i) as [<-|Hn].
    + rewrite nth_overflow in Hi by lia. cbn [snd] in Hi. rewrite app_nth2, Nat.sub_diag by lia. cbn [nth snd].
      rewrite ?cnt_app. lia.
    + rewrite ?cnt_app. destruct (Nat.lt_ge_cases i (length (heap s))) as [Hl|Hl].
      * rewrite app_nth1 by exact Hl. lia.
      * rewrite nth_overflow in Hi by lia. rewrite nth_overflow by (rewrite app_length; cbn; lia). cbn [snd] in *. lia.
  - intros a Ha. cbn [trace heap]. rewrite live_app. cbn [live]. specialize (H2 a Ha). unfold none. change (0 <? 1) with true. rewrite andb_true_r. unfold Z.b2z in H2. lia.
Qed.

Lemma refs_in_heap s i : 0 < refs_of s i -> (i < length (heap s))%nat.
Proof. unfold refs_of. intros H. destruct (Nat.lt_ge_cases i (length (heap s))) as [Hl|Hl]; [exact Hl|]. rewrite nth_overflow in H by lia. cbn in H. lia. Qed.

Lemma okB_ref id : okB (contents_ref id) [id] (fun _ => [id; id]) none (fun _ => none) yes.
Proof.
  intros R D s [H1 H2]. unfold contents_ref.
  assert (Hp : 0 < refs_of s id).
  { rewrite H1, !cnt_app, cnt_cons, cnt_nil. destruct (Nat.eq_dec id id); [|congruence]. pose proof (cnt_nonneg R id). pose proof (cnt_nonneg (app s) id). lia. }
  destruct (Z.leb_spec (refs_of s id) 0); [lia|]. split; [exact I|]. split.
  - intros i. unfold refs_of. cbn [heap app]. rewrite nth_set_refs. destruct (Nat.eqb_spec i id) as [->|Hn].
    + apply refs_in_heap in Hp as Hl. destruct (Nat.ltb_spec id (length (heap s))); [|lia]. cbn [snd].
      fold (refs_of s id). rewrite H1, ?cnt_app, ?cnt_cons, ?cnt_app, ?cnt_cons, ?cnt_nil. destruct (Nat.eq_dec id id); [lia|congruence].
    + assert (Hi := H1 i). unfold refs_of in Hi. rewrite Hi, !cnt_app, !cnt_cons. destruct (Nat.eq_dec id i); [congruence|]. lia.
  - intros a Ha. cbn [trace heap]. rewrite live_set_refs by (apply refs_in_heap; exact Hp). specialize (H2 a Ha).
    unfold refs_of in *. destruct (Z.ltb_spec 0 (snd (nth id (heap s) (0, 0)))); [|lia].
    destruct (Z.ltb_spec 0 (snd (nth id (heap s) (0, 0)) + 1)); [|lia]. unfold none in *. lia.
Qed.

Lemma okB_unref id : okB (contents_unref id) [id] (fun _ => []) none (fun _ => none) yes.
Proof.
  intros R D s [H1 H2]. unfold contents_unref.
  assert (Hp : 0 < refs_of s id).
  { rewrite H1, !cnt_app, cnt_cons, cnt_nil. destruct (Nat.eq_dec id id); [|congruence]. pose proof (cnt_nonneg R id). pose proof (cnt_nonneg (app s) id). lia. }
  destruct (Z.leb_spec (refs_of s id) 0); [lia|]. cbv zeta.
  set (s1 := {| ios := ios s; trace := trace s; heap := set_refs (heap s) id (refs_of s id - 1); app := app s |}).
  assert (HT : forall i, refs_of s1 i = cnt (R ++ [] ++ app s1) i).
  { intros i. unfold refs_of, s1. cbn [heap app Datatypes.app]. rewrite nth_set_refs. destruct (Nat.eqb_spec i id) as [->|Hn].
    + apply refs_in_heap in Hp as Hl. destruct (Nat.ltb_spec id (length (heap s))); [|lia]. cbn [snd].
      fold (refs_of s id). rewrite H1, ?cnt_app, ?cnt_cons, ?cnt_app, ?cnt_cons, ?cnt_nil. destruct (Nat.eq_dec id id); [lia|congruence].
    + assert (Hi := H1 i). unfold refs_of in Hi. rewrite Hi, !cnt_app, !cnt_cons, cnt_nil. destruct (Nat.eq_dec id i); [congruence|]. lia. }
  assert (HL : forall a, live a (heap s1) = live a (heap s) - (if (buffer_of s id =? a) && (refs_of s id - 1 =? 0) then 1 else 0)).
  { intros a. unfold s1. cbn [heap]. rewrite live_set_refs by (apply refs_in_heap; exact Hp). unfold buffer_of, refs_of in *.
    destruct (Z.ltb_spec 0 (snd (nth id (heap s) (0, 0)))); [|lia]. rewrite andb_true_r.
    destruct (Z.ltb_spec 0 (snd (nth id (heap s) (0, 0)) - 1)); destruct (Z.eqb_spec (snd (nth id (heap s) (0, 0)) - 1) 0); try lia;
      rewrite ?andb_true_r, ?andb_false_r; lia. }
  destruct (refs_of s id - 1 =? 0).
  - pose proof (okB_free (buffer_of s id) [] R D s1) as Hf.
    assert (Hs1 : hinv (R ++ [] ++ app s1) (fun a => D a + Z.b2z (buffer_of s id =? a)) s1).
    { split; [exact HT|]. intros a Ha. specialize (H2 a Ha). rewrite HL, andb_true_r. unfold s1. cbn [trace]. unfold none, Z.b2z in *. lia. }
    exact (Hf Hs1).
  - split; [exact I|]. split; [exact HT|]. intros a Ha. specialize (H2 a Ha). rewrite HL, andb_false_r. unfold s1. cbn [trace]. lia.
Qed.

Ltac counts := cbv beta; cbn [Datatypes.app]; repeat first [rewrite cnt_app|rewrite cnt_cons|rewrite cnt_nil]; lia.

Lemma okB_unref_opt c pre : okB (unref_opt c) (tok c ++ pre) (fun _ => pre) none (fun _ => none) yes.
Proof.
  destruct c as [id|]; cbn [unref_opt tok Datatypes.app].
  - eapply okB_conv; [apply (okB_frame _ pre), okB_unref| | | | |]; intros; auto.
    + counts.
    + counts.
  - apply okB_ret; auto. exact I.
Qed.
Lemma okB_each_unref l pre : okB (each contents_unref l) (l ++ pre) (fun _ => pre) none (fun _ => none) yes.
Proof.
  induction l as [|i l IH]; cbn [each].
  - apply okB_ret; auto. exact I.
  - eapply okB_bind with (mid := fun _ => l ++ pre) (dmid := fun _ => none) (Q1 := yes).
    + apply (okB_unref_opt (Some i)).
    + intros ? _. exact IH.
Qed.
Lemma okB_each_ref l : forall pre, (forall i, cnt l i <= cnt pre i) -> okB (each contents_ref l) pre (fun _ => l ++ pre) none (fun _ => none) yes.
Proof.
  induction l as [|i l IH]; cbn [each]; intros pre Hl.
  - apply okB_ret; auto. exact I.
  - assert (Hin : In i pre).
    { apply (count_occ_In Nat.eq_dec). specialize (Hl i). rewrite cnt_cons in Hl. destruct (Nat.eq_dec i i); [|congruence].
      pose proof (cnt_nonneg l i). unfold cnt in *. lia. }
    apply in_split in Hin. destruct Hin as (p1 & p2 & ->).
    eapply okB_bind with (mid := fun _ => i :: p1 ++ i :: p2) (dmid := fun _ => none) (Q1 := yes).
    + eapply okB_conv; [apply (okB_frame _ (p1 ++ p2)), (okB_ref i)| | | | |]; intros; auto.
      * counts.
      * counts.
    + intros ? _. eapply okB_conv; [apply IH| | | | |]; intros; auto.
      * specialize (Hl i0). repeat first [rewrite cnt_app in *|rewrite cnt_cons in *]. pose proof (cnt_nonneg l i0). destruct (Nat.eq_dec i i0); lia.
      * counts.
Qed.
Lemma okB_list_add l c pre : okB (list_add l c) (tok c ++ l ++ pre) (fun l' => tok c ++ l' ++ pre) none (fun _ => none) yes.
Proof.
  destruct c as [id|]; cbn [list_add tok Datatypes.app].
  - eapply okB_bind with (mid := fun _ => id :: id :: l ++ pre) (dmid := fun _ => none) (Q1 := yes).
    + eapply okB_conv; [apply (okB_frame _ (l ++ pre)), (okB_ref id)| | | | |]; intros; auto.
      * counts.
      * counts.
    + intros ? _. apply okB_ret; auto. exact I.
  - apply okB_ret; auto. exact I.
Qed.

Lemma okB_add_app X pre : okB (do l <- get_app; set_app (l ++ X)) (X ++ pre) (fun _ => pre) none (fun _ => none) yes.
Proof.
  intros R D s Hs. unfold bindM. cbn [get_app set_app]. split; [exact I|]. cbn [app].
  pose proof (hinv_conv _ (R ++ pre ++ app s ++ X) _ (fun x => D x + none x) s Hs) as H. destruct H as [H1 H2].
  - intros i. counts.
  - auto.
  - split; [exact H1|exact H2].
Qed.
Lemma take_nth_cnt n l c l1 : take_nth n l = (c, l1) -> forall i, cnt l i = cnt (tok c) i + cnt l1 i.
Proof.
  revert n c l1. induction l as [|x l IH]; intros n c l1 H i.
  - destruct n; injection H as <- <-; reflexivity.
  - destruct n as [|n]; cbn [take_nth] in H.
    + injection H as <- <-. cbn [tok]. rewrite !cnt_cons, cnt_nil. lia.
    + destruct (take_nth n l) as [y r] eqn:E. injection H as <- <-. rewrite !cnt_cons, (IH _ _ _ E i). lia.
Qed.
Lemma okB_take_app {A} n (k : option nat -> M A) pre post din dout Q :
  (forall c, okB (k c) (tok c ++ pre) post din dout Q) ->
  okB (do l <- get_app; let (c, l1) := take_nth n l in do _ <- set_app l1; k c) pre post din dout Q.
Proof.
  intros Hk R D s Hs. unfold bindM. cbn [get_app]. destruct (take_nth n (app s)) as [c l1] eqn:E. cbn [set_app].
  apply (Hk c R D). pose proof (hinv_conv _ (R ++ (tok c ++ pre) ++ l1) _ (fun a => D a + din a) s Hs) as H. destruct H as [H1 H2].
  - intros i. rewrite ?cnt_app, (take_nth_cnt _ _ _ _ E i). lia.
  - auto.
  - split; [exact H1|exact H2].
Qed.

Lemma okB_read rb pre : okB (write_read rb) pre (fun _ => pre) none (fun _ => none) yes.
Proof.
  intros R D s [H1 H2]. unfold write_read. destruct (no_again (ios s)) as [|[e|b] r].
  - split; [discriminate|]. exists (R ++ pre), D. split; [|split; [lia|auto]]. split; [intros i; rewrite <- app_assoc; apply H1|].
    intros a Ha. specialize (H2 a Ha). unfold none in H2. lia.
  - split; [exact I|]. split; [exact H1|]. intros a Ha. cbn [trace heap]. rewrite came_app, went_app, ignored_app. cbn. specialize (H2 a Ha). unfold none in *. lia.
  - cbv zeta. split; [exact I|]. split; [exact H1|]. intros a Ha. cbn [trace heap]. rewrite came_app, went_app, ignored_app. cbn. specialize (H2 a Ha). unfold none in *. lia.
Qed.

Definition owed (c : rcmd) (a : Z) : Z := match c with RTransaction tx | RReply tx => Z.b2z (tx_data tx =? a) | _ => 0 end.
Lemma owed_nonneg c a : 0 <= owed c a.
Proof. destruct c; cbn [owed]; try lia; destruct (tx_data tx =? a); cbn; lia. Qed.
Lemma okB_take E rb cmd pre : okB (take_command E rb cmd) pre (fun _ => pre) none (fun a => owed (snd a)) yes.
Proof.
  intros R D s [H1 H2]. unfold take_command. cbv zeta. split; [exact I|]. split; [exact H1|].
  intros a Ha. cbn [trace heap snd]. rewrite came_app, went_app, ignored_app. specialize (H2 a Ha). unfold none in H2.
  set (c := decode_cmd _ _ _ _). destruct c; cbn [came went ignored owed]; lia.
Qed.
Lemma okB_no_fuel {A} pre post din dout (Q : A -> Prop) : (forall a, 0 <= din a) -> okB (@no_fuel A) pre post din dout Q.
Proof.
  intros Hd R D s H. cbn. split; [discriminate|]. exists (R ++ pre), (fun a => D a + din a). rewrite <- app_assoc. split; [exact H|].
  split; [intros a; specialize (Hd a); lia|discriminate].
Qed.

(* ------------------------------------------------------------------ *)
Definition join (x : option (option nat)) : option nat := match x with Some c => c | None => None end.
Definition no_token (reply : bool) (a : Z * ctx * option nat) : Prop :=
  (fst (fst a) = - EAGAIN -> snd a = None) /\ (reply = false -> snd a = None).

Record goodB (F : fns) : Prop := {
  b_hc : forall cx data c pre, okB (f_handle_command F cx data c) (cx_bufs cx ++ pre) (fun cx' => cx_bufs cx' ++ pre) (owed c) (fun _ => none) yes;
  b_hcs : forall cx pre, okB (f_handle_commands F cx) (cx_bufs cx ++ pre) (fun cx' => cx_bufs cx' ++ pre) none (fun _ => none) yes;
  b_tx : forall cx reply pre, okB (f_txstatus F cx reply) (cx_bufs cx ++ pre) (fun a => tok (snd a) ++ cx_bufs (snd (fst a)) ++ pre) none (fun _ => none) (no_token reply);
  b_wh : forall cx pre, okB (f_wait_handled F cx) (cx_bufs cx ++ pre) (fun cx' => cx_bufs cx' ++ pre) none (fun _ => none) yes;
  b_rh : forall req p pre, okB (f_run_handler F req p) (tok req ++ pre) (fun a => tok (join (fst a)) ++ tok req ++ pre) none (fun _ => none) yes;
  b_wr : forall cx reply pre, okB (f_wait_reply F cx reply) (cx_bufs cx ++ pre) (fun a => tok (snd a) ++ cx_bufs (snd (fst a)) ++ pre) none (fun _ => none) yes;
  b_dr : forall cx check status pre, okB (f_drain F cx check status) (cx_bufs cx ++ pre) (fun a => cx_bufs (snd a) ++ pre) none (fun _ => none) yes
}.

Lemma goodB_0 E : goodB (fns_of E 0).
Proof.
  constructor; intros; cbn [fns_of f_handle_command f_handle_commands f_txstatus f_wait_handled f_run_handler f_wait_reply f_drain];
    apply okB_no_fuel; intros; try apply owed_nonneg; unfold none; lia.
Qed.

Section Step.
Context (E : env) (F : fns) (G : goodB F).

Lemma okB_contents cx b pre :
  okB (do id <- contents_new b; do bufs <- list_add (cx_bufs cx) (Some id); ret (set_bufs cx bufs, Some id))
    (cx_bufs cx ++ pre) (fun a => tok (snd a) ++ cx_bufs (fst a) ++ pre) (fun a => Z.b2z (b =? a)) (fun _ => none) yes.
Proof.
  eapply okB_bind; [apply okB_new|intros id _]. cbn beta.
  eapply okB_bind with (mid := fun l' => tok (Some id) ++ l' ++ pre); [exact (okB_list_add (cx_bufs cx) (Some id) pre)|intros bufs _].
  apply okB_ret; auto. exact I.
Qed.
Lemma okB_drop_contents cx b pre :
  okB (do _ <- free_buffer b; ret (cx, @None nat))
    (cx_bufs cx ++ pre) (fun a => tok (snd a) ++ cx_bufs (fst a) ++ pre) (fun a => Z.b2z (b =? a)) (fun _ => none) yes.
Proof. eapply okB_bind; [apply okB_free|intros ? _]. apply okB_ret; auto. exact I. Qed.

Lemma okB_transaction cx tx pre : okB (handle_transaction E F cx tx) (cx_bufs cx ++ pre) (fun cx' => cx_bufs cx' ++ pre)
  (owed (RTransaction tx)) (fun _ => none) yes.
Proof.
  unfold handle_transaction. cbn [owed].
  eapply okB_bind with (mid := fun a => tok (snd a) ++ cx_bufs (fst a) ++ pre) (dmid := fun _ => none) (Q1 := yes).
  { destruct (negb (tx_data tx =? 0) && negb (tx_size tx =? 0)); [apply okB_contents|apply okB_drop_contents]. }
  intros [cx1 req] _. cbn [fst snd]. eapply okB_bind; [apply okB_history|intros h _]. cbn beta.
  eapply okB_bind with (mid := fun a => tok (join (fst a)) ++ tok req ++ cx_bufs cx1 ++ pre) (dmid := fun _ => none) (Q1 := yes).
  { destruct (e_handler E h tx) as [p|]; [apply (b_rh F G)|apply okB_ret; auto; exact I]. }
  intros [reply status] _. cbn [fst]. eapply okB_bind; [apply okB_emit; exact I|intros ? _]. cbn beta.
  eapply okB_bind with (mid := fun cx2 => tok (join reply) ++ tok req ++ cx_bufs cx2 ++ pre) (dmid := fun _ => none) (Q1 := yes).
  { destruct (Z.testbit (tx_flags tx) 0); [apply okB_ret; auto; exact I|].
    eapply okB_bind with (mid := fun cx2 => cx_bufs cx2 ++ tok (join reply) ++ tok req ++ pre) (dmid := fun _ => none) (Q1 := yes).
    - destruct reply as [contents|]; cbn [join].
      + eapply okB_bind with (mid := fun l => tok contents ++ l ++ tok req ++ pre) (dmid := fun _ => none) (Q1 := yes).
        * eapply okB_conv; [apply (okB_list_add (cx_bufs cx1) contents (tok req ++ pre))| | | | |]; intros; auto. counts.
        * intros bufs _. eapply okB_bind; [apply okB_emit; exact I|intros ? _]. apply okB_ret; auto; [|exact I].
          intros i. cbn [set_bufs cx_bufs]. counts.
      + eapply okB_bind; [apply okB_emit; exact I|intros ? _]. apply okB_ret; auto; [|exact I].
        intros i. rewrite ?cnt_app. cbn [tok]. lia.
    - intros cx2 _. eapply okB_conv; [apply (b_wh F G)| | | | |]; intros; auto. counts. }
  intros cx2 _. eapply okB_bind with (mid := fun _ => tok (join reply) ++ cx_bufs cx2 ++ pre) (dmid := fun _ => none) (Q1 := yes).
  { eapply okB_conv; [apply (okB_unref_opt req (tok (join reply) ++ cx_bufs cx2 ++ pre))| | | | |]; intros; auto. counts. }
  intros ? _. eapply okB_bind with (mid := fun _ => cx_bufs cx2 ++ pre) (dmid := fun _ => none) (Q1 := yes).
  { apply okB_unref_opt. }
  intros ? _. eapply okB_bind; [apply okB_emit; exact I|intros ? _]. apply okB_ret; auto. exact I.
Qed.

Lemma okB_unexpected c pre : match c with RTransaction _ => False | _ => True end -> okB (emit (Unexpected c)) pre (fun _ => pre) (owed c) (fun _ => none) yes.
Proof.
  intros Hc R D s [H1 H2]. cbn [emit app]. split; [exact I|]. split; [exact H1|].
  intros a Ha. cbn [trace heap]. rewrite came_app, went_app, ignored_app. specialize (H2 a Ha). unfold none.
  destruct c; try contradiction; cbn [came went ignored owed] in *; lia.
Qed.

Lemma okB_command cx data c pre : okB (handle_command E F cx data c) (cx_bufs cx ++ pre) (fun cx' => cx_bufs cx' ++ pre) (owed c) (fun _ => none) yes.
Proof.
  unfold handle_command. intros R D s Hs. unfold bindM at 1. cbn [history]. generalize (trace s). intros h.
  revert R D s Hs. match goal with |- forall R D s, _ -> match ?m s with _ => _ end =>
    change (okB m (cx_bufs cx ++ pre) (fun cx' => cx_bufs cx' ++ pre) (owed c) (fun _ => none) yes) end.
  destruct c; try (apply okB_ret; auto; exact I); try (eapply okB_bind; [apply okB_unexpected; exact I|intros ? _; apply okB_ret; auto; exact I]).
  - eapply okB_bind with (mid := fun _ => cx_bufs cx ++ pre) (dmid := fun _ => none) (Q1 := yes).
    + destruct (e_local E h obj); [apply okB_emit; exact I|apply okB_ret; auto; exact I].
    + intros ? _. eapply okB_bind; [apply okB_emit; exact I|intros ? _]. apply okB_ret; auto. exact I.
  - destruct (e_local E h obj); [|apply okB_ret; auto; exact I]. eapply okB_bind; [apply okB_emit; exact I|intros ? _]. apply okB_ret; auto. exact I.
  - destruct (e_local E h obj).
    + eapply okB_bind with (mid := fun _ => cx_bufs cx ++ pre) (dmid := fun _ => none) (Q1 := yes); [|intros ? _; apply okB_ret; auto; exact I].
      unfold handle_acquire. eapply okB_bind; [apply okB_emit; exact I|intros ? _]. cbn beta.
      eapply okB_bind; [apply okB_each_ref; intros; rewrite cnt_app; pose proof (cnt_nonneg pre i); lia|intros ? _]. cbn beta. apply okB_add_app.
    + eapply okB_bind; [apply okB_emit; exact I|intros ? _]. apply okB_ret; auto. exact I.
  - destruct (e_local E h obj); [|apply okB_ret; auto; exact I]. eapply okB_bind; [apply okB_emit; exact I|intros ? _]. apply okB_ret; auto. exact I.
  - apply okB_transaction.
  - eapply okB_bind with (mid := fun _ => cx_bufs cx ++ pre) (dmid := fun _ => none) (Q1 := yes).
    + destruct (e_remote E h handle); apply okB_emit; exact I.
    + intros ? _. apply okB_ret; auto. exact I.
Qed.

Lemma okB_commands cx pre : okB (handle_commands E F cx) (cx_bufs cx ++ pre) (fun cx' => cx_bufs cx' ++ pre) none (fun _ => none) yes.
Proof.
  unfold handle_commands. destruct (next_command (cx_rbuf cx) =? 0); [apply okB_ret; auto; exact I|].
  eapply okB_bind; [apply okB_take|intros [[rb1 data] c] _]. cbn [snd].
  eapply okB_bind with (mid := fun cx1 => cx_bufs cx1 ++ pre) (dmid := fun _ => none) (Q1 := yes); [apply (b_hc F G (set_rbuf cx rb1))|intros cx1 _].
  apply (b_hcs F G).
Qed.

Lemma okB_txstatus cx reply pre : okB (txstatus E F cx reply) (cx_bufs cx ++ pre)
  (fun a => tok (snd a) ++ cx_bufs (snd (fst a)) ++ pre) none (fun _ => none) (no_token reply).
Proof.
  unfold txstatus. destruct (next_command (cx_rbuf cx) =? 0); [apply okB_ret; auto; split; reflexivity|].
  eapply okB_bind; [apply okB_take|intros [[rb1 data] c] _]. cbn [snd].
  assert (Ho : okB (do cx2 <- f_handle_command F (set_rbuf cx rb1) data c; f_txstatus F cx2 reply) (cx_bufs cx ++ pre)
    (fun a => tok (snd a) ++ cx_bufs (snd (fst a)) ++ pre) (owed c) (fun _ => none) (no_token reply)).
  { eapply okB_bind with (mid := fun cx1 => cx_bufs cx1 ++ pre) (dmid := fun _ => none) (Q1 := yes); [apply (b_hc F G (set_rbuf cx rb1))|intros cx1 _].
    apply (b_tx F G). }
  destruct c; try exact Ho; try (apply okB_ret; auto; split; reflexivity).
  - destruct reply; [apply (b_tx F G (set_rbuf cx rb1))|apply okB_ret; auto; split; reflexivity].
  - eapply okB_bind with (mid := fun a => tok (snd a) ++ cx_bufs (fst a) ++ pre) (dmid := fun _ => none) (Q1 := fun a => reply = false -> snd a = None).
    + destruct reply; [rewrite andb_true_r|rewrite andb_false_r].
      * eapply okB_conv with (Q := yes); [|auto|intros; cbv beta; reflexivity|auto|intros; cbv beta; reflexivity|intros ? _ [=]].
        destruct (negb (tx_data tx =? 0) && negb (tx_size tx =? 0)); [apply (okB_contents (set_rbuf cx rb1))|apply (okB_drop_contents (set_rbuf cx rb1))].
      * eapply okB_bind; [apply okB_free|intros ? _]. apply okB_ret; auto.
    + intros [cx2 tk] Hq. cbn [fst snd] in *. apply okB_ret; auto. split; [|exact Hq]. cbn [fst snd].
      intros Hst. exfalso. revert Hst. unfold EAGAIN, EFAULT, STATUS_FAILED, STATUS_DEAD_OBJECT.
      destruct (Z.eqb_spec (tx_status tx) (- (11))) as [H1|H1]; cbn [orb]; [lia|]. destruct (tx_status tx =? 1); cbn [orb]; [lia|].
      destruct (tx_status tx =? 2); lia.
Qed.

Lemma okB_wait_handled cx pre : okB (wait_handled E F cx) (cx_bufs cx ++ pre) (fun cx' => cx_bufs cx' ++ pre) none (fun _ => none) yes.
Proof.
  unfold wait_handled. eapply okB_bind; [apply okB_read|intros [err rb] _]. cbn beta. destruct (0 <=? err).
  - eapply okB_bind; [apply (b_tx F G (set_rbuf cx rb))|intros [[status cx1] tk] [_ Hq]]. cbn [fst snd] in *. rewrite Hq by reflexivity.
    cbn [tok Datatypes.app]. destruct (status =? - EAGAIN); [apply (b_wh F G)|apply okB_ret; auto; exact I].
  - destruct (err =? - EAGAIN); [apply (b_wh F G (set_rbuf cx rb))|apply okB_ret; auto; exact I].
Qed.

Lemma okB_wait_reply cx reply pre : okB (wait_reply E F cx reply) (cx_bufs cx ++ pre)
  (fun a => tok (snd a) ++ cx_bufs (snd (fst a)) ++ pre) none (fun _ => none) yes.
Proof.
  unfold wait_reply. eapply okB_bind; [apply okB_read|intros [err rb] _]. cbn beta. destruct (err <? 0).
  - destruct (err =? - EAGAIN); [apply (b_wr F G (set_rbuf cx rb))|apply okB_ret; auto; exact I].
  - eapply okB_bind; [apply (b_tx F G (set_rbuf cx rb))|intros [[status cx1] tk] [Hq _]]. cbn [fst snd] in *.
    destruct (Z.eqb_spec status (- EAGAIN)) as [->|Hn]; [|apply okB_ret; auto; exact I].
    rewrite Hq by reflexivity. cbn [tok Datatypes.app]. apply (b_wr F G).
Qed.

Lemma okB_drain cx check status pre : okB (drain E F cx check status) (cx_bufs cx ++ pre) (fun a => cx_bufs (snd a) ++ pre) none (fun _ => none) yes.
Proof.
  unfold drain. eapply okB_bind; [apply (b_hcs F G)|intros cx1 _]. cbn beta. eapply okB_bind; [apply okB_history|intros h _]. cbn beta.
  destruct (negb (rb_consumed (cx_rbuf cx1) =? 0) && (negb check || e_can_loop E h)); [|apply okB_ret; auto; exact I].
  eapply okB_bind; [apply okB_read|intros [err rb] _]. cbn beta. destruct (err <? 0); [apply okB_ret; auto; exact I|apply (b_dr F G (set_rbuf cx1 rb))].
Qed.

Lemma okB_unrefs l pre : okB (run_unrefs l) pre (fun _ => pre) none (fun _ => none) yes.
Proof.
  induction l as [|[r o] l IH]; cbn [run_unrefs]; [apply okB_ret; auto; exact I|].
  eapply okB_bind; [apply okB_emit; exact I|intros ? _]. exact IH.
Qed.
Lemma okB_cleanup cx pre : okB (context_cleanup cx) (cx_bufs cx ++ pre) (fun _ => pre) none (fun _ => none) yes.
Proof. unfold context_cleanup. eapply okB_bind; [apply okB_unrefs|intros ? _]. apply okB_each_unref. Qed.

Lemma okB_transact oneway pre : okB (transact E F oneway) pre (fun a => tok (snd a) ++ pre) none (fun _ => none) yes.
Proof.
  unfold transact. eapply okB_bind; [apply okB_emit; exact I|intros ? _]. eapply okB_bind; [apply okB_emit; exact I|intros ? _]. cbn beta.
  eapply okB_bind with (mid := fun a => tok (snd a) ++ cx_bufs (snd (fst a)) ++ pre) (dmid := fun _ => none) (Q1 := yes).
  { exact (b_wr F G context_init (negb oneway) pre). }
  intros [[status cx1] tk] _. cbn [fst snd].
  eapply okB_bind with (mid := fun a => cx_bufs (snd a) ++ tok tk ++ pre) (dmid := fun _ => none) (Q1 := yes).
  { destruct (0 <=? status).
    - eapply okB_conv; [apply (b_dr F G cx1 false status (tok tk ++ pre))| | | | |]; intros; auto. counts.
    - apply okB_ret; auto; [|exact I]. intros i. cbn [snd]. counts. }
  intros [status2 cx2] _. cbn [snd].
  eapply okB_bind; [apply okB_cleanup|intros ? _]. eapply okB_bind; [apply okB_emit; exact I|intros ? _]. apply okB_ret; auto. exact I.
Qed.

Lemma okB_driver_read pre : okB (driver_read E F) pre (fun _ => pre) none (fun _ => none) yes.
Proof.
  unfold driver_read. eapply okB_bind; [apply okB_emit; exact I|intros ? _]. eapply okB_bind; [apply okB_read|intros [err rb] _]. cbn beta.
  eapply okB_bind with (mid := fun a => cx_bufs (snd a) ++ pre) (dmid := fun _ => none) (Q1 := yes).
  { destruct (0 <=? err); [apply (b_dr F G (set_rbuf context_init rb))|apply okB_ret; auto; exact I]. }
  intros [status cx1] _. cbn [snd].
  eapply okB_bind; [apply okB_cleanup|intros ? _]. eapply okB_bind; [apply okB_emit; exact I|intros ? _]. apply okB_ret; auto. exact I.
Qed.

Lemma okB_handler req p pre : okB (run_handler E F req p) (tok req ++ pre) (fun a => tok (join (fst a)) ++ tok req ++ pre) none (fun _ => none) yes.
Proof.
  unfold run_handler. destruct p as [[[n|]|] status|k|n k|oneway k]; try (apply okB_ret; auto; exact I).
  - apply okB_take_app. intros c. apply okB_ret; auto. exact I.
  - eapply okB_bind with (mid := fun _ => tok req ++ pre) (dmid := fun _ => none) (Q1 := yes); [|intros ? _; apply (b_rh F G)].
    destruct req as [id|]; [|apply okB_ret; auto; exact I]. cbn [tok].
    eapply okB_bind with (mid := fun _ => [id] ++ [id] ++ pre) (dmid := fun _ => none) (Q1 := yes).
    + eapply okB_conv; [apply (okB_frame _ pre), (okB_ref id)| | | | |]; intros; auto; counts.
    + intros ? _. apply okB_add_app.
  - apply (okB_take_app n (fun c => do _ <- unref_opt c; f_run_handler F req k)). intros c.
    eapply okB_bind; [apply okB_unref_opt|intros ? _]. apply (b_rh F G).
  - eapply okB_bind; [apply okB_transact|intros [status tk] _]. cbn [snd].
    intros R D s Hs. pose proof (okB_add_app (tok tk) (tok req ++ pre) R D s Hs) as Ha.
    unfold bindM in *. cbn [get_app set_app] in *. destruct Ha as [_ Ha]. exact (b_rh F G req (k status) pre R D _ Ha).
Qed.
End Step.

Lemma goodB_of E fuel : goodB (fns_of E fuel).
Proof.
  induction fuel as [|n G]; [apply goodB_0|]. set (F := fns_of E n) in *.
  constructor; intros; cbn [fns_of f_handle_command f_handle_commands f_txstatus f_wait_handled f_run_handler f_wait_reply f_drain]; fold F.
  - apply okB_command; exact G.
  - apply okB_commands; exact G.
  - apply okB_txstatus; exact G.
  - apply okB_wait_handled; exact G.
  - apply okB_handler; exact G.
  - apply okB_wait_reply; exact G.
  - apply okB_drain; exact G.
Qed.

Lemma take_nth_in n l c : fst (take_nth n l) = Some c -> In c l.
Proof.
  revert n. induction l as [|x l IH]; intros n; [destruct n; discriminate|]. destruct n as [|n]; cbn [take_nth].
  - cbn. intros [= <-]. left. reflexivity.
  - destruct (take_nth n l) as [y r] eqn:Et. cbn. intros ->. right. apply (IH n). rewrite Et. reflexivity.
Qed.

Lemma okB_top E F (G : goodB F) o : okB (top_step E F o) [] (fun _ => []) none (fun _ => none) yes.
Proof.
  destruct o as [|oneway|n|n]; cbn [top_step].
  - eapply okB_bind; [apply okB_driver_read; exact G|intros ? _]. apply okB_ret; auto. exact I.
  - eapply okB_bind; [apply okB_transact; exact G|intros [status tk] _]. cbn [snd]. apply (okB_add_app (tok tk)).
  - apply (okB_take_app n (fun c => unref_opt c)). intros c. apply okB_unref_opt.
  - intros R D s Hs. unfold bindM. cbn [get_app]. destruct (fst (take_nth n (app s))) as [id|] eqn:Et; [|cbn [ret]; split; [exact I|exact Hs]].
    apply take_nth_in in Et. apply in_split in Et. destruct Et as (l1 & l2 & El).
    assert (H0 : hinv (R ++ [id] ++ l1 ++ l2) (fun a => D a + none a) s).
    { eapply hinv_conv; [exact Hs| |auto]. intros i. rewrite El. cbn [Datatypes.app]. rewrite ?cnt_app, ?cnt_cons, ?cnt_app. lia. }
    set (s0 := {| ios := ios s; trace := trace s; heap := heap s; app := l1 ++ l2 |}).
    pose proof (okB_ref id R D s0 H0) as H. unfold contents_ref in *. change (refs_of s0 id) with (refs_of s id) in H.
    destruct (refs_of s id <=? 0); [destruct H as [H _]; congruence|]. destruct H as [_ H]. cbn [set_app]. split; [exact I|].
    pose proof (hinv_conv _ (R ++ [] ++ app s ++ [id]) _ (fun x => D x + none x) _ H) as [H1 H2].
    + intros i. rewrite El. unfold s0. cbn [app Datatypes.app]. counts.
    + auto.
    + split; [exact H1|exact H2].
Qed.

Lemma okB_life E F (G : goodB F) l : okB (life E F l) [] (fun _ => []) none (fun _ => none) yes.
Proof.
  induction l as [|o l IH]; cbn [life]; [apply okB_ret; auto; exact I|].
  eapply okB_bind; [apply okB_top; exact G|intros ? _]. exact IH.
Qed.

(* ------------------------------------------------------------------ *)
Lemma filter_map_swap {A B} (f : A -> B) p (l : list A) : filter p (map f l) = map f (filter (fun x => p (f x)) l).
Proof. induction l as [|x l IH]; [reflexivity|]. cbn [map filter]. destruct (p (f x)); cbn [map]; rewrite IH; reflexivity. Qed.
Lemma live_filter a h : live a h = blen (filter (fun id => (fst (nth id h (0, 0)) =? a) && (0 <? snd (nth id h (0, 0)))) (seq 0 (length h))).
Proof.
  induction h as [|[b n] h IH]; [reflexivity|]. cbn [live length seq].
  rewrite <- seq_shift. cbn [filter nth fst snd]. rewrite filter_map_swap. cbn [nth]. rewrite IH.
  destruct ((b =? a) && (0 <? n)); unfold blen; cbn [length]; rewrite map_length; lia.
Qed.

Lemma live_held T D s a : hinv T D s -> live a (heap s) = held a s T.
Proof.
  intros [H1 _]. rewrite live_filter. unfold held, blen. f_equal. apply Permutation.Permutation_length.
  apply Permutation.NoDup_Permutation.
  - apply NoDup_filter, seq_NoDup.
  - apply NoDup_filter, NoDup_nodup.
  - intros i. rewrite !filter_In, in_seq, nodup_In. fold (buffer_of s i). fold (refs_of s i). rewrite andb_true_iff, Z.ltb_lt.
    assert (Hin : In i T <-> 0 < refs_of s i).
    { rewrite (count_occ_In Nat.eq_dec). rewrite H1. unfold cnt. lia. }
    rewrite Hin. split.
    + intros [_ [H2 H3]]. auto.
    + intros [H2 H3]. apply refs_in_heap in H2 as H4. split; [lia|auto].
Qed.

Lemma start_hinv input : hinv [] none (start input).
Proof. split; [intros i; unfold refs_of, start; cbn [heap]; destruct i; reflexivity|]. intros a _. reflexivity. Qed.
