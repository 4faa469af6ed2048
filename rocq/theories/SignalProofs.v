(* Proofs about signals which interrupt waiting threads *)
From Verif Require Import Base BlockModel BlockSpec BlockProofs BlockWait BlockRun BlockEnds SignalModel.

(* What the operations do to callbacks: nothing is scheduled again, and handlers are only
   called by the event loop *)
Definition loud (e : bev) : bool := match e with Handle _ | Answered _ _ => true | _ => false end.
Definition keeps (t t' : ltx) : Prop :=
  ((x_cb t = CbGone -> x_cb t' = CbGone) /\ (x_cb t' = CbPending -> x_cb t = CbPending)) /\
  (x_state t = SCHEDULED -> x_state t' = SCHEDULED).
Local Hint Extern 1 (keeps _ _) => (split; [split|]; cbn; solve [auto | congruence | match goal with H : keeps _ _ |- _ => destruct H; auto end]) : core.
Definition calm (c c' : cell) : Prop :=
  keeps (c_tx c) (c_tx c') /\
  exists l, c_ev c' = c_ev c ++ l /\ forall e, In e l -> loud e = false.

Lemma calm_refl c : calm c c.
Proof. split; auto. exists []. split; [now rewrite app_nil_r|intros ? []]. Qed.
Lemma calm_trans a b c : calm a b -> calm b c -> calm a c.
Proof.
  intros (((A0 & A1) & A2) & l & E & N) (((B0 & B1) & B2) & l' & E' & N'). split; [split; [split|]; auto|]. exists (l ++ l').
  split; [rewrite E', E; now rewrite app_assoc|]. intros e H. apply in_app_or in H as [H|H]; auto.
Qed.
Lemma calm_put c t : keeps (c_tx c) t -> calm c (put c t).
Proof. intros H. split; [exact H|]. exists []. split; [now rewrite app_nil_r|intros ? []]. Qed.
Lemma calm_say c e : loud e = false -> calm c (say c e).
Proof. intros H. split; auto. exists [e]. split; auto. intros e' [<-|[]]. exact H. Qed.

Lemma calm_write c n c' : pipe_write c n = Ok c' -> calm c c'.
Proof.
  unfold pipe_write. destruct (c_pipe c); [|discriminate]. intros E; injection E as <-.
  split; auto. exists []. cbn. split; [now rewrite app_nil_r|intros ? []].
Qed.
Lemma calm_close c c' : pipe_close c = Ok c' -> calm c c'.
Proof.
  unfold pipe_close. destruct (c_pipe c); [|discriminate]. intros E; injection E as <-.
  split; auto. eexists. cbn. split; [reflexivity|]. intros e [<-|[]]; reflexivity.
Qed.
Lemma calm_req_by_tx k c c' : req_unref_by_tx k c = Ok c' -> calm c c'.
Proof.
  unfold req_unref_by_tx. destruct (q_refs (c_tx c) <=? 0); [discriminate|].
  destruct (_ =? 0); [destruct (q_has_tx _); [discriminate|]|]; intros E; injection E as <-.
  - eapply calm_trans; [|apply calm_say; reflexivity]. apply calm_put. auto.
  - apply calm_put. auto.
Qed.
Lemma calm_tx_unref k d c c' b : tx_unref k d c = Ok (c', b) -> calm c c'.
Proof.
  unfold tx_unref. destruct (x_refs (c_tx c) <=? 0); [discriminate|].
  assert (P : calm c (put c (x_set_refs (c_tx c) (x_refs (c_tx c) - 1)))) by (apply calm_put; auto).
  destruct (_ =? 0); [|intros E; injection E as <- <-; exact P].
  set (c1 := put c _) in *. intros E.
  destruct (if d then Ok c1 else pipe_close c1) as [| |c2] eqn:E1; cbn in E; try discriminate.
  assert (P2 : calm c c2).
  { destruct d; [injection E1 as <-; exact P|]. eapply calm_trans; [exact P|]. now apply calm_close. }
  destruct (if x_has_req (c_tx c) then req_unref_by_tx k c2 else Ok c2) as [| |c3] eqn:E2; cbn in E; try discriminate.
  assert (P3 : calm c c3).
  { destruct (x_has_req (c_tx c)); [|injection E2 as <-; exact P2]. eapply calm_trans; [exact P2|]. eapply calm_req_by_tx; eauto. }
  injection E as <- <-. eapply calm_trans; [exact P3|]. apply calm_say; reflexivity.
Qed.
Lemma calm_clear k c c' : clear_tx k c = Ok c' -> calm c c'.
Proof.
  unfold clear_tx. destruct (tx_unref k false c) as [| |(c1 & b)] eqn:E; cbn; try discriminate.
  intros X; injection X as <-. eapply calm_trans; [eapply calm_tx_unref; eauto|]. apply calm_put; auto.
Qed.
Lemma calm_complete k a c c' : request_complete k a c = Ok c' -> calm c c'.
Proof.
  unfold request_complete. destruct (q_refs (c_tx c) <=? 0); [discriminate|].
  destruct (q_has_tx (c_tx c)); [|intros E; injection E as <-; apply calm_refl].
  destruct (x_refs (c_tx c) <=? 0); [discriminate|].
  match goal with |- context [bind ?m _] => destruct m as [| |c1] eqn:E end; cbn; try discriminate.
  intros X. eapply calm_trans; [|eapply calm_clear; eauto].
  destruct (x_state (c_tx c)) eqn:St; try (injection E as <-); try apply calm_refl; try (apply calm_put; now auto).
  eapply calm_trans; [|eapply calm_write; exact E]. apply calm_put; auto.
Qed.
Lemma calm_block c c' : request_block c = Ok c' -> calm c c'.
Proof.
  unfold request_block. destruct (q_refs (c_tx c) <=? 0); [discriminate|].
  destruct (q_has_tx (c_tx c)); [|intros E; injection E as <-; apply calm_refl].
  destruct (x_refs (c_tx c) <=? 0); [discriminate|].
  destruct (x_state (c_tx c)) eqn:St; intros E; injection E as <-; try apply calm_refl. apply calm_put; auto.
Qed.
Lemma calm_ref c c' : request_ref c = Ok c' -> calm c c'.
Proof.
  unfold request_ref. destruct (q_refs (c_tx c) <=? 0); [discriminate|]. intros E; injection E as <-. apply calm_put; auto.
Qed.
Lemma calm_req_unref k c c' : req_unref k c = Ok c' -> calm c c'.
Proof.
  unfold req_unref. destruct (q_refs (c_tx c) <=? 0); [discriminate|].
  destruct (_ =? 0); [|intros E; injection E as <-; apply calm_put; auto].
  match goal with |- context [bind ?m _] => destruct m as [| |c1] eqn:E end; cbn [bind]; try discriminate.
  intros X; injection X as <-.
  assert (P : calm c c1).
  { destruct (q_has_tx (c_tx c)); [|injection E as <-; apply calm_refl].
    eapply calm_trans; [|eapply calm_complete; exact E]. apply calm_say; reflexivity. }
  eapply calm_trans; [exact P|]. eapply calm_trans; [|apply calm_say; reflexivity]. apply calm_put; auto.
Qed.
Lemma calm_gone k c c' : callback_gone k c = Ok c' -> calm c c'.
Proof.
  unfold callback_gone. destruct (tx_unref _ _ _) as [| |(c1 & b)] eqn:E; cbn [bind]; try discriminate.
  intros X; injection X as <-. eapply calm_trans; [|eapply calm_tx_unref; exact E]. apply calm_put; auto.
Qed.
Lemma calm_end k a c c' : x_cb (c_tx c) = CbRunning -> handle_end k a c = Ok c' -> calm c c'.
Proof.
  intros CB. unfold handle_end. destruct (_ || _); [discriminate|].
  match goal with |- context [say (put c (x_set_cb ?t _)) _] => set (t1 := t) end.
  assert (P : calm c (say (put c (x_set_cb t1 CbReturned)) (HandlerReturned k a))).
  { eapply calm_trans; [|apply calm_say; reflexivity]. apply calm_put. split; [split; [congruence|discriminate]|]. intros St. unfold t1. rewrite St. exact St. }
  set (c1 := say _ _) in *. intros E.
  assert (Q : forall c2, calm c c2 -> forall n, pipe_write c2 n = Ok c' -> calm c c').
  { intros c2 P2 n W. eapply calm_trans; [exact P2|]. eapply calm_write; eauto. }
  destruct (x_state t1).
  5: { match type of E with bind ?m _ = _ => destruct m as [| |c2] eqn:E2 end; cbn [bind] in E; try discriminate.
       eapply Q; [|exact E].
       assert (P2 : calm c c2).
       { destruct (x_has_req (c_tx c)); [|injection E2 as <-; exact P]. eapply calm_trans; [exact P|]. eapply calm_req_unref; eauto. }
       eapply calm_trans; [exact P2|]. apply calm_put; auto. }
  all: match type of E with bind ?m _ = _ => destruct m as [| |c2] eqn:E2 end; cbn [bind] in E; try discriminate;
       eapply Q; [|exact E];
       (destruct (q_has_tx (c_tx c)); [|injection E2 as <-; exact P]); eapply calm_trans; [exact P|]; eapply calm_clear; eauto.
Qed.

(* A callback which is gone doesn't come back *)
Definition gone (k : nat) (s : bstate) : Prop := (k < count s)%nat /\ x_cb (txs s k) = CbGone /\ ~ In (Handle k) (btrace s).

Lemma gone_cell k s j f s' :
  gone k s -> on_cell s j f = Ok s' ->
  (forall c', f (get_cell s j) = Ok c' -> calm (get_cell s j) c') -> gone k s'.
Proof.
  intros (K & G & N) E C. unfold on_cell in E. destruct (f (get_cell s j)) as [| |c]; cbn in E; try discriminate.
  injection E as <-. destruct (C c eq_refl) as (A & l & El & Nl). cbn in El. destruct A as ((A & _) & _). cbn in A.
  unfold gone. cbn. split; [exact K|]. split.
  - unfold upd. destruct (Nat.eqb_spec k j) as [->|]; auto.
  - rewrite El. intros H. apply in_app_or in H as [H|H]; [auto|]. now apply Nl in H.
Qed.

Lemma gone_same k s s' l :
  gone k s -> count s' = count s -> txs s' = txs s -> btrace s' = btrace s ++ l -> ~ In (Handle k) l -> gone k s'.
Proof.
  intros (K & G & N) E1 E2 E3 NL. unfold gone. rewrite E1, E2, E3. split; [exact K|]. split; [exact G|].
  intros H. apply in_app_or in H as [H|H]; auto.
Qed.

Lemma gone_end k s j a s' : gone k s -> transact_end s j a = Ok s' -> gone k s'.
Proof.
  intros G. unfold transact_end. destruct (looper s), (txfd s) as [p|]; [| |destruct (pipes s p); [|discriminate]|];
    intros E; injection E as <-.
  3: (eapply (gone_same _ _ _ [PipeClosed p; Answered j a] G); [reflexivity|reflexivity|cbn; now rewrite <- app_assoc|];
      intros [X|[X|[]]]; discriminate).
  all: (eapply (gone_same _ _ _ [Answered j a] G); [reflexivity|reflexivity|reflexivity|intros [X|[]]; discriminate]).
Qed.

Lemma gone_go k s t fd : gone k s -> gone k (go s t fd).
Proof. intros G. apply (gone_same _ _ _ [] G); auto. cbn. now rewrite app_nil_r. Qed.

Lemma gone_wait k s j st c n : gone k s -> ipc_wait st (get_cell s j) = Ok (c, n) -> gone k (put_cell s j c).
Proof.
  intros G E. apply (gone_cell k s j (fun _ => Ok c)); auto. intros c' X. injection X as <-.
  unfold ipc_wait in E. destruct (_ <=? 0); [discriminate|].
  destruct (c_pipe (get_cell s j)) as [[|]|]; [destruct st| |]; try discriminate; injection E as <- <-; apply calm_refl || (split; auto; exists []; split; [auto|intros ? []]).
Qed.

Lemma gone_thread k s s' : gone k s -> thread_step s = Ok s' -> gone k s'.
Proof.
  intros G. unfold thread_step. destruct (th s) as [|j|j|j d|j a|j a|j]; try discriminate.
  - destruct (ipc_wait _ _) as [| |(c & n)] eqn:E; cbn [bind]; try discriminate. intros X; injection X as <-.
    apply gone_go. eapply gone_wait; eauto.
  - destruct (ipc_wait _ _) as [| |(c & n)] eqn:E; cbn [bind]; try discriminate. intros X; injection X as <-.
    apply gone_go. eapply gone_wait; eauto.
  - destruct (_ <=? 0); [discriminate|]. intros X; injection X as <-. now apply gone_go.
  - destruct (tx_unref _ _ _) as [| |(c & b)] eqn:E; cbn [bind]; try discriminate. intros X; injection X as <-.
    apply gone_go. apply (gone_cell k s j (fun _ => Ok c)); auto. intros c' X. injection X as <-. eapply calm_tx_unref; eauto.
  - destruct (match x_cb (txs s j) with CbPending => _ | _ => _ end) as [| |s1] eqn:E; cbn [bind]; try discriminate.
    apply gone_end. destruct (x_cb (txs s j)); try (injection E as <-; exact G).
    eapply gone_cell; eauto. intros c'. apply calm_gone.
  - destruct (on_cell s j (req_unref j)) as [| |s1] eqn:E; cbn [bind]; try discriminate. intros X; injection X as <-.
    apply gone_go. eapply gone_cell; eauto. intros c'. apply calm_req_unref.
Qed.

Lemma gone_step k s m s' : gone k s -> sstep s m = Ok s' -> gone k s'.
Proof.
  intros G. destruct m as [m|]; cbn [sstep].
  2:{ unfold wait_interrupted. destruct (th s); try discriminate; destruct (_ <=? 0); try discriminate;
      destruct (c_pipe _) as [[|]|]; try discriminate; destruct (stopped s); try discriminate; intros X; injection X as <-; now apply gone_go. }
  assert (V : forall j f, (forall c', f (get_cell s j) = Ok c' -> calm (get_cell s j) c') ->
    (if Nat.ltb j (count s) then on_cell s j f else Disabled) = Ok s' -> gone k s').
  { intros j f C. destruct (Nat.ltb j (count s)); [|discriminate]. intros E. eapply gone_cell; eauto. }
  assert (W : forall j f, (forall c c', f c = Ok c' -> calm c c') ->
    forall c', (if usable (c_tx (get_cell s j)) then f (get_cell s j) else Disabled) = Ok c' -> calm (get_cell s j) c').
  { intros j f C c'. destruct (usable _); [apply C|discriminate]. }
  destruct m as [| |j|j a|j|j|j|j|j a|]; cbn [step].
  - destruct (th s); try discriminate. destruct (last s); [discriminate|]. intros X; injection X as <-.
    destruct G as (K & G & N). unfold gone, transact_begin. cbn [count txs btrace]. split; [lia|]. split.
    + rewrite upd_other; [exact G|lia].
    + intros H. apply in_app_or in H as [H|[H|[]]]; [auto|discriminate].
  - now apply gone_thread.
  - destruct (Nat.ltb_spec j (count s)) as [J|]; [|discriminate]. unfold on_cell. cbn [get_cell c_tx].
    destruct (x_cb (txs s j)) eqn:CB; try discriminate.
    unfold handle_begin. destruct (_ || _); [discriminate|]. cbn [bind]. intros X; injection X as <-.
    destruct G as (K & G & N). assert (NE : k <> j) by congruence. unfold gone. cbn. split; [exact K|].
    rewrite upd_other by exact NE. split; [exact G|]. intros H. apply in_app_or in H as [H|[H|[]]]; [auto|congruence].
  - apply V. intros c'. destruct (x_cb (c_tx (get_cell s j))) eqn:CB; try discriminate. now apply calm_end.
  - apply V. intros c'. destruct (x_cb (c_tx (get_cell s j))); try discriminate. apply calm_gone.
  - apply V. apply W. apply calm_ref.
  - apply V. intros c'. destruct (0 <? _); [|discriminate]. intros E. eapply calm_trans; [|eapply calm_req_unref; exact E].
    apply calm_put; auto.
  - apply V. apply (W j (fun c => request_block (say c (BlockCalled j)))). intros c c' E.
    eapply calm_trans; [|eapply calm_block; exact E]. apply calm_say; reflexivity.
  - apply V. apply (W j (fun c => request_complete j a (say c (CompleteCalled j a)))). intros c c' E.
    eapply calm_trans; [|eapply calm_complete; exact E]. apply calm_say; reflexivity.
  - destruct (looper s && negb (stopped s)); [|discriminate]. intros X; injection X as <-.
    eapply (gone_same _ _ _ [StopCalled] G); auto. intros [X|[]]; discriminate.
Qed.

Lemma gone_run k l : forall s s', gone k s -> srun s l = Ok s' -> gone k s'.
Proof.
  induction l as [|m l IH]; intros s s' G; cbn [srun].
  - intros E; injection E as <-; exact G.
  - destruct (sstep s m) as [| |s1] eqn:E; cbn [bind]; try discriminate. apply IH. eapply gone_step; eauto.
Qed.

(* A call which was answered isn't answered again *)
Definition settled (k : nat) (b : answer) (s : bstate) : Prop :=
  (k < count s)%nat /\ (mode_of (th s) k = MAway \/ mode_of (th s) k = MSent) /\
  forall a, In (Answered k a) (btrace s) -> a = b.

Lemma settled_cell k b s j f s' :
  settled k b s -> on_cell s j f = Ok s' ->
  (forall c', f (get_cell s j) = Ok c' -> calm (get_cell s j) c') -> settled k b s'.
Proof.
  intros (K & G & N) E C. unfold on_cell in E. destruct (f (get_cell s j)) as [| |c]; cbn in E; try discriminate.
  injection E as <-. destruct (C c eq_refl) as (A & l & El & Nl). cbn in El.
  unfold settled. cbn. split; [exact K|]. split; [exact G|].
  intros a H. rewrite El in H. apply in_app_or in H as [H|H]; [auto|]. now apply Nl in H.
Qed.

Lemma settled_go k b s t fd :
  settled k b s -> (mode_of t k = MAway \/ mode_of t k = MSent) -> settled k b (go s t fd).
Proof. intros (K & G & N) M. split; [exact K|]. split; auto. Qed.

Lemma settled_thread k b s s' : settled k b s -> thread_step s = Ok s' -> settled k b s'.
Proof.
  intros G. pose proof (proj1 (proj2 G)) as M. unfold thread_step.
  assert (F : forall j t, (forall d, mode_of (TTake j d) k = MAway) -> settled k b t -> forall a s2, transact_end t j a = Ok s2 -> settled k b s2).
  { intros j t FM (T1 & T2 & T3) a s2. unfold transact_end.
    assert (NE : j <> k) by (intros ->; specialize (FM true); cbn in FM; rewrite Nat.eqb_refl in FM; discriminate).
    assert (NM : mode_of (TSent j) k = MAway) by (cbn; now rewrite (proj2 (Nat.eqb_neq j k) NE)).
    destruct (looper t), (txfd t) as [p|]; [| |destruct (pipes t p); [|discriminate]|];
      intros E; injection E as <-; (split; [exact T1|]); (split; [left; exact NM|]); intros a0 H; cbn in H;
      repeat (apply in_app_or in H as [H|[H|[]]]; [|try discriminate; injection H; intros; subst; contradiction]); auto. }
  destruct (th s) as [|j|j|j d|j a|j a|j] eqn:T; try discriminate.
  - assert (NE : j <> k) by (intros ->; cbn in M; rewrite Nat.eqb_refl in M; destruct M; discriminate).
    destruct (ipc_wait _ _) as [| |(c & n)] eqn:E; cbn [bind]; try discriminate. intros X; injection X as <-.
    apply settled_go; [|left; destruct n as [[|]|]; cbn; now rewrite (proj2 (Nat.eqb_neq j k) NE)].
    apply (settled_cell k b s j (fun _ => Ok c)); auto. intros c' X. injection X as <-.
    unfold ipc_wait in E. destruct (_ <=? 0); [discriminate|].
    destruct (c_pipe (get_cell s j)) as [[|]|]; [destruct (stopped s)| |]; try discriminate; injection E as <- <-;
      apply calm_refl || (split; auto; exists []; split; [auto|intros ? []]).
  - assert (NE : j <> k) by (intros ->; cbn in M; rewrite Nat.eqb_refl in M; destruct M; discriminate).
    destruct (ipc_wait _ _) as [| |(c & n)] eqn:E; cbn [bind]; try discriminate. intros X; injection X as <-.
    apply settled_go; [|left; destruct n as [[|]|]; cbn; now rewrite (proj2 (Nat.eqb_neq j k) NE)].
    apply (settled_cell k b s j (fun _ => Ok c)); auto. intros c' X. injection X as <-.
    unfold ipc_wait in E. destruct (_ <=? 0); [discriminate|].
    destruct (c_pipe (get_cell s j)) as [[|]|]; [destruct (stopped s)| |]; try discriminate; injection E as <- <-;
      apply calm_refl || (split; auto; exists []; split; [auto|intros ? []]).
  - assert (NE : j <> k) by (intros ->; cbn in M; rewrite Nat.eqb_refl in M; destruct M; discriminate).
    destruct (_ <=? 0); [discriminate|]. intros X; injection X as <-. apply settled_go; auto.
    left; cbn; now rewrite (proj2 (Nat.eqb_neq j k) NE).
  - assert (NE : j <> k) by (intros ->; cbn in M; rewrite Nat.eqb_refl in M; destruct M; discriminate).
    destruct (tx_unref _ _ _) as [| |(c & x)] eqn:E; cbn [bind]; try discriminate. intros X; injection X as <-.
    apply settled_go; [|left; cbn; now rewrite (proj2 (Nat.eqb_neq j k) NE)].
    apply (settled_cell k b s j (fun _ => Ok c)); auto. intros c' X. injection X as <-. eapply calm_tx_unref; eauto.
  - assert (NE : j <> k) by (intros ->; cbn in M; rewrite Nat.eqb_refl in M; destruct M; discriminate).
    destruct (match x_cb (txs s j) with CbPending => _ | _ => _ end) as [| |s1] eqn:E; cbn [bind]; try discriminate.
    apply F; [intros d; cbn; now rewrite (proj2 (Nat.eqb_neq j k) NE)|].
    destruct (x_cb (txs s j)); try (injection E as <-; exact G).
    eapply settled_cell; eauto. intros c'. apply calm_gone.
  - destruct (on_cell s j (req_unref j)) as [| |s1] eqn:E; cbn [bind]; try discriminate. intros X; injection X as <-.
    apply settled_go; [|now left]. eapply settled_cell; eauto. intros c'. apply calm_req_unref.
Qed.

Lemma settled_step k b s m s' : settled k b s -> sstep s m = Ok s' -> settled k b s'.
Proof.
  intros G. pose proof (proj1 (proj2 G)) as M. destruct m as [m|]; cbn [sstep].
  2:{ unfold wait_interrupted. destruct (th s) eqn:T; try discriminate; destruct (_ <=? 0); try discriminate;
      destruct (c_pipe _) as [[|]|]; try discriminate; destruct (stopped s); try discriminate; intros X; injection X as <-;
      apply settled_go; auto; cbn in *; destruct (Nat.eqb k0 k); auto; destruct M; discriminate. }
  assert (V : forall j f, (forall c', f (get_cell s j) = Ok c' -> calm (get_cell s j) c') ->
    (if Nat.ltb j (count s) then on_cell s j f else Disabled) = Ok s' -> settled k b s').
  { intros j f C. destruct (Nat.ltb j (count s)); [|discriminate]. intros E. eapply settled_cell; eauto. }
  assert (W : forall j f, (forall c c', f c = Ok c' -> calm c c') ->
    forall c', (if usable (c_tx (get_cell s j)) then f (get_cell s j) else Disabled) = Ok c' -> calm (get_cell s j) c').
  { intros j f C c'. destruct (usable _); [apply C|discriminate]. }
  destruct m as [| |j|j a|j|j|j|j|j a|]; cbn [step].
  - destruct (th s); try discriminate. destruct (last s); [discriminate|]. intros X; injection X as <-.
    destruct G as (K & _ & N). unfold settled, transact_begin. cbn [count th btrace]. split; [lia|]. split.
    + left. cbn. now rewrite (proj2 (Nat.eqb_neq (count s) k) ltac:(lia)).
    + intros a H. apply in_app_or in H as [H|[H|[]]]; [auto|discriminate].
  - now apply settled_thread.
  - destruct (Nat.ltb_spec j (count s)) as [J|]; [|discriminate]. unfold on_cell. cbn [get_cell c_tx].
    destruct (x_cb (txs s j)) eqn:CB; try discriminate.
    unfold handle_begin. destruct (_ || _); [discriminate|]. cbn [bind]. intros X; injection X as <-.
    destruct G as (K & G & N). unfold settled. cbn. split; [exact K|]. split; [exact M|].
    intros a H. apply in_app_or in H as [H|[H|[]]]; [auto|discriminate].
  - apply V. intros c'. destruct (x_cb (c_tx (get_cell s j))) eqn:CB; try discriminate. now apply calm_end.
  - apply V. intros c'. destruct (x_cb (c_tx (get_cell s j))); try discriminate. apply calm_gone.
  - apply V. apply W. apply calm_ref.
  - apply V. intros c'. destruct (0 <? _); [|discriminate]. intros E. eapply calm_trans; [|eapply calm_req_unref; exact E].
    apply calm_put; auto.
  - apply V. apply (W j (fun c => request_block (say c (BlockCalled j)))). intros c c' E.
    eapply calm_trans; [|eapply calm_block; exact E]. apply calm_say; reflexivity.
  - apply V. apply (W j (fun c => request_complete j a (say c (CompleteCalled j a)))). intros c c' E.
    eapply calm_trans; [|eapply calm_complete; exact E]. apply calm_say; reflexivity.
  - destruct (looper s && negb (stopped s)); [|discriminate]. intros X; injection X as <-.
    destruct G as (K & G & N). split; [exact K|]. split; [exact M|]. cbn. intros a H.
    apply in_app_or in H as [H|[H|[]]]; [auto|discriminate].
Qed.

Lemma settled_run k b l : forall s s', settled k b s -> srun s l = Ok s' -> settled k b s'.
Proof.
  induction l as [|m l IH]; intros s s' G; cbn [srun].
  - intros E; injection E as <-; exact G.
  - destruct (sstep s m) as [| |s1] eqn:E; cbn [bind]; try discriminate. apply IH. eapply settled_step; eauto.
Qed.

(* Handlers of transactions which are not scheduled anymore have been called *)
Definition called (s : bstate) : Prop :=
  forall k, (k < count s)%nat -> x_state (txs s k) = SCHEDULED \/ In (Handle k) (btrace s).

Lemma called_cell s j f s' :
  called s -> on_cell s j f = Ok s' ->
  (forall c', f (get_cell s j) = Ok c' -> calm (get_cell s j) c') -> called s'.
Proof.
  intros G E C. unfold on_cell in E. destruct (f (get_cell s j)) as [| |c]; cbn in E; try discriminate.
  injection E as <-. destruct (C c eq_refl) as ((_ & A) & l & El & Nl). cbn in A, El.
  intros k K. cbn in K |- *. rewrite El. specialize (G k K). unfold upd. destruct (Nat.eqb_spec k j) as [->|];
    (destruct G as [G|G]; [left; auto|right; apply in_or_app; now left]).
Qed.

Lemma called_same s s' l : called s -> count s' = count s -> txs s' = txs s -> btrace s' = btrace s ++ l -> called s'.
Proof.
  intros G E1 E2 E3 k K. rewrite E1 in K. rewrite E2, E3. destruct (G k K) as [X|X]; [now left|right; apply in_or_app; now left].
Qed.
Lemma called_go s t fd : called s -> called (go s t fd).
Proof. intros G. apply (called_same _ _ [] G); auto. cbn. now rewrite app_nil_r. Qed.

Lemma called_wait s j st c n : called s -> ipc_wait st (get_cell s j) = Ok (c, n) -> called (put_cell s j c).
Proof.
  intros G E. apply (called_cell s j (fun _ => Ok c)); auto. intros c' X. injection X as <-.
  unfold ipc_wait in E. destruct (_ <=? 0); [discriminate|].
  destruct (c_pipe (get_cell s j)) as [[|]|]; [destruct st| |]; try discriminate; injection E as <- <-;
    apply calm_refl || (split; auto; exists []; split; [auto|intros ? []]).
Qed.

Lemma called_step s m s' : called s -> step s m = Ok s' -> called s'.
Proof.
  intros G.
  assert (V : forall j f, (forall c', f (get_cell s j) = Ok c' -> calm (get_cell s j) c') ->
    (if Nat.ltb j (count s) then on_cell s j f else Disabled) = Ok s' -> called s').
  { intros j f C. destruct (Nat.ltb j (count s)); [|discriminate]. intros E. eapply called_cell; eauto. }
  assert (W : forall j f, (forall c c', f c = Ok c' -> calm c c') ->
    forall c', (if usable (c_tx (get_cell s j)) then f (get_cell s j) else Disabled) = Ok c' -> calm (get_cell s j) c').
  { intros j f C c'. destruct (usable _); [apply C|discriminate]. }
  destruct m as [| |j|j a|j|j|j|j|j a|]; cbn [step].
  - destruct (th s); try discriminate. destruct (last s); [discriminate|]. intros X; injection X as <-.
    intros k K. unfold transact_begin in *. cbn [count txs btrace] in *.
    destruct (Nat.eq_dec k (count s)) as [->|]; [left; now rewrite upd_same|]. rewrite upd_other by auto.
    destruct (G k ltac:(lia)) as [Y|Y]; [now left|right; apply in_or_app; now left].
  - unfold thread_step. destruct (th s) as [|j|j|j d|j a|j a|j]; try discriminate.
    + destruct (ipc_wait _ _) as [| |(c & n)] eqn:E; cbn [bind]; try discriminate. intros X; injection X as <-.
      apply called_go. eapply called_wait; eauto.
    + destruct (ipc_wait _ _) as [| |(c & n)] eqn:E; cbn [bind]; try discriminate. intros X; injection X as <-.
      apply called_go. eapply called_wait; eauto.
    + destruct (_ <=? 0); [discriminate|]. intros X; injection X as <-. now apply called_go.
    + destruct (tx_unref _ _ _) as [| |(c & b)] eqn:E; cbn [bind]; try discriminate. intros X; injection X as <-.
      apply called_go. apply (called_cell s j (fun _ => Ok c)); auto. intros c' X. injection X as <-. eapply calm_tx_unref; eauto.
    + destruct (match x_cb (txs s j) with CbPending => _ | _ => _ end) as [| |s1] eqn:E; cbn [bind]; try discriminate.
      assert (G1 : called s1).
      { destruct (x_cb (txs s j)); try (injection E as <-; exact G). eapply called_cell; eauto. intros c'. apply calm_gone. }
      unfold transact_end. destruct (looper s1), (txfd s1) as [p|]; [| |destruct (pipes s1 p); [|discriminate]|];
        intros X; injection X as <-; (eapply called_same; [exact G1|reflexivity..|cbn; rewrite <- ?app_assoc; reflexivity]).
    + destruct (on_cell s j (req_unref j)) as [| |s1] eqn:E; cbn [bind]; try discriminate. intros X; injection X as <-.
      apply called_go. eapply called_cell; eauto. intros c'. apply calm_req_unref.
  - destruct (Nat.ltb_spec j (count s)) as [J|]; [|discriminate]. unfold on_cell. cbn [get_cell c_tx].
    destruct (x_cb (txs s j)) eqn:CB; try discriminate.
    unfold handle_begin. destruct (_ || _); [discriminate|]. cbn [bind]. intros X; injection X as <-.
    intros k K. cbn in K |- *. destruct (Nat.eq_dec k j) as [->|].
    + right. apply in_or_app. right. now left.
    + rewrite upd_other by auto. destruct (G k K) as [Y|Y]; [now left|right; apply in_or_app; now left].
  - apply V. intros c'. destruct (x_cb (c_tx (get_cell s j))) eqn:CB; try discriminate. now apply calm_end.
  - apply V. intros c'. destruct (x_cb (c_tx (get_cell s j))); try discriminate. apply calm_gone.
  - apply V. apply W. apply calm_ref.
  - apply V. intros c'. destruct (0 <? _); [|discriminate]. intros E. eapply calm_trans; [|eapply calm_req_unref; exact E].
    apply calm_put; auto.
  - apply V. apply (W j (fun c => request_block (say c (BlockCalled j)))). intros c c' E.
    eapply calm_trans; [|eapply calm_block; exact E]. apply calm_say; reflexivity.
  - apply V. apply (W j (fun c => request_complete j a (say c (CompleteCalled j a)))). intros c c' E.
    eapply calm_trans; [|eapply calm_complete; exact E]. apply calm_say; reflexivity.
  - destruct (looper s && negb (stopped s)); [|discriminate]. intros X; injection X as <-.
    eapply (called_same _ _ [StopCalled] G); auto.
Qed.

Lemma called_run l : forall s s', called s -> run s l = Ok s' -> called s'.
Proof.
  induction l as [|m l IH]; intros s s' G; cbn [run].
  - intros E; injection E as <-; exact G.
  - destruct (step s m) as [| |s1] eqn:E; cbn [bind]; try discriminate. apply IH. eapply called_step; eauto.
Qed.
Lemma called_initial b : called (initial b).
Proof. intros k K. cbn in K. lia. Qed.

(* Where the thread is when it's interrupted *)
Lemma interrupted s s1 : inv s -> wait_interrupted s = Ok s1 ->
  exists k, (th s = TWait1 k \/ th s = TWait2 k) /\ stopped s = false /\
    pipes s (x_pipe (txs s k)) = Some [] /\ s1 = go s (TTake k false) (txfd s).
Proof.
  intros I. unfold wait_interrupted. destruct (th s) as [|k|k|k d|k a|k a|k] eqn:T; try discriminate;
    (destruct (_ <=? 0); [discriminate|]); cbn [get_cell c_pipe];
    (destruct (pipes s (x_pipe (txs s k))) as [[|]|] eqn:P; try discriminate);
    (destruct (stopped s) eqn:St; [discriminate|]); intros X; injection X as <-; exists k; auto.
Qed.

(* The callback which wasn't called *)
Lemma gone_pending k c :
  x_refs (c_tx c) = 1 -> x_has_req (c_tx c) = true -> q_refs (c_tx c) = 2 -> q_has_tx (c_tx c) = false -> c_pipe c = Some [] ->
  exists c', callback_gone k c = Ok c' /\ x_cb (c_tx c') = CbGone /\
    c_ev c' = c_ev c ++ [PipeClosed (x_pipe (c_tx c)); TxFreed k].
Proof.
  destruct c as [[st an xr xp hr qr ht qa cb] p ev]. cbn. intros -> -> -> -> ->.
  eexists. split; [reflexivity|]. cbn. now rewrite <- app_assoc.
Qed.

(* The answer after that *)
Lemma interrupted_answer s k :
  inv s -> (th s = TWait1 k \/ th s = TWait2 k) -> stopped s = false -> pipes s (x_pipe (txs s k)) = Some [] ->
  exists s2 l, srun (go s (TTake k false) (txfd s)) (repeat (Usual Thread) 3) = Ok s2 /\
    btrace s2 = btrace s ++ l ++ [Answered k (None, - EFAULT)] /\ (forall e, In e l -> loud e = false /\ e <> StopCalled) /\
    count s2 = count s /\ th s2 = TSent k /\ (x_cb (txs s k) = CbPending -> x_cb (txs s2 k) = CbGone).
Proof.
  intros I T St P.
  assert (K : (k < count s)%nat).
  { apply (i_th _ I). destruct T as [-> | ->]; cbn; rewrite Nat.eqb_refl; discriminate. }
  pose proof (i_cells _ I k K) as C. rewrite P, St in C.
  assert (R : 2 <= x_refs (txs s k) /\ (x_cb (txs s k) = CbPending -> x_refs (txs s k) = 2 /\ x_has_req (txs s k) = true /\ q_refs (txs s k) = 2 /\ q_has_tx (txs s k) = false)).
  { destruct C as [C1 C2 C7 C3 C4 C5 C6].
    destruct T as [T|T]; rewrite T in *; cbn [mode_of] in *; rewrite Nat.eqb_refl in *;
      unfold wait_ok, state_ok, b2z in *; cbn [holds drives] in *;
      destruct (x_state (txs s k)), (x_cb (txs s k)) eqn:CB; cbn [cb_alive] in *; try contradiction; try discriminate;
      try (destruct C6; discriminate); try (destruct (x_has_req (txs s k)); discriminate);
      (split; [destruct (q_has_tx (txs s k)); try lia; destruct C3 as (_ & C3 & _); discriminate|]); try discriminate.
    destruct C3 as (H1 & H2 & H3 & _). intros _. rewrite H1, H2, H3 in *. cbn in C2.
    destruct (Z.ltb_spec 0 (x_refs (txs s k))); repeat split; lia. }
  destruct R as (R & RP).
  cbn [repeat srun sstep step]. unfold thread_step at 1. cbn [go th txs].
  destruct (Z.leb_spec (x_refs (txs s k)) 0); [lia|]. cbn [bind].
  unfold thread_step at 1. cbn [go th]. unfold tx_unref at 1. cbn [get_cell go txs pipes c_tx].
  destruct (Z.leb_spec (x_refs (txs s k)) 0); [lia|].
  destruct (Z.eqb_spec (x_refs (txs s k) - 1) 0); [lia|]. cbn [bind].
  unfold thread_step at 1. cbn [go th put_cell txs]. rewrite upd_same. cbn [c_tx put x_set_refs x_cb].
  destruct (x_cb (txs s k)) eqn:CB.
  - destruct (RP eq_refl) as (X1 & X2 & X3 & X4).
    match goal with |- context [on_cell ?st k _] => set (u := st) end.
    destruct (gone_pending k (get_cell u k)) as (c & E & G & V).
    1-5: (unfold u, get_cell; cbn [c_tx c_pipe put_cell go txs pipes put]; rewrite ?upd_same; cbn [x_refs x_has_req q_refs q_has_tx x_set_refs x_pipe c_tx put];
          rewrite ?upd_same; auto; lia).
    unfold on_cell. rewrite E. cbn [bind]. unfold transact_end.
    replace (txfd (put_cell u k c)) with (@None nat) by reflexivity.
    replace (looper (put_cell u k c)) with (looper s) by reflexivity.
    exists {| looper := looper s; txs := txs (put_cell u k c); count := count s; pipes := pipes (put_cell u k c); npipes := npipes s;
              txfd := None; stopped := stopped s; last := stopped s; th := TSent k;
              btrace := btrace (put_cell u k c) ++ [Answered k (None, - EFAULT)] |}, [PipeClosed (x_pipe (txs s k)); TxFreed k].
    split; [destruct (looper s); reflexivity|].
    split.
    { cbn [btrace put_cell]. rewrite V. unfold u. cbn [get_cell c_tx c_ev go put_cell txs btrace put].
      rewrite upd_same. cbn [x_pipe x_set_refs c_tx put]. rewrite ?app_nil_r. cbn [app]. now rewrite <- app_assoc. }
    split; [intros e [<-|[<-|[]]]; split; (reflexivity || discriminate)|].
    split; [reflexivity|]. split; [reflexivity|]. intros _. cbn [txs put_cell]. now rewrite upd_same.
  - cbn [bind]. unfold transact_end. cbn. destruct (looper s); cbn; (eexists; exists []; split; [reflexivity|]); cbn;
      rewrite app_nil_r; (split; [reflexivity|]); repeat split; auto; try contradiction; discriminate.
  - cbn [bind]. unfold transact_end. cbn. destruct (looper s); cbn; (eexists; exists []; split; [reflexivity|]); cbn;
      rewrite app_nil_r; (split; [reflexivity|]); repeat split; auto; try contradiction; discriminate.
  - cbn [bind]. unfold transact_end. cbn. destruct (looper s); cbn; (eexists; exists []; split; [reflexivity|]); cbn;
      rewrite app_nil_r; (split; [reflexivity|]); repeat split; auto; try contradiction; discriminate.
Qed.

(* Going through a schedule step by step *)
Record look (s : bstate) (k : nat) (t : ltx) (p : option (list note)) (w : phase) (fd : option nat) (tr : list bev) (n : nat) : Prop := {
  l_tx : txs s k = t;
  l_pipe : pipes s (x_pipe t) = p;
  l_th : th s = w;
  l_fd : txfd s = fd;
  l_tr : btrace s = tr;
  l_count : count s = n;
  l_stop : stopped s = false;
  l_last : last s = false;
  l_loop : looper s = true
}.

Lemma look_cell s k t p w fd tr n f c' :
  look s k t p w fd tr n -> f {| c_tx := t; c_pipe := p; c_ev := [] |} = Ok c' -> x_pipe (c_tx c') = x_pipe t ->
  on_cell s k f = Ok (put_cell s k c') /\ look (put_cell s k c') k (c_tx c') (c_pipe c') w fd (tr ++ c_ev c') n.
Proof.
  intros [L1 L2 L3 L4 L5 L6 L7 L8 L9] E X. split.
  - unfold on_cell, get_cell. rewrite L1, L2, E. reflexivity.
  - split; cbn; rewrite ?L1, ?X, ?L5, ?upd_same; auto.
Qed.

Lemma look_go s k t p w fd tr n w' fd' : look s k t p w fd tr n -> look (go s w' fd') k t p w' fd' tr n.
Proof. intros []. split; auto. Qed.

Definition fresh_tx (p : nat) : ltx :=
  {| x_state := SCHEDULED; x_answer := (None, 0); x_refs := 2; x_pipe := p; x_has_req := true;
     q_refs := 2; q_has_tx := false; q_app := 0; x_cb := CbPending |}.
Lemma look_begin s p l :
  th s = TIdle -> stopped s = false -> last s = false -> looper s = true ->
  match txfd s with Some q => q = p /\ pipes s p = Some l | None => p = npipes s /\ l = [] end ->
  step s Arrive = Ok (transact_begin s) /\
  look (transact_begin s) (count s) (fresh_tx p) (Some l) (TWait1 (count s)) (Some p) (btrace s ++ [Arrived (count s)]) (S (count s)).
Proof.
  intros T St L LP P. cbn [step]. rewrite T, L. split; [reflexivity|].
  destruct (txfd s) as [q|] eqn:F; destruct P as (-> & P).
  - split; unfold transact_begin; cbn; rewrite ?F, ?upd_same; auto.
  - subst l. split; unfold transact_begin; cbn; rewrite ?F, ?upd_same; auto.
Qed.

Lemma looper_run l : forall s s', run s l = Ok s' -> looper s' = looper s.
Proof.
  assert (C : forall s k f s', on_cell s k f = Ok s' -> looper s' = looper s).
  { intros s k f s'. unfold on_cell. destruct (f _); cbn; try discriminate. intros X; injection X as <-. reflexivity. }
  assert (V : forall s k f s', (if Nat.ltb k (count s) then on_cell s k f else Disabled) = Ok s' -> looper s' = looper s).
  { intros s k f s'. destruct (Nat.ltb k (count s)); [apply C|discriminate]. }
  induction l as [|m l IH]; intros s s'; cbn [run]; [intros X; injection X as <-; reflexivity|].
  destruct (step s m) as [| |s1] eqn:E; cbn [bind]; try discriminate. intros R. rewrite (IH _ _ R). clear R IH.
  destruct m; cbn [step] in E; try (apply V in E; exact E).
  - destruct (th s); try discriminate. destruct (last s); [discriminate|]. injection E as <-. reflexivity.
  - unfold thread_step in E. destruct (th s) as [|j|j|j d|j a|j a|j]; try discriminate.
    + destruct (ipc_wait _ _) as [| |(c & n)]; cbn [bind] in E; try discriminate. injection E as <-. reflexivity.
    + destruct (ipc_wait _ _) as [| |(c & n)]; cbn [bind] in E; try discriminate. injection E as <-. reflexivity.
    + destruct (_ <=? 0); [discriminate|]. injection E as <-. reflexivity.
    + destruct (tx_unref _ _ _) as [| |(c & b)]; cbn [bind] in E; try discriminate. injection E as <-. reflexivity.
    + destruct (match x_cb (txs s j) with CbPending => _ | _ => _ end) as [| |s2] eqn:E2; cbn [bind] in E; try discriminate.
      assert (looper s2 = looper s) as <- by (destruct (x_cb (txs s j)); [eapply C; eauto|injection E2 as <-; reflexivity..]).
      unfold transact_end in E. destruct (looper s2) eqn:LP, (txfd s2) as [p|]; [| |destruct (pipes s2 p); [|discriminate]|];
        injection E as <-; cbn; auto.
    + destruct (on_cell s j (req_unref j)) as [| |s2] eqn:E2; cbn [bind] in E; try discriminate. injection E as <-.
      cbn. eapply C; eauto.
  - destruct (looper s && negb (stopped s)) eqn:B; [|discriminate]. injection E as <-. reflexivity.
Qed.

Ltac start_look L := destruct L as [L1 L2 L3 L4 L5 L6 L7 L8 L9].
Lemma look_dispatch s k t p w fd tr n c' :
  look s k t p w fd tr n -> (k < n)%nat -> x_cb t = CbPending ->
  handle_begin k {| c_tx := t; c_pipe := p; c_ev := [] |} = Ok c' -> x_pipe (c_tx c') = x_pipe t ->
  exists s', sstep s (Usual (Dispatch k)) = Ok s' /\ look s' k (c_tx c') (c_pipe c') w fd (tr ++ c_ev c') n.
Proof.
  intros L K CB E X. eexists. cbn [sstep step]. rewrite (l_count _ _ _ _ _ _ _ _ L), (proj2 (Nat.ltb_lt k n) K).
  eapply look_cell; eauto. cbn [c_tx]. now rewrite CB.
Qed.
Lemma look_return s k a t p w fd tr n c' :
  look s k t p w fd tr n -> (k < n)%nat -> x_cb t = CbRunning ->
  handle_end k a {| c_tx := t; c_pipe := p; c_ev := [] |} = Ok c' -> x_pipe (c_tx c') = x_pipe t ->
  exists s', sstep s (Usual (Return k a)) = Ok s' /\ look s' k (c_tx c') (c_pipe c') w fd (tr ++ c_ev c') n.
Proof.
  intros L K CB E X. eexists. cbn [sstep step]. rewrite (l_count _ _ _ _ _ _ _ _ L), (proj2 (Nat.ltb_lt k n) K).
  eapply look_cell; eauto. cbn [c_tx]. now rewrite CB.
Qed.
Lemma look_forget s k t p w fd tr n c' :
  look s k t p w fd tr n -> (k < n)%nat -> x_cb t = CbReturned ->
  callback_gone k {| c_tx := t; c_pipe := p; c_ev := [] |} = Ok c' -> x_pipe (c_tx c') = x_pipe t ->
  exists s', sstep s (Usual (Forget k)) = Ok s' /\ look s' k (c_tx c') (c_pipe c') w fd (tr ++ c_ev c') n.
Proof.
  intros L K CB E X. eexists. cbn [sstep step]. rewrite (l_count _ _ _ _ _ _ _ _ L), (proj2 (Nat.ltb_lt k n) K).
  eapply look_cell; eauto. cbn [c_tx]. now rewrite CB.
Qed.
Lemma look_signal s k t fd tr n :
  look s k t (Some []) (TWait1 k) fd tr n -> 0 < x_refs t ->
  exists s', sstep s Signal = Ok s' /\ look s' k t (Some []) (TTake k false) fd tr n.
Proof.
  intros L R. exists (go s (TTake k false) fd). split; [|now eapply look_go; eauto].
  start_look L. cbn [sstep]. unfold wait_interrupted, get_cell. rewrite L3. cbn [c_tx c_pipe].
  rewrite L1, L2, L7, L4. destruct (Z.leb_spec (x_refs t) 0); [lia|reflexivity].
Qed.
Lemma look_read s k t l fd tr n :
  look s k t (Some (TX_DONE :: l)) (TWait1 k) fd tr n -> 0 < x_refs t ->
  exists s', sstep s (Usual Thread) = Ok s' /\ look s' k t (Some l) (TTake k true) fd tr n.
Proof.
  intros L R. exists (go (put_cell s k {| c_tx := t; c_pipe := Some l; c_ev := [] |}) (TTake k true) fd). split.
  - start_look L. cbn [sstep step]. unfold thread_step, ipc_wait, get_cell. rewrite L3. cbn [c_tx c_pipe c_ev].
    rewrite L1, L2, ?L7. destruct (Z.leb_spec (x_refs t) 0); [lia|]. cbn [bind]. now rewrite L4.
  - apply (look_go _ _ _ _ (TWait1 k) fd). start_look L. split; cbn; rewrite ?L1, ?L5, ?upd_same, ?app_nil_r; auto.
Qed.
Lemma look_take s k d t p fd tr n :
  look s k t p (TTake k d) fd tr n -> 0 < x_refs t ->
  exists s', sstep s (Usual Thread) = Ok s' /\
    look s' k t p (TUnref k (if d then x_answer t else (None, - EFAULT))) fd tr n.
Proof.
  intros L R. eexists. split; [|eapply look_go; eauto]. start_look L. cbn [sstep step]. unfold thread_step. rewrite L3, L1, L4.
  destruct (Z.leb_spec (x_refs t) 0); [lia|reflexivity].
Qed.
Lemma look_unref s k a t p fd tr n c' d :
  look s k t p (TUnref k a) fd tr n ->
  tx_unref k true {| c_tx := t; c_pipe := p; c_ev := [] |} = Ok (c', d) -> x_pipe (c_tx c') = x_pipe t ->
  exists s', sstep s (Usual Thread) = Ok s' /\
    look s' k (c_tx c') (c_pipe c') (TCancel k a) (if d then fd else None) (tr ++ c_ev c') n.
Proof.
  intros L E X. exists (go (put_cell s k c') (TCancel k a) (if d then fd else None)). split.
  - start_look L. cbn [sstep step]. unfold thread_step, get_cell. rewrite L3, L1, L2, E, L4. reflexivity.
  - eapply look_go. eapply (look_cell s k t p _ fd tr n (fun _ => Ok c')); eauto.
Qed.
Lemma look_end s k a t p fd tr n :
  look s k t p (TCancel k a) fd tr n ->
  exists s', transact_end s k a = Ok s' /\ look s' k t p (TSent k) fd (tr ++ [Answered k a]) n.
Proof.
  intros L. start_look L. unfold transact_end. rewrite L9. eexists. split; [reflexivity|].
  split; cbn; rewrite ?L5, ?L9; auto.
Qed.
Lemma look_cancel s k a t p fd tr n :
  look s k t p (TCancel k a) fd tr n -> x_cb t <> CbPending ->
  exists s', sstep s (Usual Thread) = Ok s' /\ look s' k t p (TSent k) fd (tr ++ [Answered k a]) n.
Proof.
  intros L CB. destruct (look_end _ _ _ _ _ _ _ _ L) as (s' & E & L'). exists s'. split; [|exact L'].
  cbn [sstep step]. unfold thread_step. rewrite (l_th _ _ _ _ _ _ _ _ L), (l_tx _ _ _ _ _ _ _ _ L).
  destruct (x_cb t); [contradiction|exact E..].
Qed.
Lemma look_cancel_pending s k a t p fd tr n c' :
  look s k t p (TCancel k a) fd tr n -> x_cb t = CbPending ->
  callback_gone k {| c_tx := t; c_pipe := p; c_ev := [] |} = Ok c' -> x_pipe (c_tx c') = x_pipe t ->
  exists s', sstep s (Usual Thread) = Ok s' /\
    look s' k (c_tx c') (c_pipe c') (TSent k) fd ((tr ++ c_ev c') ++ [Answered k a]) n.
Proof.
  intros L CB E X. destruct (look_cell _ _ _ _ _ _ _ _ _ _ L E X) as (E1 & L1).
  destruct (look_end _ _ _ _ _ _ _ _ L1) as (s' & E' & L'). exists s'. split; [|exact L'].
  cbn [sstep step]. unfold thread_step. rewrite (l_th _ _ _ _ _ _ _ _ L), (l_tx _ _ _ _ _ _ _ _ L), CB, E1. exact E'.
Qed.
Lemma look_sent s k t p fd tr n c' :
  look s k t p (TSent k) fd tr n ->
  req_unref k {| c_tx := t; c_pipe := p; c_ev := [] |} = Ok c' -> x_pipe (c_tx c') = x_pipe t ->
  exists s', sstep s (Usual Thread) = Ok s' /\ look s' k (c_tx c') (c_pipe c') TIdle fd (tr ++ c_ev c') n.
Proof.
  intros L E X. destruct (look_cell _ _ _ _ _ _ _ _ _ _ L E X) as (E1 & L1).
  exists (go (put_cell s k c') TIdle fd). split; [|eapply look_go; exact L1].
  cbn [sstep step]. unfold thread_step. rewrite (l_th _ _ _ _ _ _ _ _ L), E1. cbn [bind put_cell txfd].
  now rewrite (l_fd _ _ _ _ _ _ _ _ L).
Qed.

(* Answers are sent once *)
Definition busy (m : mode) : bool := match m with MAway | MSent => false | _ => true end.
Definition once (s : bstate) : Prop :=
  (forall j, mode_of (th s) j <> MAway -> (j < count s)%nat) /\
  forall k, (times (is_answer k) (btrace s) <= 1)%nat /\
    ((count s <= k)%nat \/ busy (mode_of (th s) k) = true -> times (is_answer k) (btrace s) = 0%nat).

Lemma quiet_times k l : (forall e, In e l -> loud e = false) -> times (is_answer k) l = 0%nat.
Proof. intros H. apply times_zero. intros e X. apply H in X. destruct e; try reflexivity. discriminate. Qed.

Lemma once_ext s s' l :
  once s -> count s' = count s -> btrace s' = btrace s ++ l -> (forall e, In e l -> loud e = false) ->
  (forall j, mode_of (th s') j <> MAway -> mode_of (th s) j <> MAway) ->
  (forall j, busy (mode_of (th s') j) = true -> busy (mode_of (th s) j) = true) -> once s'.
Proof.
  intros (A & B) E1 E2 Q M1 M2. split.
  - intros j X. rewrite E1. apply A. auto.
  - intros k. rewrite E1, E2, times_app, (quiet_times k l Q), Nat.add_0_r. destruct (B k) as (B1 & B2). split; [exact B1|].
    intros [X|X]; apply B2; auto.
Qed.

Lemma once_cell s j f s' :
  once s -> on_cell s j f = Ok s' -> (forall c', f (get_cell s j) = Ok c' -> calm (get_cell s j) c') -> once s'.
Proof.
  intros O E C. unfold on_cell in E. destruct (f (get_cell s j)) as [| |c]; cbn in E; try discriminate.
  injection E as <-. destruct (C c eq_refl) as (_ & l & El & Nl). cbn in El.
  apply (once_ext s _ l O); auto. cbn. now rewrite El.
Qed.

Lemma once_go s w fd :
  once s -> (forall j, mode_of w j <> MAway -> mode_of (th s) j <> MAway) ->
  (forall j, busy (mode_of w j) = true -> busy (mode_of (th s) j) = true) -> once (go s w fd).
Proof. intros O A B. apply (once_ext s _ [] O); auto; [cbn; now rewrite app_nil_r|intros ? []]. Qed.

Lemma once_step s m s' : once s -> sstep s m = Ok s' -> once s'.
Proof.
  intros O.
  assert (ME : forall w k v j, (w = TWait1 k \/ w = TWait2 k \/ (exists d, w = TTake k d) \/ (exists a, w = TUnref k a)) ->
    (v = TWait2 k \/ (exists d, v = TTake k d) \/ (exists a, v = TUnref k a) \/ (exists a, v = TCancel k a)) ->
    (mode_of v j <> MAway -> mode_of w j <> MAway) /\ (busy (mode_of v j) = true -> busy (mode_of w j) = true)).
  { intros w k v j [-> | [-> | [(d & ->) | (a & ->)]]] [-> | [(d2 & ->) | [(a2 & ->) | (a2 & ->)]]]; cbn;
      destruct (Nat.eqb k j); cbn; split; auto; discriminate. }
  destruct m as [m|]; cbn [sstep].
  2:{ unfold wait_interrupted. destruct (th s) eqn:T; try discriminate; destruct (_ <=? 0); try discriminate;
      destruct (c_pipe _) as [[|]|]; try discriminate; destruct (stopped s); try discriminate; intros X; injection X as <-;
      apply once_go; auto; intros j; rewrite T; eapply (ME _ k); eauto 10. }
  assert (V : forall j f, (forall c', f (get_cell s j) = Ok c' -> calm (get_cell s j) c') ->
    (if Nat.ltb j (count s) then on_cell s j f else Disabled) = Ok s' -> once s').
  { intros j f C. destruct (Nat.ltb j (count s)); [|discriminate]. intros E. eapply once_cell; eauto. }
  assert (W : forall j f, (forall c c', f c = Ok c' -> calm c c') ->
    forall c', (if usable (c_tx (get_cell s j)) then f (get_cell s j) else Disabled) = Ok c' -> calm (get_cell s j) c').
  { intros j f C c'. destruct (usable _); [apply C|discriminate]. }
  assert (WT : forall st j c n, ipc_wait st (get_cell s j) = Ok (c, n) -> once (put_cell s j c)).
  { intros st j c n E. apply (once_cell s j (fun _ => Ok c)); auto. intros c' X. injection X as <-.
    unfold ipc_wait in E. destruct (_ <=? 0); [discriminate|].
    destruct (c_pipe (get_cell s j)) as [[|]|]; [destruct st| |]; try discriminate; injection E as <- <-;
      apply calm_refl || (split; auto; exists []; split; [auto|intros ? []]). }
  destruct m as [| |j|j a|j|j|j|j|j a|]; cbn [step].
  - destruct (th s) eqn:T; try discriminate. destruct (last s); [discriminate|]. intros X; injection X as <-.
    destruct O as (A & B). unfold once, transact_begin. cbn [count th btrace]. split.
    + intros j. cbn. destruct (Nat.eqb_spec (count s) j); [lia|congruence].
    + intros k. rewrite times_app. cbn [times filter is_answer length]. rewrite Nat.add_0_r. destruct (B k) as (B1 & B2). split; [exact B1|].
      intros X. apply B2. left. destruct X as [X|X]; [lia|]. cbn in X. destruct (Nat.eqb_spec (count s) k); [lia|discriminate].
  - unfold thread_step. destruct (th s) as [|j|j|j d|j a|j a|j] eqn:T; try discriminate.
    + destruct (ipc_wait _ _) as [| |(c & n)] eqn:E; cbn [bind]; try discriminate. intros X; injection X as <-.
      apply once_go; [eauto|..]; intros i; cbn [put_cell th]; rewrite T; eapply (ME _ j); destruct n as [[|]|]; eauto 10.
    + destruct (ipc_wait _ _) as [| |(c & n)] eqn:E; cbn [bind]; try discriminate. intros X; injection X as <-.
      apply once_go; [eauto|..]; intros i; cbn [put_cell th]; rewrite T; eapply (ME _ j); eauto 10.
    + destruct (_ <=? 0); [discriminate|]. intros X; injection X as <-.
      apply once_go; auto; intros i; rewrite T; eapply (ME _ j); eauto 10.
    + destruct (tx_unref _ _ _) as [| |(c & b)] eqn:E; cbn [bind]; try discriminate. intros X; injection X as <-.
      apply once_go; [|intros i; cbn [put_cell th]; rewrite T; eapply (ME _ j); eauto 10..].
      apply (once_cell s j (fun _ => Ok c)); auto. intros c' X. injection X as <-. eapply calm_tx_unref; eauto.
    + destruct (match x_cb (txs s j) with CbPending => _ | _ => _ end) as [| |s1] eqn:E; cbn [bind]; try discriminate.
      assert (O1 : once s1 /\ th s1 = TCancel j a).
      { destruct (x_cb (txs s j)); [|injection E as <-; auto..]. split; [eapply once_cell; eauto; intros c'; apply calm_gone|].
        unfold on_cell in E. destruct (callback_gone _ _); cbn in E; try discriminate. injection E as <-. exact T. }
      destruct O1 as ((A & B) & T1).
      assert (F : forall s2 l, btrace s2 = btrace s1 ++ l ++ [Answered j a] -> (forall e, In e l -> loud e = false) ->
                    count s2 = count s1 -> th s2 = TSent j -> once s2).
      { intros s2 l E1 Q E2 E3. split.
        - intros i X. rewrite E2. apply A. rewrite E3 in X. rewrite T1. cbn in *. destruct (Nat.eqb j i); congruence.
        - intros k. rewrite E1, E2, E3, !times_app, (quiet_times k l Q). destruct (B k) as (B1 & B2). rewrite T1 in B2. cbn in B2.
          unfold times at 2 4. cbn [filter is_answer]. cbn [mode_of]. destruct (Nat.eqb_spec j k) as [->|]; cbn [length busy].
          + rewrite B2 by auto. split; [lia|]. intros [X|X]; [|discriminate].
            specialize (A k). rewrite T1 in A. cbn in A. rewrite Nat.eqb_refl in A. specialize (A ltac:(discriminate)). lia.
          + split; [lia|]. intros [X|X]; [|discriminate]. rewrite B2; auto. }
      unfold transact_end. destruct (looper s1), (txfd s1) as [p|]; [| |destruct (pipes s1 p); [|discriminate]|];
        intros X; injection X as <-;
        [apply (F _ [])|apply (F _ [])|apply (F _ [PipeClosed p])|apply (F _ [])]; cbn; auto; try (intros ? []);
        rewrite <- ?app_assoc; auto; subst; cbn; auto; contradiction.
    + destruct (on_cell s j (req_unref j)) as [| |s1] eqn:E; cbn [bind]; try discriminate. intros X; injection X as <-.
      apply once_go; [eapply once_cell; eauto; intros c'; apply calm_req_unref|cbn; congruence|cbn; discriminate].
  - destruct (Nat.ltb_spec j (count s)) as [J|]; [|discriminate]. unfold on_cell. cbn [get_cell c_tx].
    destruct (x_cb (txs s j)) eqn:CB; try discriminate.
    unfold handle_begin. destruct (_ || _); [discriminate|]. cbn [bind]. intros X; injection X as <-.
    destruct O as (A & B). split; [exact A|]. intros k. cbn [put_cell btrace count th c_ev say put get_cell app].
    rewrite times_app. cbn. rewrite Nat.add_0_r. apply B.
  - apply V. intros c'. destruct (x_cb (c_tx (get_cell s j))) eqn:CB; try discriminate. now apply calm_end.
  - apply V. intros c'. destruct (x_cb (c_tx (get_cell s j))); try discriminate. apply calm_gone.
  - apply V. apply W. apply calm_ref.
  - apply V. intros c'. destruct (0 <? _); [|discriminate]. intros E. eapply calm_trans; [|eapply calm_req_unref; exact E].
    apply calm_put; auto.
  - apply V. apply (W j (fun c => request_block (say c (BlockCalled j)))). intros c c' E.
    eapply calm_trans; [|eapply calm_block; exact E]. apply calm_say; reflexivity.
  - apply V. apply (W j (fun c => request_complete j a (say c (CompleteCalled j a)))). intros c c' E.
    eapply calm_trans; [|eapply calm_complete; exact E]. apply calm_say; reflexivity.
  - destruct (looper s && negb (stopped s)); [|discriminate]. intros X; injection X as <-.
    apply (once_ext s _ [StopCalled] O); auto. intros e [<-|[]]. reflexivity.
Qed.

Lemma once_run l : forall s s', once s -> srun s l = Ok s' -> once s'.
Proof.
  induction l as [|m l IH]; intros s s' G; cbn [srun].
  - intros E; injection E as <-; exact G.
  - destruct (sstep s m) as [| |s1] eqn:E; cbn [bind]; try discriminate. apply IH. eapply once_step; eauto.
Qed.
Lemma once_initial b : once (initial b).
Proof. split; [intros j X; cbn in X; congruence|]. intros k. cbn. split; auto. Qed.

(* Handlers are called once *)
Definition is_handle (k : nat) (e : bev) : bool := match e with Handle j => Nat.eqb j k | _ => false end.
Definition single (s : bstate) : Prop :=
  forall k, (times (is_handle k) (btrace s) <= 1)%nat /\
    ((count s <= k)%nat \/ x_cb (txs s k) = CbPending -> times (is_handle k) (btrace s) = 0%nat).

Lemma quiet_handle k l : (forall e, In e l -> loud e = false) -> times (is_handle k) l = 0%nat.
Proof. intros H. apply times_zero. intros e X. apply H in X. destruct e; try reflexivity. discriminate. Qed.

Lemma single_same s s' l :
  single s -> count s' = count s -> txs s' = txs s -> btrace s' = btrace s ++ l -> (forall k, times (is_handle k) l = 0%nat) -> single s'.
Proof. intros G E1 E2 E3 Q k. rewrite E1, E2, E3, times_app, Q, Nat.add_0_r. apply G. Qed.
Lemma single_go s w fd : single s -> single (go s w fd).
Proof. intros G. apply (single_same s _ [] G); auto. cbn. now rewrite app_nil_r. Qed.

Lemma single_cell s j f s' :
  single s -> on_cell s j f = Ok s' -> (forall c', f (get_cell s j) = Ok c' -> calm (get_cell s j) c') -> single s'.
Proof.
  intros G E C. unfold on_cell in E. destruct (f (get_cell s j)) as [| |c]; cbn in E; try discriminate.
  injection E as <-. destruct (C c eq_refl) as (((_ & A) & _) & l & El & Nl). cbn in A, El.
  intros k. cbn [put_cell btrace count txs]. rewrite El, times_app, (quiet_handle k l Nl), Nat.add_0_r.
  destruct (G k) as (G1 & G2). split; [exact G1|]. intros [X|X]; apply G2; [now left|right].
  unfold upd in X. destruct (Nat.eqb_spec k j) as [->|]; auto.
Qed.

Lemma single_step s m s' : single s -> sstep s m = Ok s' -> single s'.
Proof.
  intros O. destruct m as [m|]; cbn [sstep].
  2:{ unfold wait_interrupted. destruct (th s) eqn:T; try discriminate; destruct (_ <=? 0); try discriminate;
      destruct (c_pipe _) as [[|]|]; try discriminate; destruct (stopped s); try discriminate; intros X; injection X as <-;
      now apply single_go. }
  assert (V : forall j f, (forall c', f (get_cell s j) = Ok c' -> calm (get_cell s j) c') ->
    (if Nat.ltb j (count s) then on_cell s j f else Disabled) = Ok s' -> single s').
  { intros j f C. destruct (Nat.ltb j (count s)); [|discriminate]. intros E. eapply single_cell; eauto. }
  assert (W : forall j f, (forall c c', f c = Ok c' -> calm c c') ->
    forall c', (if usable (c_tx (get_cell s j)) then f (get_cell s j) else Disabled) = Ok c' -> calm (get_cell s j) c').
  { intros j f C c'. destruct (usable _); [apply C|discriminate]. }
  assert (WT : forall st j c n, ipc_wait st (get_cell s j) = Ok (c, n) -> single (put_cell s j c)).
  { intros st j c n E. apply (single_cell s j (fun _ => Ok c)); auto. intros c' X. injection X as <-.
    unfold ipc_wait in E. destruct (_ <=? 0); [discriminate|].
    destruct (c_pipe (get_cell s j)) as [[|]|]; [destruct st| |]; try discriminate; injection E as <- <-;
      apply calm_refl || (split; auto; exists []; split; [auto|intros ? []]). }
  destruct m as [| |j|j a|j|j|j|j|j a|]; cbn [step].
  - destruct (th s) eqn:T; try discriminate. destruct (last s); [discriminate|]. intros X; injection X as <-.
    intros k. unfold transact_begin. cbn [count txs btrace]. rewrite times_app. cbn [times filter is_handle length].
    rewrite Nat.add_0_r. destruct (O k) as (B1 & B2). split; [exact B1|]. intros X. apply B2.
    destruct (Nat.eq_dec k (count s)) as [->|N]; [left; lia|]. rewrite upd_other in X by auto. destruct X as [X|X]; [left; lia|now right].
  - unfold thread_step. destruct (th s) as [|j|j|j d|j a|j a|j] eqn:T; try discriminate.
    + destruct (ipc_wait _ _) as [| |(c & n)] eqn:E; cbn [bind]; try discriminate. intros X; injection X as <-.
      apply single_go. eauto.
    + destruct (ipc_wait _ _) as [| |(c & n)] eqn:E; cbn [bind]; try discriminate. intros X; injection X as <-.
      apply single_go. eauto.
    + destruct (_ <=? 0); [discriminate|]. intros X; injection X as <-. now apply single_go.
    + destruct (tx_unref _ _ _) as [| |(c & b)] eqn:E; cbn [bind]; try discriminate. intros X; injection X as <-.
      apply single_go. apply (single_cell s j (fun _ => Ok c)); auto. intros c' X. injection X as <-. eapply calm_tx_unref; eauto.
    + destruct (match x_cb (txs s j) with CbPending => _ | _ => _ end) as [| |s1] eqn:E; cbn [bind]; try discriminate.
      assert (O1 : single s1).
      { destruct (x_cb (txs s j)); [|injection E as <-; auto..]. eapply single_cell; eauto; intros c'; apply calm_gone. }
      unfold transact_end. destruct (looper s1), (txfd s1) as [p|]; [| |destruct (pipes s1 p); [|discriminate]|];
        intros X; injection X as <-;
        (eapply single_same; [exact O1|reflexivity|reflexivity|cbn; rewrite <- ?app_assoc; reflexivity|intros; reflexivity]).
    + destruct (on_cell s j (req_unref j)) as [| |s1] eqn:E; cbn [bind]; try discriminate. intros X; injection X as <-.
      apply single_go. eapply single_cell; eauto; intros c'; apply calm_req_unref.
  - destruct (Nat.ltb_spec j (count s)) as [J|]; [|discriminate]. unfold on_cell. cbn [get_cell c_tx].
    destruct (x_cb (txs s j)) eqn:CB; try discriminate.
    unfold handle_begin. destruct (_ || _); [discriminate|]. cbn [bind]. intros X; injection X as <-.
    intros k. cbn [put_cell btrace count txs c_tx c_ev say put get_cell app]. rewrite times_app. destruct (O k) as (B1 & B2).
    unfold times at 2 4. cbn [filter is_handle]. destruct (Nat.eqb_spec j k) as [<-|N]; cbn [length].
    + rewrite B2 by auto. split; [lia|]. rewrite upd_same. intros [X|X]; [lia|discriminate].
    + rewrite upd_other by auto. split; [lia|]. intros X. rewrite B2; auto.
  - apply V. intros c'. destruct (x_cb (c_tx (get_cell s j))) eqn:CB; try discriminate. now apply calm_end.
  - apply V. intros c'. destruct (x_cb (c_tx (get_cell s j))); try discriminate. apply calm_gone.
  - apply V. apply W. apply calm_ref.
  - apply V. intros c'. destruct (0 <? _); [|discriminate]. intros E. eapply calm_trans; [|eapply calm_req_unref; exact E].
    apply calm_put; auto.
  - apply V. apply (W j (fun c => request_block (say c (BlockCalled j)))). intros c c' E.
    eapply calm_trans; [|eapply calm_block; exact E]. apply calm_say; reflexivity.
  - apply V. apply (W j (fun c => request_complete j a (say c (CompleteCalled j a)))). intros c c' E.
    eapply calm_trans; [|eapply calm_complete; exact E]. apply calm_say; reflexivity.
  - destruct (looper s && negb (stopped s)); [|discriminate]. intros X; injection X as <-.
    apply (single_same s _ [StopCalled] O); auto.
Qed.

Lemma single_run l : forall s s', single s -> srun s l = Ok s' -> single s'.
Proof.
  induction l as [|m l IH]; intros s s' G; cbn [srun].
  - intros E; injection E as <-; exact G.
  - destruct (sstep s m) as [| |s1] eqn:E; cbn [bind]; try discriminate. apply IH. eapply single_step; eauto.
Qed.
Lemma single_initial b : single (initial b).
Proof. intros k. cbn. split; auto. Qed.
