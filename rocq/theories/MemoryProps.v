(* C75: messages and the memory to which they point *)
From Verif Require Import Base CleanupModel CleanupProofs MemoryModel MemorySpec MemoryProofs.

(* Whatever the application does, and in whatever order: what is sent is what would be sent if memory were never freed
   (see MemorySpec.v). What the library has copied has the value which it had when it was appended, and the rest the value
   which it has when the message is sent. The application doesn't free memory to which messages point. *)
Theorem C75_sent_as_meant : forall h s,
  carefully init h -> run init h = Done s -> sent s = told (expected h).
Proof.
  intros h s C E. pose proof (run_inv h init nothing (init_inv True) C) as I. rewrite E in I. symmetry. exact (i_told _ _ _ I Logic.I).
Qed.
Print Assumptions C75_sent_as_meant.

(* In particular there's no junk in it *)
Theorem C75_no_junk : forall h s m l,
  carefully init h -> run init h = Done s -> In (m, l) (sent s) -> ~ In Junk l.
Proof.
  intros h s m l C E. rewrite (C75_sent_as_meant h s C E). unfold expected.
  assert (G : forall h i, (forall m l, In (m, l) (told i) -> ~ In Junk l) -> forall m l, In (m, l) (told (fold_left ideally h i)) -> ~ In Junk l).
  { clear. induction h as [|o h IH]; intros i H; cbn [fold_left]; [exact H|]. apply IH.
    assert (T : forall k m l, In (m, l) (told (tell i k)) -> ~ In Junk l).
    { intros k m l. cbn [told tell]. rewrite in_app_iff. intros [K|[K|[]]]; [exact (H m l K)|]. injection K as <- <-.
      rewrite in_map_iff. intros (p & Hp & _). destruct p; discriminate. }
    destruct o as [t|n t|n| |k|k|k p|k p|k p count es|k ps|k p size|k p count es|k size|k n size|k g f|t|b|k b skip|k b|k|k|t]; cbn [ideally];
      try exact H; try (destruct p; try exact H); try apply T.
    - destruct (Nat.eqb _ 0); exact H.
    - destruct ps; exact H. }
  apply (G h nothing). intros m' l' [].
Qed.
Print Assumptions C75_no_junk.

(* What gbinder_writer_append_hidl_string_copy, gbinder_writer_append_hidl_vec and gbinder_writer_append_fmq_descriptor
   have appended is sent as it was then, whatever happens to the memory afterwards: it may be written to and freed *)
Theorem C75_copies_stay : forall h1 o m l h2 s,
  let h := h1 ++ o :: h2 ++ [Send m] in
  carefully init h -> run init h = Done s -> (forall b, ~ In (Replace m b) h2) ->
  copied (expected h1) o = Some (m, l) ->
  exists before first rest, sent s = before ++ [(m, first ++ l ++ rest)] /\ length first = length (packed (expected h1) m).
Proof.
  intros h1 o m l h2 s h C E N Hc. rewrite (C75_sent_as_meant h s C E). unfold h in *. unfold expected. rewrite fold_left_app. cbn [fold_left].
  fold (expected h1). set (i := expected h1) in *. rewrite fold_left_app. cbn [fold_left ideally].
  destruct (run init h1) as [s1| |] eqn:E1; [|rewrite run_app, E1 in E; discriminate|rewrite run_app, E1 in E; discriminate].
  assert (I1 : inv True s1 i).
  { destruct (carefully_app _ _ _ C) as [C1 _]. pose proof (run_inv h1 init nothing (init_inv True) C1) as I. rewrite E1 in I. exact I. }
  rewrite run_app, E1 in E. cbn [run] in E. destruct (step s1 o) as [s2| |] eqn:E2; try discriminate.
  assert (Hm : (m < packs i)%nat).
  { rewrite (i_packs _ _ _ I1). destruct (at_ (notes s1) m) as [x|] eqn:Hx; [exact (at_lt _ _ _ Hx)|exfalso].
    assert (P : forall its os s0, notes s0 = notes s1 -> push s0 m its os = Done s2 -> False).
    { intros its os s0 Hs. unfold push. rewrite Hs, Hx. discriminate. }
    destruct o; cbn [copied] in Hc; try discriminate; cbn [step] in E2.
    - destruct p as [n|]; [|discriminate]. destruct (strlen (mem i n)) as [len|]; [|discriminate]. injection Hc as -> <-.
      destruct (area s1 n) as [t|]; [|discriminate]. destruct (strlen t) as [[|k]|]; try discriminate; (eapply P; [|exact E2]; reflexivity).
    - destruct p as [n|]; [|discriminate]. destruct (Nat.eqb _ 0); [discriminate|]. injection Hc as -> <-.
      destruct (area s1 n) as [t|]; [|discriminate]. destruct (_ <=? _)%nat; [|discriminate]. eapply P; [|exact E2]; reflexivity.
    - destruct (mem i grantors) as [|y t]; [discriminate|]. injection Hc as -> <-.
      destruct (area s1 grantors) as [[|y' t']|]; [| |discriminate]; (destruct (area s1 fds) as [u|]; [|discriminate]); (eapply P; [|exact E2]; reflexivity). }
  assert (Hp : exists ps, packed (ideally i o) m = packed i m ++ ps /\ (forall j, map (is j) ps = l) /\ packs (ideally i o) = packs i).
  { destruct o; cbn [copied] in Hc; try discriminate; cbn [ideally].
    - destruct p as [n|]; [|discriminate]. unfold size_of. destruct (strlen (mem i n)) as [len|]; [|discriminate]. injection Hc as -> <-.
      eexists. split; [cbn; unfold fset; rewrite Nat.eqb_refl; reflexivity|]. split; reflexivity.
    - destruct p as [n|]; [|discriminate]. destruct (Nat.eqb _ 0); [discriminate|]. injection Hc as -> <-.
      eexists. split; [cbn; unfold fset; rewrite Nat.eqb_refl; reflexivity|]. split; reflexivity.
    - destruct (mem i grantors) as [|y t] eqn:Eg; [discriminate|]. injection Hc as -> <-.
      eexists. split; [cbn; unfold fset; rewrite Nat.eqb_refl; reflexivity|]. split; reflexivity. }
  destruct Hp as (ps & Hp & Hv & Hk). destruct (packed_stay h2 (ideally i o) m ltac:(lia) N) as (r & Hr). rewrite Hp in Hr.
  set (j := fold_left ideally h2 (ideally i o)) in *. cbn [told tell].
  exists (told j), (map (is j) (packed i m)), (map (is j) r). rewrite Hr, !map_app, Hv, map_length, <- app_assoc. split; reflexivity.
Qed.
Print Assumptions C75_copies_stay.

(* The memory which gbinder_writer_malloc and gbinder_writer_malloc0 return can be used as long as the message isn't
   freed (or its data replaced), with what was written to it, even if the application isn't careful with other memory *)
Theorem C75_memory_stays : forall h1 m size h2 s1 s,
  let h := h1 ++ Malloc m size :: h2 in
  run init h1 = Done s1 -> run init h = Done s -> (forall b, ~ In (Replace m b) h2) ->
  at_ (notes s) m <> None ->
  area s (length (areas s1)) = Some (mem (expected h) (length (areas s1))).
Proof.
  intros h1 m size h2 s1 s h E1 E N Hm. pose proof (run_any h init nothing (init_inv False)) as I. rewrite E in I. fold (expected h) in I.
  unfold h in E. rewrite run_app, E1 in E. cbn [run] in E. destruct (step s1 (Malloc m size)) as [s2| |] eqn:E2; try discriminate.
  cbn [step] in E2. unfold push in E2. cbn [notes set_areas] in E2. destruct (at_ (notes s1) m) as [x|] eqn:Hx; [|discriminate].
  destruct (Nat.eqb _ 0); [discriminate|]. injection E2 as E2.
  assert (Hx2 : at_ (notes s2) m = Some {| m_refs := m_refs x; m_app := m_app x; m_items := m_items x ++ [FreeArea (length (areas s1))]; m_objs := m_objs x ++ [] |}).
  { rewrite <- E2. cbn [notes set_notes]. exact (set_same _ _ _ _ Hx). }
  destruct (run_keeps h2 s2 s m E N (at_lt _ _ _ Hx2)) as [_ K]. rewrite Hx2 in K. destruct (at_ (notes s) m) as [y|] eqn:Hy; [|contradiction].
  destruct (i_mals _ _ _ I m y (length (areas s1)) Hy) as [l Hl].
  { apply K. cbn. apply in_or_app. right. left. reflexivity. }
  unfold area. rewrite Hl. f_equal. symmetry. exact (i_mem _ _ _ I _ _ _ Hl).
Qed.
Print Assumptions C75_memory_stays.

(* Nothing is freed twice, whatever the application does *)
Theorem C75_no_double_free : forall h, run init h <> Crash.
Proof. intros h E. pose proof (run_any h init nothing (init_inv False)) as I. rewrite E in I. exact I. Qed.
Print Assumptions C75_no_double_free.

(* Nothing is left: when there are neither messages nor buffers there's no memory but that of the application *)
Theorem C75_nothing_left : forall h s,
  run init h = Done s -> idle s ->
  (forall b, at_ (heap s) b = None) /\ (forall n m l, at_ (areas s) n <> Some (Some m, l)) /\ (forall c, at_ (parcels s) c = None).
Proof.
  intros h s E (H1 & H2). pose proof (run_any h init nothing (init_inv False)) as I. rewrite E in I. split; [|split].
  - intros b. destruct (at_ (heap s) b) as [[m d]|] eqn:Eb; [|reflexivity]. destruct (i_heap _ _ _ I _ _ _ Eb) as (x & Hx & _). rewrite H1 in Hx. discriminate.
  - intros n m l Hn. destruct (i_areas _ _ _ I _ _ _ Hn) as (x & Hx & _). rewrite H1 in Hx. discriminate.
  - intros c. destruct (at_ (parcels s) c) as [k|] eqn:Ek; [|reflexivity]. pose proof (i_refs _ _ _ I c) as R. pose proof (i_live _ _ _ I _ _ Ek) as L.
    rewrite Ek in R. unfold holders in R. rewrite !isum_zero in R; [lia| |].
    + intros j x Hj. destruct x as [x|]; [|reflexivity]. apply nth_at in Hj. rewrite H1 in Hj. discriminate.
    + intros j x Hj. destruct x as [x|]; [|reflexivity]. apply nth_at in Hj. rewrite H2 in Hj. discriminate.
Qed.
Print Assumptions C75_nothing_left.

(* gbinder_writer_append_hidl_string doesn't copy: any string which is freed between the call and the transaction, even
   one which was started before, is sent as junk. So is memory which was allocated with another message. *)
Theorem C75_freed_early_refuted : forall t len, strlen t = Some len ->
  (exists s, run init [New t; MNew; Str 0 (Some 0%nat); Free 0; Send 0] = Done s /\ sent s = [(0%nat, [Data (StringDesc len); Junk])]) /\
  (exists s, run init [New t; MNew; Str 0 (Some 0%nat); Begin 0; MUnref 0; Free 0; End 0] = Done s /\ sent s = [(0%nat, [Data (StringDesc len); Junk])]).
Proof.
  intros t len H. split.
  - cbn [run step set_areas init areas notes Datatypes.app area at_ nth_error]. unfold area. cbn [areas set_areas set_notes at_ nth_error]. rewrite H.
    eexists. split; reflexivity.
  - cbn [run step set_areas init areas notes Datatypes.app area at_ nth_error]. unfold area. cbn [areas set_areas set_notes at_ nth_error]. rewrite H.
    eexists. split; reflexivity.
Qed.
Print Assumptions C75_freed_early_refuted.

Theorem C75_other_message_refuted : forall size k, (k <= size)%nat ->
  exists s, run init [MNew; MNew; Malloc 0 size; Buf 1 (Some 0%nat) k; MUnref 0; Send 1] = Done s /\ sent s = [(1%nat, [Junk])].
Proof.
  intros size k H. cbn. rewrite repeat_length. destruct (Nat.leb_spec k size); [|lia]. eexists. split; reflexivity.
Qed.
Print Assumptions C75_other_message_refuted.

(* ------------------------------------------------------------------ *)
(* A transaction is started with a string which isn't copied, one which is, a vector, strings and memory of the message;
   the application changes its memory, frees what was copied and releases its request before it's sent. Received data is
   copied to another message and its buffer dropped. *)
Definition ex_memory : list op :=
  [New [104; 105; 0]; New [111; 107; 0]; New [1; 2; 3; 4]; MNew; Str 0 (Some 0%nat); StrCopy 0 (Some 1%nat); Vec 0 (Some 2%nat) 2 2;
   StrVec 0 [Some 0%nat; None]; Malloc 0 2; Buf 0 (Some 3%nat) 2; Begin 0; Write 0 [104; 111; 0]; Write 1 [0; 0; 0]; Write 3 [7; 8];
   Free 1; Free 2; MUnref 0; Receive [Bytes [9]]; MNew; Copy 1 0 0; Drop 0; End 0; Free 0; Send 1; MUnref 1].

Definition free_ok (s : state) (n : nat) : bool :=
  forallb (fun x => match x with
    | Some x => forallb (fun o => match o_ptr o with Some (Area k) => negb (Nat.eqb k n) | _ => true end) (m_objs x)
    | None => true end) (notes s).

Definition use_ok (s : state) (m n : nat) : bool :=
  match at_ (areas s) n with Some (Some k, _) => Nat.eqb k m | _ => true end.

Definition careful_b (s : state) (o : op) : bool :=
  match o with
  | Free n => free_ok s n
  | Str m (Some n) | Buf m (Some n) _ | StructVec m (Some n) _ _ => use_ok s m n
  | StrVec m ps => forallb (fun p => match p with Some n => use_ok s m n | None => true end) ps
  | _ => true
  end.

Lemma use_ok_usable s m n : use_ok s m n = true -> usable s m n.
Proof.
  unfold use_ok, usable. intros H w l E. rewrite E in H. destruct w as [k|]; [|auto]. apply Nat.eqb_eq in H. subst k. auto.
Qed.

Lemma careful_check s o : careful_b s o = true -> careful s o.
Proof.
  destruct o as [l|n l|n| |k|k|k p|k p|k p count es|k ps|k p size|k p count es|k size|k n size|k g f|l|b|k b skip|k b|k|k|t]; cbn [careful_b careful]; auto.
  - intros H m (x & Hx & o & Ho & Hp). unfold free_ok in H. rewrite forallb_forall in H.
    specialize (H (Some x) (nth_error_In _ _ (at_nth _ _ _ Hx))). cbn in H. rewrite forallb_forall in H. specialize (H o Ho). rewrite Hp, Nat.eqb_refl in H. discriminate.
  - destruct p; [apply use_ok_usable|auto].
  - intros H n Hn. rewrite forallb_forall in H. apply use_ok_usable. exact (H _ Hn).
  - destruct p; [apply use_ok_usable|auto].
  - destruct p; [apply use_ok_usable|auto].
Qed.

Fixpoint carefully_b (s : state) (h : list op) : bool :=
  match h with
  | [] => true
  | o :: r => careful_b s o && match step s o with Done s1 => carefully_b s1 r | _ => true end
  end.

Lemma carefully_check h : forall s, carefully_b s h = true -> carefully s h.
Proof.
  induction h as [|o h IH]; intros s H; cbn [carefully carefully_b] in *; [auto|]. apply andb_true_iff in H. destruct H as [H1 H2].
  split; [exact (careful_check s o H1)|]. destruct (step s o); auto.
Qed.

Example ex_memory_careful : carefully init ex_memory.
Proof. apply carefully_check. vm_compute. reflexivity. Qed.

Example ex_memory_sent : match run init ex_memory with
  | Done s => sent s =
     [(0%nat, [Data (StringDesc 2); Data (Bytes [104; 111; 0]); Data (StringDesc 2); Data (Bytes [111; 107; 0]);
               Data (VecDesc 2); Data (Bytes [1; 2; 3; 4]); Data (VecDesc 2); Data (StringDescs [Some 2%nat; None]);
               Data (Bytes [104; 111; 0]); Null; Data (Bytes [7; 8])]);
      (1%nat, [Data (Bytes [9])])] /\ forallb (fun b => match b with None => true | _ => false end) (heap s) = true
  | _ => False end.
Proof. vm_compute. split; reflexivity. Qed.

(* The message of the example is there when memory allocated with it is used *)
Example ex_memory_idle : match run init ex_memory with Done s => idle s | _ => False end.
Proof.
  vm_compute. split; intros [|[|m]]; try reflexivity; destruct m; reflexivity.
Qed.

Example ex_memory_stays : match run init (firstn 16 ex_memory) with
  | Done s => at_ (notes s) 0 <> None /\ area s 3 = Some [7; 8] | _ => False end.
Proof. vm_compute. split; [discriminate|reflexivity]. Qed.

Example ex_memory_copied : copied (expected (firstn 5 ex_memory)) (StrCopy 0 (Some 1%nat)) =
  Some (0%nat, [Data (StringDesc 2); Data (Bytes [111; 107; 0])]) /\
  copied (expected (firstn 6 ex_memory)) (Vec 0 (Some 2%nat) 2 2) = Some (0%nat, [Data (VecDesc 2); Data (Bytes [1; 2; 3; 4])]).
Proof. split; reflexivity. Qed.
