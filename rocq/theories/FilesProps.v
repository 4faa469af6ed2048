(* C72: open files travel from process to process like values *)
From Verif Require Import Base CleanupModel CleanupSpec CleanupSafe FilesModel FilesSpec FilesProofs.

(* Whatever processes do, and in whatever order: each descriptor of an application refers to the file for which it was
   opened or duplicated, and those of the application are open, and those only; the descriptors in each buffer which isn't
   freed are open, and so are those in each request and reply; and they refer to the files which were sent and appended.
   See FilesSpec.v for the world in which files travel like values; applications are careful with descriptors which
   couldn't be duplicated. *)
Theorem C72_same_files_partial : forall h w,
  carefully start h -> happens start h = Fine w ->
  let i := expected h in
  (forall p fd f, has i p fd = Some f <-> fdt (pst (w p)) fd = Some OwApp /\ file (w p) fd = f) /\
  (forall p b fds, buffer_fds (pst (w p)) b = Some fds -> refer (w p) fds (in_buffer i p b)) /\
  (forall p m, at_ (msgs (pst (w p))) m <> None -> refer (w p) (carries (w p) m) (packed i p m)).
Proof.
  intros h w Hc E i. pose proof (happens_winv h start nothing w start_winv Hc E) as W. fold (expected h) in W. fold i in W.
  split; [|split].
  - intros p. exact (v_has _ _ _ _ (W p)).
  - intros p b fds. exact (buffer_refers _ _ _ _ _ _ (W p)).
  - intros p m. exact (message_refers _ _ _ _ _ (W p)).
Qed.
Print Assumptions C72_same_files_partial.

(* A request or reply which is sent is never refused because of its descriptors: it arrives, with descriptors for the
   files which were in it when it was sent. As long as the buffer isn't freed, gbinder_reader_read_fd returns these very
   descriptors, they are open and they refer to those files: whatever the sender does with its request and its
   descriptors, and whatever the receiver does with its own. *)
Theorem C72_arrives_partial : forall h1 p m q fds h2 w1 w,
  carefully start (h1 ++ Sends p m q fds :: h2) ->
  happens start h1 = Fine w1 ->
  happens start (h1 ++ Sends p m q fds :: h2) = Fine w ->
  let b := length (bufs (pst (w1 q))) in
  ~ In (Does q (Other (OBufFree b))) h2 ->
  buffer_fds (pst (w q)) b = Some fds /\ refer (w q) fds (packed (expected h1) p m).
Proof.
  intros h1 p m q fds h2 w1 w Hc E1 E b Hn. rewrite happens_app, E1 in E. apply carefully_app in Hc. rewrite E1 in Hc.
  destruct Hc as [Hc1 Hc2]. cbn [happens carefully] in E, Hc2. destruct Hc2 as [_ Hc2].
  pose proof (happens_winv h1 start nothing w1 start_winv Hc1 E1) as W1. fold (expected h1) in W1.
  destruct (moves w1 (Sends p m q fds)) as [w2| |] eqn:E2; try discriminate.
  pose proof (moves_winv w1 _ (Sends p m q fds) w2 W1 Logic.I E2) as W2.
  pose proof (happens_winv h2 w2 _ w W2 Hc2 E) as W.
  assert (Hb : buffer_fds (pst (w2 q)) b = Some fds).
  { cbn [moves] in E2. unfold sends in E2. destruct (at_ (msgs (pst (w1 p))) m) as [x|] eqn:Ex; [|discriminate].
    rewrite (carried_open _ _ _ _ _ _ (W1 p) Ex) in E2. destruct (Nat.eqb _ _); [|discriminate].
    unfold after in E2. destruct (step (pst (w1 q)) (OBufNew fds)) as [s1 t| |] eqn:Es; try discriminate. injection E2 as <-.
    unfold wset. rewrite Nat.eqb_refl. cbn [pst step] in *. destruct (_ && _); [|discriminate]. injection Es as <- <-.
    unfold buffer_fds, b. cbn [bufs conts]. rewrite CleanupProofs.at_app, Nat.eqb_refl, CleanupProofs.at_app, Nat.eqb_refl. reflexivity. }
  assert (S2 : wsafe w2) by (intros k; exact (v_safe _ _ _ _ (W2 k))).
  assert (Hbw : buffer_fds (pst (w q)) b = Some fds) by exact (happens_kept h2 w2 w q b fds S2 E Hn Hb).
  split; [exact Hbw|]. pose proof (buffer_refers _ _ _ _ _ _ (W q) Hbw) as R. cbn [ideally] in R.
  assert (L : length (got (expected h1) q) = b) by exact (v_len _ _ _ _ (W1 q)).
  assert (G : got (add_got (expected h1) q (packed (expected h1) p m)) q = got (expected h1) q ++ [packed (expected h1) p m]).
  { unfold add_got. cbn [got]. unfold set1. rewrite Nat.eqb_refl. reflexivity. }
  rewrite got_stays, G in R by (rewrite G, app_length; cbn [length]; lia).
  rewrite app_nth2, L, Nat.sub_diag in R by lia. exact R.
Qed.
Print Assumptions C72_arrives_partial.

(* The descriptor which gbinder_reader_read_dup_fd returns is the application's: it's open and refers to the file which
   was received until the application closes it, even if the buffer is freed *)
Theorem C72_duplicate_stays_partial : forall h1 p b n d h2 w,
  let h := h1 ++ Does p (ReadDup b n d) :: h2 in
  carefully start h -> happens start h = Fine w -> ~ In (Does p (Close d)) h2 ->
  fdt (pst (w p)) d = Some OwApp /\ Some (file (w p) d) = nth_error (in_buffer (expected h1) p b) n.
Proof.
  intros h1 p b n d h2 w h Hc E Hn. unfold h in *. rewrite happens_app in E. apply carefully_app in Hc.
  destruct (happens start h1) as [w1| |] eqn:E1; try discriminate.
  destruct Hc as [Hc1 Hc2]. cbn [happens carefully] in E, Hc2. destruct Hc2 as [Hc2 Hc3].
  pose proof (happens_winv h1 start nothing w1 start_winv Hc1 E1) as W1. fold (expected h1) in W1.
  destruct (moves w1 (Does p (ReadDup b n d))) as [w2| |] eqn:E2; try discriminate.
  pose proof (moves_winv w1 _ _ w2 W1 Hc2 E2) as W2.
  pose proof (happens_winv h2 w2 _ w W2 Hc3 E) as W.
  cbn [moves does] in E2. destruct (read_fd (pst (w1 p)) b n) as [fd|] eqn:Er; [|discriminate].
  destruct (read_means _ _ _ _ _ _ _ (W1 p) Er) as [_ Hm]. fold (in_buffer (expected h1) p b) in Hm. rewrite Hm.
  assert (H2 : has (ideally (expected h1) (Does p (ReadDup b n d))) p d = Some (file (w1 p) fd)).
  { cbn [ideally]. unfold set_has. cbn [has]. unfold set1, setz. rewrite Nat.eqb_refl, Z.eqb_refl. exact Hm. }
  pose proof (has_stays h2 w2 _ w p d _ W2 Hc3 E Hn H2) as H3.
  destruct (proj1 (v_has _ _ _ _ (W p) d _) H3) as [H4 H5]. split; [exact H4|]. rewrite H5. reflexivity.
Qed.
Print Assumptions C72_duplicate_stays_partial.

(* Nothing is left open: a process which has released its requests, replies and what it has received has no descriptors
   but those which its application has opened or duplicated. Even if there were some which couldn't be duplicated. *)
Theorem C72_nothing_left : forall h w p fd,
  happens start h = Fine w -> idle (w p) -> fdt (pst (w p)) fd = None \/ fdt (pst (w p)) fd = Some OwApp.
Proof.
  intros h w p fd E (H1 & H2 & H3). pose proof (happens_safe h start start_safe) as W. rewrite E in W.
  exact (idle_closed _ (W p) H1 H2 H3 fd).
Qed.
Print Assumptions C72_nothing_left.

(* The library doesn't use what it has freed *)
Theorem C72_no_use_after_free : forall h, happens start h <> Broken.
Proof. intros h E. pose proof (happens_safe h start start_safe) as W. rewrite E in W. exact W. Qed.
Print Assumptions C72_no_use_after_free.

(* ------------------------------------------------------------------ *)
(* Process 0 sends two files to process 1 and closes them and its request; process 1 copies the second one to a request
   for process 2 and duplicates the first one, and frees what it has got; the file gets to process 2 nevertheless. *)
Definition ex_travel : list move :=
  [Does 0 (Open 3 100); Does 0 (Open 4 200); Does 0 (Other ONew); Does 0 (Append 0 (Own 3) (Some 5));
   Does 0 (Append 0 (Own 4) (Some 6)); Does 0 (Close 3); Does 0 (Open 3 300);
   Does 1 (Open 7 400); Sends 0 0 1 [8; 9]; Does 0 (Other (OUnref 0)); Does 0 (Close 3); Does 0 (Close 4);
   Does 1 (Other ONew); Does 1 (Copy 0 (Some 0%nat) 1 []); Does 1 (Append 0 (Received 0 0) (Some 10));
   Does 1 (ReadDup 0 0 11); Does 1 (Other (OBufFree 0)); Sends 1 0 2 [3; 4];
   Does 1 (Other (OUnref 0))].

Lemma carefully_check h : forall w,
  (fix ok w h := match h with
    | [] => true
    | v :: r => match v with
        | Does p (Close fd) => forallb (fun m => negb (existsb (Z.eqb fd) (carries (w p) m))) (seq 0 (length (msgs (pst (w p)))))
        | Does _ (Append _ (Received _ _) None) => false
        | _ => true end && match moves w v with Fine w1 => ok w1 r | _ => true end
    end) w h = true -> carefully w h.
Proof.
  induction h as [|v h IH]; intros w; cbn [carefully]; [auto|]. intros H. apply andb_true_iff in H. destruct H as [H1 H2]. split.
  - destruct v as [p d|]; [|exact Logic.I]. destruct d as [| fd|m src dup| | | |]; cbn [careful]; try exact Logic.I.
    + intros m Hm Hi. rewrite forallb_forall in H1.
      assert (L : (m < length (msgs (pst (w p))))%nat).
      { unfold at_ in Hm. destruct (nth_error (msgs (pst (w p))) m) eqn:En; [|contradiction]. apply nth_error_Some. congruence. }
      specialize (H1 m ltac:(apply in_seq; lia)). apply negb_true_iff in H1.
      assert (X : existsb (Z.eqb fd) (carries (w p) m) = true) by (apply existsb_exists; exists fd; split; [exact Hi|apply Z.eqb_refl]).
      congruence.
    + destruct src, dup; try exact Logic.I. discriminate.
  - destruct (moves w v); auto.
Qed.

Example C72_travel_ex :
  carefully start ex_travel /\
  match happens start ex_travel with
  | Fine w =>
    buffer_fds (pst (w 2%nat)) 0 = Some [3; 4] /\ map (file (w 2%nat)) [3; 4] = [200%nat; 100%nat] /\
    fdt (pst (w 1%nat)) 11 = Some OwApp /\ file (w 1%nat) 11 = 100%nat /\ fdt (pst (w 1%nat)) 8 = None /\
    map (fdt (pst (w 0%nat))) [3; 4; 5; 6] = [None; None; None; None] /\
    in_buffer (expected ex_travel) 2 0 = [200%nat; 100%nat]
  | _ => False
  end.
Proof. split; [apply carefully_check; vm_compute; reflexivity|]. vm_compute. repeat split. Qed.

(* Without the care: a descriptor couldn't be duplicated, the application closes it and opens another file before it sends
   the request. The other file is sent. *)
Theorem C72_failed_dup_refuted : forall fd d f g, f <> g ->
  exists h w, happens start h = Fine w /\ h = [Does 0 (Open fd f); Does 0 (Other ONew); Does 0 (Append 0 (Own fd) None);
      Does 0 (Close fd); Does 0 (Open fd g); Sends 0 0 1 [d]] /\
    in_buffer (expected h) 1 0 = [f] /\ buffer_fds (pst (w 1%nat)) 0 = Some [d] /\ refer (w 1%nat) [d] [g] /\ ~ refer (w 1%nat) [d] [f].
Proof.
  intros fd d f g Hne. eexists. eexists. split; [|split; [reflexivity|]].
  - repeat (cbn; unfold fd_set, open_in, fset; rewrite ?Z.eqb_refl). cbn. reflexivity.
  - split.
    + repeat (cbn; unfold setz; rewrite ?Z.eqb_refl). reflexivity.
    + split; [reflexivity|]. cbn. unfold refer, fset, cset, wset. cbn. rewrite ?Z.eqb_refl. split.
      * constructor; [|constructor]. cbn. unfold fd_set. rewrite Z.eqb_refl. cbn. split; [discriminate|reflexivity].
      * intros X. inversion X as [|x y l1 l2 Y _]; subst. destruct Y as [_ Y]. cbn in Y. rewrite ?Z.eqb_refl in Y. congruence.
Qed.
Print Assumptions C72_failed_dup_refuted.
