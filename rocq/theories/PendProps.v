(* Property theorems about the list of forwarded transactions of a proxy. The modelled functions
   are in PendModel.v, what is pending is defined in PendSpec.v. *)
From Verif Require Import Base PendModel PendSpec PendProofs.

(* C48: whatever proxies are made, whoever has references to them, and in whatever order
   transactions are forwarded, answered and forgotten (with or without an answer), nothing is
   used after it has been freed, and the search in the list ends *)
Theorem C48_list_safe :
  forall l : list event, run start l <> Crash /\ run start l <> Stuck.
Proof. intros l. pose proof (history_inv l) as H. destruct (run start l); [split; discriminate|split; discriminate|destruct H|destruct H]. Qed.
Print Assumptions C48_list_safe.

(* ... a proxy has in its list exactly its transactions which are pending, the latest first.
   It's there exactly as long as others have references to it or something is pending, and it
   has one reference for each of those. *)
Theorem C48_list_right :
  forall (l : list event) (s : state) (p : nat),
  run start l = Done s ->
  match proxies s p with
  | Some x => follows s (x_tx x) (pending l p) /\ x_refs x = (others l p + length (pending l p))%nat /\ (0 < x_refs x)%nat
  | None => pending l p = [] /\ others l p = 0%nat
  end.
Proof.
  intros l s p E. pose proof (history_inv l) as H. rewrite E in H. destruct H as [J _]. pose proof (i_proxy _ _ J p) as K.
  unfold pending, others. fold (of (s_list (history l)) p). destruct (proxies s p) as [x|]; [|exact K].
  destruct K as (K1 & K2 & K3 & K4). split; [exact K1|]. split; [lia|exact K4].
Qed.
Print Assumptions C48_list_right.

(* ... and when all of them are over, no memory is left *)
Theorem C48_list_freed :
  forall (l : list event) (s : state) (t : nat) (v : node),
  run start l = Done s -> nodes s t = Some v -> ~ In (Destroy t) l.
Proof.
  intros l. induction l as [|e l IH] using rev_ind; intros s t v E Ev; [intros []|].
  assert (Hsplit : forall a b s0, run s0 (a ++ b) = obind (run s0 a) (fun s1 => run s1 b)).
  { induction a as [|x a IHa]; intros b s0; cbn [app run obind]; [reflexivity|]. destruct (step s0 x); cbn [obind]; auto. }
  rewrite Hsplit in E. pose proof (history_inv l) as H. destruct (run start l) as [s1| | |] eqn:E1; cbn [obind run] in E; try discriminate.
  destruct H as [J O]. pose proof (step_inv s1 _ e J O) as Hs. destruct (step s1 e) as [s2| | |] eqn:E2; cbn [obind] in E; try discriminate.
  injection E as ->.
  (* a structure which is there either was there before, or is new *)
  assert (Hold : (exists w, nodes s1 t = Some w) \/ t = nnodes s1).
  { destruct e as [|p|p|p|u|u]; cbn [step] in E2.
    - injection E2 as <-. cbn [nodes] in Ev. eauto.
    - destruct (proxies s1 p); [|discriminate]. destruct (Nat.eqb _ 0); [discriminate|]. injection E2 as <-. cbn in Ev. eauto.
    - destruct (proxies s1 p) as [x|] eqn:Ex; [|discriminate]. destruct (Nat.eqb _ 0); [discriminate|]. unfold unref in E2. rewrite Ex in E2.
      injection E2 as <-. cbn in Ev. eauto.
    - destruct (proxies s1 p) as [x|] eqn:Ex; [|discriminate]. destruct (Nat.eqb _ 0); [discriminate|]. injection E2 as <-. cbn in Ev.
      unfold put in Ev. destruct (Nat.eqb_spec t (nnodes s1)); eauto.
    - left. destruct (nodes s1 t) as [w|] eqn:Ew; [eauto|]. exfalso.
      destruct (nodes s1 u) as [y|] eqn:Eu; [|discriminate]. assert (Hd : t <> u) by congruence. destruct (n_replied y) eqn:Er; [discriminate|].
      destruct (n_proxy y) as [p|] eqn:Ep; [|discriminate]. destruct (proxies s1 p) eqn:Ex; [|discriminate].
      refine (dequeue_none _ _ _ _ _ Hd E2 _ Ev). cbn [set_node nodes]. rewrite put_other by exact Hd. exact Ew.
    - left. destruct (nodes s1 t) as [w|] eqn:Ew; [eauto|]. exfalso.
      destruct (nodes s1 u) as [y|] eqn:Eu; [|discriminate]. assert (Hd : t <> u) by congruence.
      destruct (dequeue s1 u) as [s3| | |] eqn:E3; cbn [obind] in E2; try discriminate. injection E2 as <-.
      cbn [set_node nodes] in Ev. unfold put in Ev. destruct (Nat.eqb_spec t u); [congruence|]. exact (dequeue_none _ _ _ _ Ew Hd E3 _ Ev). }
  assert (Hl : ~ In (Destroy t) l).
  { destruct Hold as [(w & Hw)| ->]; [exact (IH s1 t w eq_refl Hw)|]. intros K. exact (Nat.lt_irrefl _ (destroyed_old _ _ _ E1 K)). }
  intros K. apply in_app_or in K as [K|[K|[]]]; [exact (Hl K)|]. subst e. cbn [step] in E2.
  destruct (nodes s1 t); [|discriminate]. destruct (dequeue s1 t); cbn [obind] in E2; try discriminate. injection E2 as <-.
  cbn [set_node nodes] in Ev. rewrite put_same in Ev. discriminate.
Qed.
Print Assumptions C48_list_freed.

(* non-vacuity: three transactions of one proxy and one of another; the one in the middle is
   answered first, the last one is forgotten without an answer, and the proxy goes with the
   last of them *)
Example C48_list_ex :
  let l := [New; New; Ref 0; Handle 0; Handle 0; Handle 1; Handle 0; Reply 1; Unref 0; Unref 0; Destroy 3]%nat in
  pending l 0 = [0]%nat /\ pending l 1 = [2]%nat /\ others l 0 = 0%nat /\
  match run start l with
  | Done s => option_map x_tx (proxies s 0) = Some (Some 0%nat) /\ option_map x_refs (proxies s 0) = Some 1%nat /\
      match run s [Destroy 1; Reply 0]%nat with
      | Done s1 => proxies s1 0%nat = None /\ run s1 [Destroy 0]%nat <> Disabled
      | _ => False
      end
  | _ => False
  end.
Proof. vm_compute. repeat split; discriminate. Qed.
