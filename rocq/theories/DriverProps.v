(* C24-C28: what a thread does with commands from the kernel *)
From Verif Require Import Base KernelModel ObjModel TxModel DriverModel DriverSpec DriverTrace DriverGood DriverHeap DriverReact.

(* ------------------------------------------------------------------ *)
(* C24. For every call (a read, or a transaction), at any moment of it and whichever way
   bytes were split between reads: commands which the call has taken are exactly the
   beginning of the bytes which it has received, in order, each with its own payload and
   decoded from it. If it succeeds, then at most an incomplete command is left. *)
Theorem C24_framing : forall E fuel k s, octets (ios s) ->
  match call_of E (fns_of E fuel) k s with
  | Done status s' => exists body,
      trace s' = trace s ++ Begin k :: body ++ [End status] /\
      decoded E (trace s) (Begin k :: body ++ [End status]) /\
      in_order body /\ (0 <= status -> all_taken body)
  | Stop _ s' => exists body,
      trace s' = trace s ++ Begin k :: body /\ decoded E (trace s) (Begin k :: body) /\ in_order body
  end.
Proof.
  intros E fuel k s Hs. pose proof (call_ok E _ (good_of E fuel) k s Hs) as H.
  destruct (call_of E (fns_of E fuel) k s) as [st s'|w s'].
  - destruct H as (body & H1 & _ & H3 & H4 & _ & _ & H7). exists body. auto.
  - destruct H as (body & H1 & _ & H3 & H4 & _). exists body. auto.
Qed.
Print Assumptions C24_framing.

(* commands have the meaning which the kernel gives them, and nothing else has any *)
Theorem C24_command_meanings : forall m cmd payload,
  (forall what, In (cmd, what) linux_commands -> meaning_of (decode_cmd Io64 m cmd payload) = what) /\
  (~ In cmd (map fst linux_commands) -> decode_cmd Io64 m cmd payload = ROther).
Proof.
  intros m cmd payload. rewrite decode64. cbv zeta. split.
  - intros what H. cbn [linux_commands In] in H.
    repeat (destruct H as [H|H]; [injection H as <- <-; cbn [Z.eqb Pos.eqb meaning_of]; reflexivity|]). contradiction.
  - intros H. cbn [linux_commands map fst In] in H.
    repeat (cmd_eq; [exfalso; subst cmd; tauto|]). reflexivity.
Qed.
Print Assumptions C24_command_meanings.
(* ... and name the object which the kernel means *)
Theorem C24_command_subjects : forall m cmd payload o,
  subject (decode_cmd Io64 m cmd payload) = Some o -> all_bytes payload -> 8 <= blen payload ->
  (cmd <> 0x8008720f -> o = unle (slice payload 0 8)) /\
  (cmd = 0x8008720f -> o = unle (slice payload 0 4)).
Proof.
  intros m cmd payload o H Hb Hl. rewrite decode64 in H. cbv zeta in H. split.
  - intros Hc. revert H. repeat (cmd_eq; [cbn [subject]; congruence|]). discriminate.
  - intros ->. cbn [Z.eqb Pos.eqb subject] in H.
    assert (Ho : o = u32 (unle (slice payload 0 8))) by congruence. rewrite Ho.
    apply handle_of_cookie; assumption.
Qed.
Print Assumptions C24_command_subjects.
Example C24_command_meanings_ex :
  meaning_of (decode_cmd Io64 (fun _ => 0) 0x7211 []) = MFailed /\
  subject (decode_cmd Io64 (fun _ => 0) 0x8008720f [5; 1; 0; 0; 9; 9; 9; 9]) = Some 261 /\
  subject (decode_cmd Io64 (fun _ => 0) 0x80107208 (le 8 4096 ++ le 8 0)) = Some 4096.
Proof. repeat split; reflexivity. Qed.

(* and requests concerning objects are acted upon as soon as they are taken, once each;
   transactions which no object is there for are refused as soon as they are taken *)
Theorem C24_requests_handled : forall E fuel ops input,
  match life E (fns_of E fuel) ops (start input) with
  | Done _ s => filter reacting (trace s) = reactions E [] (trace s) /\ prompt E [] (trace s)
  | Stop _ s => late_trace E (trace s)
  end.
Proof.
  intros E fuel ops input. exact (keeps_life E _ (goodI_of E fuel) ops (start input) (start_good E input)).
Qed.
Print Assumptions C24_requests_handled.

(* ------------------------------------------------------------------ *)
(* Some commands *)
Definition ex_cmd (nr : Z) : bytes := le 4 (br_io nr).
Definition ex_tx (nr code flags size buffer : Z) : bytes :=
  le 4 (br_ior nr (tr_size Io64)) ++ le 8 16 ++ le 8 0 ++ le 4 code ++ le 4 flags ++ le 4 7 ++ le 4 0 ++
  le 8 size ++ le 8 0 ++ le 8 buffer ++ le 8 0.
Definition ex_obj (nr obj : Z) : bytes := le 4 (br_ior nr 16) ++ le 8 obj ++ le 8 0.
Definition ex_mem (a : Z) : Z := if (4096 <=? a) && (a <? 4100) then 251 else if (4100 <=? a) && (a <? 4104) then 255 else 0.

(* the handler keeps the data of transaction 1, makes a call, and returns a reply which
   refers to the buffer of the reply which it has got; others are refused *)
Definition ex_env : env := {|
  e_io := Io64; e_mem := fun _ => ex_mem; e_local := fun _ o => o =? 16; e_remote := fun _ _ => false;
  e_handler := fun _ tx => if tx_code tx =? 1 then Some (HKeep (HTransact false (fun st => HReturn (Some (Some 1%nat)) st))) else None;
  e_can_loop := fun _ => true |}.

(* A call, during which the other side calls us; that command comes in two parts. While it's
   being handled, another call is made. *)
Definition ex_input : list ioresult :=
  [IoErr 11; IoData (ex_cmd 12 ++ ex_obj 7 16 ++ ex_cmd 6 ++ ztake 20 (ex_tx 2 1 0 8 8192));
   IoData (zdrop 20 (ex_tx 2 1 0 8 8192) ++ ex_obj 10 16);
   (* the nested call *)
   IoData (ex_cmd 6 ++ ex_obj 8 16); IoData (ex_tx 3 0 0 4 12288);
   (* the reply has been handled, and there's a one-way transaction *)
   IoData (ex_tx 2 2 1 0 16384 ++ ex_cmd 6);
   (* and the reply to the first call *)
   IoData (ex_tx 3 0 0 8 20480)].
Definition ex_octets_b (l : list ioresult) : bool :=
  forallb (fun r => match r with IoErr _ => true | IoData b => forallb (fun x => (0 <=? x) && (x <=? 255)) b end) l.
Lemma ex_octets l : ex_octets_b l = true -> octets l.
Proof.
  unfold ex_octets_b, octets. rewrite forallb_forall, Forall_forall. intros H r Hr. specialize (H r Hr). destruct r as [|b]; [exact I|].
  rewrite forallb_forall in H. apply Forall_forall. intros x Hx. specialize (H x Hx). unfold is_byte. lia.
Qed.

(* commands, without what they carry *)
Inductive note := NBegin | NEnd (st : Z) | NGot (nr : Z) | NReturned | NLeave | NWrote (w : wcmd) | NOther (e : dev).
Fixpoint notes (t : list dev) : list note :=
  match t with
  | [] => []
  | Input _ :: r => notes r
  | Begin _ :: r => NBegin :: notes r
  | End st :: r => NEnd st :: notes r
  | Got cmd _ _ :: r => NGot (cmd mod 256) :: notes r
  | Returned _ _ :: r => NReturned :: notes r
  | Leave :: r => NLeave :: notes r
  | Wrote w :: r => NWrote w :: notes r
  | e :: r => NOther e :: notes r
  end.
Definition ex_trace (o : out unit) : list note := match o with Done _ s | Stop _ s => notes (trace s) end.
Definition ex_done (o : out unit) : bool := match o with Done _ _ => true | _ => false end.

Example C24_case :
  octets ex_input /\
  let r := life ex_env (fns_of ex_env 60) [TopCall false; TopDrop 0; TopDrop 0; TopDrop 0] (start ex_input) in
  ex_done r = true /\
  ex_trace r =
    [NBegin; NWrote (WTransaction false);
     NGot 12; NGot 7; NOther (Increfs 16); NWrote (WIncrefsDone (le 8 16 ++ le 8 0)); NGot 6;
       NGot 2;
         NBegin; NWrote (WTransaction false); NGot 6; NGot 8; NOther (Acquire 16); NGot 3; NEnd 0;
       NReturned; NWrote WReplyData;
       NGot 10; NOther (Deferred false 16);
         NGot 2; NWrote (WFreeBuffer 16384); NReturned; NLeave;
       NGot 6; NLeave;
     NGot 3; NOther (Unref false 16); NWrote (WFreeBuffer 12288); NEnd 0;
     NWrote (WFreeBuffer 8192); NWrote (WFreeBuffer 20480)].
Proof. split; [apply ex_octets; vm_compute; reflexivity|]. cbv zeta. split; vm_compute; reflexivity. Qed.

(* Without the condition on the status something may be left: if the reply carries a
   negative status code, commands which came after it are dropped. Linux puts nothing
   after a reply, though. *)
Theorem C24_all_taken_refuted :
  ~ (forall E fuel k s, octets (ios s) ->
     match call_of E (fns_of E fuel) k s with
     | Done status s' => exists body, trace s' = trace s ++ Begin k :: body ++ [End status] /\ all_taken body
     | Stop _ s' => True
     end).
Proof.
  intros H. specialize (H ex_env 20%nat (Some false) (start [IoData (ex_tx 3 0 8 4 4100 ++ ex_obj 7 16)])).
  assert (Ho : octets (ios (start [IoData (ex_tx 3 0 8 4 4100 ++ ex_obj 7 16)]))) by (apply ex_octets; vm_compute; reflexivity).
  specialize (H Ho). revert H.
  set (s := start _).
  destruct (call_of ex_env (fns_of ex_env 20) (Some false) s) as [st s'|w s'] eqn:Hc;
    [|exfalso; revert Hc; vm_compute; discriminate].
  intros (body & H1 & rest & H2 & H3).
  assert (Ht : exists pl c, trace s' = [Begin (Some false); Wrote (WTransaction false); Input (ex_tx 3 0 8 4 4100 ++ ex_obj 7 16);
      Got (br_ior 3 64) pl c; Wrote (WFreeBuffer 4100); End (-1)] /\ le 4 (br_ior 3 64) ++ pl = ex_tx 3 0 8 4 4100).
  { revert Hc. vm_compute. intros [= _ <-]. do 2 eexists. split; reflexivity. }
  destruct Ht as (pl & c & Ht & Hpl). rewrite H1 in Ht. assert (Hs : trace s = []) by reflexivity. rewrite Hs in Ht. apply (f_equal (@tl dev)) in Ht. cbn [tl Datatypes.app] in Ht.
  change (Datatypes.app (A := dev) []) with (fun l : list dev => l) in Ht. cbv beta in Ht. cbn [tl] in Ht.
  change [Wrote (WTransaction false); Input (ex_tx 3 0 8 4 4100 ++ ex_obj 7 16); Got (br_ior 3 64) pl c; Wrote (WFreeBuffer 4100); End (-1)]
    with ([Wrote (WTransaction false); Input (ex_tx 3 0 8 4 4100 ++ ex_obj 7 16); Got (br_ior 3 64) pl c; Wrote (WFreeBuffer 4100)] ++ [End (-1)]) in Ht.
  apply app_inj_tail in Ht. destruct Ht as [-> _]. cbn [own received taken] in H2. rewrite !app_nil_r in H2.
  rewrite Hpl in H2. apply app_inv_head in H2. subst rest. revert H3. unfold incomplete. vm_compute.
  intros [H|[H|H]]; discriminate.
Qed.
Print Assumptions C24_all_taken_refuted.

(* ------------------------------------------------------------------ *)
(* C25. The history of a thread, with whatever calls and handlers: after each two-way
   transaction has been handled exactly one reply is written, with the handler's result; no
   reply is written to one-way ones; transactions which are received while handling another
   one are complete before that one is answered. See [calm] for complete histories, and
   [opened] for those which have been interrupted. *)
Theorem C25_one_reply_partial : forall E fuel ops input, octets input ->
  match life E (fns_of E fuel) ops (start input) with
  | Done _ s => calm (trace s)
  | Stop _ s => opened (trace s)
  end.
Proof.
  intros E fuel ops input Hi. pose proof (life_ok E _ (good_of E fuel) ops (start input) Hi) as H.
  destruct (life E (fns_of E fuel) ops (start input)) as [u s|w s].
  - destruct H as (_ & t & H1 & H2 & _). cbn [start trace Datatypes.app] in H1. rewrite H1. exact H2.
  - destruct H as (t & H1 & H2 & _). cbn [start trace Datatypes.app] in H1. rewrite H1. exact H2.
Qed.
Print Assumptions C25_one_reply_partial.

(* A transaction for which there is no object (or which asks for what none of them does) is
   refused with -EBADMSG and nothing else happens before that *)
Theorem C25_unknown_object_refused : forall E fuel ops input s p cmd payload tx r,
  life E (fns_of E fuel) ops (start input) = Done tt s ->
  trace s = p ++ Got cmd payload (RTransaction tx) :: r ->
  (forall h, e_handler E h tx = None) ->
  exists f r', r = f ++ Returned false (- (74)) :: r' /\
    (f = [] \/ f = [Wrote (WFreeBuffer (tx_data tx))] /\ tx_size tx = 0).
Proof.
  intros E fuel ops input s p cmd payload tx r H Ht Hn.
  pose proof (C24_requests_handled E fuel ops input) as K. rewrite H in K. destruct K as [_ K]. rewrite Ht in K.
  assert (K2 : forall h q, prompt E h (q ++ Got cmd payload (RTransaction tx) :: r) ->
    exists b r', r = refusal E b tx ++ r').
  { clear. intros h q. revert h. induction q as [|e q IH]; intros h K; cbn [Datatypes.app prompt] in K.
    - destruct K as [(r' & ->) _]. eexists _, _. reflexivity.
    - destruct K as [_ K]. exact (IH _ K). }
  destruct (K2 [] p K) as (b & r' & ->). unfold refusal. cbv zeta. rewrite Hn.
  destruct (tx_data tx =? 0); cbn [orb]; [exists [], r'; auto|].
  destruct (Z.eqb_spec (tx_size tx) 0) as [Hz|Hz]; cbn [negb].
  - exists [Wrote (WFreeBuffer (tx_data tx))], r'. auto.
  - exists [], r'. auto.
Qed.
Print Assumptions C25_unknown_object_refused.

(* In numbers: as many replies as there are two-way transactions *)
Theorem C25_as_many_replies : forall t, calm t -> count_ev is_reply t = count_ev is_two_way t.
Proof.
  assert (Ha : forall f t u, count_ev f (t ++ u) = count_ev f t + count_ev f u).
  { intros f t u. induction t as [|e t IH]; [reflexivity|]. cbn [Datatypes.app count_ev]. rewrite IH. lia. }
  induction 1 as [|e t He Ht IH|k body st t Hb IHb Ht IHt|cmd pl tx body rp st rest t Hw Hb IHb Hr IHr Ht IHt|cmd pl tx body rp st rest t Hw Hb IHb Hr IHr Ht IHt].
  - reflexivity.
  - cbn [count_ev]. rewrite IH. destruct e; try contradiction; try reflexivity; [destruct c|destruct w]; try contradiction; reflexivity.
  - cbn [count_ev]. rewrite !Ha. cbn [count_ev is_reply is_two_way Z.b2z]. lia.
  - cbn [count_ev]. rewrite !Ha. cbn [count_ev]. rewrite !Ha. cbn [count_ev is_reply is_two_way Z.b2z]. rewrite Hw. cbn [negb Z.b2z]. lia.
  - cbn [count_ev]. rewrite !Ha. cbn [count_ev]. rewrite !Ha. cbn [count_ev].
    assert (Er : is_reply (Wrote (answer rp st)) = true) by (destruct rp; reflexivity).
    assert (Ew : is_two_way (Wrote (answer rp st)) = false) by (destruct rp; reflexivity). rewrite Er, Ew. cbn [is_reply is_two_way Z.b2z]. rewrite Hw. cbn [negb Z.b2z]. lia.
Qed.
Print Assumptions C25_as_many_replies.

Example C25_case :
  let r := life ex_env (fns_of ex_env 60) [TopCall false] (start ex_input) in
  match r with
  | Done _ s => count_ev is_two_way (trace s) = 1 /\ count_ev is_reply (trace s) = 1
  | Stop _ _ => False
  end.
Proof. vm_compute. split; reflexivity. Qed.

(* What's missing from the above: [one_way] is what the decoder says. A transaction whose
   sender has set both TF_ONE_WAY and TF_STATUS_CODE counts as a two-way one, and is
   answered although the sender isn't waiting. *)
Theorem C25_one_way_answered_refuted :
  ~ (forall E fuel ops input, octets input ->
     match life E (fns_of E fuel) ops (start input) with
     | Done _ s =>
       (forall cmd payload tx, In (Got cmd payload (RTransaction tx)) (trace s) -> Z.testbit (tr_flags (tr_parse (e_io E) payload)) 0 = true) ->
       count_ev is_reply (trace s) = 0
     | Stop _ s => True
     end).
Proof.
  intros H. specialize (H ex_env 20%nat [TopRead] [IoData (ex_tx 2 2 9 4 4096); IoData (ex_cmd 6)]).
  assert (Ho : octets [IoData (ex_tx 2 2 9 4 4096); IoData (ex_cmd 6)]) by (apply ex_octets; vm_compute; reflexivity).
  specialize (H Ho).
  destruct (life ex_env (fns_of ex_env 20) [TopRead] (start [IoData (ex_tx 2 2 9 4 4096); IoData (ex_cmd 6)])) as [u s|w s] eqn:Hl;
    [|revert Hl; vm_compute; discriminate].
  assert (Hc : count_ev is_reply (trace s) = 1) by (revert Hl; vm_compute; intros [= _ <-]; reflexivity).
  rewrite Hc in H. assert (X : 1 = 0); [|discriminate]. apply H.
  assert (Ht : forall e, In e (trace s) -> match e with Got _ payload (RTransaction _) => Z.testbit (tr_flags (tr_parse Io64 payload)) 0 = true | _ => True end).
  { apply Forall_forall. revert Hl. vm_compute. intros [= _ <-]. cbn [trace].
    repeat (apply Forall_cons; [first [exact I|reflexivity]|]). apply Forall_nil. }
  intros cmd payload tx Hin. exact (Ht _ Hin).
Qed.
Print Assumptions C25_one_way_answered_refuted.

(* and that's the only difference *)
Theorem C25_one_way_decoded : forall i m payload,
  Z.testbit (tr_flags (tr_parse i payload)) 3 = false ->
  one_way (decode_transaction_data i m payload) = Z.testbit (tr_flags (tr_parse i payload)) 0.
Proof.
  intros i m payload H. unfold one_way, decode_transaction_data. rewrite H. cbn [tx_flags].
  destruct (Z.testbit (tr_flags (tr_parse i payload)) 0); reflexivity.
Qed.
Print Assumptions C25_one_way_decoded.

(* ------------------------------------------------------------------ *)
(* C26. Whatever comes from the kernel and in whichever order references are dropped: the
   number of times a buffer at this address came from the kernel is the number of times it
   was returned plus the number of such buffers which are still referred to (and replies
   nobody was waiting for). No reference is ever taken to, or dropped from, contents which
   are already gone. *)
Theorem C26_buffers_returned_once : forall E fuel ops input,
  match life E (fns_of E fuel) ops (start input) with
  | Done _ s => forall a, a <> 0 ->
      came a (trace s) = went a (trace s) + held a s (app s) + ignored a (trace s)
  | Stop w s => w <> Faulted /\ exists others, forall a, a <> 0 ->
      went a (trace s) + held a s (others ++ app s) + ignored a (trace s) <= came a (trace s) /\
      (w = Blocked -> came a (trace s) = went a (trace s) + held a s (others ++ app s) + ignored a (trace s))
  end.
Proof.
  intros E fuel ops input. pose proof (okB_life E _ (goodB_of E fuel) ops [] none (start input) (start_hinv input)) as H.
  destruct (life E (fns_of E fuel) ops (start input)) as [u s|w s].
  - destruct H as [_ H]. cbn [Datatypes.app] in H. intros a Ha. rewrite <- (live_held _ _ s a H). destruct H as [_ H]. specialize (H a Ha).
    unfold none in H. lia.
  - destruct H as (Hw & T & D & H & H1 & H2). split; [exact Hw|]. exists T. intros a Ha. rewrite <- (live_held _ _ s a H).
    destruct H as [_ H]. specialize (H a Ha). specialize (H1 a). unfold none in *. split; [lia|]. intros Hb. specialize (H2 Hb a). lia.
Qed.
Print Assumptions C26_buffers_returned_once.

(* one buffer is kept by the handler, another one is the reply; they are returned when dropped *)
Example C26_case :
  match life ex_env (fns_of ex_env 60) [TopCall false; TopKeep 0; TopDrop 0] (start ex_input) with
  | Done _ s => map (buffer_of s) (app s) = [20480; 8192] /\ map (fun a => (came a (trace s), went a (trace s))) [8192; 12288; 16384; 20480] = [(1, 0); (1, 1); (1, 1); (1, 0)]
  | Stop _ _ => False
  end.
Proof. vm_compute. split; reflexivity. Qed.

(* ------------------------------------------------------------------ *)
(* C27. The status of a call is what the first command says which decides (a reply, dead or
   failed reply, or the completion of a one-way one), among those which it takes itself
   outside of incoming transactions; or the error of the system call. See [decide]. *)
Theorem C27_status : forall E fuel oneway s, octets (ios s) ->
  match transact E (fns_of E fuel) oneway s with
  | Done (status, _) s' => exists body,
      trace s' = trace s ++ Begin (Some oneway) :: body ++ [End status] /\ call_status (negb oneway) body status
  | Stop _ _ => True
  end.
Proof.
  intros E fuel oneway s Hs. pose proof (call_ok E _ (good_of E fuel) (Some oneway) s Hs) as H. cbn [call_of] in H. unfold bindM, ret in H.
  destruct (transact E (fns_of E fuel) oneway s) as [[st tk] s'|w s']; [|exact I].
  destruct H as (body & H1 & _ & _ & _ & _ & H6 & _). exists body. auto.
Qed.
Print Assumptions C27_status.

(* in particular *)
Theorem C27_dead_and_failed : forall reply body status, call_status reply body status -> 0 < status ->
  (status = 2 -> exists l r, mine 0 body = l ++ RDeadReply :: r) /\
  (status = 1 -> exists l r, mine 0 body = l ++ RFailedReply :: r) /\
  (status <> 1 -> status <> 2 -> exists l tx r, mine 0 body = l ++ RReply tx :: r /\ tx_status tx = status).
Proof.
  intros reply body status [(l & c & r & st & H1 & _ & H3 & H4)|(_ & e & _ & H)] Hp; [|lia].
  destruct H4 as [->|(_ & e & _ & H4)]; [|lia].
  assert (Hc : (c = RDeadReply /\ st = 2) \/ (c = RFailedReply /\ st = 1) \/ exists tx, c = RReply tx /\ tx_status tx = st /\ st <> 1 /\ st <> 2).
  { destruct c; cbn [decide] in H3; try discriminate.
    - destruct reply; [discriminate|]. apply some_same in H3. lia.
    - right. right. exists tx. unfold EAGAIN, EFAULT in H3.
      destruct (Z.eqb_spec (tx_status tx) (- (11))) as [Ha|Ha]; cbn [orb] in H3; [apply some_same in H3; lia|].
      destruct (Z.eqb_spec (tx_status tx) 1) as [Hb|Hb]; cbn [orb] in H3; [apply some_same in H3; lia|].
      destruct (Z.eqb_spec (tx_status tx) 2) as [Hd|Hd]; apply some_same in H3; [lia|]. repeat split; try lia.
    - left. apply some_same in H3. auto.
    - right. left. apply some_same in H3. auto. }
  destruct Hc as [[-> ->]|[[-> ->]|(tx & -> & H5 & H6 & H7)]]; (split; [|split]); try lia; intros; eauto.
Qed.
Print Assumptions C27_dead_and_failed.

(* success takes a reply, or the completion of a one-way transaction *)
Theorem C27_success : forall reply body, call_status reply body 0 ->
  if reply then exists l tx r, mine 0 body = l ++ RReply tx :: r /\ tx_status tx = 0
  else exists l c r, mine 0 body = l ++ c :: r /\ (c = RComplete \/ exists tx, c = RReply tx /\ tx_status tx = 0).
Proof.
  intros reply body [(l & c & r & st & H1 & _ & H3 & H4)|(_ & e & _ & H)]; [|lia].
  destruct H4 as [<-|(_ & e & _ & H4)]; [|lia].
  assert (Hc : (c = RComplete /\ reply = false) \/ exists tx, c = RReply tx /\ tx_status tx = 0).
  { destruct c; cbn [decide] in H3; try discriminate.
    - destruct reply; [discriminate|]. auto.
    - right. exists tx. unfold EAGAIN, EFAULT in H3. destruct (_ || _); apply some_same in H3; [lia|auto]. }
  destruct reply.
  - destruct Hc as [[_ Hc]|(tx & -> & Hc)]; [discriminate|eauto].
  - exists l, c, r. split; [exact H1|]. destruct Hc as [[-> _]|Hc]; auto.
Qed.
Print Assumptions C27_success.

(* a dead reply comes to the nested call (status 2), and the outer one gets EFAULT instead of 1 *)
Example C27_case :
  let input := [IoData (ex_cmd 6 ++ ex_tx 2 1 0 8 8192); IoData (ex_cmd 5); IoData (ex_cmd 6); IoData (ex_tx 3 0 8 4 0)] in
  let env1 := {| e_io := Io64; e_mem := fun _ a => if a =? 0 then 1 else 0; e_local := fun _ o => o =? 16; e_remote := fun _ _ => false;
     e_handler := e_handler ex_env; e_can_loop := fun _ => true |} in
  octets input /\
  match transact env1 (fns_of env1 40) false (start input) with
  | Done (st, _) s => st = - EFAULT /\ In (End 2) (trace s) /\ In (Returned true 2) (trace s)
  | Stop _ _ => False
  end.
Proof. cbv zeta. split; [apply ex_octets; vm_compute; reflexivity|]. vm_compute. split; [reflexivity|]. split; repeat (try (left; reflexivity); right). Qed.

(* ------------------------------------------------------------------ *)
(* C28. Objects which the kernel wants to be released during a call are released after
   everything which the call does (except for returning of buffers), once each and in the
   same order. Until it's over (or if it never ends), nothing is released. *)
Theorem C28_released_last : forall E fuel k s, octets (ios s) ->
  match call_of E (fns_of E fuel) k s with
  | Done status s' => exists body,
      trace s' = trace s ++ Begin k :: body ++ [End status] /\ released_last body
  | Stop w s' => exists body,
      trace s' = trace s ++ Begin k :: body /\ (w <> Faulted -> Forall not_unref (own 0 body))
  end.
Proof.
  intros E fuel k s Hs. pose proof (call_ok E _ (good_of E fuel) k s Hs) as H.
  destruct (call_of E (fns_of E fuel) k s) as [st s'|w s'].
  - destruct H as (body & H1 & _ & _ & _ & H5 & _). exists body. auto.
  - destruct H as (body & H1 & _ & _ & _ & H5). exists body. auto.
Qed.
Print Assumptions C28_released_last.

(* two objects are released in between of other commands *)
Example C28_case :
  let input := [IoData (ex_obj 10 16 ++ ex_obj 9 16 ++ ex_obj 9 17 ++ ex_obj 7 16)] in
  octets input /\
  match life ex_env (fns_of ex_env 40) [TopRead] (start input) with
  | Done _ s => notes (trace s) =
      [NBegin; NGot 10; NOther (Deferred false 16); NGot 9; NOther (Deferred true 16); NGot 9;
       NGot 7; NOther (Increfs 16); NWrote (WIncrefsDone (le 8 16 ++ le 8 0)); NOther (Unref false 16); NOther (Unref true 16); NEnd 0]
  | Stop _ _ => False
  end.
Proof. cbv zeta. split; [apply ex_octets; vm_compute; reflexivity|]. vm_compute. reflexivity. Qed.
