(* Property theorems about transactions of local objects. The vocabulary is in
   DispatchSpec.v, the modelled functions are in DispatchModel.v. *)
From Verif Require Import Base UtfModel WriterModel ReaderModel CodecSpec ObjModel ObjReader
  KernelModel ObjSpec HidlSpec ObjProps DispatchModel DispatchSpec DispatchProofs.

(* C36: a query is answered by the library, whatever the handler is. The handler isn't
   called, the transaction succeeds, and what the caller reads from the delivered reply are
   the interfaces with which the object was created, plus the base interface. *)
Theorem C36_queries_answered :
  forall (cm : cmode) (pr : protocol) (al : nat -> Z) (e : kenv) (given : list iname) (base : Z)
    (txproc : bool) (dropped : bool) (rc : receiver) (later : lobj) (iface : option bytes)
    (code flags : Z) (answer : result) (q : query),
  let i := k_io e in
  let o1 := init_base given base txproc in
  let o := if dropped then object_drop o1 else o1 in
  Forall (iname_ok i (k_mem e)) (lo_ifaces o1) -> 16 * blen (lo_ifaces o1) < 2 ^ 32 ->
  (forall j, is_addr i (al j)) -> asks code iface q ->
  exists all, object_interfaces (map in_text given) all /\
  exists ops, dispatch rc (Some o) later iface code flags answer = ((Some ops, 0), []) /\
  exists d, w_ops i pr al wd_empty ops = Ok d /\
    (blen (wd_bytes d) < 2 ^ 31 ->
     Forall (fun b => holds (k_mem e) (fst b) (snd b)) (wd_heap d) ->
     0 < k_sgbase e -> k_sgbase e + align8 (wd_bufsize d) < 2 ^ (8 * psz i) ->
     exists g p, k_send e (wd_bytes d) (wd_offsets d) (wd_bufsize d) = Some g /\
       read_items cm i pr g (reader_init 0 (blen (m_data g)) (wd_offsets d)) (query_kinds q) =
       Ok (query_items q all, p) /\
       r_ptr p = blen (m_data g) /\ r_objects p = []).
Proof.
  intros cm pr al e given base txproc dropped rc later iface code flags answer q i o1 o H1 H2 H3 H4.
  assert (Eo : lo_ifaces o = lo_ifaces o1) by (unfold o; destruct dropped; reflexivity).
  exists (map in_text (lo_ifaces o)). split; [rewrite Eo; apply interfaces_ok|].
  assert (Hne : lo_ifaces o <> []) by (rewrite Eo; apply init_base_nonempty).
  rewrite <- Eo in H1, H2.
  destruct (query_trip cm pr al e o iface code q Hne H1 H2 H3 H4) as (ops & E & Hd).
  exists ops. split; [|exact Hd].
  unfold dispatch. rewrite (asked_looper o iface code q H4), E. reflexivity.
Qed.
Print Assumptions C36_queries_answered.

(* C36: everything else is given to the handler, exactly once, with its code and flags, if
   there is one when the transaction arrives and still when it's handled; the reply is the one
   of the handler, and so is the status. Otherwise it's rejected. *)
Theorem C36_others_to_handler :
  forall (rc : receiver) (o later : lobj) (iface : option bytes) (code flags : Z) (answer : result),
  ~ (exists q, asks code iface q) ->
  dispatch rc (Some o) later iface code flags answer =
    if lo_txproc o && lo_txproc later then
      ((rs_reply answer,
        match rs_stored answer with
        | Some s => s
        | None => match rc with OtherThread => 0 | MainThread => - EBADMSG end
        end), [(code, flags)])
    else ((None, - EBADMSG), []).
Proof.
  intros rc o later iface code flags answer Hq. unfold dispatch.
  destruct (can_handle o iface code) eqn:E.
  - assert (T : lo_txproc o = false).
    { unfold can_handle in E. destruct (lo_txproc o); [|reflexivity].
      repeat match type of E with (if ?b then _ else _) = _ => destruct b end; try discriminate;
      destruct iface as [s|]; try discriminate; destruct (same_text _ _); discriminate. }
    rewrite T. reflexivity.
  - assert (T : lo_txproc o = true).
    { unfold can_handle in E. destruct (lo_txproc o); [reflexivity|].
      repeat match type of E with (if ?b then _ else _) = _ => destruct b end; try discriminate;
      destruct iface as [s|]; try discriminate; destruct (same_text _ _); discriminate. }
    rewrite T. reflexivity.
  - destruct (Hq (looper_asked o iface code E)).
Qed.
Print Assumptions C36_others_to_handler.

(* C36: once an object is dropped its handler is never called again, whether the transaction
   arrives afterwards or has arrived before that and was still to be handled; what isn't a
   query is rejected *)
Theorem C36_dropped_object_calls_nothing :
  forall (rc : receiver) (o : lobj) (before : bool) (iface : option bytes) (code flags : Z)
    (answer : result),
  ~ (exists q, asks code iface q) ->
  dispatch rc (Some (if before then object_drop o else o)) (object_drop o) iface code flags answer =
    ((None, - EBADMSG), []).
Proof.
  intros rc o before iface code flags answer Hq. rewrite C36_others_to_handler by exact Hq.
  cbn [object_drop lo_txproc]. rewrite andb_false_r. reflexivity.
Qed.
Print Assumptions C36_dropped_object_calls_nothing.

(* ... and what is for no object at all is rejected *)
Theorem C36_no_object :
  forall (rc : receiver) (later : lobj) (iface : option bytes) (code flags : Z) (answer : result),
  dispatch rc None later iface code flags answer = ((None, - EBADMSG), []).
Proof. reflexivity. Qed.
Print Assumptions C36_no_object.

(* C36, refuted: that the outcome depends on the handler alone. If it stores nothing in
   *status and returns no reply, then the transaction succeeds or fails depending on which
   thread has received it. *)
Theorem C36_same_everywhere_refuted :
  forall (o : lobj) (iface : option bytes) (code flags : Z),
  lo_txproc o = true -> ~ (exists q, asks code iface q) ->
  exists answer,
    fst (dispatch OtherThread (Some o) o iface code flags answer) = (None, 0) /\
    fst (dispatch MainThread (Some o) o iface code flags answer) = (None, - EBADMSG).
Proof.
  intros o iface code flags Ht Hq. exists {| rs_reply := None; rs_stored := None |}.
  rewrite !(C36_others_to_handler _ o o iface code flags _ Hq), Ht. split; reflexivity.
Qed.
Print Assumptions C36_same_everywhere_refuted.

(* non-vacuity: an object with two interfaces, which is asked for all of them; and a HIDL
   query with another interface, which the handler gets *)
Definition demo_name : iname := {| in_addr := 4096; in_text := [97; 0xe9; 98] |}.
Definition demo_base : iname := {| in_addr := 8192; in_text := hidl_base_interface |}.
Definition demo_mem : memory :=
  fun a => if (4096 <=? a) && (a <? 8192) then nth (Z.to_nat (a - 4096)) (utf8 (in_text demo_name)) 0
           else nth (Z.to_nat (a - 8192)) (utf8 hidl_base_interface) 0.
Definition demo_object : lobj := init_base [demo_name] 8192 true.
Example demo_ok : Forall (iname_ok Io64 demo_mem) (lo_ifaces demo_object).
Proof.
  change (lo_ifaces demo_object) with [demo_name; demo_base].
  assert (Hs : forall n, forallb (fun c => (0 <? c) && (c <? 0xd800)) (in_text n) = true ->
    Forall is_scalar (in_text n) /\ ~ In 0 (in_text n)).
  { intros n H. rewrite forallb_forall in H. split.
    - rewrite Forall_forall. intros x Hx. specialize (H x Hx). unfold is_scalar.
      apply andb_true_iff in H. rewrite !Z.ltb_lt in H. lia.
    - intros Hx. specialize (H 0 Hx). discriminate. }
  assert (Hb : forall l, forallb (fun c => (0 <? c) && (c <? 256)) l = true -> all_bytes l /\ ~ In 0 l).
  { intros l H. rewrite forallb_forall in H. split.
    - unfold all_bytes. rewrite Forall_forall. intros x Hx. specialize (H x Hx). unfold is_byte.
      apply andb_true_iff in H. rewrite !Z.ltb_lt in H. lia.
    - intros Hx. specialize (H 0 Hx). discriminate. }
  constructor; [|constructor; [|constructor]].
  - destruct (Hs demo_name eq_refl) as [A B]. split; [exact A|]. split; [exact B|].
    split; [unfold is_addr; cbn; lia|]. destruct (Hb (utf8 (in_text demo_name)) eq_refl) as [C D].
    split; [exact C|]. split; [exact D|]. split; [vm_compute; reflexivity|]. vm_compute. reflexivity.
  - destruct (Hs demo_base eq_refl) as [A B]. split; [exact A|]. split; [exact B|].
    split; [unfold is_addr; cbn; lia|]. destruct (Hb (utf8 (in_text demo_base)) eq_refl) as [C D].
    split; [exact C|]. split; [exact D|]. split; [vm_compute; reflexivity|]. vm_compute. reflexivity.
Qed.
Example demo_chain :
  asks 0x0f43484e (Some hidl_base_interface) QHidlChain /\
  query_items QHidlChain [in_text demo_name; hidl_base_interface] =
    [IPlain (RNum 0); IStrings [[97; 0xc3; 0xa9; 98]; hidl_base_interface]].
Proof. split; [split; reflexivity|]. vm_compute. reflexivity. Qed.
Example demo_other :
  dispatch OtherThread (Some demo_object) demo_object (Some [97]) 0x0f43484e 0
    {| rs_reply := Some []; rs_stored := Some 0 |} = ((Some [], 0), [(0x0f43484e, 0)]).
Proof. vm_compute. reflexivity. Qed.
