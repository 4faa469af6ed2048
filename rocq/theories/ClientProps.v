(* Property theorems about clients and calls of service managers. The vocabulary
   is in ClientSpec.v, the modelled functions are in ClientModel.v. *)
From Verif Require Import Base UtfModel WriterModel ReaderModel CodecSpec ObjModel ObjReader
  KernelModel ObjSpec HidlSpec ObjProps RpcModel RpcSpec RpcProofs ClientModel ClientSpec ClientProofs.

(* C37: whatever the order in which the interfaces are given and whatever sorting
   does with equal ones, a code gets the interface with the smallest last code which
   is not below it: its name, its header and its empty request. *)
Theorem C37_interface_of_code :
  forall (qsort : list range -> list range) (pr : protocol) (infos : list iface_info)
    (rs : list range) (dead : bool) (code : Z),
  qsort_contract sort_ranges qsort -> infos <> [] -> client_new2 qsort pr infos = Ok rs ->
  let c := {| cl_dead := dead; cl_ranges := rs |} in
  (exists x, In x infos /\ code <= if_last x) ->
  exists x hdr, best_match infos code x /\ new_iface pr (if_iface x) = Ok hdr /\
    interface2 c code = if_iface x /\ rpc_header c code = Some hdr /\
    new_request2 c code = Some {| rq_header := hdr; rq_ops := [] |} /\
    default_request c code = Some {| rq_header := hdr; rq_ops := [] |}.
Proof.
  intros qs pr infos rs dead code Hq Hne E c (y & Hy & Hc).
  pose proof (ranges_match qs pr infos rs code Hq Hne E) as H.
  unfold interface2, rpc_header, new_request2, default_request, pick_request. cbn [cl_ranges c].
  destruct (find_range rs code) as [r|].
  - destruct H as (x & Hb & M1 & M2 & hdr & M3 & M4 & M5). exists x, hdr. rewrite M1, M4, M5. auto 10.
  - rewrite Forall_forall in H. specialize (H y Hy). lia.
Qed.
Print Assumptions C37_interface_of_code.

(* ... and codes above all ranges are refused: no interface, no header, no request,
   and a call without a request makes no transaction *)
Theorem C37_refused_above_all :
  forall (qsort : list range -> list range) (pr : protocol) (infos : list iface_info)
    (rs : list range) (dead : bool) (code : Z) (a : answer),
  qsort_contract sort_ranges qsort -> infos <> [] -> client_new2 qsort pr infos = Ok rs ->
  let c := {| cl_dead := dead; cl_ranges := rs |} in
  Forall (fun x => if_last x < code) infos ->
  interface2 c code = None /\ rpc_header c code = None /\ new_request2 c code = None /\
  snd (sync_reply2 (Some c) code None a) = None /\ snd (sync_oneway2 (Some c) code None a) = None.
Proof.
  intros qs pr infos rs dead code a Hq Hne E c Hf.
  pose proof (ranges_match qs pr infos rs code Hq Hne E) as H.
  unfold interface2, rpc_header, new_request2, sync_reply2, sync_oneway2, pick_request. cbn [cl_ranges cl_dead c].
  destruct (find_range rs code) as [r|].
  - destruct H as (x & (H1 & H2 & _) & _). rewrite Forall_forall in Hf. specialize (Hf x H1). lia.
  - destruct dead; repeat split.
Qed.
Print Assumptions C37_refused_above_all.

(* ... and a client which was made without interfaces accepts all codes, and the requests
   have no header *)
Theorem C37_without_interfaces :
  forall (qsort : list range -> list range) (pr : protocol) (dead : bool) (code : Z),
  0 <= code < 2 ^ 32 ->
  exists rs, client_new2 qsort pr [] = Ok rs /\
  let c := {| cl_dead := dead; cl_ranges := rs |} in
  interface2 c code = None /\ rpc_header c code = None /\
  new_request2 c code = Some {| rq_header := []; rq_ops := [] |} /\
  default_request c code = Some {| rq_header := []; rq_ops := [] |}.
Proof.
  intros qs pr dead code Hc. eexists. split; [reflexivity|]. cbv zeta.
  assert (E : code <=? UINT_MAX = true) by (unfold UINT_MAX; lia).
  unfold interface2, rpc_header, new_request2, default_request, pick_request. cbn [cl_ranges find_range].
  unfold find_range. cbn -[UINT_MAX Z.leb]. rewrite ?E. repeat split.
Qed.
Print Assumptions C37_without_interfaces.
Example C37_without_interfaces_ex :
  exists rs, client_new2 put_all Aidl2 [] = Ok rs /\
  new_request2 {| cl_dead := false; cl_ranges := rs |} (2 ^ 32 - 1) = Some {| rq_header := []; rq_ops := [] |}.
Proof. eexists. split; reflexivity. Qed.

(* gbinder_client_new: one interface for all codes *)
Theorem C37_one_interface :
  forall (qsort : list range -> list range) (pr : protocol) (iface : option bytes) (rs : list range) (dead : bool) (code : Z),
  qsort_contract sort_ranges qsort -> client_new qsort pr iface = Ok rs -> 0 <= code < 2 ^ 32 ->
  let c := {| cl_dead := dead; cl_ranges := rs |} in
  exists hdr, new_iface pr iface = Ok hdr /\ interface2 c code = iface /\ rpc_header c code = Some hdr /\
    new_request c = Some {| rq_header := hdr; rq_ops := [] |} /\
    new_request2 c code = Some {| rq_header := hdr; rq_ops := [] |} /\
    default_request c code = Some {| rq_header := hdr; rq_ops := [] |}.
Proof.
  intros qs pr iface rs dead code Hq E Hc c.
  destruct (C37_interface_of_code qs pr [{| if_iface := iface; if_last := UINT_MAX |}] rs dead code Hq ltac:(discriminate) E)
    as (x & hdr & (Hin & _) & Hn & Hi & Hr & H2 & Hd).
  { eexists. split; [left; reflexivity|]. cbn [if_last]. unfold UINT_MAX. lia. }
  destruct Hin as [<-|[]]. cbn [if_iface] in *. exists hdr. do 3 (split; [assumption|]). split; [|split; assumption].
  unfold client_new, client_new2, init_ranges, init_range in E. cbn [if_iface if_last] in E.
  rewrite Hn in E. cbn [Base.bind] in E. injection E as <-.
  destruct (Hq [{| rg_iface := iface; rg_header := Some hdr; rg_basic := hdr; rg_last := UINT_MAX |}]) as [P _].
  apply Permutation.Permutation_length_1_inv in P. unfold new_request. cbn [cl_ranges c]. rewrite P. reflexivity.
Qed.
Print Assumptions C37_one_interface.
Example C37_one_interface_ex :
  exists rs, client_new put_all Aidl2 (Some [65]) = Ok rs /\
  interface2 {| cl_dead := false; cl_ranges := rs |} (2 ^ 32 - 1) = Some [65].
Proof. eexists. split; reflexivity. Qed.

(* ... and the receiver of a transaction finds exactly this interface in it *)
Theorem C37_receiver_sees_interface :
  forall (m : cmode) (qsort : list range -> list range) (pr : protocol) (infos : list iface_info)
    (rs : list range) (dead : bool) (code : Z) (payload : bytes) (objs : list Z),
  qsort_contract sort_ranges qsort -> infos <> [] -> client_new2 qsort pr infos = Ok rs ->
  has_header pr code -> Forall (fun x => exists s, if_iface x = Some s /\ iface_ok pr s) infos ->
  let c := {| cl_dead := dead; cl_ranges := rs |} in
  (exists x, In x infos /\ code <= if_last x) ->
  exists x name q, best_match infos code x /\ if_iface x = Some name /\
    new_request2 c code = Some q /\
    (blen (rq_header q ++ payload) < 2 ^ 31 ->
     set_data pr m (rq_header q ++ payload) objs code = Ok (Some name, blen (rq_header q))).
Proof.
  intros m qs pr infos rs dead code payload objs Hq Hne E Hh Hi c Hx.
  destruct (C37_interface_of_code qs pr infos rs dead code Hq Hne E Hx)
    as (x & hdr & Hb & En & _ & _ & Er & _).
  destruct Hb as (Hin & Hb). rewrite Forall_forall in Hi.
  destruct (Hi x Hin) as (name & Es & Hn).
  exists x, name. eexists. split; [split; assumption|]. split; [assumption|].
  split; [exact Er|]. cbn [rq_header]. intros Hl.
  destruct (header_roundtrip m pr name payload objs code Hn Hh) as (hdr1 & E1 & _ & H1).
  rewrite Es in En. assert (hdr1 = hdr) by congruence. subst hdr1. exact (proj1 (H1 Hl)).
Qed.
Print Assumptions C37_receiver_sees_interface.

(* non-vacuity: interfaces in the wrong order, two of them with the same last code *)
Definition infos4 : list iface_info :=
  [{| if_iface := Some [67]; if_last := 30 |}; {| if_iface := Some [65]; if_last := 10 |};
   {| if_iface := Some [68]; if_last := 30 |}; {| if_iface := Some [66]; if_last := 20 |}].
Example infos4_client :
  match client_new2 put_all Aidl2 infos4 with
  | Ok rs =>
    map (interface2 {| cl_dead := false; cl_ranges := rs |}) [0; 10; 11; 20; 21; 31] =
    [Some [65]; Some [65]; Some [66]; Some [66]; Some [67]; None]
  | Fault _ => False
  end.
Proof. vm_compute. reflexivity. Qed.
Example sorting_exists : qsort_contract sort_ranges put_all.
Proof. exact put_all_sorts. Qed.

(* ------------------------------------------------------------------ *)
(* C38. A synchronous call stores a status exactly if it makes the transaction,
   and the status is the one of the driver *)
Theorem C38_sync_reply_status :
  forall (c : option client) (code : Z) (req : option request) (a : answer)
    (r : option reply) (stored : option Z) (tx : option sent),
  sync_reply2 c code req a = (r, stored, tx) ->
  (forall st, stored = Some st -> st = an_status a /\ exists q, tx = Some (code, q)) /\
  (stored = None -> r = None /\ tx = None) /\
  (forall rep, r = Some rep -> rep = an_reply a /\ stored <> None).
Proof.
  intros c code req a r stored tx. unfold sync_reply2.
  assert (Hn : (None, None, None) = (r, stored, tx) ->
    (forall st, stored = Some st -> st = an_status a /\ exists q, tx = Some (code, q)) /\
    (stored = None -> r = None /\ tx = None) /\
    (forall rep, r = Some rep -> rep = an_reply a /\ stored <> None)).
  { intros E. injection E as <- <- <-. repeat split; discriminate. }
  destruct c as [c|]; [|exact Hn]. destruct (cl_dead c); [exact Hn|].
  destruct (pick_request c code req) as [q|]; [|exact Hn].
  unfold ipc_sync_reply. intros E. injection E as <- <- <-. split; [|split].
  - intros st Hs. injection Hs as <-. eauto.
  - discriminate.
  - intros rep Hr. destruct ((an_status a =? 0) || _); [|discriminate]. injection Hr as <-.
    split; [reflexivity|discriminate].
Qed.
Print Assumptions C38_sync_reply_status.

(* ... one-way calls always report one, and it means success only if the
   transaction was accepted by the driver *)
Theorem C38_oneway_status :
  forall (c : option client) (code : Z) (req : option request) (a : answer),
  fst (sync_oneway2 c code req a) = 0 ->
  an_status a = 0 /\ exists q, snd (sync_oneway2 c code req a) = Some (code, q).
Proof.
  intros c code req a. unfold sync_oneway2. destruct c as [c|]; [|discriminate].
  destruct (cl_dead c); [discriminate|]. destruct (pick_request c code req) as [q|]; [|discriminate].
  cbn [fst snd]. eauto.
Qed.
Print Assumptions C38_oneway_status.

(* C38, refuted: if the service manager is known to be dead, registering a service
   returns the value of an uninitialized variable (None), whatever the arguments *)
Theorem C38_add_service_status_refuted :
  forall (k : smkind) (c : client) (n : smname) (obj : local) (a : answer),
  cl_dead c = true -> sm_add_service_sync k (Some c) (Some n) (Some obj) a = (None, None).
Proof.
  intros k c n obj a H. cbn [sm_add_service_sync]. unfold sm_add_service, sync_reply2.
  rewrite H. reflexivity.
Qed.
Print Assumptions C38_add_service_status_refuted.

(* ... and the exact conditions under which it's the right one. Missing: a dead
   manager. *)
Theorem C38_add_service_status_partial :
  forall (k : smkind) (c : option client) (n : option smname) (obj : option local) (a : answer),
  (forall c1, c = Some c1 -> cl_dead c1 = false /\ cl_ranges c1 <> []) ->
  exists st, fst (sm_add_service_sync k c n obj a) = Some st /\
    (st = 0 -> an_status a = 0 /\
       exists q, snd (sm_add_service_sync k c n obj a) = Some (register_number k, q)) /\
    (an_status a = 0 -> c <> None -> n <> None -> obj <> None -> st = 0).
Proof.
  intros k c n obj a Hc. unfold sm_add_service_sync.
  destruct c as [c|]; [|exists (- EINVAL); repeat split; unfold EINVAL; try discriminate; congruence].
  destruct n as [n|]; [|exists (- EINVAL); repeat split; unfold EINVAL; try discriminate; congruence].
  destruct obj as [obj|]; [|exists (- EINVAL); repeat split; unfold EINVAL; try discriminate; congruence].
  destruct (Hc c eq_refl) as [Hd Hr].
  assert (Hq : exists q, new_request c = Some q).
  { unfold new_request. destruct (cl_ranges c) as [|r rr]; [congruence|]. eauto. }
  destruct Hq as (q & Eq). rewrite (add_service_sends k c n (Some obj) a q Hd Eq). cbn [fst snd].
  exists (an_status a). split; [reflexivity|].
  assert (En : add_service_code k = register_number k) by (destruct k; reflexivity). rewrite En. split; eauto.
Qed.
Print Assumptions C38_add_service_status_partial.

Definition alive : client :=
  {| cl_dead := false; cl_ranges := [{| rg_iface := Some [65]; rg_header := Some [1; 2; 3; 4];
       rg_basic := [1; 2; 3; 4]; rg_last := UINT_MAX |}] |}.
Definition some_object : local := {| lo_ptr := 4096; lo_stability := 12 |}.
Example add_service_case :
  fst (sm_add_service_sync SmAidl3 (Some alive) (Some (NText [65])) (Some some_object)
        {| an_status := -7; an_reply := None |}) = Some (-7).
Proof. reflexivity. Qed.

(* ------------------------------------------------------------------ *)
(* C50: the names which an aidl service manager gives for the indices 0, 1, ... are
   returned in this order, and these indices are asked for, once each *)
Theorem C50_list_by_index :
  forall (m : cmode) (k : smkind) (c : client) (peer : nat -> answer) (names : list bytes)
    (fuel : nat),
  k = SmAidl \/ k = SmAidl2 ->
  cl_dead c = false -> cl_ranges c <> [] -> names_services m peer names ->
  (length names < fuel)%nat ->
  exists txs, aidl_list m k c peer fuel [] = Ok (Some (names, txs)) /\
    exists q, new_request c = Some q /\
    txs = map (fun n => (list_number k,
                         {| rq_header := rq_header q; rq_ops := list_arguments k n |}))
              (seq 0 (S (length names))).
Proof.
  intros m k c peer names fuel Hk H1 H2 H3 H4.
  destruct (aidl_list_done m k c peer names H1 H2 H3 fuel [] names eq_refl H4) as (txs & E & q & Eq & Et).
  exists txs. split; [exact E|]. exists q. split; [exact Eq|]. rewrite Et. apply map_ext. intros n.
  destruct Hk as [-> | ->]; reflexivity.
Qed.
Print Assumptions C50_list_by_index.

(* ... but a manager which never stops is listened to forever: the length of the list
   isn't bounded by anything *)
Theorem C50_list_ends_refuted :
  forall (m : cmode) (k : smkind) (c : client) (peer : nat -> answer),
  cl_dead c = false -> cl_ranges c <> [] ->
  (forall n, exists s, text_reply m (peer n) (Some s)) ->
  forall fuel, aidl_list m k c peer fuel [] = Ok None.
Proof. intros m k c peer H1 H2 H3 fuel. exact (aidl_list_endless m k c peer H1 H2 H3 fuel []). Qed.
Print Assumptions C50_list_ends_refuted.

(* C50, aidl3 and aidl4: the names in the reply are returned in this order *)
Theorem C50_list_in_reply :
  forall (m : cmode) (k : smkind) (c : client) (st : Z) (names : list (list Z)),
  k = SmAidl3 \/ k = SmAidl4 -> cl_dead c = false -> cl_ranges c <> [] ->
  in_range (- 2 ^ 31) (2 ^ 31) st -> Forall (fun s => Forall is_scalar s /\ ~ In 0 s) names ->
  exists b, append_values [] (VInt32 st :: VInt32 (blen names) ::
                              map (fun s => VString16 (Some s)) names) = Ok b /\
    (blen b < 2 ^ 31 ->
     exists l q, new_request c = Some q /\
       aidl3_list m c (data_answer b) =
         Ok (l, Some (list_number k, {| rq_header := rq_header q; rq_ops := list_arguments k 0 |})) /\
       visible l = map utf8 names /\ length l = length names).
Proof.
  intros m k c st names Hk Hd Hr Hs Hn. destruct (aidl3_list_ok m st names Hs Hn) as (b & E & H).
  exists b. split; [exact E|]. intros Hb. destruct (H Hb) as (l & El & Hv & Hl).
  assert (Hq : exists q, new_request c = Some q).
  { unfold new_request. destruct (cl_ranges c) as [|r rr]; [congruence|]. eauto. }
  destruct Hq as (q & Eq). exists l, q. split; [exact Eq|]. split; [|auto].
  unfold aidl3_list, sync_reply2. rewrite Hd, Eq. cbn [append_ops pick_request].
  rewrite (new_request_empty c q Eq).
  destruct (ipc_sync_reply (data_answer b)) as [r st1] eqn:Ei. cbn [fst] in El. rewrite El. cbn [bind].
  destruct Hk as [-> | ->]; reflexivity.
Qed.
Print Assumptions C50_list_in_reply.

(* C50, refuted: eight bytes of reply make an array with as many entries as the
   manager likes, none of which is in the reply *)
Theorem C50_length_bounded_refuted :
  forall (m : cmode) (n : Z), 0 <= n < 2 ^ 31 ->
  exists b, blen b = 8 /\
    aidl3_list_reply m (fst (ipc_sync_reply (data_answer b))) = Ok (repeat None (Z.to_nat n)).
Proof.
  intros m n Hn. exists (le 4 0 ++ le 4 n). split; [reflexivity|]. exact (aidl3_list_any m n Hn).
Qed.
Print Assumptions C50_length_bounded_refuted.

(* C50, hidl: the strings in the reply, as it is delivered by the driver *)
Theorem C50_hidl_list :
  forall (pr : protocol) (al : nat -> Z) (e : kenv) (c : client) (l : list cstring),
  let i := k_io e in
  cl_dead c = false -> cl_ranges c <> [] ->
  (forall j, is_addr i (al j)) -> call_ok i pr (k_mem e) (OpHidlStringVec l) ->
  exists d, w_ops i pr al wd_empty [OpPlain (VInt32 0); OpHidlStringVec l] = Ok d /\
    (blen (wd_bytes d) < 2 ^ 31 ->
     Forall (fun b => holds (k_mem e) (fst b) (snd b)) (wd_heap d) ->
     0 < k_sgbase e -> k_sgbase e + align8 (wd_bufsize d) < 2 ^ (8 * psz i) ->
     exists g, k_send e (wd_bytes d) (wd_offsets d) (wd_bufsize d) = Some g /\
       forall st, exists q, new_request c = Some q /\
       hidl_list i c {| an_status := st; an_reply := Some (g, wd_offsets d) |} =
         Ok (Some (map cstr_text l),
             Some (list_number SmHidl, {| rq_header := rq_header q; rq_ops := list_arguments SmHidl 0 |}))).
Proof.
  intros pr al e c l i H1 H2 H3 H4. destruct (hidl_list_ok pr al e c l H1 H2 H3 H4) as (d & E & H).
  exists d. split; [exact E|]. intros H5 H6 H7 H8. destruct (H H5 H6 H7 H8) as (g & S1 & S2).
  exists g. split; [exact S1|]. intros st. destruct (S2 st) as (tx & E2).
  assert (Hq : exists q, new_request c = Some q).
  { unfold new_request. destruct (cl_ranges c) as [|r rr]; [congruence|]. eauto. }
  destruct Hq as (q & Eq). exists q. split; [exact Eq|]. fold i in E2. rewrite E2. do 2 f_equal.
  revert E2. unfold hidl_list, sync_reply2. rewrite H1, Eq. cbn [pick_request ipc_sync_reply an_status an_reply].
  rewrite Bool.orb_true_r. destruct (rd_int32 _ _) as [[v p1]|]; cbn [bind]; [|discriminate].
  destruct (rd_hidl_string_vec i g p1) as [[v2 p2]|]; cbn [bind]; [|discriminate].
  intros E2. assert (Et : tx = (HIDL_LIST_TRANSACTION, q)) by congruence. rewrite Et. f_equal.
  destruct q as [hd ops]. pose proof (new_request_empty c _ Eq) as He. cbn [rq_ops] in He. subst ops. reflexivity.
Qed.
Print Assumptions C50_hidl_list.

(* non-vacuity: a manager with two services *)
Definition two_services (n : nat) : answer :=
  match n with
  | 0%nat => data_answer (le 4 1 ++ [65; 0; 0; 0])
  | 1%nat => data_answer (le 4 2 ++ [66; 0; 67; 0; 0; 0; 0; 0])
  | _ => {| an_status := -1; an_reply := None |}
  end.
Example two_services_named : names_services Strict two_services [[65]; [66; 67]].
Proof.
  split.
  - intros n s H. destruct n as [|[|[|n]]]; cbn [nth_error] in H; try discriminate;
      injection H as <-; eexists; (split; [reflexivity|vm_compute; reflexivity]).
  - left. vm_compute. reflexivity.
Qed.
Example two_services_listed :
  match aidl_list Strict SmAidl alive two_services 10 [] with
  | Ok (Some (l, txs)) => l = [[65]; [66; 67]] /\ length txs = 3%nat
  | _ => False
  end.
Proof. vm_compute. auto. Qed.

(* ------------------------------------------------------------------ *)
(* C54: a registration arrives at the service manager as the name, the object, and
   the numbers which the manager expects. Missing: aidl4, see below. *)
Theorem C54_registration_arrives_partial :
  forall (cm : cmode) (pr : protocol) (al : nat -> Z) (e : kenv) (k : smkind) (c : client)
    (n : smname) (obj : local) (q : request),
  let i := k_io e in
  k <> SmAidl4 -> name_kind_ok k n -> cl_dead c = false -> new_request c = Some q ->
  all_bytes (rq_header q) -> rq_header q <> [] -> blen (rq_header q) mod 4 = 0 ->
  (forall j, is_addr i (al j)) -> call_ok i pr (k_mem e) (name_op n) ->
  call_ok i pr (k_mem e) (OpLocal (Some obj)) ->
  forall a, exists q1, snd (sm_add_service k c n (Some obj) a) = Some (register_number k, q1) /\
  exists d, w_ops i pr al wd_empty (request_ops q1) = Ok d /\
    (blen (wd_bytes d) < 2 ^ 31 ->
     Forall (fun b => holds (k_mem e) (fst b) (snd b)) (wd_heap d) ->
     0 < k_sgbase e -> k_sgbase e + align8 (wd_bufsize d) < 2 ^ (8 * psz i) ->
     exists g p, k_send e (wd_bytes d) (wd_offsets d) (wd_bufsize d) = Some g /\
       read_items cm i pr g (reader_init 0 (blen (m_data g)) (wd_offsets d))
         (RKPlain (KRaw (length (rq_header q))) :: registration_kinds k n) =
       Ok (IPlain (RBytes (rq_header q)) ::
           registration_items k n (u32 (k_node e (lo_ptr obj))), p) /\
       r_ptr p = blen (m_data g) /\ r_objects p = []).
Proof.
  intros cm pr al e k c n obj q i Hk. assert (En : register_number k = add_service_code k) by (destruct k; reflexivity).
  rewrite En. exact (registration_trip cm pr al e k c n obj q Hk).
Qed.
Print Assumptions C54_registration_arrives_partial.

(* C54, refuted for aidl4 with the protocol which the presets combine it with: the
   stability of the object is sent twice, the manager takes the second one for the
   flag which lets isolated processes use the service *)
Definition aidl4_request : list op :=
  match snd (sm_add_service SmAidl4 alive (NText [65]) (Some some_object) {| an_status := 0; an_reply := None |}) with
  | Some (_, q) => request_ops q
  | None => []
  end.
Theorem C54_registration_arrives_refuted :
  match w_ops Io64 Aidl3 no_heap wd_empty aidl4_request with
  | Ok d =>
    match k_send (sample_env Io64) (wd_bytes d) (wd_offsets d) (wd_bufsize d) with
    | Some g =>
      match read_items Strict Io64 Aidl3 g (reader_init 0 (blen (m_data g)) (wd_offsets d))
              (RKPlain (KRaw 4) :: registration_kinds SmAidl4 (NText [65])) with
      | Ok (items, _) =>
        items = [IPlain (RBytes [1; 2; 3; 4]); IPlain (RText (Some [65])); IObject (Some 1);
                 IPlain (RNum 0x0c000001); IPlain (RNum 0)]
      | Fault _ => False
      end
    | None => False
    end
  | Fault _ => False
  end.
Proof. vm_compute. reflexivity. Qed.
Print Assumptions C54_registration_arrives_refuted.

(* C54: a lookup of a hidl service asks for the two parts of the name, and without
   a slash nothing is sent *)
Theorem C54_hidl_lookup :
  forall (i : io) (pr : protocol) (c : client) (fq inst : Z) (t : bytes) (a : answer)
    (o st : option Z) (tx : option sent),
  cl_dead c = false -> cl_ranges c <> [] ->
  sm_get_service SmHidl i pr c (NString fq t) inst a = Ok (o, st, tx) ->
  match tx with
  | Some (code, q) =>
    code = lookup_number SmHidl /\ st = Some (an_status a) /\
    exists n1 n2, t = n1 ++ [0x2f] ++ n2 /\ ~ In 0x2f n1 /\
      rq_ops q = [OpHidlString (Some (fq, n1)); OpHidlString (Some (inst, n2))]
  | None => ~ In 0x2f t /\ st = Some (- EINVAL) /\ o = None
  end.
Proof.
  intros i pr c fq inst t a o st tx Hd Hr. unfold sm_get_service. cbn [get_service_args].
  assert (Hs : match split_slash t with
               | Some (x, y) => t = x ++ [0x2f] ++ y /\ ~ In 0x2f x
               | None => ~ In 0x2f t end).
  { clear. induction t as [|ch t IH]; cbn [split_slash]; [intros []|].
    destruct (Z.eqb_spec ch 0x2f) as [->|Hne].
    - split; [reflexivity|intros []].
    - destruct (split_slash t) as [[x y]|].
      + destruct IH as [-> IH]. split; [reflexivity|]. intros [H|H]; [lia|contradiction].
      + intros [H|H]; [lia|contradiction]. }
  destruct (split_slash t) as [[x y]|].
  - assert (Hq : exists q, new_request c = Some q).
    { unfold new_request. destruct (cl_ranges c) as [|r rr]; [congruence|]. eauto. }
    destruct Hq as (q & Eq). unfold sync_reply2. rewrite Hd, Eq. cbn [append_ops pick_request].
    unfold ipc_sync_reply. destruct (reply_object _ _ _ _) as [o1|f]; cbn [bind]; [|discriminate].
    intros E. cbn [get_service_code] in E. assert (Ht : tx = Some (HIDL_GET_TRANSACTION, {| rq_header := rq_header q;
       rq_ops := rq_ops q ++ [OpHidlString (Some (fq, x)); OpHidlString (Some (inst, y))] |}) /\
       st = Some (an_status a)) by (split; congruence).
    destruct Ht as [-> ->]. split; [reflexivity|]. split; [reflexivity|].
    exists x, y. destruct Hs as [Hs1 Hs2]. rewrite (new_request_empty c q Eq). auto.
  - intros E. assert (Ht : tx = None /\ st = Some (- EINVAL) /\ o = None) by (repeat split; congruence).
    destruct Ht as (-> & -> & ->). auto.
Qed.
Print Assumptions C54_hidl_lookup.

(* C54: and of an aidl one for the name; and the object which is in the reply is the result,
   in each of the formats which the managers use *)
Theorem C54_aidl_lookup :
  forall (k : smkind) (i : io) (pr : protocol) (c : client) (s : list Z) (inst : Z) (a : answer)
    (o st : option Z) (tx : option sent),
  k <> SmHidl -> cl_dead c = false -> cl_ranges c <> [] ->
  sm_get_service k i pr c (NText s) inst a = Ok (o, st, tx) ->
  st = Some (an_status a) /\
  exists q, new_request c = Some q /\
    tx = Some (lookup_number k, {| rq_header := rq_header q; rq_ops := [OpPlain (VString16 (Some s))] |}).
Proof.
  intros k i pr c s inst a o st tx Hk Hd Hr. unfold sm_get_service. cbn [get_service_args].
  assert (Hq : exists q, new_request c = Some q).
  { unfold new_request. destruct (cl_ranges c) as [|r rr]; [congruence|]. eauto. }
  destruct Hq as (q & Eq). unfold sync_reply2. rewrite Hd, Eq. cbn [append_ops pick_request].
  unfold ipc_sync_reply. destruct (reply_object _ _ _ _) as [o1|f]; cbn [bind]; [|discriminate].
  intros E. split; [congruence|]. exists q. split; [reflexivity|].
  assert (En : get_service_code k = lookup_number k) by (destruct k; try reflexivity; congruence).
  rewrite <- En, (new_request_empty c q Eq) in *. cbn [Datatypes.app] in E. congruence.
Qed.
Print Assumptions C54_aidl_lookup.

Theorem C54_lookup_result :
  forall (cm : cmode) (k : smkind) (i : io) (pr : protocol) (c : client) (n : smname) (inst : Z)
    (st : Z) (g : message) (objs : list Z) (items : list ritem) (p : reader) (h : option Z)
    (o stored : option Z) (tx : option sent),
  cl_dead c = false -> cl_ranges c <> [] ->
  (k = SmHidl -> exists fq t, n = NString fq t /\ In 0x2f t) -> (k <> SmHidl -> exists s, n = NText s) ->
  read_items cm i pr g (reader_init 0 (blen (m_data g)) objs) (lookup_kinds k) = Ok (items, p) ->
  last items IFail = IObject h ->
  sm_get_service k i pr c n inst {| an_status := st; an_reply := Some (g, objs) |} = Ok (o, stored, tx) ->
  o = h.
Proof.
  intros cm k i pr c n inst st g objs items p h o stored tx Hd Hr Hn1 Hn2 R L.
  assert (Hq : exists q, new_request c = Some q).
  { unfold new_request. destruct (cl_ranges c) as [|r rr]; [congruence|]. eauto. }
  destruct Hq as (q & Eq).
  assert (Ha : exists args, get_service_args n inst = Some args).
  { destruct k; try (destruct Hn2 as (s & ->); [discriminate|]; cbn [get_service_args]; eauto).
    destruct (Hn1 eq_refl) as (fq & t & -> & Ht). cbn [get_service_args].
    assert (Hs : exists x, split_slash t = Some x).
    { clear - Ht. induction t as [|ch t IH]; cbn [split_slash]; [contradiction|].
      destruct (Z.eqb_spec ch 0x2f) as [->|Hne]; [eauto|]. destruct Ht as [Ht|Ht]; [congruence|].
      destruct (IH Ht) as ([x y] & ->). eauto. }
    destruct Hs as ([x y] & ->). eauto. }
  destruct Ha as (args & Ea). unfold sm_get_service. rewrite Ea. unfold sync_reply2. rewrite Hd, Eq.
  cbn [append_ops pick_request ipc_sync_reply an_status an_reply]. rewrite Bool.orb_true_r.
  assert (Ho : reply_object k i pr (Some (Some (g, objs))) = Ok h).
  { assert (Hone : forall p0 its, read_items cm i pr g p0 [RKObject] = Ok (its, p) -> last its IFail = IObject h ->
      exists p1, rd_nullable_object i pr g p0 = Ok (Some h, p1)).
    { intros p0 its R0 L0. cbn [read_items read_item] in R0. unfold wrapi in R0.
      destruct (rd_nullable_object i pr g p0) as [[[h0|] p1]|f]; cbn [bind] in R0; try discriminate.
      - assert (its = [IObject h0]) by congruence. subst its. cbn [last] in L0.
        exists p1. congruence.
      - assert (its = [IFail]) by congruence. subst its. discriminate. }
    destruct k; cbn [lookup_kinds reply_object] in *;
      try (destruct (Hone _ _ R L) as (p1 & E1); cbn [bind]; rewrite E1; reflexivity);
    (apply items_cons2 in R; destruct R as (x & xs & p1 & R1 & R2 & ->); cbn [read_item] in R1;
     destruct (read_kind cm (m_data g) (reader_init 0 (blen (m_data g)) objs) KInt32) as [[r1 q1]|f] eqn:Er;
       cbn [bind] in R1; [|discriminate];
     assert (Hx : q1 = p1) by congruence; subst q1;
     destruct (int32_read_any _ _ _ _ _ Er) as (v & Ev); rewrite Ev; cbn [bind];
     assert (L2 : last xs IFail = IObject h) by (destruct xs; [cbn [read_items] in R2; exfalso; revert R2; cbn; unfold wrapi; destruct (rd_nullable_object i pr g p1) as [[[?|] ?]|]; cbn [bind]; discriminate|exact L]);
     destruct (Hone _ _ R2 L2) as (p2 & E2); rewrite E2; reflexivity). }
  rewrite Ho. cbn [bind]. intros E. congruence.
Qed.
Print Assumptions C54_lookup_result.

(* non-vacuity: replies of a new and of an old manager, and the object in them *)
Definition option_eq_dec (a b : option Z) : {a = b} + {a <> b}.
Proof. decide equality. apply Z.eq_dec. Defined.
Definition lookup_case (k : smkind) (ops : list op) : option (option Z) :=
  match w_ops Io64 Aidl2 no_heap wd_empty ops with
  | Ok d =>
    match k_send (sample_env Io64) (wd_bytes d) (wd_offsets d) (wd_bufsize d) with
    | Some g =>
      match read_items Strict Io64 Aidl2 g (reader_init 0 (blen (m_data g)) (wd_offsets d)) (lookup_kinds k),
            sm_get_service k Io64 Aidl2 alive (NText [65]) 0 {| an_status := 0; an_reply := Some (g, wd_offsets d) |} with
      | Ok (items, _), Ok (o, _, _) =>
        match last items IFail with IObject h => if option_eq_dec h o then Some o else None | _ => None end
      | _, _ => None
      end
    | None => None
    end
  | Fault _ => None
  end.
Example C54_lookup_result_ex :
  lookup_case SmAidl3 [OpPlain (VInt32 0); OpLocal (Some some_object)] = Some (Some 1) /\
  lookup_case SmAidl [OpLocal (Some some_object)] = Some (Some 1).
Proof. vm_compute. auto. Qed.
