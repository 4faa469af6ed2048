(* The header of forwarded requests *)
From Verif Require Import Base BaseLemmas UtfModel WriterModel ReaderModel CodecSpec ObjModel ObjReader KernelModel ObjSpec HidlSpec TxModel TxSpec
  RpcModel RpcSpec CodecProofs RpcProofs RpcProps ProxyConv BlockModel ProxyModel ProxySpec.

Lemma flat_min i pr : 0 < flat_size i + flat_extra pr.
Proof. destruct i, pr; vm_compute; reflexivity. Qed.

Lemma nth_prefix : forall (a b : bytes), (length a <= length b)%nat -> (forall j, (j < length a)%nat -> nth j b uninit = nth j a uninit) ->
  exists c, b = a ++ c.
Proof.
  induction a as [|x a IH]; intros b L H; [exists b; reflexivity|]. destruct b as [|y b]; [cbn in L; lia|].
  pose proof (H 0%nat ltac:(cbn; lia)) as E. cbn in E. subst y.
  destruct (IH b) as (c & ->); [cbn in L; lia| |exists c; reflexivity].
  intros j J. apply (H (S j)). cbn. lia.
Qed.

(* Objects come after the header *)
Lemma header_kept i pr t ri li (hdr payload : bytes) ob d :
  translated i pr t ri li (hdr ++ payload) ob d -> (forall o, In o ob -> blen hdr <= o) ->
  exists payload' : bytes, wd_bytes d = hdr ++ payload' /\ blen payload' = blen payload.
Proof.
  intros (c & _ & A & B & _) H. destruct (nth_prefix hdr (wd_bytes d)) as (p & E).
  - unfold blen in B. rewrite app_length in B. lia.
  - intros j J. specialize (A (Z.of_nat j)). unfold byte_at in A. rewrite Nat2Z.id in A. rewrite A.
    + now rewrite app_nth1 by lia.
    + unfold blen. rewrite app_length. lia.
    + intros (o & p & O1 & _ & _ & O2). specialize (H o O1). unfold blen in H. lia.
  - exists p. split; auto. rewrite E in B. unfold blen in *. rewrite !app_length in B. lia.
Qed.

(* A HIDL service takes the first byte of other headers for the end of the name *)
Lemma hidl_reads_nothing m (rest : bytes) ob code (b1 b2 b3 : Z) :
  set_data Hidl m (0 :: b1 :: b2 :: b3 :: rest) ob code = Base.Ok (Some [], 4).
Proof.
  unfold set_data, read_rpc_header, rd_string8, reader_init. cbn [r_ptr r_end].
  assert (Z.to_nat (0 + blen (0 :: b1 :: b2 :: b3 :: rest) - 0) = S (length (b1 :: b2 :: b3 :: rest))) as ->.
  { unfold blen. cbn [length]. lia. }
  set (mem := 0 :: b1 :: b2 :: b3 :: rest).
  assert (L : 4 <= blen mem) by (unfold mem, blen; cbn [length]; lia).
  cbn [scan_nul]. replace (load mem 0 1) with (@Base.Ok bytes [0]).
  2: { symmetry. apply load_ok. split; [lia|]. split; [lia|]. reflexivity. }
  cbn [Base.bind]. change (unle [0]) with 0. cbn [Z.eqb Base.bind].
  change (align4 (0 - 0 + 1)) with 4. destruct (Z.leb_spec (0 + 4) (0 + blen mem)) as [_|X]; [|lia].
  replace (load mem 0 (0 - 0)) with (@Base.Ok bytes []) by (symmetry; apply load_ok; repeat split; cbn; lia).
  reflexivity.
Qed.
Lemma aidl_starts pr iface hdr : pr <> Hidl -> iface_ok pr iface -> new_iface pr (Some iface) = Base.Ok hdr ->
  exists rest, hdr = 0 :: 0 :: 64 :: 0 :: rest.
Proof.
  intros N OK. destruct (iface_has_chars pr iface OK) as (s & C). cbn [new_iface]. rewrite (header_written pr [] iface s C).
  rewrite append_values_eq, app_nil_l. intros [= <-]. destruct pr; try contradiction; cbn [header_values flat_map chunk]; eexists; reflexivity.
Qed.

Lemma same_header_again m pr (iface hdr payload payload' : bytes) ob code :
  iface_ok pr iface -> has_header pr code -> new_iface pr (Some iface) = Base.Ok hdr ->
  blen (hdr ++ payload) < 2 ^ 31 -> blen payload' = blen payload ->
  set_data pr m (hdr ++ payload') ob code = Base.Ok (Some iface, blen hdr).
Proof.
  intros A B C L E. destruct (C16_header_roundtrip m pr iface payload' ob code A B) as (hdr' & H1 & _ & H2).
  rewrite C in H1. injection H1 as <-. apply H2. rewrite blen_app in *. lia.
Qed.
