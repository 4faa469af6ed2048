(* Property theorems about the format of plain data. The layout of the items is in DecodeSpec.v. *)
From Verif Require Import Base UtfModel WriterModel ReaderModel CodecSpec CodecSafety DecodeSpec DecodeProofs.

(* C68: what comes next in the message is read exactly, for any message, whoever has made it, and any way to compile
   the arithmetic. The reader stops right behind it. If there's no such item there (it's cut off, there's no NUL where it
   should be, ...), nothing is read. The few calls which leave the data (C02) are excluded here. *)
Theorem C68_decodes_exactly :
  forall (m : cmode) (mem : bytes) (p : reader) (k : kind),
  inside mem p -> blen mem < 2 ^ 31 -> all_bytes mem -> ~ bad_call m mem p k ->
  (forall b r, next_is mem p k b r -> read_kind m mem p k = Ok (r, r_set_ptr p (r_ptr p + blen b))) /\
  ((forall b r, ~ next_is mem p k b r) ->
   exists p1, read_kind m mem p k = Ok (RFail, p1) /\ inside mem p1 /\ (atomic_kind k -> p1 = p)).
Proof. exact decode_exact. Qed.
Print Assumptions C68_decodes_exactly.

(* C68: a message has one reading: there are never two different items of the same kind at the same place. *)
Theorem C68_unambiguous :
  forall (mem : bytes) (p : reader) (k : kind) b1 r1 b2 r2,
  inside mem p -> blen mem < 2 ^ 31 -> all_bytes mem ->
  next_is mem p k b1 r1 -> next_is mem p k b2 r2 -> b1 = b2 /\ r1 = r2.
Proof. exact next_unique. Qed.
Print Assumptions C68_unambiguous.

(* C68: any number of items in a message which another implementation has made, read one after another. None of these
   calls is one of those which leave the data. *)
Theorem C68_messages :
  forall (m : cmode) (ks : list kind) (b : bytes) (rs : list result) (objs : list Z),
  layouts ks b rs -> all_bytes b -> blen b < 2 ^ 31 ->
  read_kinds m b (reader_init 0 (blen b) objs) ks =
    Ok (rs, {| r_start := 0; r_end := blen b; r_ptr := blen b; r_objects := objs |}).
Proof.
  intros m ks b rs objs HL Ha Hb. pose proof (BaseLemmas.blen_nonneg _ b) as L0.
  rewrite (layouts_read m ks b (reader_init 0 (blen b) objs) b rs []); [reflexivity|unfold inside; cbn; lia|exact Hb|exact Ha|exact HL|].
  unfold unread. cbn [reader_init r_ptr r_end]. rewrite app_nil_r. apply BaseLemmas.slice_all. lia.
Qed.
Print Assumptions C68_messages.

(* C68: the writer appends what the layout says, so that other implementations can read it. A NULL parcelable is just a
   zero, which is not a value which the reader returns. *)
Theorem C68_written :
  forall (vs : list value) (b : bytes),
  Forall value_ok vs -> ~ In (VParcelable None) vs -> append_values [] vs = Ok b -> blen b < 2 ^ 31 ->
  layouts (map kind_of vs) b (map expected vs).
Proof. intros vs b Hv Hn E Hb. exact (written_layouts vs b Hv Hn E Hb). Qed.
Print Assumptions C68_written.
Theorem C68_written_null : append_value [] (VParcelable None) = Ok [0; 0; 0; 0].
Proof. reflexivity. Qed.
Print Assumptions C68_written_null.

(* non-vacuity: a message which this library would never write (a boolean in a byte other than the first one, garbage
   in the padding, a byte array of a negative size, a string with a lone surrogate) and an item which isn't there *)
Definition foreign_message : bytes :=
  [0; 0; 0; 1] ++ [65; 66; 0; 9] ++ [254; 255; 255; 255] ++ [255; 7; 7; 7] ++
  [1; 0; 0; 0; 0; 0xd8; 0; 0] ++ [4; 0; 0; 0; 6; 0; 0; 0; 33; 34] ++ [].
Example C68_foreign_ex :
  layouts [KBool; KString8; KByteArray; KInt8; KString16; KParcelable] foreign_message
    [RBool true; RText (Some [65; 66]); RBytes []; RNum (-1); RText None; RBytes [33; 34]] /\
  all_bytes foreign_message /\
  (forall b r, ~ next_is foreign_message (reader_init 0 7 []) KUint64 b r) /\
  ~ bad_call Strict foreign_message (reader_init 0 7 []) KUint64.
Proof.
  split.
  - unfold foreign_message.
    apply NextItem.
    { split; [reflexivity|]. exists true. split; [reflexivity|]. split; [|reflexivity]. intros _. exists 1. cbn. split; [auto 6|lia]. }
    apply NextItem.
    { exists [65; 66], [9]. split; [reflexivity|]. split; [split; reflexivity|]. split; [cbn; lia|reflexivity]. }
    apply NextItem.
    { left. exists (-2). split; [reflexivity|]. split; [vm_compute; split; [split; [discriminate|reflexivity]|reflexivity]|]. split; [lia|reflexivity]. }
    apply NextItem.
    { exists 255, [7; 7; 7], (-1). split; [reflexivity|]. split; [reflexivity|]. split; [|reflexivity].
      vm_compute. split; [split; [discriminate|reflexivity]|reflexivity]. }
    apply NextItem.
    { right. exists [0xd800], []. split; [reflexivity|]. split; [split; reflexivity|]. split; [reflexivity|].
      split; [apply Forall_cons; [unfold in_range; lia|apply Forall_nil]|]. right. split; [|reflexivity].
      intros cs W. apply (UtfProofs.utf16_decode_exact [0xd800]) in W; [discriminate W|]. apply Forall_cons; [lia|apply Forall_nil]. }
    apply NextItem; [|constructor].
    exists [4; 0; 0; 0], [33; 34]. split; [reflexivity|]. split; [reflexivity|].
    split; [exists 4; cbn; split; [auto|lia]|]. split; reflexivity.
  - split; [unfold all_bytes, is_byte; repeat (apply Forall_cons; [lia|]); apply Forall_nil|].
    split; [|intros (_ & []); fail].
    intros b r ((Hl & _) & rest & E). assert (X : blen (unread foreign_message (reader_init 0 7 [])) = blen (b ++ rest)) by (rewrite E; reflexivity).
    rewrite BaseLemmas.blen_app, Hl in X. pose proof (BaseLemmas.blen_nonneg _ rest). change (7 = 8 + blen rest) in X. lia.
Qed.
Example C68_written_ex :
  let vs := [VBool true; VString8 [72; 105]; VString16 (Some [0x1f600]); VParcelable (Some [1; 2; 3]); VByteArray None] in
  Forall value_ok vs /\ ~ In (VParcelable None) vs /\ exists b, append_values [] vs = Ok b /\ blen b < 2 ^ 31.
Proof.
  cbn zeta. split.
  - apply Forall_cons; [exact I|]. apply Forall_cons.
    { split; [repeat (apply Forall_cons; [unfold is_byte; lia|]); apply Forall_nil|]. intros [X|[X|[]]]; discriminate X. }
    apply Forall_cons.
    { split; [apply Forall_cons; [unfold is_scalar; lia|apply Forall_nil]|]. intros [X|[]]; discriminate X. }
    apply Forall_cons; [repeat (apply Forall_cons; [unfold is_byte; lia|]); apply Forall_nil|].
    apply Forall_cons; [exact I|]. apply Forall_nil.
  - split; [intros [X|[X|[X|[X|[X|[]]]]]]; discriminate X|].
    eexists. split; [vm_compute; reflexivity|]. reflexivity.
Qed.
