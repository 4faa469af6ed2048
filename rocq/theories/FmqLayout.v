(* The layout of the shared memory of a new queue *)
From Verif Require Import Base BaseLemmas FmqModel FmqSpec.

(* Two regions of the same file have no byte in common *)
Definition disjoint (g h : grantor) : Prop :=
  fd_index g <> fd_index h \/ g_offset g + g_extent g <= g_offset h \/ g_offset h + g_extent h <= g_offset g.

(* What the descriptor of a queue with a ring of [size] bytes promises to the other side.
   File 0 is the library's memory, of [shmem] bytes, file 1 is the caller's buffer. *)
Definition layout_ok (size shmem buffer : Z) (event_flag fd : bool) (l : list grantor) : Prop :=
  map g_extent l = [8; 8; size] ++ (if event_flag then [4] else []) /\
  map fd_index l = [0; 0; if fd then 1 else 0] ++ (if event_flag then [0] else []) /\
  Forall (fun g => g_offset g mod 8 = 0) l /\
  (forall i j g h, nth_error l i = Some g -> nth_error l j = Some h -> i <> j -> disjoint g h) /\
  Forall (fun g => 0 <= g_offset g /\ g_offset g + g_extent g <= if fd_index g =? 0 then shmem else buffer) l.

(* The pages which are mapped end exactly where the region ends *)
Definition mapping_ok (page : Z) (g : grantor) : Prop :=
  let (off, len) := map_range page g in
  off mod page = 0 /\ off <= g_offset g /\ off + len = g_offset g + g_extent g.

Lemma align8_spec v : align8 v mod 8 = 0 /\ v <= align8 v < v + 8.
Proof.
  unfold align8. split; [apply Z.mod_mul; lia|].
  pose proof (Z.div_mod (v + 7) 8 ltac:(lia)). pose proof (Z.mod_pos_bound (v + 7) 8 ltac:(lia)). lia.
Qed.

Lemma some_eq {A} (a b : A) : Some a = Some b -> a = b.
Proof. congruence. Qed.

Lemma grantors (bits qs : Z) (fd event_flag : bool) : 2 ^ 32 <= 2 ^ bits -> 0 <= qs -> qs <= align8 qs < qs + 8 -> qs + 24 < 2 ^ 32 ->
  create_grantors bits qs (if fd then 2 else 1) event_flag =
    [{| fd_index := 0; g_offset := 0; g_extent := 8 |}; {| fd_index := 0; g_offset := 8; g_extent := 8 |};
     {| fd_index := if fd then 1 else 0; g_offset := if fd then 0 else 16; g_extent := qs |}] ++
    if event_flag then [{| fd_index := 0; g_offset := if (fd : bool) then 16 else 16 + align8 qs; g_extent := 4 |}] else [].
Proof.
  intros B Hq A2 Hs.
  assert (A5 : align8 (16 + qs) = 16 + align8 qs).
  { unfold align8. replace (16 + qs + 7) with (qs + 7 + 2 * 8) by lia. rewrite Z.div_add by lia. lia. }
  unfold create_grantors. set (P := 2 ^ bits) in *. set (W := 2 ^ 32) in *.
  assert (HW : W = 4294967296) by reflexivity.
  clearbody W.
  assert (R0 : 0 <= 0 < W) by lia. assert (R8 : 0 <= 8 < W) by lia. assert (R16 : 0 <= 16 < W) by lia.
  assert (Rq : 0 <= 16 + align8 qs < W) by lia. assert (Rq' : 0 <= 16 + qs < W) by lia.
  assert (HP : forall x, 0 <= x < W -> x mod P = x) by (intros x Hx; apply Z.mod_small; lia).
  assert (Hoff : forall x, 0 <= x < W -> u32 (x mod P) = x).
  { intros x Hx. rewrite (HP x Hx). unfold u32. apply Z.mod_small. rewrite HW in Hx. exact Hx. }
  pose proof (Hoff 0 R0) as O0. pose proof (Hoff 8 R8) as O8. pose proof (Hoff 16 R16) as O16.
  pose proof (Hoff _ Rq) as Oq. pose proof (HP 8 R8) as M8. pose proof (HP 16 R16) as M16. pose proof (HP _ Rq') as Mq.
  rewrite <- A5 in Oq at 1.
  assert (E0 : align8 0 = 0) by reflexivity. assert (E8 : align8 8 = 8) by reflexivity. assert (E16 : align8 16 = 16) by reflexivity.
  rewrite <- E0 in O0 at 1. rewrite <- E8 in O8 at 1. rewrite <- E16 in O16 at 1.
  unfold P in *. clear P HP Hoff.
  destruct fd, event_flag; cbn [create_grantors_loop app Z.add Pos.add Pos.succ Z.eqb Pos.eqb andb];
    rewrite ?M8; cbn [Z.add Pos.add Pos.succ]; rewrite ?M16, ?Mq, ?O0, ?O8, ?O16, ?Oq; reflexivity.
Qed.

Lemma layout bits page item_size num_items k (event_flag fd : bool) buffer_size c :
  (bits = 32 \/ bits = 64) -> 0 < page -> num_items * item_size + 27 + page <= 2 ^ 32 ->
  fmq_new bits page item_size num_items k event_flag fd buffer_size = Some c ->
  queue_ok (c_queue c) k /\ quantum (c_queue c) = item_size /\ extent (c_queue c) = num_items * item_size /\
  layout_ok (num_items * item_size) (c_shmem c) buffer_size event_flag fd (c_grantors c) /\
  Forall (mapping_ok page) (c_grantors c).
Proof.
  intros Hb Hp Hs H. unfold fmq_new in H.
  destruct (Z.leb_spec item_size 0) as [|Hi]; [discriminate|].
  destruct (Z.leb_spec num_items 0) as [|Hn]; [discriminate|].
  destruct (_ <? num_items); [discriminate|].
  set (qs := num_items * item_size) in *.
  assert (Hq0 : 0 < qs) by (apply Z.mul_pos_pos; lia).
  assert (Hiq : item_size <= qs).
  { unfold qs. replace item_size with (1 * item_size) at 1 by lia. apply Z.mul_le_mono_nonneg_r; lia. }
  assert (Hbuf : fd = true -> qs <= buffer_size).
  { intros ->. cbn [andb] in H. destruct (Z.ltb_spec buffer_size qs); [discriminate|lia]. }
  destruct (fd && _); [discriminate|]. injection H as <-. cbn [c_queue c_grantors c_shmem gbits kind quantum extent].
  assert (B : 2 ^ 32 <= 2 ^ bits) by (destruct Hb as [->| ->]; lia).
  assert (Eu : u32 item_size = item_size) by (unfold u32; apply Z.mod_small; lia).
  split.
  { unfold queue_ok. cbn [gbits kind quantum extent]. rewrite Eu. split; [exact Hb|]. split; [reflexivity|].
    split; [lia|]. split; [lia|]. unfold qs. apply Z.mod_mul. lia. }
  split; [exact Eu|]. split; [reflexivity|].
  destruct (align8_spec qs) as [A1 A2]. destruct (align8_spec (16 + qs)) as [A3 A4].
  assert (A5 : align8 (16 + qs) = 16 + align8 qs).
  { unfold align8. replace (16 + qs + 7) with (qs + 7 + 2 * 8) by lia. rewrite Z.div_add by lia. lia. }
  assert (Hround : forall x, 0 <= x -> x <= (x + page - 1) / page * page).
  { intros x Hx. pose proof (Z.div_mod (x + page - 1) page ltac:(lia)). pose proof (Z.mod_pos_bound (x + page - 1) page ltac:(lia)). lia. }
  assert (Hoff : forall x, 0 <= x -> align8 x < 2 ^ 32 -> u32 (align8 x mod 2 ^ bits) = align8 x).
  { intros x Hx Hx2. destruct (align8_spec x). rewrite (Z.mod_small (align8 x)) by lia. unfold u32. apply Z.mod_small. lia. }
  assert (Hsh : let meta := if event_flag then 20 else 16 in
     (if fd then meta else align8 qs + meta) <=
     (if fd then (meta + page - 1) mod 2 ^ bits / page * page
      else (align8 qs mod 2 ^ bits + meta + page - 1) mod 2 ^ bits / page * page)).
  { cbv zeta. destruct fd, event_flag; rewrite ?(Z.mod_small (align8 qs)) by lia;
      rewrite (Z.mod_small (_ + page - 1)) by lia; apply Hround; lia. }
  cbv zeta in Hsh. set (shmem := if fd then _ else (_ mod _ / page * page)) in *.
  assert (Eg : create_grantors bits qs (if fd then 2 else 1) event_flag =
    [{| fd_index := 0; g_offset := 0; g_extent := 8 |}; {| fd_index := 0; g_offset := 8; g_extent := 8 |};
     {| fd_index := if fd then 1 else 0; g_offset := if fd then 0 else 16; g_extent := qs |}] ++
    if event_flag then [{| fd_index := 0; g_offset := if fd then 16 else 16 + align8 qs; g_extent := 4 |}] else []).
  { apply grantors; [exact B|lia|exact A2|]. lia. }
  rewrite Eg. clear Eg Hround Hoff A1. clearbody shmem. split.
  - unfold layout_ok. split; [destruct event_flag; reflexivity|]. split; [destruct event_flag; reflexivity|].
    split.
    { assert (A6 : (16 + align8 qs) mod 8 = 0) by (rewrite <- A5; exact A3).
      destruct fd, event_flag; cbn [app]; repeat (apply Forall_cons; [cbn [g_offset]; assumption || reflexivity|]); apply Forall_nil. }
    split.
    { intros i j g h Hgi Hgj Hne. unfold disjoint.
      destruct i as [|[|[|[|i]]]], j as [|[|[|[|j]]]]; try (exfalso; apply Hne; reflexivity);
        destruct event_flag; cbn [nth_error app] in Hgi, Hgj; try discriminate;
        try (destruct i; discriminate); try (destruct j; discriminate);
        apply some_eq in Hgi; apply some_eq in Hgj; subst g h; cbn [fd_index g_offset g_extent]; destruct fd; cbv beta iota; clear - A2 Hq0; lia. }
    destruct fd, event_flag; cbn [app]; repeat (apply Forall_cons; [cbn [g_offset g_extent fd_index Z.eqb]; try specialize (Hbuf eq_refl); clear - Hbuf Hsh A2 Hq0; lia|]); apply Forall_nil.
  - assert (Hmap : forall f o e, 0 <= o -> 0 < e -> o + e < 2 ^ 32 -> mapping_ok page {| fd_index := f; g_offset := o; g_extent := e |}).
    { clear - Hp. intros f o e H1 H2 H3. unfold mapping_ok, map_range. cbn [g_offset g_extent].
      pose proof (Z.div_mod o page ltac:(lia)). pose proof (Z.mod_pos_bound o page ltac:(lia)).
      assert (0 <= o / page * page) by (apply Z.mul_nonneg_nonneg; [apply Z.div_pos|]; lia).
      split; [apply Z.mod_mul; lia|]. split; [lia|]. unfold u32. rewrite Z.mod_small by lia. lia. }
    clear - Hmap A2 Hq0 Hs Hp. destruct fd, event_flag; cbn [app]; repeat (apply Forall_cons; [apply Hmap; lia|]); apply Forall_nil.
Qed.

Lemma accepted_sizes bits page item_size num_items k (event_flag fd : bool) buffer_size :
  (bits = 32 \/ bits = 64) -> 0 <= item_size < 2 ^ bits -> 0 <= num_items < 2 ^ bits -> 0 <= buffer_size < 2 ^ bits ->
  (exists c, fmq_new bits page item_size num_items k event_flag fd buffer_size = Some c) <->
  0 < item_size /\ 0 < num_items /\ num_items * item_size < 2 ^ bits /\
  (fd = true -> num_items * item_size <= buffer_size).
Proof.
  intros Hb Hi Hn Hbuf. unfold fmq_new.
  destruct (Z.leb_spec item_size 0) as [|Hi0].
  { split; [intros (c & E); discriminate|intros (H1 & _); lia]. }
  destruct (Z.leb_spec num_items 0) as [|Hn0].
  { split; [intros (c & E); discriminate|intros (_ & H1 & _); lia]. }
  assert (Hdiv : (2 ^ bits - 1) / item_size < num_items <-> 2 ^ bits <= num_items * item_size).
  { clear Hb Hn Hbuf Hi. set (N := 2 ^ bits). split; intros H.
    - pose proof (Z.mul_succ_div_gt (N - 1) item_size Hi0) as H1.
      assert (Z.succ ((N - 1) / item_size) <= num_items) by lia.
      assert (item_size * Z.succ ((N - 1) / item_size) <= item_size * num_items) by (apply Z.mul_le_mono_nonneg_l; lia). lia.
    - apply Z.div_lt_upper_bound; lia. }
  destruct (Z.ltb_spec ((2 ^ bits - 1) / item_size) num_items) as [H|H].
  { split; [intros (c & E); discriminate|intros (_ & _ & H1 & _); lia]. }
  destruct fd; cbn [andb].
  - destruct (Z.ltb_spec buffer_size (num_items * item_size)).
    + split; [intros (c & E); discriminate|intros (_ & _ & _ & H1); specialize (H1 eq_refl); lia].
    + split; [intros _; repeat split; try assumption; lia|intros _; eexists; reflexivity].
  - split; [intros _; repeat split; try assumption; try lia; discriminate|intros _; eexists; reflexivity].
Qed.
