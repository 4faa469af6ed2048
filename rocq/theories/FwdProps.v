(* C66: messages which are sent on by those who have received them. See FwdSpec.v for the vocabulary *)
From Verif Require Import Base UtfModel WriterModel ReaderModel CodecSpec ObjModel ObjReader KernelModel ObjSpec HidlSpec TxModel
  HidlProps FwdSpec FwdProofs.

(* C66: whatever is appended to a message is what is read from the last copy of it, after it has been sent on by any
   number of processes each of which replaces handles with objects of its own as it likes: no copy is refused by the driver,
   the last reader gets everything, to the end of the message; objects and descriptors are those into which the
   processes in the middle have turned them, strings, vectors and structures (with everything they point to) are those
   of the first sender *)
Theorem C66_sent_on_unchanged :
  forall (cm : cmode) (pr : protocol) (al : nat -> Z) (e1 : kenv) (l : list op) (r : hops) (k : sending),
  let i := k_io e1 in
  (forall n, is_addr i (al n)) -> Forall (call_ok i pr (k_mem e1)) l -> Forall (foreign_at_end e1 r) l -> starts_well l ->
  exists d, w_ops i pr al wd_empty l = Ok d /\
    (blen (wd_bytes d) < 2 ^ 31 ->
     Forall (fun b => holds (k_mem e1) (fst b) (snd b)) (wd_heap d) ->
     0 < k_sgbase e1 -> k_sgbase e1 + align8 (wd_bufsize d) < 2 ^ (8 * psz i) ->
     Forall (hop_ok i (wd_bufsize d)) r ->
     exists g, k_send e1 (wd_bytes d) (wd_offsets d) (wd_bufsize d) = Some g /\
       (mapped i cm pr k r g (wd_offsets d) ->
        exists g2 offs2 rs p, relay i cm pr k r g (wd_offsets d) = Some (g2, offs2) /\
          read_items cm i pr g2 (reader_init 0 (blen (m_data g2)) offs2) (map (rkind_of i) l) = Ok (rs, p) /\
          Forall2 (passed i e1 r g2) l rs /\
          r_ptr p = blen (m_data g2) /\ r_objects p = [] /\ blen (m_data g2) = blen (wd_bytes d))).
Proof. exact forwarded. Qed.
Print Assumptions C66_sent_on_unchanged.

(* ------------------------------------------------------------------ *)
(* non-vacuity: the message of HidlProps.v (which has all kinds of arguments in it, among them structures three levels deep) is
   sent on twice. Both processes in the middle replace the first object; the other one belongs to the second process *)
Definition fwd_first : message * list Z :=
  match w_ops Io64 Hidl heap_at wd_empty (trip_ops trip_mem) with
  | Ok d => match k_send trip_env (wd_bytes d) (wd_offsets d) (wd_bufsize d) with
            | Some g => (g, wd_offsets d)
            | None => ({| m_data := []; m_sgbase := 0; m_sg := [] |}, [])
            end
  | Fault _ => ({| m_data := []; m_sgbase := 0; m_sg := [] |}, [])
  end.
Definition fwd_mem (g : message) : memory := block_mem [(m_sgbase g, m_sg g)].
Definition fwd_hop1 : kenv * converter :=
  ({| k_io := Io64; k_sgbase := 131072; k_mem := fwd_mem (fst fwd_first); k_node := fun n => n / 4096;
      k_ref := fun h => if h =? 6 then None else Some (h + 100); k_own := fun _ => 20480; k_fd := fun f => f + 20 |},
   Some (fun h => if h =? 1 then Some {| lo_ptr := 12288; lo_stability := 0 |} else None)).
Definition fwd_second : message * list Z :=
  match one_hop Io64 Strict Hidl (Request 1 Aidl) fwd_hop1 (fst fwd_first) (snd fwd_first) with
  | Some x => x
  | None => ({| m_data := []; m_sgbase := 0; m_sg := [] |}, [])
  end.
Definition fwd_hop2 : kenv * converter :=
  ({| k_io := Io64; k_sgbase := 65536; k_mem := fwd_mem (fst fwd_second); k_node := fun n => n / 4096;
      k_ref := fun h => Some (h + 5); k_own := fun _ => 0; k_fd := fun f => f * 2 |},
   Some (fun h => if h =? 3 then Some {| lo_ptr := 40960; lo_stability := 0 |} else None)).
Definition fwd_hops : hops := [fwd_hop1; fwd_hop2].

Example C66_foreign_ex : Forall (foreign_at_end trip_env fwd_hops) (trip_ops trip_mem).
Proof.
  repeat (apply Forall_cons; [intros p Hp; try discriminate Hp; injection Hp as <-; eexists; vm_compute; reflexivity|]). apply Forall_nil.
Qed.
Definition fwd_size : Z := match w_ops Io64 Hidl heap_at wd_empty (trip_ops trip_mem) with Ok d => wd_bufsize d | Fault _ => 0 end.
Example C66_hops_ex : 256 < fwd_size /\ Forall (hop_ok Io64 fwd_size) fwd_hops.
Proof.
  split; [vm_compute; reflexivity|].
  repeat (apply Forall_cons; [split; [reflexivity|split; [reflexivity|split; [vm_compute; reflexivity|]]]; intros h l H;
    cbn [replaced snd fwd_hop1 fwd_hop2] in H; destruct (_ =? _) in H; [injection H as <-; vm_compute; split; reflexivity|discriminate H]|]).
  apply Forall_nil.
Qed.
Example C66_mapped_ex : mapped Io64 Strict Hidl (Request 1 Aidl) fwd_hops (fst fwd_first) (snd fwd_first).
Proof.
  cbn [mapped fwd_hops]. split; [vm_compute; reflexivity|].
  assert (E : one_hop Io64 Strict Hidl (Request 1 Aidl) fwd_hop1 (fst fwd_first) (snd fwd_first) = Some fwd_second)
    by (vm_compute; reflexivity).
  rewrite E. clear E. destruct fwd_second as [g2 o2] eqn:E2. split; [|destruct (one_hop _ _ _ _ _ _ _) as [[? ?]|]; exact I].
  change g2 with (fst (g2, o2)). rewrite <- E2. vm_compute. reflexivity.
Qed.
(* What comes out: 10 is the handle of the object with which the second process has replaced the replacement made by the first one,
   5 is that of its own object *)
Example C66_read_ex :
  match relay Io64 Strict Hidl (Request 1 Aidl) fwd_hops (fst fwd_first) (snd fwd_first) with
  | Some (g, offs) =>
    match read_items Strict Io64 Hidl g (reader_init 0 (blen (m_data g)) offs) (map (rkind_of Io64) (trip_ops trip_mem)) with
    | Ok (rs, _) => firstn 8 rs = [IPlain (RNum 7); IObject (Some 10); IObject (Some 5); IFd 64; IVec [1; 2; 3; 4] 2 2;
        IString [65; 66]; IPlain (RNum 8); IStrings [[65; 66]; [66]]]
    | Fault _ => False
    end
  | None => False
  end.
Proof. vm_compute. reflexivity. Qed.
