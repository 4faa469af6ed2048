(* Property theorems about numbers which are filled in later. The modelled functions are in
   WriterModel.v, ObjModel.v and FillModel.v. *)
From Verif Require Import Base UtfModel WriterModel ReaderModel CodecSpec ObjModel ObjSpec FillModel FillProofs.

(* C05: to send how much follows, applications write something in that place, append the
   rest, and overwrite the place which gbinder_writer_bytes_written had reported. Whatever has
   been written before, whatever is appended (objects and buffers too) and whatever the number
   is, the message is the same as if the number had been appended right away: its bytes, the
   offsets of its objects, the size of its buffers and the memory which it refers to. *)
Theorem C05_filled_in :
  forall (i : io) (p : protocol) (al : nat -> Z) (d : wdata) (something number : Z) (rest : list op),
  Forall (op_ok i) rest ->
  exists d1 d2,
    w_ops i p al d (OpPlain (VInt32 something) :: rest) = Ok d1 /\
    w_ops i p al d (OpPlain (VInt32 number) :: rest) = Ok d2 /\
    (blen (wd_bytes d1) < 2 ^ 32 -> wd_overwrite_int32 d1 (w_bytes_written d) number = Ok d2).
Proof. exact filled_in. Qed.
Print Assumptions C05_filled_in.

(* a string, an object and a string of hidl behind the place of their size *)
Example C05_filled_in_ex :
  let al n := 4096 * (1 + Z.of_nat n) in
  let rest := [OpPlain (VString16 (Some [0x61; 0x62])); OpRemote (Some 7); OpHidlString (Some (8, [0x63]))] in
  Forall (op_ok Io64) rest /\
  match w_ops Io64 Aidl al wd_empty [OpPlain (VInt32 5)] with
  | Ok d =>
    match w_ops Io64 Aidl al d (OpPlain (VInt32 0) :: rest) with
    | Ok d1 =>
      let size := w_bytes_written d1 - w_bytes_written d - 4 in
      size = 116 /\ w_bytes_written d = 4 /\
      wd_overwrite_int32 d1 (w_bytes_written d) size <> Ok d1 /\
      wd_overwrite_int32 d1 (w_bytes_written d) size =
      w_ops Io64 Aidl al wd_empty (OpPlain (VInt32 5) :: OpPlain (VInt32 size) :: rest)
    | Fault _ => False
    end
  | Fault _ => False
  end.
Proof. split; [repeat constructor|]. vm_compute. repeat split. discriminate. Qed.
