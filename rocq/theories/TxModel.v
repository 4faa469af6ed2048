(* Model of the transaction structures in src/gbinder_io.c and of the functions
   in src/gbinder_writer.c which copy received contents.
   Simplifications: LP64 (size_t has 64 bits) for both layouts of the kernel
   structures; GASSERTs are compiled out (release build). *)
From Verif Require Import Base UtfModel WriterModel ReaderModel ObjModel ObjReader KernelModel.

(* src/binder.h:114-119 enum transaction_flags *)
Definition TF_ONE_WAY : Z := 1.
Definition TF_STATUS_CODE : Z := 8.
Definition TF_ACCEPT_FDS : Z := 16.
(* include/gbinder_types.h:168 GBINDER_TX_FLAG_ONEWAY *)
Definition TX_FLAG_ONEWAY : Z := 1.

(* src/binder.h:120-139 struct binder_transaction_data *)
Record trdata := {
  tr_target : Z; tr_cookie : Z; tr_code : Z; tr_flags : Z;
  tr_pid : Z; tr_euid : Z; tr_data_size : Z; tr_offsets_size : Z;
  tr_buffer : Z; tr_offsets : Z }.

Definition tr_image (i : io) (t : trdata) : bytes :=
  le (psize i) (tr_target t) ++ le (psize i) (tr_cookie t) ++
  le 4 (tr_code t) ++ le 4 (tr_flags t) ++ le 4 (tr_pid t) ++ le 4 (tr_euid t) ++
  le (psize i) (tr_data_size t) ++ le (psize i) (tr_offsets_size t) ++
  le (psize i) (tr_buffer t) ++ le (psize i) (tr_offsets t).
Definition tr_size (i : io) : Z := 16 + 6 * psz i.

(* The fields of the structure as they are in memory *)
Definition tr_parse (i : io) (b : bytes) : trdata :=
  let n := psz i in
  {| tr_target := kfield b 0 n; tr_cookie := kfield b n n;
     tr_code := kfield b (2 * n) 4; tr_flags := kfield b (2 * n + 4) 4;
     tr_pid := kfield b (2 * n + 8) 4; tr_euid := kfield b (2 * n + 12) 4;
     tr_data_size := kfield b (2 * n + 16) n; tr_offsets_size := kfield b (3 * n + 16) n;
     tr_buffer := kfield b (4 * n + 16) n; tr_offsets := kfield b (5 * n + 16) n |}.

(* The array of offsets *)
Definition offsets_image (i : io) (offs : list Z) : bytes :=
  flat_map (fun o => le (psize i) o) offs.

(* src/gbinder_io.c:293-324 fill_transaction_data. [payload] and [offs_addr] are
   the addresses of the data and of the new array of offsets. The result is the
   structure and the contents of that array. *)
Definition fill_transaction_data (i : io) (handle code payload payload_len tx_flags : Z)
  (offsets : list Z) (offs_addr : Z) : bytes * bytes :=
  let has := match offsets with [] => false | _ => true end in
  (tr_image i
    {| tr_target := u32 handle; tr_cookie := 0; tr_code := code; tr_flags := tx_flags;
       tr_pid := 0; tr_euid := 0; tr_data_size := payload_len;
       tr_offsets_size := if has then blen offsets * psz i else 0;
       tr_buffer := payload; tr_offsets := if has then offs_addr else 0 |},
   if has then offsets_image i offsets else []).

Definition request_flags (flags : Z) : Z :=
  if Z.testbit flags 0 then TF_ONE_WAY else TF_ACCEPT_FDS.

(* src/gbinder_io.c:326-343 encode_transaction *)
Definition encode_transaction (i : io) (handle code payload payload_len flags : Z)
  (offsets : list Z) (offs_addr : Z) : bytes * bytes :=
  fill_transaction_data i handle code payload payload_len (request_flags flags)
    offsets offs_addr.

(* src/gbinder_io.c:345-367 encode_transaction_sg *)
Definition encode_transaction_sg (i : io) (handle code payload payload_len flags : Z)
  (offsets : list Z) (offs_addr buffers_size : Z) : bytes * bytes :=
  let (tr, ob) := fill_transaction_data i handle code payload payload_len
    (request_flags flags) offsets offs_addr in
  (tr ++ le (psize i) (align8 buffers_size), ob).

(* src/gbinder_io.c:369-385 encode_reply *)
Definition encode_reply (i : io) (handle code payload payload_len : Z)
  (offsets : list Z) (offs_addr : Z) : bytes * bytes :=
  fill_transaction_data i handle code payload payload_len 0 offsets offs_addr.

(* src/gbinder_io.c:387-407 encode_reply_sg *)
Definition encode_reply_sg (i : io) (handle code payload payload_len : Z)
  (offsets : list Z) (offs_addr buffers_size : Z) : bytes * bytes :=
  let (tr, ob) := fill_transaction_data i handle code payload payload_len 0
    offsets offs_addr in
  (tr ++ le (psize i) (align8 buffers_size), ob).

(* src/gbinder_io.c:409-422 encode_status_reply; [addr] is where the status is *)
Definition encode_status_reply (i : io) (addr : Z) : bytes :=
  tr_image i {| tr_target := 0; tr_cookie := 0; tr_code := 0; tr_flags := TF_STATUS_CODE;
    tr_pid := 0; tr_euid := 0; tr_data_size := 4; tr_offsets_size := 0;
    tr_buffer := addr; tr_offsets := 0 |}.

(* src/gbinder_io.h GBinderIoTxData. [tx_objects] holds addresses; NULL and the
   empty list are not distinguished *)
Record txdata := {
  tx_status : Z; tx_code : Z; tx_flags : Z; tx_pid : Z; tx_euid : Z;
  tx_target : Z; tx_size : Z; tx_data : Z; tx_objects : list Z }.

(* The loop which validates the offsets, src/gbinder_io.c:456-464. The sum is a
   64-bit one (size_t), min_offset has the type binder_size_t *)
Fixpoint offsets_valid (i : io) (offs : list Z) (min_offset size : Z) : bool :=
  match offs with
  | [] => true
  | o :: r =>
    if (o <? min_offset) || (size <? u64 (o + flat_size i)) then false
    else offsets_valid i r (usz i (u64 (o + flat_size i))) size
  end.

(* offsets[k] *)
Definition offsets_at (i : io) (m : memory) (addr : Z) (n : nat) : list Z :=
  map (fun k => unle (mread m (addr + psz i * Z.of_nat k) (psz i))) (seq 0 n).

(* src/gbinder_io.c:424-478 decode_transaction_data. [m] is the memory of the
   receiver, [b] is the structure *)
Definition decode_transaction_data (i : io) (m : memory) (b : bytes) : txdata :=
  let t := tr_parse i b in
  if Z.testbit (tr_flags t) 3 then
    {| tx_status := sgn 32 (unle (mread m (tr_buffer t) 4)); tx_code := tr_code t;
       tx_flags := 0; tx_pid := tr_pid t; tx_euid := tr_euid t; tx_target := tr_target t;
       tx_size := 0; tx_data := tr_buffer t; tx_objects := [] |}
  else
    let objcount := u32 (tr_offsets_size t / psz i) in
    let offsets := offsets_at i m (tr_offsets t) (Z.to_nat objcount) in
    let size := tr_data_size t in
    {| tx_status := 0; tx_code := tr_code t;
       tx_flags := if Z.testbit (tr_flags t) 0 then TX_FLAG_ONEWAY else 0;
       tx_pid := tr_pid t; tx_euid := tr_euid t; tx_target := tr_target t;
       tx_size := size; tx_data := tr_buffer t;
       tx_objects := if offsets_valid i offsets 0 size
                     then map (fun o => u64 (tr_buffer t + o)) offsets else [] |}.

(* ------------------------------------------------------------------ *)
(* Copying received contents *)

(* src/gbinder_io.c:94-120 object_size *)
Definition object_size (i : io) (pr : protocol) (type : Z) : Z :=
  if (type =? TYPE_BINDER) || (type =? TYPE_WEAK_BINDER) ||
     (type =? TYPE_HANDLE) || (type =? TYPE_WEAK_HANDLE)
  then flat_size i + flat_extra pr
  else if type =? TYPE_FD then flat_size i
  else if type =? TYPE_FDA then fda_size i
  else if type =? TYPE_PTR then ptr_size i
  else 0.

(* src/gbinder_io.c:122-139 object_data_size of the object at [off] *)
Definition object_data_size (i : io) (data : bytes) (off : Z) : res Z :=
  let* t := load data off 4 in
  if unle t =? TYPE_PTR then
    let* l := load data (off + 8 + psz i) (psz i) in Ok (unle l)
  else if unle t =? TYPE_FDA then
    let* n := load data (off + 8) (psz i) in Ok (u64 (usz i (unle n * 4)))
  else Ok 0.

(* src/gbinder_io.c:505-523 decode_binder_handle: the handle if that's what it is *)
Definition decode_binder_handle (data : bytes) (off : Z) : res (option Z) :=
  let* t := load data off 4 in
  if unle t =? TYPE_HANDLE then
    let* h := load data (off + 8) 4 in Ok (Some (unle h))
  else Ok None.

(* gbinder_object_converter_handle_to_local *)
Definition converter := option (Z -> option local).

Definition convert_local (c : converter) (data : bytes) (off : Z) : res (option local) :=
  match c with
  | None => Ok None
  | Some f =>
    let* h := decode_binder_handle data off in
    Ok (match h with Some h => f h | None => None end)
  end.

(* The loop over the objects, src/gbinder_writer.c:114-152. The objects are
   offsets in the data. Returns the new offset and the output *)
Fixpoint append_objects (i : io) (pr : protocol) (c : converter) (data : bytes)
  (objs : list Z) (off : Z) (d : wdata) : res (Z * wdata) :=
  match objs with
  | [] => Ok (off, d)
  | o :: r =>
    let* pre := if off <? o then load data off (o - off) else Ok [] in
    let off1 := if off <? o then o else off in
    let d1 := wd_set_bytes d (wd_bytes d ++ pre) in
    let pos := blen (wd_bytes d1) in
    let d2 := record_offset d1 pos in
    let* l := convert_local c data o in
    let* (d3, objsize) :=
      match l with
      | Some obj =>
        let buf := set_size (wd_bytes d2) (pos + MAX_BINDER_OBJECT_SIZE) in
        let* (buf1, n) := encode_local_object i pr buf pos (Some obj) in
        Ok (wd_set_bytes d2 (set_size buf1 (pos + n)), n)
      | None =>
        let* t := load data o 4 in
        let n := object_size i pr (unle t) in
        let* img := load data o n in
        Ok (wd_set_bytes d2 (wd_bytes d2 ++ img), n)
      end in
    let* ds := object_data_size i data o in
    append_objects i pr c data r (off1 + objsize)
      (add_bufsize d3 (align8 ds))
  end.

(* src/gbinder_writer.c:89-160 gbinder_writer_data_append_contents *)
Definition append_contents (i : io) (pr : protocol) (c : converter) (d : wdata)
  (data : bytes) (objs : list Z) (off : Z) : res wdata :=
  let* (off1, d1) := append_objects i pr c data objs off d in
  if off1 <? blen data then
    let* rest := load data off1 (blen data - off1) in
    Ok (wd_set_bytes d1 (wd_bytes d1 ++ rest))
  else Ok d1.

(* src/gbinder_writer.c:76-87 gbinder_writer_data_set_contents. The blocks which
   belong to the old contents are released, the new ones belong to the received
   buffer *)
Definition set_contents (i : io) (pr : protocol) (c : converter) (d : wdata)
  (data : bytes) (objs : list Z) : res wdata :=
  append_contents i pr c wd_empty data objs 0.
