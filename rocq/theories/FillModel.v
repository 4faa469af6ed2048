(* Filling in a number later: the position in what has been written, and writing at that
   position *)
From Verif Require Import Base UtfModel WriterModel ReaderModel CodecSpec ObjModel.

(* src/gbinder_writer.c:206-213 gbinder_writer_bytes_written; gsize is wider than the length
   of the array *)
Definition w_bytes_written (d : wdata) : Z := blen (wd_bytes d).

(* src/gbinder_writer.c:303-321 gbinder_writer_overwrite_int32, see WriterModel.v *)
Definition wd_overwrite_int32 (d : wdata) (offset value : Z) : res wdata :=
  wd_plain d (fun b => w_overwrite_int32 b offset value).
