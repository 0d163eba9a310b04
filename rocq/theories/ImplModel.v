(** Model of the implementation descriptors: struct lib842_implementation (include/lib842/common.h:55-62), the functions
    that return one, and the AIX back end /repo/src/aix/aix.c. *)
From Coq Require Import ZArith List Bool.
From Verif Require Import CBase ChunkedModel SpecChunked CryptodevModel.
Import ListNotations.
Open Scope Z_scope.

(** common.h:60-61: the two alignments.  (The four function pointers are modelled by the functions themselves.) *)
Record alignments := mkA { required_alignment : Z; preferred_alignment : Z }.

(** src/serial/842_compress.c:694-704. *)
Definition sw842_alignments : alignments := mkA 1 1.
(** src/serial_optimized/842_compress.cpp:687-701. *)
Definition optsw842_alignments : alignments := mkA 1 8.
(** src/aix/aix.c:20-31. *)
Definition aix842_alignments : alignments := mkA 4096 128.

(** src/cryptodev/842_interface.c:258-268: hw842_get_required_alignment in thread [t]. *)
Definition hw842_get_required_alignment (info : option Z) (t : Z) (p : process) : outcome (Z * process) :=
  '(err, c, p) <- get_thread_cryptodev_ctx info t p ;;
  match c with
  | None => Done (0x10000, p)
  | Some c => match ctx_mask c with None => Undef | Some mask => Done (mask + 1, p) end
  end.

(** src/cryptodev/842_interface.c:323-340: get_hw842_implementation in thread [t]; [a] is the static variable, [pagesize]
    what sysconf returns.  Simplification: the unsynchronised accesses of several threads to the static variable
    are not interleaved. *)
Definition get_hw842_implementation (pagesize : Z) (info : option Z) (t : Z) (a : alignments) (p : process) : outcome (alignments * process) :=
  '(req, p) <- (if required_alignment a =? 0 then hw842_get_required_alignment info t p else Done (required_alignment a, p)) ;;
  let pref := if preferred_alignment a =? 0 then pagesize else preferred_alignment a in
  Done (mkA req pref, p).

(** src/stream/DataCompressionStream.cpp:34-37 and DataDecompressionStream.cpp:27-30: the constructors throw unless this holds;
    CHUNK_SIZE is 65536 (stream/common.h:24). *)
Definition stream_accepts (a : alignments) : bool := 65536 mod required_alignment a =? 0.

(** src/aix/aix.c:7-15.  [accel] is accel_compress or accel_decompress of the operating system. *)
Definition aix842_single (accel : chunk_func) : chunk_func := accel.
(** src/aix/aix.c:17-18. *)
Definition aix842_chunked (accel : chunk_func) : chunked_func := chunked (aix842_single accel).
