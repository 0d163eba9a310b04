(** Model of the CUDA kernel /repo/src/cuda/842_decompress.cu without LIB842_CUDA_STRICT (cuda.h:11 removed).  The chunk size is
    LIB842_CUDA_CHUNK_SIZE = 2^[lg]; [lg] is the STATIC_LOG2_VALUE of src/cuda/842-internal.h:11-15. *)
From Coq Require Import ZArith List Bool.
From Verif Require Import CBase SerialCompModel SerialDecompModel OptCompModel CudaModel.
Import ListNotations.
Open Scope Z_scope.

Section Flat.
Variable lg : Z.

(** src/common/842.h:135 with I2_BITS of src/cuda/842-internal.h:13. *)
Definition fI2 : Z * Z := (Z.lor (lg - 1) 0x80, 2).
(** src/common/842.h:136 with I4_BITS of src/cuda/842-internal.h:14. *)
Definition fI4 : Z * Z := (Z.lor (lg - 2) 0x80, 4).
(** src/common/842.h:137 with I8_BITS of src/cuda/842-internal.h:15. *)
Definition fI8 : Z * Z := (Z.lor (lg - 3) 0x80, 8).
(** 842_decompress.cu:27-61: dec_templates. *)
Definition flat_templates : list (list (Z * Z)) :=
  [ [cD8; cN0; cN0; cN0]; [cD4; cD2; fI2; cN0]; [cD4; fI2; cD2; cN0]; [cD4; fI2; fI2; cN0];
    [cD4; fI4; cN0; cN0]; [cD2; fI2; cD4; cN0]; [cD2; fI2; cD2; fI2]; [cD2; fI2; fI2; cD2];
    [cD2; fI2; fI2; fI2]; [cD2; fI2; fI4; cN0]; [fI2; cD2; cD4; cN0]; [fI2; cD4; fI2; cN0];
    [fI2; cD2; fI2; cD2]; [fI2; cD2; fI2; fI2]; [fI2; cD2; fI4; cN0]; [fI2; fI2; cD4; cN0];
    [fI2; fI2; cD2; fI2]; [fI2; fI2; fI2; cD2]; [fI2; fI2; fI2; fI2]; [fI2; fI2; fI4; cN0];
    [fI4; cD4; cN0; cN0]; [fI4; cD2; fI2; cN0]; [fI4; fI2; cD2; cN0]; [fI4; fI2; fI2; cN0];
    [fI4; fI4; cN0; cN0]; [fI8; cN0; cN0; cN0] ].

(** 842_decompress.cu:181-189, 234-283: the loop over the four fields of a template.  For an index the inline assembly loads 2, 4 or 8
    bytes at ostart + value * dst_size (lines 245-266); for data the loads are switched off and the value is used as it is. *)
Fixpoint ffields (inp : list Z) (fs : list (Z * Z)) (p : cstate) (output_word bits : Z) : outcome (Z * cstate) :=
  match fs with
  | [] => Done (output_word, p)
  | (dec_template, dst_size) :: fs =>
    let is_index := Z.shiftr dec_template 7 in
    '(value, p) <- cread_bits inp p (Z.land dec_template 0x7f) ;;
    value <- (if is_index =? 1 then cload (c_mem p) (u64 (value * dst_size)) dst_size else Done value) ;;
    ffields inp fs p (Z.lor output_word (gshl value (64 - dst_size * 8 - bits))) (bits + dst_size * 8)
  end.

(** 842_decompress.cu:176-294: one round of "while (op = read_bits(&p, OP_BITS), op != OP_END)"; [true] when it was the last.  An opcode
    behind the table (26 to 29, 31) reads outside dec_templates. *)
Definition fstep (inp : list Z) (p : cstate) : outcome (bool * cstate) :=
  '(op, p) <- cread_bits inp p OP_BITS ;;
  if op =? OP_END then Done (true, p)
  else
    match nth_error flat_templates (Z.to_nat op) with
    | None => Undef
    | Some fs =>
      '(output_word, p) <- ffields inp fs p 0 0 ;;
      m <- store64 LE (c_mem p) (8 * c_out p) (bswap64 output_word) ;;
      Done (false, mkC (c_in p) (c_bits p) (c_buffer p) m (c_out p + 1))
    end.

(** 842_decompress.cu:176-294: the loop, with fuel. *)
Fixpoint floop (fuel : nat) (inp : list Z) (p : cstate) : outcome cstate :=
  match fuel with
  | O => NoFuel
  | S f =>
    '(last, p) <- fstep inp p ;;
    if last then Done p else floop f inp p
  end.

(** 842_decompress.cu:143-297: the kernel for one chunk, see CudaModel.v. *)
Definition flat_chunk (inp out : list Z) : outcome (list Z) :=
  p <- floop (S (Z.to_nat (8 * lenZ inp))) inp (mkC 0 0 0 out 0) ;;
  Done (c_mem p).

(** 842_decompress.cu:137-141: the thread with number [t]. *)
Definition flat_thread (inp : list Z) (t : Z) (out : list Z) : outcome (list Z) :=
  let oaddr := Z.to_nat (8 * u32 (2 ^ lg / 8 * t)) in
  let iaddr := Z.to_nat (8 * u32 (2 ^ lg / 8 * 2 * t)) in
  m <- flat_chunk (skipn iaddr inp) (skipn oaddr out) ;;
  Done (firstn oaddr out ++ m).

(** A launch: the threads run in some order, see CudaModel.v. (compdecomp.cu:185, 209, 227, 252, 262: the launches.) *)
Fixpoint flat_run (inp : list Z) (order : list Z) (out : list Z) : outcome (list Z) :=
  match order with
  | [] => Done out
  | t :: order => out <- flat_thread inp t out ;; flat_run inp order out
  end.
End Flat.
