(** Model of the CUDA kernel /repo/src/cuda/842_decompress.cu with
    LIB842_CUDA_STRICT, which include/lib842/cuda.h:11 always defines, and
    LIB842_CUDA_CHUNK_SIZE 1024 (cuda.h:10).  The device is little-endian.
    Memory is a list of bytes; an access outside it is [Undef]. *)
From Coq Require Import ZArith List Bool.
From Verif Require Import CBase SerialCompModel SerialDecompModel OptCompModel.
Import ListNotations.
Open Scope Z_scope.

(** PTX ISA 9.7.7, shl and shr: an amount above the width gives 0.  (In C++, a
    shift by the full width, as in line 78 for n = 0 and in line 92, is
    undefined; the code counts on the machine instruction.) *)
Definition gshr (x n : Z) : Z := if n <? 64 then x / 2 ^ n else 0.
(** A left shift of a 64-bit word on the device, see [gshr]. *)
Definition gshl (x n : Z) : Z := if n <? 64 then x * 2 ^ n mod 2 ^ 64 else 0.

(** 842_decompress.cu:3-9: struct sw842_param_decomp.  [c_in] is p->in and
    [c_out] is p->out - p->ostart (both in 64-bit words), [c_mem] is the
    memory behind ostart. *)
Record cstate := mkC { c_in : Z; c_bits : Z; c_buffer : Z; c_mem : list Z; c_out : Z }.

(** 842_decompress.cu:63-74: bswap. *)
Definition bswap64 (x : Z) : Z := swap_be_to_native64 LE x.

(** 842_decompress.cu:76-101: read_bits. *)
Definition cread_bits (inp : list Z) (p : cstate) (n : Z) : outcome (Z * cstate) :=
  let value := if n <=? 0 then 0 else gshr (c_buffer p) (64 - n) in
  if c_bits p <? n then
    w <- load64 LE inp (8 * c_in p) ;;
    let buffer := bswap64 w in
    let value := Z.lor value (gshr buffer (64 - (n - c_bits p))) in
    let buffer := gshl buffer (n - c_bits p) in
    let bits := u32 (c_bits p + (64 - n)) in
    let buffer := buffer * (if bits >? 0 then 1 else 0) in
    Done (value, mkC (c_in p + 1) bits buffer (c_mem p) (c_out p))
  else
    Done (value, mkC (c_in p) (c_bits p - n) (gshl (c_buffer p) n) (c_mem p) (c_out p)).

(** 842_decompress.cu:104-131: get_index. *)
Definition cget_index (p : cstate) (size index fsize : Z) : Z :=
  let total := round_down (8 * c_out p) 8 in
  let offset := u64 (index * size) in
  if total >? fsize then
    let section := round_down total fsize in
    let pos := total - section in
    let section := if offset >=? pos then u64 (section - fsize) else section in
    u64 (offset + section)
  else offset.

(** 842_decompress.cu:23-24: fifo_sizes. *)
Definition cfifo (size : Z) : Z :=
  if size =? 2 then I2_FIFO_SIZE else if size =? 4 then I4_FIFO_SIZE else if size =? 8 then I8_FIFO_SIZE else 0.

(** src/common/842.h:127-137: the entries of the table. *)
Definition cN0 : Z * Z := (0, 0).
(** src/common/842.h:132. *)
Definition cD2 : Z * Z := (16, 2).
(** src/common/842.h:133. *)
Definition cD4 : Z * Z := (32, 4).
(** src/common/842.h:134. *)
Definition cD8 : Z * Z := (64, 8).
(** src/common/842.h:135. *)
Definition cI2 : Z * Z := (Z.lor 8 0x80, 2).
(** src/common/842.h:136. *)
Definition cI4 : Z * Z := (Z.lor 9 0x80, 4).
(** src/common/842.h:137. *)
Definition cI8 : Z * Z := (Z.lor 8 0x80, 8).
(** 842_decompress.cu:27-61: dec_templates. *)
Definition dec_templates : list (list (Z * Z)) :=
  [ [cD8; cN0; cN0; cN0]; [cD4; cD2; cI2; cN0]; [cD4; cI2; cD2; cN0]; [cD4; cI2; cI2; cN0];
    [cD4; cI4; cN0; cN0]; [cD2; cI2; cD4; cN0]; [cD2; cI2; cD2; cI2]; [cD2; cI2; cI2; cD2];
    [cD2; cI2; cI2; cI2]; [cD2; cI2; cI4; cN0]; [cI2; cD2; cD4; cN0]; [cI2; cD4; cI2; cN0];
    [cI2; cD2; cI2; cD2]; [cI2; cD2; cI2; cI2]; [cI2; cD2; cI4; cN0]; [cI2; cI2; cD4; cN0];
    [cI2; cI2; cD2; cI2]; [cI2; cI2; cI2; cD2]; [cI2; cI2; cI2; cI2]; [cI2; cI2; cI4; cN0];
    [cI4; cD4; cN0; cN0]; [cI4; cD2; cI2; cN0]; [cI4; cI2; cD2; cN0]; [cI4; cI2; cI2; cN0];
    [cI4; cI4; cN0; cN0]; [cI8; cN0; cN0; cN0] ].

(** 842_decompress.cu:195-229: the inline assembly of an index argument.  It
    loads 2, 4 or 8 bytes as little-endian 16-bit units. *)
Definition cload (mem : list Z) (offset dst_size : Z) : outcome Z :=
  bs <- load_bytes mem offset (if dst_size =? 8 then 8 else if dst_size >? 2 then 4 else 2) ;;
  Done (bswap64 (gshl (native_val LE bs) (64 - 8 * dst_size))).

(** 842_decompress.cu:181-233: the loop over the four fields of a template. *)
Fixpoint cfields (inp : list Z) (fs : list (Z * Z)) (p : cstate) (output_word bits : Z) : outcome (Z * cstate) :=
  match fs with
  | [] => Done (output_word, p)
  | (dec_template, dst_size) :: fs =>
    let is_index := Z.shiftr dec_template 7 in
    '(value, p) <- cread_bits inp p (Z.land dec_template 0x7f) ;;
    value <- (if negb (is_index =? 0) then cload (c_mem p) (cget_index p dst_size value (cfifo dst_size)) dst_size else Done value) ;;
    cfields inp fs p (Z.lor output_word (gshl value (64 - dst_size * 8 - bits))) (bits + dst_size * 8)
  end.

(** 842_decompress.cu:164-167: while (op-- > 0). *)
Fixpoint crepeat (n : nat) (p : cstate) : outcome cstate :=
  match n with
  | O => Done p
  | S n =>
    w <- load64 LE (c_mem p) (8 * (c_out p - 1)) ;;
    m <- store64 LE (c_mem p) (8 * c_out p) w ;;
    crepeat n (mkC (c_in p) (c_bits p) (c_buffer p) m (c_out p + 1))
  end.

(** 842_decompress.cu:153-291: one round of the loop; [true] when it was the
    last (op == OP_END).  An opcode behind the table (26, 29, 31) reads
    outside dec_templates. *)
Definition cstep (inp : list Z) (p : cstate) : outcome (bool * cstate) :=
  '(op, p) <- cread_bits inp p OP_BITS ;;
  if op =? OP_REPEAT then
    '(op, p) <- cread_bits inp p REPEAT_BITS ;;
    p <- crepeat (Z.to_nat (op + 1)) p ;;
    Done (false, p)
  else if op =? OP_ZEROS then
    m <- store64 LE (c_mem p) (8 * c_out p) 0 ;;
    Done (false, mkC (c_in p) (c_bits p) (c_buffer p) m (c_out p + 1))
  else if op =? OP_END then Done (true, p)
  else
    match nth_error dec_templates (Z.to_nat op) with
    | None => Undef
    | Some fs =>
      '(output_word, p) <- cfields inp fs p 0 0 ;;
      m <- store64 LE (c_mem p) (8 * c_out p) (bswap64 output_word) ;;
      Done (false, mkC (c_in p) (c_bits p) (c_buffer p) m (c_out p + 1))
    end.

(** 842_decompress.cu:152-292: the do-while loop, with fuel. *)
Fixpoint cloop (fuel : nat) (inp : list Z) (p : cstate) : outcome cstate :=
  match fuel with
  | O => NoFuel
  | S f =>
    '(last, p) <- cstep inp p ;;
    if last then Done p else cloop f inp p
  end.

(** 842_decompress.cu:143-297: the kernel for one chunk; [inp] and [out] are
    the memory behind the two pointers.  Every round reads at least five bits. *)
Definition cuda_chunk (inp out : list Z) : outcome (list Z) :=
  p <- cloop (S (Z.to_nat (8 * lenZ inp))) inp (mkC 0 0 0 out 0) ;;
  Done (c_mem p).

(** 842_decompress.cu:137-141: the thread with number [t] (blockIdx.x *
    blockDim.x + threadIdx.x).  The offsets, in words, are unsigned 32-bit
    products. *)
Definition cuda_thread (inp : list Z) (t : Z) (out : list Z) : outcome (list Z) :=
  let oaddr := Z.to_nat (8 * u32 (1024 / 8 * t)) in
  let iaddr := Z.to_nat (8 * u32 (1024 / 8 * 2 * t)) in
  m <- cuda_chunk (skipn iaddr inp) (skipn oaddr out) ;;
  Done (firstn oaddr out ++ m).

(** A launch: the threads run in some order.  (Simplification: a thread runs
    to its end before the next starts.). (compdecomp.cu:185, 209, 227, 252, 262: the launches.) *)
Fixpoint cuda_run (inp : list Z) (order : list Z) (out : list Z) : outcome (list Z) :=
  match order with
  | [] => Done out
  | t :: order => out <- cuda_thread inp t out ;; cuda_run inp order out
  end.
