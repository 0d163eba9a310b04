(** Model of /repo/src/serial/842_decompress.c (sw842_decompress). *)
From Coq Require Import ZArith List Bool.
From Verif Require Import CBase CrcModel SerialCompModel.
Import ListNotations.
Open Scope Z_scope.

(** 842_decompress.c:41-43: rolling fifo sizes. *)
Definition I2_FIFO_SIZE : Z := 2 * Z.shiftl 1 I2_BITS.
(** 842_decompress.c:42. *)
Definition I4_FIFO_SIZE : Z := 4 * Z.shiftl 1 I4_BITS.
(** 842_decompress.c:43. *)
Definition I8_FIFO_SIZE : Z := 8 * Z.shiftl 1 I8_BITS.

(** 842_decompress.c:45-72: decomp_ops. *)
Definition decomp_ops : list (list Z) := [
  [ D8; N0; N0; N0 ];
  [ D4; D2; I2; N0 ];
  [ D4; I2; D2; N0 ];
  [ D4; I2; I2; N0 ];
  [ D4; I4; N0; N0 ];
  [ D2; I2; D4; N0 ];
  [ D2; I2; D2; I2 ];
  [ D2; I2; I2; D2 ];
  [ D2; I2; I2; I2 ];
  [ D2; I2; I4; N0 ];
  [ I2; D2; D4; N0 ];
  [ I2; D4; I2; N0 ];
  [ I2; D2; I2; D2 ];
  [ I2; D2; I2; I2 ];
  [ I2; D2; I4; N0 ];
  [ I2; I2; D4; N0 ];
  [ I2; I2; D2; I2 ];
  [ I2; I2; I2; D2 ];
  [ I2; I2; I2; I2 ];
  [ I2; I2; I4; N0 ];
  [ I4; D4; N0; N0 ];
  [ I4; D2; I2; N0 ];
  [ I4; I2; D2; N0 ];
  [ I4; I2; I2; N0 ];
  [ I4; I4; N0; N0 ];
  [ I8; N0; N0; N0 ] ].

(** Input half of struct sw842_param_decomp (842_decompress.c:31-38): offset
    p->in - in, bits consumed in the current byte, bytes left. *)
Record reader := mkReader { r_pos : Z; r_bit : Z; r_ilen : Z }.
(** Output half: memory behind [out], offset p->out - out, bytes left. (842_decompress.c:35-37.) *)
Record sink := mkSink { o_mem : list Z; o_pos : Z; o_olen : Z }.

Section Endian.
Variable e : endian.

(** 842_decompress.c:122-132: the load of next_bits. *)
Definition next_bits_load (inp : list Z) (pos bits n : Z) : outcome Z :=
  d <- (if bits <=? 8 then
          v <- load8 inp pos ;; Done (Z.shiftr v (8 - bits))
        else if bits <=? 16 then
          v <- load16 e inp pos ;; Done (Z.shiftr (swap_be_to_native16 e v) (16 - bits))
        else if bits <=? 32 then
          v <- load32 e inp pos ;; Done (Z.shiftr (swap_be_to_native32 e v) (32 - bits))
        else
          v <- load64 e inp pos ;; Done (Z.shiftr (swap_be_to_native64 e v) (64 - bits))) ;;
  Done (Z.land d (genmask_ull (n - 1) 0)).

(** 842_decompress.c:82-145: __split_next_bits and next_bits (mutually recursive
    in C): return value, the bits read (meaningful when it is 0), new reader. *)
Fixpoint next_bits_f (fuel : nat) (inp : list Z) (r : reader) (n : Z) : outcome (Z * Z * reader) :=
  match fuel with
  | O => NoFuel
  | S f =>
    let split_next_bits (s : Z) :=
      if n <=? s then Done (- EINVAL, 0, r)
      else
        '(ret, tmp, r1) <- next_bits_f f inp r (n - s) ;;
        if negb (ret =? 0) then Done (ret, 0, r1)
        else
          '(ret, d, r2) <- next_bits_f f inp r1 s ;;
          if negb (ret =? 0) then Done (ret, 0, r2)
          else Done (0, Z.lor d (u64 (Z.shiftl tmp s)), r2) in
    let b := r_bit r in
    let bits := u8 (b + n) in
    if n >? 64 then Done (- EINVAL, 0, r)
    else if bits >? 64 then split_next_bits 32
    else if (r_ilen r <? 8) && (bits >? 32) && (bits <=? 56) then split_next_bits 16
    else if (r_ilen r <? 4) && (bits >? 16) && (bits <=? 24) then split_next_bits 8
    else if div_round_up bits 8 >? r_ilen r then Done (- EOVERFLOW, 0, r)
    else
      d <- next_bits_load inp (r_pos r) bits n ;;
      let bit' := u8 (r_bit r + n) in
      if bit' >? 7
      then Done (0, d, mkReader (r_pos r + bit' / 8) (bit' mod 8) (r_ilen r - bit' / 8))
      else Done (0, d, mkReader (r_pos r) bit' (r_ilen r))
  end.
(** 842_decompress.c:102-145: next_bits. *)
Definition next_bits (inp : list Z) (r : reader) (n : Z) : outcome (Z * Z * reader) :=
  next_bits_f 8 inp r n.

(** The state threaded through the decompressor. (842_decompress.c:31-38.) *)
Definition dstate := (reader * sink)%type.

(** 842_decompress.c:147-177: do_data. *)
Definition do_data (inp : list Z) (st : dstate) (n : Z) : outcome (Z * dstate) :=
  let '(r, o) := st in
  if n >? o_olen o then Done (- ENOSPC, st)
  else
    '(ret, v, r1) <- next_bits inp r (u8 (n * 8)) ;;
    if negb (ret =? 0) then Done (ret, (r1, o))
    else if n =? 2 then
      m <- store16 e (o_mem o) (o_pos o) (swap_native_to_be16 e (u16 v)) ;;
      Done (0, (r1, mkSink m (o_pos o + n) (o_olen o - n)))
    else if n =? 4 then
      m <- store32 e (o_mem o) (o_pos o) (swap_native_to_be32 e (u32 v)) ;;
      Done (0, (r1, mkSink m (o_pos o + n) (o_olen o - n)))
    else if n =? 8 then
      m <- store64 e (o_mem o) (o_pos o) (swap_native_to_be64 e v) ;;
      Done (0, (r1, mkSink m (o_pos o + n) (o_olen o - n)))
    else Done (- EINVAL, (r1, o)).

(** 842_decompress.c:181, 187-205: offset of an index in the output, corrected for
    the ring buffer; [written] is p->out - p->ostart.  Returns (offset, total). *)
Definition index_offset (written size fsize index : Z) : Z * Z :=
  let total := round_down written 8 in
  let offset := u64 (index * size) in
  if total >? fsize then
    let section := round_down total fsize in
    let pos := total - section in
    let section' := if offset >=? pos then u64 (section - fsize) else section in
    (u64 (offset + section'), total)
  else (offset, total).

(** 842_decompress.c:179-231: __do_index. *)
Definition do_index_ (inp : list Z) (st : dstate) (size bits fsize : Z) : outcome (Z * dstate) :=
  let '(r, o) := st in
  '(ret, index, r1) <- next_bits inp r bits ;;
  if negb (ret =? 0) then Done (ret, (r1, o))
  else
    let '(offset, total) := index_offset (o_pos o) size fsize index in
    if u64 (offset + size) >? total then Done (- EINVAL, (r1, o))
    else if size >? o_olen o then Done (- ENOSPC, (r1, o))
    else
      bs <- load_bytes (o_mem o) offset size ;;
      m <- store_bytes (o_mem o) (o_pos o) bs ;;
      Done (0, (r1, mkSink m (o_pos o + size) (o_olen o - size))).

(** 842_decompress.c:233-245: do_index. *)
Definition do_index (inp : list Z) (st : dstate) (n : Z) : outcome (Z * dstate) :=
  if n =? 2 then do_index_ inp st 2 I2_BITS I2_FIFO_SIZE
  else if n =? 4 then do_index_ inp st 4 I4_BITS I4_FIFO_SIZE
  else if n =? 8 then do_index_ inp st 8 I8_BITS I8_FIFO_SIZE
  else Done (- EINVAL, st).

(** 842_decompress.c:254-277: the loop of do_op over the columns [ops]. *)
Fixpoint do_ops (inp : list Z) (st : dstate) (ops : list Z) : outcome (Z * dstate) :=
  match ops with
  | [] => Done (0, st)
  | op :: rest =>
    let action := Z.land op OP_ACTION in
    let amount := Z.land op OP_AMOUNT in
    '(ret, st1) <-
      (if action =? OP_ACTION_DATA then do_data inp st amount
       else if action =? OP_ACTION_INDEX then do_index inp st amount
       else if action =? OP_ACTION_NOOP then Done (0, st)
       else Done (- EINVAL, st)) ;;
    if negb (ret =? 0) then Done (ret, st1) else do_ops inp st1 rest
  end.
(** 842_decompress.c:247-280: do_op. *)
Definition do_op (inp : list Z) (st : dstate) (o : Z) : outcome (Z * dstate) :=
  if o >=? OPS_MAX then Done (- EINVAL, st)
  else do_ops inp st (nth (Z.to_nat o) decomp_ops []).

(** 842_decompress.c:340-344: copying the last 8 bytes [k] times. *)
Fixpoint repeat_copy (k : nat) (o : sink) : outcome sink :=
  match k with
  | O => Done o
  | S k' =>
    bs <- load_bytes (o_mem o) (o_pos o - 8) 8 ;;
    m <- store_bytes (o_mem o) (o_pos o) bs ;;
    repeat_copy k' (mkSink m (o_pos o + 8) (o_olen o - 8))
  end.

(** 842_decompress.c:367-374: the [k] bytes of a short data template. *)
Fixpoint short_copy (k : nat) (inp : list Z) (st : dstate) : outcome (Z * dstate) :=
  match k with
  | O => Done (0, st)
  | S k' =>
    let '(r, o) := st in
    '(ret, tmp, r1) <- next_bits inp r 8 ;;
    if negb (ret =? 0) then Done (ret, (r1, o))
    else
      m <- store8 (o_mem o) (o_pos o) (u8 tmp) ;;
      short_copy k' inp (r1, mkSink m (o_pos o + 1) (o_olen o - 1))
  end.

(** 842_decompress.c:317-385: one iteration of the main loop: (return value, end
    template seen, state).  [rep] stays below 65, so rep * 8 does not wrap. *)
Definition decomp_step (inp : list Z) (st : dstate) : outcome (Z * bool * dstate) :=
  let '(r, o) := st in
  '(ret, op, r1) <- next_bits inp r OP_BITS ;;
  if negb (ret =? 0) then Done (ret, false, (r1, o))
  else if op =? OP_REPEAT then
    '(ret, rep, r2) <- next_bits inp r1 REPEAT_BITS ;;
    if negb (ret =? 0) then Done (ret, false, (r2, o))
    else if o_pos o =? 0 then Done (- EINVAL, false, (r2, o))
    else
      let rep1 := rep + 1 in
      if rep1 * 8 >? o_olen o then Done (- ENOSPC, false, (r2, o))
      else o' <- repeat_copy (Z.to_nat rep1) o ;; Done (0, false, (r2, o'))
  else if op =? OP_ZEROS then
    if 8 >? o_olen o then Done (- ENOSPC, false, (r1, o))
    else
      m <- store_bytes (o_mem o) (o_pos o) (List.repeat 0 8) ;;
      Done (0, false, (r1, mkSink m (o_pos o + 8) (o_olen o - 8)))
  else if op =? OP_SHORT_DATA then
    '(ret, bytes, r2) <- next_bits inp r1 SHORT_DATA_BITS ;;
    if negb (ret =? 0) then Done (ret, false, (r2, o))
    else if (bytes =? 0) || (bytes >? SHORT_DATA_BITS_MAX) then Done (- EINVAL, false, (r2, o))
    else if bytes >? o_olen o then Done (- ENOSPC, false, (r2, o))
    else
      '(ret, st') <- short_copy (Z.to_nat bytes) inp (r2, o) ;;
      Done (ret, false, st')
  else if op =? OP_END then Done (0, true, (r1, o))
  else
    '(ret, st') <- do_op inp (r1, o) op ;;
    Done (ret, false, st').

(** 842_decompress.c:316-386: the main loop. *)
Fixpoint decomp_loop (fuel : nat) (inp : list Z) (st : dstate) : outcome (Z * dstate) :=
  match fuel with
  | O => NoFuel
  | S f =>
    '(ret, fin, st') <- decomp_step inp st ;;
    if negb (ret =? 0) then Done (ret, st')
    else if fin : bool then Done (0, st')
    else decomp_loop f inp st'
  end.

(** 842_decompress.c:297-411: sw842_decompress(in, ilen, out, &olen).
    [inp] is the [ilen] input bytes, [oaddr] the address of [out] (its alignment
    is visible to crc32_be), [out] the memory at the output pointer, [olen] the
    initial *olen.  Result: (return value, final *olen, final out memory).
    Each iteration of the loop consumes at least five bits, which bounds the
    fuel.  Messages on stderr are not modelled; [in] and [out] do not overlap. *)
Definition sw842_decompress (oaddr : Z) (inp out : list Z) (olen : Z) : outcome (Z * Z * list Z) :=
  let total := olen in
  '(ret, (r, o)) <- decomp_loop (S (Z.to_nat (8 * lenZ inp)))
                       inp (mkReader 0 0 (lenZ inp), mkSink out 0 olen) ;;
  if negb (ret =? 0) then Done (ret, 0, o_mem o)
  else
    '(ret, crc, r1) <- next_bits inp r CRC_BITS ;;
    if negb (ret =? 0) then Done (ret, 0, o_mem o)
    else
      crc' <- crc32_be e oaddr 0 (o_mem o) (total - o_olen o) ;;
      if negb (crc =? crc') then Done (- EINVAL, 0, o_mem o)
      else if total - o_olen o >? UINT_MAX then Done (- ENOSPC, 0, o_mem o)
      else Done (0, total - o_olen o, o_mem o).
End Endian.
