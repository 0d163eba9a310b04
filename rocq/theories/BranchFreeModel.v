(** Model of optsw842_decompress and optsw842_compress as built with BRANCH_FREE
    defined as 1 (/repo/src/serial_optimized/842-internal.h:13 sets it to 0; this is
    the other setting).  The parts outside "#if BRANCH_FREE" are those of
    OptDecompModel.v and OptCompModel.v.

    do_op shifts 64-bit values by 64 for the fields that are absent from a
    template ("uint64_t >> (64 - num_bits)" with num_bits = 0 and
    ">> (WSIZE - (dst_size << 3))" with dst_size = 0), and process_next shifts 0 by
    64 for the literal template, which C++ leaves undefined.
    [over x] is what such a shift of [x] gives: [fun _ => Undef] is the C++
    standard, [fun x => Done x] an x86 processor (count taken modulo 64),
    [fun _ => Done 0] a processor that shifts everything out. *)
From Coq Require Import ZArith List Bool.
From Verif Require Import CBase CrcModel OpcodesTable SerialCompModel SerialDecompModel OptCompModel OptDecompModel.
Import ListNotations.
Open Scope Z_scope.

Section Shift.
Variable over : Z -> outcome Z.
Variable e : endian.

(** x >> n and x << n on uint64_t. *)
Definition bshr (x n : Z) : outcome Z := if n =? 64 then over x else shr64 x n.
(** A left shift of read_bits and do_op; the width 64 as in [bshr]. *)
Definition bshl (x n : Z) : outcome Z := if n =? 64 then over x else shl64 x n.

(** 842_decompress.cpp:147-180: get_index.  The error code is set whatever it was. *)
Definition bget_index (p : pstate) (size index fsize : Z) : Z * pstate :=
  let total := round_down (q_pos p) 8 in
  let offset := u64 (index * size) in
  let offset :=
    if total >? fsize then
      let section := round_down total fsize in
      let pos := total - section in
      let section := if offset >=? pos then u64 (section - fsize) else section in
      u64 (offset + section)
    else offset in
  if u64 (offset + size) >? total
  then (0, mkP (q_in p) (q_bits p) (q_buffer p) (- EINVAL) (q_mem p) (q_pos p))
  else (offset, p).

(** 842_decompress.cpp:197-198: opbits. *)
Definition bopbits (op : Z) : Z :=
  u8 (64 - ((op mod 5) + 1) / 2 * 8 - ((op mod 5) / 4) * 7 - ((op / 5) + 1) / 2 * 8 - ((op / 5) / 4) * 7).

(** 842_decompress.cpp:219-223: opchunk and from it is_index, dst_size, num_bits
    of field [i] of template [op]. *)
Definition bz (b : bool) : Z := if b then 1 else 0.
(** 842_decompress.cpp:219-223: is_index, dst_size, num_bits of field [i]. *)
Definition bfield (op i : Z) : Z * Z * Z :=
  let opchunk := if i <? 2 then op / 5 else op mod 5 in
  let is_index := Z.land i 1 * Z.land opchunk 1 + Z.lxor (Z.land i 1) 1 * bz (opchunk >=? 2) in
  let dst_size := u32 (2 + bz (opchunk >=? 4) * (1 - 2 * (i mod 2)) * 2) in
  let num_bits := u8 (Z.land i 1 * (16 - (opchunk mod 2) * 8 - bz (opchunk >=? 4) * 16) +
                      Z.lxor (Z.land i 1) 1 * (16 - (opchunk / 2) * 8 + bz (opchunk >=? 4) * 9)) in
  (is_index, dst_size, num_bits).

(** 842_decompress.cpp:205-250: the loop over the four fields, as a recursion
    over the fields still to do.  [vi] is values[i], [v4] is values[4 + i];
    memcpy replaces the first bytes of values[4 + i] as it lies in memory.
    [None] is the early return with an error. *)
Fixpoint bfields (fs : list (Z * Z * Z)) (p : pstate) (params opbits word bits : Z) : outcome (option Z * pstate) :=
  match fs with
  | [] => Done (Some word, p)
  | (is_index, dst_size, num_bits) :: fs' =>
    ones <- bshr (2 ^ 64 - 1) (64 - num_bits) ;;
    let bitsmask := Z.land (u64 (- bz (negb (num_bits =? 0)))) ones in
    arg <- bshr params (opbits - num_bits) ;;
    let arg := Z.land arg bitsmask in
    let vi := if is_index =? 0 then arg else 0 in
    let v4 := if is_index =? 0 then 0 else arg in
    let opbits := u8 (opbits - num_bits) in
    let fifo_size := 2048 - 1536 * bz (Z.shiftr dst_size 2 <? 1) in
    let '(offset, p) := if negb (is_index =? 0) then bget_index p dst_size v4 fifo_size else (0, p) in
    if negb (q_err p =? 0) then Done (None, p)
    else
      bs <- load_bytes (q_mem p) (offset * is_index) (dst_size * is_index) ;;
      let v4 := native_val e (bs ++ skipn (length bs) (native_bytes e 8 v4)) in
      v4 <- bshr (swap_be_to_native64 e v4) (64 - Z.shiftl dst_size 3) ;;
      let vi := Z.lor (u64 (v4 * is_index)) vi in
      w <- bshl vi (64 - Z.shiftl dst_size 3 - bits) ;;
      bfields fs' p params opbits (Z.lor word w) (u8 (bits + Z.shiftl dst_size 3))
  end.

(** Assignment to p->errorcode. (842_decompress.cpp:38, 174, 190, 253.) *)
Definition bwith_err (p : pstate) (c : Z) : pstate := mkP (q_in p) (q_bits p) (q_buffer p) c (q_mem p) (q_pos p).

(** 842_decompress.cpp:182-259: do_op. *)
Definition bdo_op (inp : list Z) (olen : Z) (p : pstate) (op : Z) : outcome pstate :=
  if op >=? OPS_MAX then Done (bwith_err p (- EINVAL))
  else
    '(params, p) <- read_bits e inp p (bopbits op) ;;
    if negb (q_err p =? 0) then Done p
    else
      '(r, p) <- bfields (map (bfield op) [0; 1; 2; 3]) p params (bopbits op) 0 0 ;;
      match r with
      | None => Done p
      | Some word =>
        if q_pos p + 8 >? olen then Done (bwith_err p (- ENOSPC))
        else
          m <- store64 e (q_mem p) (q_pos p) (swap_native_to_be64 e word) ;;
          Done (mkP (q_in p) (q_bits p) (q_buffer p) (q_err p) m (q_pos p + 8))
      end.

(** 842_decompress.cpp:304-546: one iteration of the main loop. *)
Definition bdecomp_step (inp : list Z) (olen : Z) (p : pstate) : outcome ((Z + bool) * pstate) :=
  '(op, p1) <- read_bits e inp p OP_BITS ;;
  if negb (q_err p1 =? 0) then Done (inl (q_err p1), p1)
  else if ((op <? OPS_MAX) || (op =? OP_ZEROS)) && (q_pos p1 + 8 >? olen) then Done (inl (- ENOSPC), p1)
  else
    '(r, p2) <-
      (if op =? OP_REPEAT then
         '(rep, p2) <- read_bits e inp p1 REPEAT_BITS ;;
         if negb (q_err p2 =? 0) then Done (inl (q_err p2), p2)
         else if q_pos p2 =? 0 then Done (inl (- EINVAL), p2)
         else
           let rep := rep + 1 in
           if q_pos p2 + rep * 8 >? olen then Done (inl (- ENOSPC), p2)
           else p3 <- orepeat_copy (Z.to_nat rep) p2 ;; Done (inr false, p3)
       else if op =? OP_ZEROS then
         m <- store_bytes (q_mem p1) (q_pos p1) (List.repeat 0 8) ;;
         Done (inr false, mkP (q_in p1) (q_bits p1) (q_buffer p1) (q_err p1) m (q_pos p1 + 8))
       else if op =? OP_END then Done (inr true, p1)
       else if op =? OPS_MAX - 1 then
         (* 842_decompress.cpp:514-526 *)
         '(value, p2) <- read_bits e inp p1 8 ;;
         if negb (q_err p2 =? 0) then Done (inl (q_err p2), p2)
         else
           let '(offset, p3) := bget_index p2 8 value I8_FIFO_SIZE in
           if negb (q_err p3 =? 0) then Done (inl (q_err p3), p3)
           else
             bs <- load_bytes (q_mem p3) offset 8 ;;
             m <- store_bytes (q_mem p3) (q_pos p3) bs ;;
             Done (inr false, mkP (q_in p3) (q_bits p3) (q_buffer p3) (q_err p3) m (q_pos p3 + 8))
       else
         p2 <- bdo_op inp olen p1 op ;;
         if negb (q_err p2 =? 0) then Done (inl (q_err p2), p2) else Done (inr false, p2)) ;;
    match r with
    | inl ret => Done (inl ret, p2)
    | inr fin => if negb (q_err p2 =? 0) then Done (inl (q_err p2), p2) else Done (inr fin, p2)
    end.

(** 842_decompress.cpp:303-547: the main loop. *)
Fixpoint bdecomp_loop (fuel : nat) (inp : list Z) (olen : Z) (p : pstate) : outcome (Z * pstate) :=
  match fuel with
  | O => NoFuel
  | S f =>
    '(r, p') <- bdecomp_step inp olen p ;;
    match r with
    | inl ret => Done (ret, p')
    | inr true => Done (0, p')
    | inr false => bdecomp_loop f inp olen p'
    end
  end.

(** 842_decompress.cpp:277-572: optsw842_decompress with BRANCH_FREE 1. *)
Definition optsw842_decompress_bf (iaddr oaddr : Z) (inp out : list Z) (olen : Z) : outcome (Z * Z * list Z) :=
  if negb (iaddr mod 8 =? 0) || negb (oaddr mod 8 =? 0)
  then sw842_decompress e oaddr inp out olen
  else
    '(ret, p) <- bdecomp_loop (S (Z.to_nat (8 * lenZ inp))) inp olen (mkP 0 0 0 0 out 0) ;;
    if negb (ret =? 0) then Done (ret, 0, q_mem p)
    else
      '(crc, p1) <- read_bits e inp p CRC_BITS ;;
      if negb (q_err p1 =? 0) then Done (q_err p1, 0, q_mem p1)
      else
        crc' <- crc32_be e oaddr 0 (q_mem p1) (q_pos p1) ;;
        if negb (crc =? crc') then Done (- EINVAL, 0, q_mem p1)
        else Done (0, q_pos p1, q_mem p1).

(** 842_compress.cpp:389-402: get_next_data, with dataAndIndices[14] and [15].
    Result: dataAndIndices[0..6] and [14..15]. *)
Definition bget_next_data (inp : list Z) (pos : Z) : outcome (list Z * list Z) :=
  d <- oget_next_data e inp pos ;;
  d14 <- get_input32 e inp (pos + 2) ;;
  Done (d, [d14; 0]).

(** 842_compress.cpp:463-471: the loop over the columns of templates[templateKey];
    [slots] is dataAndIndices.  Result: paramword and totalbits (a uint8_t). *)
Fixpoint bparams (cols : list (Z * Z)) (slots : list Z) (w total : Z) : outcome (Z * Z) :=
  match cols with
  | [] => Done (w, total)
  | (i, n) :: r =>
    w <- bshl w n ;;
    v <- aget slots i ;;
    bparams r slots (Z.lor w v) (u8 (total + n))
  end.
(** 842_compress.cpp:460-472: the opcode, then all parameters in one write. *)
Definition badd_template (s : bitstream) (slots : list Z) (op : Z) : sres :=
  andthen (stream_write_bits e s op OP_BITS) (fun s1 =>
    cols <- (if (0 <=? op) && (op <? lenZ templates) then Done (nth (Z.to_nat op) templates []) else Undef) ;;
    '(w, total) <- bparams cols slots 0 0 ;;
    stream_write_bits e s1 w total).

(** 842_compress.cpp:434-472,557: process_next; [x] is dataAndIndices[14..15]. *)
Definition bprocess_next (s : bitstream) (st : ostate) (d x : list Z) : outcome (bool * bitstream * ostate) :=
  let st := set_hashes st (ohash d) in
  '(v, ix) <- ofind_index st d ;;
  op <- get_template (template_keys v) ;;
  '(ok, s') <- badd_template s (d ++ ix ++ x) op ;;
  Done (ok, s', st).

(** 842_compress.cpp:609-649: the main loop, as in OptCompModel.v. *)
Fixpoint bcomp_loop (fuel : nat) (inp : list Z) (s : bitstream) (st : ostate) (pos ilen last rc : Z)
  : outcome (bool * bitstream * Z) :=
  if ilen >? 7 then
    match fuel with
    | O => NoFuel
    | S f =>
      next <- load64 e inp pos ;;
      '(d, x) <- bget_next_data inp pos ;;
      let repeat (s : bitstream) (st : ostate) (rc : Z) :=
        st' <- oupdate_hashtables st d pos ;;
        bcomp_loop f inp s st' (pos + 8) (ilen - 8) next rc in
      let emit (s : bitstream) :=
        if next =? 0 then
          '(ok, s') <- oadd_zeros_template e s ;;
          if ok : bool then repeat s' st 0 else Done (false, s', 0)
        else
          '(ok, s', st') <- bprocess_next s st d x ;;
          if ok : bool then repeat s' st' 0 else Done (false, s', 0) in
      let rc1 := if next =? last then u8 (rc + 1) else rc in
      if (next =? last) && (rc1 <=? REPEAT_BITS_MAX) then repeat s st rc1
      else if negb (rc1 =? 0) then
        '(ok, s') <- oadd_repeat_template e s rc1 ;;
        if ok : bool then (if next =? last then repeat s' st 0 else emit s')
        else Done (false, s', 0)
      else emit s
    end
  else Done (true, s, rc).

(** 842_compress.cpp:569-682: optsw842_compress with BRANCH_FREE 1. *)
Definition optsw842_compress_bf (iaddr oaddr : Z) (inp out : list Z) (olen : Z) : outcome (Z * Z * list Z) :=
  let ilen := lenZ inp in
  if negb (ilen mod 8 =? 0) then Done (- EINVAL, olen, out)
  else if negb (iaddr mod 8 =? 0) || negb (oaddr mod 8 =? 0)
  then sw842_compress e iaddr inp out olen
  else
    let s0 := stream_open out olen in
    first <- load64 e inp 0 ;;
    let last := u64 (Z.lnot first) in
    '(ok, s1, rc) <- bcomp_loop (Z.to_nat (ilen / 8)) inp s0 ostate_init 0 ilen last 0 ;;
    '(ok, s) <-
      (if ok : bool then
         andthen (if negb (rc =? 0) then oadd_repeat_template e s1 rc else Done (true, s1)) (fun s2 =>
         andthen (oadd_end_template e s2) (fun s3 =>
           crc <- crc32_be e iaddr 0 inp ilen ;;
           andthen (stream_write_bits e s3 crc CRC_BITS) (stream_flush e)))
       else Done (false, s1)) ;;
    if ok : bool then Done (0, stream_size s, s_mem s) else Done (- ENOSPC, 0, s_mem s).
End Shift.
