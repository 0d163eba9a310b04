(** Model of /repo/src/serial_optimized/842_decompress.cpp (optsw842_decompress),
    as built: ENABLE_ERROR_HANDLING defined, BRANCH_FREE 0 (842-internal.h:6-13),
    CRC enabled. *)
From Coq Require Import ZArith List Bool.
From Verif Require Import CBase CrcModel SerialCompModel SerialDecompModel OptCompModel.
Import ListNotations.
Open Scope Z_scope.

(** 842_decompress.cpp:30-42: struct sw842_param_decomp.  [q_in] is p->in -
    p->istart (in words), [q_pos] is p->out - p->ostart, [q_mem] the memory
    behind the output pointer. *)
Record pstate := mkP { q_in : Z; q_bits : Z; q_buffer : Z; q_err : Z; q_mem : list Z; q_pos : Z }.

(** "if (p->errorcode == 0) p->errorcode = -EINVAL" *)
Definition raise_einval (p : pstate) : pstate :=
  if q_err p =? 0 then mkP (q_in p) (q_bits p) (q_buffer p) (- EINVAL) (q_mem p) (q_pos p) else p.

Section Endian.
Variable e : endian.

(** 842_decompress.cpp:56-67: read_word. *)
Definition read_word (inp : list Z) (p : pstate) : outcome (Z * pstate) :=
  if (q_in p + 1) * 8 >? lenZ inp then Done (0, raise_einval p)
  else
    w <- load64 e inp (8 * q_in p) ;;
    Done (swap_be_to_native64 e w, mkP (q_in p + 1) (q_bits p) (q_buffer p) (q_err p) (q_mem p) (q_pos p)).

(** 842_decompress.cpp:70-86: read_bits. *)
Definition read_bits (inp : list Z) (p : pstate) (n : Z) : outcome (Z * pstate) :=
  value <- shr64 (q_buffer p) (64 - n) ;;
  if q_bits p <? n then
    '(w, p1) <- read_word inp p ;;
    lo <- shr64 w (64 - (n - q_bits p)) ;;
    let value := Z.lor value lo in
    b1 <- shl64 w (n - q_bits p - 1) ;;
    b2 <- shl64 b1 1 ;;
    let bits := u8 (q_bits p + (64 - n)) in
    let buffer := b2 * (if bits >? 0 then 1 else 0) in
    Done (value, mkP (q_in p1) bits buffer (q_err p1) (q_mem p1) (q_pos p1))
  else
    b <- shl64 (q_buffer p) n ;;
    Done (value, mkP (q_in p) (q_bits p - n) b (q_err p) (q_mem p) (q_pos p)).

(** 842_decompress.cpp:89-105: do_data<N>. *)
Definition odo_data (p : pstate) (n data : Z) : outcome pstate :=
  m <- (if n =? 2 then store16 e (q_mem p) (q_pos p) (swap_be_to_native16 e (u16 data))
        else if n =? 4 then store32 e (q_mem p) (q_pos p) (swap_be_to_native32 e (u32 data))
        else store64 e (q_mem p) (q_pos p) (swap_be_to_native64 e data)) ;;
  Done (mkP (q_in p) (q_bits p) (q_buffer p) (q_err p) m (q_pos p + n)).

(** 842_decompress.cpp:107-143: do_index. *)
Definition oindex_offset (written size fsize index : Z) : Z * Z :=
  let total := round_down written 8 in
  let offset := u64 (index * size) in
  if total >? fsize then
    let section := round_down total fsize in
    let pos := total - section in
    let section' := if offset >=? pos then u64 (section - fsize) else section in
    (u64 (offset + section'), total)
  else (offset, total).
(** 842_decompress.cpp:107-143: do_index. *)
Definition odo_index (p : pstate) (size index fsize : Z) : outcome pstate :=
  let '(offset, total) := oindex_offset (q_pos p) size fsize index in
  if u64 (offset + size) >? total then Done (raise_einval p)
  else
    bs <- load_bytes (q_mem p) offset size ;;
    m <- store_bytes (q_mem p) (q_pos p) bs ;;
    Done (mkP (q_in p) (q_bits p) (q_buffer p) (q_err p) m (q_pos p + size)).

(** The statements of a case of the switch: do_data<N>(rep >> sh & mask) and
    do_index(size, rep >> sh & mask, fsize). (842_decompress.cpp:323-484.) *)
Inductive stmt := SD (n sh : Z) | SI2 (sh : Z) | SI4 (sh : Z) | SI8 (sh : Z).

(** 842_decompress.cpp:325-481: number of parameter bits and the statements of
    each case.  In case 0x00 the word is used unmasked; here the mask is 2^64-1. *)
Definition opt_case (op : Z) : option (Z * list stmt) :=
  match op with
  | 0x00 => Some (64, [SD 8 0])
  | 0x01 => Some (32 + 16 + I2_BITS, [SD 4 24; SD 2 8; SI2 0])
  | 0x02 => Some (32 + I2_BITS + 16, [SD 4 24; SI2 16; SD 2 0])
  | 0x03 => Some (32 + I2_BITS + I2_BITS, [SD 4 16; SI2 8; SI2 0])
  | 0x04 => Some (32 + I4_BITS, [SD 4 9; SI4 0])
  | 0x05 => Some (16 + I2_BITS + 32, [SD 2 40; SI2 32; SD 4 0])
  | 0x06 => Some (16 + I2_BITS + 16 + I2_BITS, [SD 2 32; SI2 24; SD 2 8; SI2 0])
  | 0x07 => Some (16 + I2_BITS + I2_BITS + 16, [SD 2 32; SI2 24; SI2 16; SD 2 0])
  | 0x08 => Some (16 + I2_BITS + I2_BITS + I2_BITS, [SD 2 24; SI2 16; SI2 8; SI2 0])
  | 0x09 => Some (16 + I2_BITS + I4_BITS, [SD 2 17; SI2 9; SI4 0])
  | 0x0a => Some (I2_BITS + 16 + 32, [SI2 48; SD 2 32; SD 4 0])
  | 0x0b => Some (I2_BITS + 32 + I2_BITS, [SI2 40; SD 4 8; SI2 0])
  | 0x0c => Some (I2_BITS + 16 + I2_BITS + 16, [SI2 40; SD 2 24; SI2 16; SD 2 0])
  | 0x0d => Some (I2_BITS + 16 + I2_BITS + I2_BITS, [SI2 32; SD 2 16; SI2 8; SI2 0])
  | 0x0e => Some (I2_BITS + 16 + I4_BITS, [SI2 25; SD 2 9; SI4 0])
  | 0x0f => Some (I2_BITS + I2_BITS + 32, [SI2 40; SI2 32; SD 4 0])
  | 0x10 => Some (I2_BITS + I2_BITS + 16 + I2_BITS, [SI2 32; SI2 24; SD 2 8; SI2 0])
  | 0x11 => Some (I2_BITS + I2_BITS + I2_BITS + 16, [SI2 32; SI2 24; SI2 16; SD 2 0])
  | 0x12 => Some (I2_BITS + I2_BITS + I2_BITS + I2_BITS, [SI2 24; SI2 16; SI2 8; SI2 0])
  | 0x13 => Some (I2_BITS + I2_BITS + I4_BITS, [SI2 17; SI2 9; SI4 0])
  | 0x14 => Some (I4_BITS + 32, [SI4 32; SD 4 0])
  | 0x15 => Some (I4_BITS + 16 + I2_BITS, [SI4 24; SD 2 8; SI2 0])
  | 0x16 => Some (I4_BITS + I2_BITS + 16, [SI4 24; SI2 16; SD 2 0])
  | 0x17 => Some (I4_BITS + I2_BITS + I2_BITS, [SI4 16; SI2 8; SI2 0])
  | 0x18 => Some (I4_BITS + I4_BITS, [SI4 9; SI4 0])
  | 0x19 => Some (I8_BITS, [SI8 0])
  | _ => None
  end.
(** (rep >> sh) & ((1ULL << bits) - 1), as in 842_decompress.cpp:325-481. *)
Definition field (rep sh bits : Z) : Z := Z.land (Z.shiftr rep sh) (Z.shiftl 1 bits - 1).
(** One statement of a case (842_decompress.cpp:325-481). *)
Definition run_stmt (p : pstate) (rep : Z) (s : stmt) : outcome pstate :=
  match s with
  | SD n sh => odo_data p n (field rep sh (8 * n))
  | SI2 sh => odo_index p 2 (field rep sh I2_BITS) I2_FIFO_SIZE
  | SI4 sh => odo_index p 4 (field rep sh I4_BITS) I4_FIFO_SIZE
  | SI8 sh => odo_index p 8 (field rep sh I8_BITS) I8_FIFO_SIZE
  end.
(** The statements of a case (842_decompress.cpp:325-481), in their order. *)
Fixpoint run_stmts (p : pstate) (rep : Z) (l : list stmt) : outcome pstate :=
  match l with
  | [] => Done p
  | s :: r => p' <- run_stmt p rep s ;; run_stmts p' rep r
  end.

(** 842_decompress.cpp:501-504: copying the last 8 bytes [k] times. *)
Fixpoint orepeat_copy (k : nat) (p : pstate) : outcome pstate :=
  match k with
  | O => Done p
  | S k' =>
    bs <- load_bytes (q_mem p) (q_pos p - 8) 8 ;;
    m <- store_bytes (q_mem p) (q_pos p) bs ;;
    orepeat_copy k' (mkP (q_in p) (q_bits p) (q_buffer p) (q_err p) m (q_pos p + 8))
  end.

(** 842_decompress.cpp:304-546: one iteration of the main loop: a return value if
    the function returns, otherwise "end template seen"; and the state.
    [olen] is p.olen. *)
Definition odecomp_step (inp : list Z) (olen : Z) (p : pstate) : outcome ((Z + bool) * pstate) :=
  '(op, p1) <- read_bits inp p OP_BITS ;;
  if negb (q_err p1 =? 0) then Done (inl (q_err p1), p1)
  else if ((op <? OPS_MAX) || (op =? OP_ZEROS)) && (q_pos p1 + 8 >? olen) then Done (inl (- ENOSPC), p1)
  else
    '(r, p2) <-
      (match opt_case op with
       | Some (n, l) =>
         '(rep, p2) <- read_bits inp p1 n ;;
         p3 <- run_stmts p2 rep l ;;
         Done (inr false, p3)
       | None =>
         if op =? OP_REPEAT then
           '(rep, p2) <- read_bits inp p1 REPEAT_BITS ;;
           if negb (q_err p2 =? 0) then Done (inl (q_err p2), p2)
           else if q_pos p2 =? 0 then Done (inl (- EINVAL), p2)
           else
             let rep := rep + 1 in
             if q_pos p2 + rep * 8 >? olen then Done (inl (- ENOSPC), p2)
             else p3 <- orepeat_copy (Z.to_nat rep) p2 ;; Done (inr false, p3)
         else if op =? OP_ZEROS then
           m <- store_bytes (q_mem p1) (q_pos p1) (List.repeat 0 8) ;;
           Done (inr false, mkP (q_in p1) (q_bits p1) (q_buffer p1) (q_err p1) m (q_pos p1 + 8))
         else if op =? OP_END then Done (inr true, p1)
         else Done (inl (- EINVAL), p1)
       end) ;;
    match r with
    | inl ret => Done (inl ret, p2)
    | inr fin => if negb (q_err p2 =? 0) then Done (inl (q_err p2), p2) else Done (inr fin, p2)
    end.

(** 842_decompress.cpp:303-547: the main loop. *)
Fixpoint odecomp_loop (fuel : nat) (inp : list Z) (olen : Z) (p : pstate) : outcome (Z * pstate) :=
  match fuel with
  | O => NoFuel
  | S f =>
    '(r, p') <- odecomp_step inp olen p ;;
    match r with
    | inl ret => Done (ret, p')
    | inr true => Done (0, p')
    | inr false => odecomp_loop f inp olen p'
    end
  end.

(** 842_decompress.cpp:277-572: optsw842_decompress(in, ilen, out, &olen).
    [iaddr] and [oaddr] are the addresses of [in] and [out].  Result: (return
    value, final *olen, final out memory).  Every return value of the loop
    other than through the end template is an error, hence non-zero. *)
Definition optsw842_decompress (iaddr oaddr : Z) (inp out : list Z) (olen : Z) : outcome (Z * Z * list Z) :=
  if negb (iaddr mod 8 =? 0) || negb (oaddr mod 8 =? 0)
  then sw842_decompress e oaddr inp out olen
  else
    '(ret, p) <- odecomp_loop (S (Z.to_nat (8 * lenZ inp))) inp olen (mkP 0 0 0 0 out 0) ;;
    if negb (ret =? 0) then Done (ret, 0, q_mem p)
    else
      '(crc, p1) <- read_bits inp p CRC_BITS ;;
      if negb (q_err p1 =? 0) then Done (q_err p1, 0, q_mem p1)
      else
        crc' <- crc32_be e oaddr 0 (q_mem p1) (q_pos p1) ;;
        if negb (crc =? crc') then Done (- EINVAL, 0, q_mem p1)
        else Done (0, q_pos p1, q_mem p1).
End Endian.
