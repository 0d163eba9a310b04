(** Model of optsw842_compress and optsw842_decompress with other settings of the switches in
    /repo/src/serial_optimized/842-internal.h:6-11: [strict] says whether LIB842_CUDA_STRICT is defined, [eh] whether
    ENABLE_ERROR_HANDLING is; and with DISABLE_CRC ([crc] says that it is not defined).  The settings of the repository are
    [strict = eh = crc = true] (OptCompModel.v, OptDecompModel.v); BRANCH_FREE is 0. *)
From Coq Require Import ZArith List Bool.
From Verif Require Import CBase CrcModel SerialCompModel SerialDecompModel OptCompModel OptDecompModel.
Import ListNotations.
Open Scope Z_scope.

Section Endian.
Variable e : endian.

(** * 842_compress.cpp *)
(** 842_compress.cpp:609-617, 643-649: the main loop without LIB842_CUDA_STRICT.  Result: (no exception, stream, repeat_count). *)
Fixpoint plain_loop (fuel : nat) (inp : list Z) (s : bitstream) (st : ostate) (pos ilen : Z) : outcome (bool * bitstream * Z) :=
  if ilen >? 7 then
    match fuel with
    | O => NoFuel
    | S f =>
      _ <- load64 e inp pos ;;
      d <- oget_next_data e inp pos ;;
      '(ok, s', st') <- oprocess_next e s inp pos st d ;;
      if ok : bool then
        st' <- oupdate_hashtables st' d pos ;;
        plain_loop f inp s' st' (pos + 8) (ilen - 8)
      else Done (false, s', 0)
    end
  else Done (true, s, 0).

(** 842_compress.cpp:569-682: optsw842_compress; see OptCompModel.v. *)
Definition compress_with (strict crc : bool) (iaddr oaddr : Z) (inp out : list Z) (olen : Z) : outcome (Z * Z * list Z) :=
  let ilen := lenZ inp in
  if negb (ilen mod 8 =? 0) then Done (- EINVAL, olen, out)
  else if negb (iaddr mod 8 =? 0) || negb (oaddr mod 8 =? 0)
  then sw842_compress e iaddr inp out olen
  else
    let s0 := stream_open out olen in
    first <- load64 e inp 0 ;;
    let last := u64 (Z.lnot first) in
    '(ok, s1, rc) <- (if strict then ocomp_loop e (Z.to_nat (ilen / 8)) inp s0 ostate_init 0 ilen last 0
                      else plain_loop (Z.to_nat (ilen / 8)) inp s0 ostate_init 0 ilen) ;;
    '(ok, s) <-
      (if ok : bool then
         andthen (if negb (rc =? 0) then oadd_repeat_template e s1 rc else Done (true, s1)) (fun s2 =>
         andthen (oadd_end_template e s2) (fun s3 =>
           if crc then
             crc <- crc32_be e iaddr 0 inp ilen ;;
             andthen (stream_write_bits e s3 crc CRC_BITS) (stream_flush e)
           else stream_flush e s3))
       else Done (false, s1)) ;;
    if ok : bool then Done (0, stream_size s, s_mem s) else Done (- ENOSPC, 0, s_mem s).

(** * 842_decompress.cpp *)
Section Checks.
Variable eh : bool.

(** 842_decompress.cpp:56-67: read_word. *)
Definition read_word_with (inp : list Z) (p : pstate) : outcome (Z * pstate) :=
  if eh && ((q_in p + 1) * 8 >? lenZ inp) then Done (0, raise_einval p)
  else
    w <- load64 e inp (8 * q_in p) ;;
    Done (swap_be_to_native64 e w, mkP (q_in p + 1) (q_bits p) (q_buffer p) (q_err p) (q_mem p) (q_pos p)).

(** 842_decompress.cpp:70-86: read_bits. *)
Definition read_bits_with (inp : list Z) (p : pstate) (n : Z) : outcome (Z * pstate) :=
  value <- shr64 (q_buffer p) (64 - n) ;;
  if q_bits p <? n then
    '(w, p1) <- read_word_with inp p ;;
    lo <- shr64 w (64 - (n - q_bits p)) ;;
    let value := Z.lor value lo in
    b1 <- shl64 w (n - q_bits p - 1) ;;
    b2 <- shl64 b1 1 ;;
    let bits := u8 (q_bits p + (64 - n)) in
    let buffer := b2 * (if bits >? 0 then 1 else 0) in
    Done (value, mkP (q_in p1) bits buffer (q_err p1) (q_mem p1) (q_pos p1))
  else
    b <- shl64 (q_buffer p) n ;;
    Done (value, mkP (q_in p) (q_bits p - n) b (q_err p) (q_mem p) (q_pos p)).

(** 842_decompress.cpp:107-143: do_index. *)
Definition odo_index_with (p : pstate) (size index fsize : Z) : outcome pstate :=
  let '(offset, total) := oindex_offset (q_pos p) size fsize index in
  if eh && (u64 (offset + size) >? total) then Done (raise_einval p)
  else
    bs <- load_bytes (q_mem p) offset size ;;
    m <- store_bytes (q_mem p) (q_pos p) bs ;;
    Done (mkP (q_in p) (q_bits p) (q_buffer p) (q_err p) m (q_pos p + size)).
(** One statement of a case (842_decompress.cpp:325-481). *)
Definition run_stmt_with (p : pstate) (rep : Z) (s : stmt) : outcome pstate :=
  match s with
  | SD n sh => odo_data e p n (field rep sh (8 * n))
  | SI2 sh => odo_index_with p 2 (field rep sh I2_BITS) I2_FIFO_SIZE
  | SI4 sh => odo_index_with p 4 (field rep sh I4_BITS) I4_FIFO_SIZE
  | SI8 sh => odo_index_with p 8 (field rep sh I8_BITS) I8_FIFO_SIZE
  end.
(** The statements of a case (842_decompress.cpp:325-481), in their order. *)
Fixpoint run_stmts_with (p : pstate) (rep : Z) (l : list stmt) : outcome pstate :=
  match l with
  | [] => Done p
  | s :: r => p' <- run_stmt_with p rep s ;; run_stmts_with p' rep r
  end.

(** 842_decompress.cpp:304-546: one iteration of the main loop; see OptDecompModel.v.  Without ENABLE_ERROR_HANDLING, errorcode does not exist: it stays 0 here. *)
Definition step_with (inp : list Z) (olen : Z) (p : pstate) : outcome ((Z + bool) * pstate) :=
  '(op, p1) <- read_bits_with inp p OP_BITS ;;
  if eh && negb (q_err p1 =? 0) then Done (inl (q_err p1), p1)
  else if eh && (((op <? OPS_MAX) || (op =? OP_ZEROS)) && (q_pos p1 + 8 >? olen)) then Done (inl (- ENOSPC), p1)
  else
    '(r, p2) <-
      (match opt_case op with
       | Some (n, l) =>
         '(rep, p2) <- read_bits_with inp p1 n ;;
         p3 <- run_stmts_with p2 rep l ;;
         Done (inr false, p3)
       | None =>
         if op =? OP_REPEAT then
           '(rep, p2) <- read_bits_with inp p1 REPEAT_BITS ;;
           if eh && negb (q_err p2 =? 0) then Done (inl (q_err p2), p2)
           else if eh && (q_pos p2 =? 0) then Done (inl (- EINVAL), p2)
           else
             let rep := rep + 1 in
             if eh && (q_pos p2 + rep * 8 >? olen) then Done (inl (- ENOSPC), p2)
             else p3 <- orepeat_copy (Z.to_nat rep) p2 ;; Done (inr false, p3)
         else if op =? OP_ZEROS then
           m <- store_bytes (q_mem p1) (q_pos p1) (List.repeat 0 8) ;;
           Done (inr false, mkP (q_in p1) (q_bits p1) (q_buffer p1) (q_err p1) m (q_pos p1 + 8))
         else if op =? OP_END then Done (inr true, p1)
         else Done (inl (- EINVAL), p1)
       end) ;;
    match r with
    | inl ret => Done (inl ret, p2)
    | inr fin => if eh && negb (q_err p2 =? 0) then Done (inl (q_err p2), p2) else Done (inr fin, p2)
    end.

(** 842_decompress.cpp:303-547: the main loop. *)
Fixpoint loop_with (fuel : nat) (inp : list Z) (olen : Z) (p : pstate) : outcome (Z * pstate) :=
  match fuel with
  | O => NoFuel
  | S f =>
    '(r, p') <- step_with inp olen p ;;
    match r with
    | inl ret => Done (ret, p')
    | inr true => Done (0, p')
    | inr false => loop_with f inp olen p'
    end
  end.

(** 842_decompress.cpp:277-572: optsw842_decompress; see OptDecompModel.v. *)
Definition decompress_with (crc : bool) (iaddr oaddr : Z) (inp out : list Z) (olen : Z) : outcome (Z * Z * list Z) :=
  if negb (iaddr mod 8 =? 0) || negb (oaddr mod 8 =? 0)
  then sw842_decompress e oaddr inp out olen
  else
    '(ret, p) <- loop_with (S (Z.to_nat (8 * lenZ inp))) inp olen (mkP 0 0 0 0 out 0) ;;
    if negb (ret =? 0) then Done (ret, 0, q_mem p)
    else if crc then
      '(crc, p1) <- read_bits_with inp p CRC_BITS ;;
      if eh && negb (q_err p1 =? 0) then Done (q_err p1, 0, q_mem p1)
      else
        crc' <- crc32_be e oaddr 0 (q_mem p1) (q_pos p1) ;;
        if negb (crc =? crc') then Done (- EINVAL, 0, q_mem p1)
        else Done (0, q_pos p1, q_mem p1)
    else Done (0, q_pos p, q_mem p).
End Checks.
End Endian.
