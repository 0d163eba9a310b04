(** Model of decompress_core of the OpenCL kernel /repo/src/ocl/decompress.cl with other settings of its switches: [eh] says whether
    ENABLE_ERROR_HANDLING is defined (decompress.cl:43), [la] whether USE_LOOKAHEAD_BUFFER is (decompress.cl:31-41), [crc] that
    DISABLE_CRC (decompress.cl:368) is not.  The settings of the repository are [eh = la = crc = true] (OclModel.v).  With the
    lookahead and without the error handling the kernel does not compile (p->istart is missing). *)
From Coq Require Import ZArith List Bool.
From Verif Require Import CBase SerialCompModel SerialDecompModel OptCompModel OclModel.
Import ListNotations.
Open Scope Z_scope.

Section Config.
Variable e : endian.
Variables eh la crc : bool.

(** decompress.cl:113-147: read_bits. *)
Definition kread_with (inp : list Z) (ilen : Z) (p : kstate) (n : Z) : outcome (Z * kstate) :=
  let value := oshr (k_buffer p) (64 - n) in
  if k_bits p <? n then
    if eh && ((k_in p + 1) * 8 >? ilen) then
      Done (0, if k_err p =? 0 then kraise p (- EINVAL) else p)
    else
      '(w, l) <-
        (if la then
           l5 <- lookahead e inp ilen (k_in p + 6) ;;
           Done (nth 0 (k_la p) 0, [nth 1 (k_la p) 0; nth 2 (k_la p) 0; nth 3 (k_la p) 0; nth 4 (k_la p) 0; nth 5 (k_la p) 0; l5])
         else
           w <- load64 e inp (8 * k_in p) ;;
           Done (swap_be_to_native64 e w, k_la p)) ;;
      let value := Z.lor value (oshr w (64 - (n - k_bits p))) in
      let buffer := oshl (oshl w (n - k_bits p - 1)) 1 in
      let bits := u32 (k_bits p + (64 - n)) in
      let buffer := buffer * (if bits >? 0 then 1 else 0) in
      Done (value, mkK (k_in p + 1) bits buffer l (k_err p) (k_mem p) (k_out p))
  else
    Done (value, mkK (k_in p) (k_bits p - n) (oshl (k_buffer p) n) (k_la p) (k_err p) (k_mem p) (k_out p)).

(** decompress.cl:149-191: get_index. *)
Definition kget_index_with (p : kstate) (size index fsize : Z) : Z * kstate :=
  let total := k_out p * 8 in
  let offset := u64 (index * size) in
  let offset :=
    if total >? fsize then
      let section := round_down total fsize in
      let pos := total - section in
      let section := if offset >=? pos then u64 (section - fsize) else section in
      u64 (offset + section)
    else offset in
  if eh && (u64 (offset + size) >? total) then (0, kraise p (- EINVAL)) else (offset, p).

(** decompress.cl:215-257: the loop over the four fields; see OclModel.v. *)
Fixpoint kfields_with (fs : list (Z * Z * Z)) (p : kstate) (params opbits word bits : Z) : outcome (option Z * kstate) :=
  match fs with
  | [] => Done (Some word, p)
  | (is_index, dst_size, num_bits) :: fs' =>
    let bitsmask := if negb (num_bits =? 0) then oshr (2 ^ 64 - 1) (64 - num_bits) else 0 in
    let value := Z.land (oshr params (opbits - num_bits)) bitsmask in
    let opbits := u8 (opbits - num_bits) in
    let next p value := kfields_with fs' p params opbits (Z.lor word (oshl value (64 - dst_size * 8 - bits))) (bits + dst_size * 8) in
    if negb (is_index =? 0) then
      let fifo_size := 2048 - 1536 * b2z (Z.shiftr dst_size 2 <? 1) in
      let '(offset, p) := kget_index_with p dst_size value fifo_size in
      if eh && negb (k_err p =? 0) then Done (None, p)
      else
        let offset := Z.shiftr offset 1 in
        h0 <- load16 e (k_mem p) (2 * offset) ;;
        h1 <- load16 e (k_mem p) (2 * (offset + 1)) ;;
        let value := Z.lor (oshl (swap_be_to_native16 e h0) 48) (oshl (swap_be_to_native16 e h1) 32) in
        next p (oshr value (64 - dst_size * 8))
    else next p value
  end.

(** decompress.cl:193-265: do_op.  Simplification: without the error handling an invalid opcode (26, 29 or 31), for which the formulas
    make no sense, is [Undef]. *)
Definition kdo_op_with (inp : list Z) (ilen olen : Z) (p : kstate) (op : Z) : outcome kstate :=
  if op >=? OPS_MAX then if eh then Done (kraise p (- EINVAL)) else Undef
  else
    '(params, p) <- kread_with inp ilen p (kopbits op) ;;
    if eh && negb (k_err p =? 0) then Done p
    else
      '(r, p) <- kfields_with (map (kfield op) [0; 1; 2; 3]) p params (kopbits op) 0 0 ;;
      match r with
      | None => Done p
      | Some word =>
        if eh && (k_out p * 8 + 8 >? olen) then Done (kraise p (- ENOSPC))
        else
          m <- store64 e (k_mem p) (8 * k_out p) (swap_be_to_native64 e word) ;;
          Done (mkK (k_in p) (k_bits p) (k_buffer p) (k_la p) (k_err p) m (k_out p + 1))
      end.

(** decompress.cl:296-361: one iteration of the loop; see OclModel.v. *)
Definition kstep_with (inp : list Z) (ilen olen : Z) (p : kstate) : outcome ((Z + bool) * kstate) :=
  '(op, p) <- kread_with inp ilen p OP_BITS ;;
  if eh && negb (k_err p =? 0) then Done (inl (k_err p), p)
  else if op =? OP_REPEAT then
    '(rep, p) <- kread_with inp ilen p REPEAT_BITS ;;
    if eh && negb (k_err p =? 0) then Done (inl (k_err p), p)
    else if eh && (k_out p =? 0) then Done (inl (- EINVAL), p)
    else
      let rep := rep + 1 in
      if eh && (k_out p * 8 + rep * 8 >? olen) then Done (inl (- ENOSPC), p)
      else p <- krepeat e (Z.to_nat rep) p ;; Done (inr false, p)
  else if op =? OP_ZEROS then
    if eh && (k_out p * 8 + 8 >? olen) then Done (inl (- ENOSPC), p)
    else
      m <- store64 e (k_mem p) (8 * k_out p) 0 ;;
      Done (inr false, mkK (k_in p) (k_bits p) (k_buffer p) (k_la p) (k_err p) m (k_out p + 1))
  else if op =? OP_END then Done (inr true, p)
  else if op =? OPS_MAX - 1 then
    '(value, p) <- kread_with inp ilen p 8 ;;
    if eh && negb (k_err p =? 0) then Done (inl (k_err p), p)
    else
      let '(offset, p) := kget_index_with p 8 value I8_FIFO_SIZE in
      if eh && negb (k_err p =? 0) then Done (inl (k_err p), p)
      else if eh && (k_out p * 8 + 8 >? olen) then Done (inl (- ENOSPC), p)
      else
        w <- load64 e (k_mem p) (8 * Z.shiftr offset 3) ;;
        m <- store64 e (k_mem p) (8 * k_out p) w ;;
        Done (inr false, mkK (k_in p) (k_bits p) (k_buffer p) (k_la p) (k_err p) m (k_out p + 1))
  else
    p <- kdo_op_with inp ilen olen p op ;;
    if eh && negb (k_err p =? 0) then Done (inl (k_err p), p) else Done (inr false, p).

(** decompress.cl:295-362: the do-while loop, with fuel. *)
Fixpoint kloop_with (fuel : nat) (inp : list Z) (ilen olen : Z) (p : kstate) : outcome (Z * kstate) :=
  match fuel with
  | O => NoFuel
  | S f =>
    '(r, p) <- kstep_with inp ilen olen p ;;
    match r with
    | inl c => Done (c, p)
    | inr true => Done (0, p)
    | inr false => kloop_with f inp ilen olen p
    end
  end.

(** decompress.cl:267-388: decompress_core; see OclModel.v.  Every iteration reads at least five bits, so that there is fuel enough. *)
Definition core_with (inp : list Z) (ilen : Z) (out : list Z) (olen : Z) : outcome (Z * Z * list Z) :=
  l <- (if la then
          l0 <- lookahead e inp ilen 0 ;;
          l1 <- lookahead e inp ilen 1 ;;
          l2 <- lookahead e inp ilen 2 ;;
          l3 <- lookahead e inp ilen 3 ;;
          l4 <- lookahead e inp ilen 4 ;;
          l5 <- lookahead e inp ilen 5 ;;
          Done [l0; l1; l2; l3; l4; l5]
        else Done []) ;;
  '(c, p) <- kloop_with (S (Z.to_nat (8 * (lenZ inp + if la then 0 else 7)))) inp ilen olen (mkK 0 0 0 l 0 out 0) ;;
  if negb (c =? 0) then Done (c, 0, k_mem p)
  else if crc then
    '(_, p) <- kread_with inp ilen p CRC_BITS ;;
    if eh && negb (k_err p =? 0) then Done (k_err p, 0, k_mem p)
    else Done (0, k_out p * 8, k_mem p)
  else Done (0, k_out p * 8, k_mem p).
End Config.
