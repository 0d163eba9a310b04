(** Model of the OpenCL kernel /repo/src/ocl/decompress.cl built for
    INPLACE_COMPRESSED_CHUNKS (cl842decompress.cpp:214-215), where the input and
    the output buffer are the same buffer. *)
From Coq Require Import ZArith List Bool.
From Verif Require Import CBase SerialCompModel SerialDecompModel OptCompModel OclModel.
Import ListNotations.
Open Scope Z_scope.

Section Endian.
Variable e : endian.

(** The memory behind the input pointer, which is [ioff] bytes after the output
    pointer, as it is now: the kernel has been writing to it. (decompress.cl:113-141: what read_bits reads.) *)
Definition input_now (ioff : Z) (mem : list Z) : list Z := skipn (Z.to_nat ioff) mem.

(** decompress.cl:295-362: the do-while loop.  In one iteration every read of
    the input (read_bits) comes before the first write to the output, so the
    iteration is [kstep] with the input as it is when the iteration starts. *)
Fixpoint iloop (fuel : nat) (ioff ilen olen : Z) (p : kstate) : outcome (Z * kstate) :=
  match fuel with
  | O => NoFuel
  | S f =>
    '(r, p) <- kstep e (input_now ioff (k_mem p)) ilen olen p ;;
    match r with
    | inl c => Done (c, p)
    | inr true => Done (0, p)
    | inr false => iloop f ioff ilen olen p
    end
  end.

(** decompress.cl:267-388: decompress_core with in = out + ioff / 8.  [mem] is the
    memory behind the output pointer; the result is the return value, *olen and
    that memory. *)
Definition inplace_core (mem : list Z) (ioff ilen olen : Z) : outcome (Z * Z * list Z) :=
  let inp := input_now ioff mem in
  l0 <- lookahead e inp ilen 0 ;;
  l1 <- lookahead e inp ilen 1 ;;
  l2 <- lookahead e inp ilen 2 ;;
  l3 <- lookahead e inp ilen 3 ;;
  l4 <- lookahead e inp ilen 4 ;;
  l5 <- lookahead e inp ilen 5 ;;
  '(c, p) <- iloop (S (Z.to_nat (8 * lenZ inp))) ioff ilen olen (mkK 0 0 0 [l0; l1; l2; l3; l4; l5] 0 mem 0) ;;
  if negb (c =? 0) then Done (c, 0, k_mem p)
  else
    '(crc, p) <- kread_bits e (input_now ioff (k_mem p)) ilen p CRC_BITS ;;
    if negb (k_err p =? 0) then Done (k_err p, 0, k_mem p)
    else Done (0, k_out p * 8, k_mem p).

(** decompress.cl:390-446 with USE_INPLACE_COMPRESSED_CHUNKS: the work item
    [gid].  The buffer is [m_out m]; a_in, a_format and a_inoff are not used:
    cl842decompress.cpp:56-59 throws unless the two buffers and the two offsets are
    the same.  Simplification: the chunk stride is at least the chunk size, as
    in compdecomp_cl.cpp:33-35, so that the input is not before the output. *)
Definition iwork_item (a : cl_args) (gid : Z) (m : cl_mem) : outcome cl_mem :=
  if gid >=? a_num a then Done m
  else
    c <- opt_get (a_map a) gid gid ;;
    let oaddr := 8 * (a_outoff a / 8 + a_size a / 8 * c) in
    let iaddr := 8 * (a_outoff a / 8 + a_stride a / 8 * c) in
    ilen <- opt_get (a_ilen a) c SIZE_MAX ;;
    hd <- load_bytes (m_out m) iaddr 16 ;;
    if negb (list_eqb hd MARKER) then item_done a m c (m_out m)
    else
      n <- load64 e (m_out m) (iaddr + 16) ;;
      if n =? 0 then item_done a m c (m_out m)
      else
        olen <- opt_get (m_olen m) c SIZE_MAX ;;
        '(ret, n', mem) <- inplace_core (skipn (Z.to_nat oaddr) (m_out m)) (iaddr + 8 * (u64 (a_size a - n) / 8) - oaddr) n olen ;;
        ol <- opt_set (m_olen m) c n' ;;
        rv <- opt_set (m_ret m) c ret ;;
        Done (mkM (firstn (Z.to_nat oaddr) (m_out m) ++ mem) ol rv).

(** The work items in the order [order], each without interruption (as in
    OclModel.v). (cl842decompress.cpp:73-79.) *)
Fixpoint irun_items (a : cl_args) (order : list Z) (m : cl_mem) : outcome cl_mem :=
  match order with
  | [] => Done m
  | gid :: order => m <- iwork_item a gid m ;; irun_items a order m
  end.
End Endian.
