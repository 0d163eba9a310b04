(** Model of the OpenCL kernel /repo/src/ocl/decompress.cl, as built by
    /repo/src/ocl/cl842decompress.cpp:203-230 (buildProgram): USE_LOOKAHEAD_BUFFER
    and ENABLE_ERROR_HANDLING are always defined, the CRC is enabled, and the
    input and output buffers are distinct (formats ALWAYS_COMPRESSED_CHUNKS and
    MAYBE_COMPRESSED_CHUNKS; INPLACE_COMPRESSED_CHUNKS: InplaceModel.v).
    Memory is a list of bytes; an access outside it is [Undef]. *)
From Coq Require Import ZArith List Bool.
From Verif Require Import CBase SerialCompModel SerialDecompModel OptCompModel.
Import ListNotations.
Open Scope Z_scope.

(** OpenCL C 1.2, 6.3(j): a shift uses the shift amount modulo the width. *)
Definition oshr (x n : Z) : Z := x / 2 ^ (n mod 64).
(** The same for a left shift. (used in decompress.cl:113-141 (read_bits).) *)
Definition oshl (x n : Z) : Z := x * 2 ^ (n mod 64) mod 2 ^ 64.

(** decompress.cl:45-65: struct sw842_param_decomp.  [k_in] is p->in - p->istart
    and [k_out] is p->out - p->ostart (both in 64-bit words), [k_la] is
    lookAheadBuffer, [k_mem] the memory behind the output pointer. *)
Record kstate := mkK { k_in : Z; k_bits : Z; k_buffer : Z; k_la : list Z; k_err : Z; k_mem : list Z; k_out : Z }.

(** Assignment to p->errorcode. (decompress.cl:53, 120, 185, 197, 260.) *)
Definition kraise (p : kstate) (code : Z) : kstate :=
  mkK (k_in p) (k_bits p) (k_buffer p) (k_la p) code (k_mem p) (k_out p).

Section Endian.
Variable e : endian.

(** decompress.cl:131, 282-287: one entry of the lookahead buffer. *)
Definition lookahead (inp : list Z) (ilen i : Z) : outcome Z :=
  if i * 8 <? ilen then w <- load64 e inp (8 * i) ;; Done (swap_be_to_native64 e w) else Done 0.

(** decompress.cl:113-147: read_bits. *)
Definition kread_bits (inp : list Z) (ilen : Z) (p : kstate) (n : Z) : outcome (Z * kstate) :=
  let value := oshr (k_buffer p) (64 - n) in
  if k_bits p <? n then
    if (k_in p + 1) * 8 >? ilen then
      Done (0, if k_err p =? 0 then kraise p (- EINVAL) else p)
    else
      let w := nth 0 (k_la p) 0 in
      l5 <- lookahead inp ilen (k_in p + 6) ;;
      let la := [nth 1 (k_la p) 0; nth 2 (k_la p) 0; nth 3 (k_la p) 0; nth 4 (k_la p) 0; nth 5 (k_la p) 0; l5] in
      let value := Z.lor value (oshr w (64 - (n - k_bits p))) in
      let buffer := oshl (oshl w (n - k_bits p - 1)) 1 in
      let bits := u32 (k_bits p + (64 - n)) in
      let buffer := buffer * (if bits >? 0 then 1 else 0) in
      Done (value, mkK (k_in p + 1) bits buffer la (k_err p) (k_mem p) (k_out p))
  else
    Done (value, mkK (k_in p) (k_bits p - n) (oshl (k_buffer p) n) (k_la p) (k_err p) (k_mem p) (k_out p)).

(** decompress.cl:149-191: get_index. *)
Definition kget_index (p : kstate) (size index fsize : Z) : Z * kstate :=
  let total := k_out p * 8 in
  let offset := u64 (index * size) in
  let offset :=
    if total >? fsize then
      let section := round_down total fsize in
      let pos := total - section in
      let section := if offset >=? pos then u64 (section - fsize) else section in
      u64 (offset + section)
    else offset in
  if u64 (offset + size) >? total then (0, kraise p (- EINVAL)) else (offset, p).

(** decompress.cl:207-208: number of parameter bits of a template. *)
Definition kopbits (op : Z) : Z :=
  64 - ((op mod 5) + 1) / 2 * 8 - ((op mod 5) / 4) * 7 - ((op / 5) + 1) / 2 * 8 - ((op / 5) / 4) * 7.

(** decompress.cl:225-229: is_index, dst_size, num_bits of field [i] of template
    [op].  (uint32_t and uint8_t conversions are no-ops: the values are in 0..25.) *)
Definition b2z (b : bool) : Z := if b then 1 else 0.
(** decompress.cl:225-229: the three values. *)
Definition kfield (op i : Z) : Z * Z * Z :=
  let opchunk := if i <? 2 then op / 5 else op mod 5 in
  let odd := Z.land i 1 in
  let even := Z.lxor odd 1 in
  let is_index := odd * Z.land opchunk 1 + even * b2z (opchunk >=? 2) in
  let dst_size := 2 + b2z (opchunk >=? 4) * (1 - 2 * (i mod 2)) * 2 in
  let num_bits := odd * (16 - (opchunk mod 2) * 8 - b2z (opchunk >=? 4) * 16)
                + even * (16 - (opchunk / 2) * 8 + b2z (opchunk >=? 4) * 9) in
  (is_index, dst_size, num_bits).

(** decompress.cl:215-257: the loop over the four fields, as a recursion over
    the fields still to do.  [None] is the early return after an error. *)
Fixpoint kfields (fs : list (Z * Z * Z)) (p : kstate) (params opbits word bits : Z) : outcome (option Z * kstate) :=
  match fs with
  | [] => Done (Some word, p)
  | (is_index, dst_size, num_bits) :: fs' =>
    let bitsmask := if negb (num_bits =? 0) then oshr (2 ^ 64 - 1) (64 - num_bits) else 0 in
    let value := Z.land (oshr params (opbits - num_bits)) bitsmask in
    let opbits := u8 (opbits - num_bits) in
    let next p value := kfields fs' p params opbits (Z.lor word (oshl value (64 - dst_size * 8 - bits))) (bits + dst_size * 8) in
    if negb (is_index =? 0) then
      let fifo_size := 2048 - 1536 * b2z (Z.shiftr dst_size 2 <? 1) in
      let '(offset, p) := kget_index p dst_size value fifo_size in
      if negb (k_err p =? 0) then Done (None, p)
      else
        let offset := Z.shiftr offset 1 in
        h0 <- load16 e (k_mem p) (2 * offset) ;;
        h1 <- load16 e (k_mem p) (2 * (offset + 1)) ;;
        let value := Z.lor (oshl (swap_be_to_native16 e h0) 48) (oshl (swap_be_to_native16 e h1) 32) in
        next p (oshr value (64 - dst_size * 8))
    else next p value
  end.

(** decompress.cl:193-265: do_op. *)
Definition kdo_op (inp : list Z) (ilen olen : Z) (p : kstate) (op : Z) : outcome kstate :=
  if op >=? OPS_MAX then Done (kraise p (- EINVAL))
  else
    '(params, p) <- kread_bits inp ilen p (kopbits op) ;;
    if negb (k_err p =? 0) then Done p
    else
      '(r, p) <- kfields (map (kfield op) [0; 1; 2; 3]) p params (kopbits op) 0 0 ;;
      match r with
      | None => Done p
      | Some word =>
        if k_out p * 8 + 8 >? olen then Done (kraise p (- ENOSPC))
        else
          m <- store64 e (k_mem p) (8 * k_out p) (swap_be_to_native64 e word) ;;
          Done (mkK (k_in p) (k_bits p) (k_buffer p) (k_la p) (k_err p) m (k_out p + 1))
      end.

(** decompress.cl:320-323: "while (op-- > 0) { *p.out = *(p.out - 1); p.out++; }" *)
Fixpoint krepeat (n : nat) (p : kstate) : outcome kstate :=
  match n with
  | O => Done p
  | S n =>
    w <- load64 e (k_mem p) (8 * (k_out p - 1)) ;;
    m <- store64 e (k_mem p) (8 * k_out p) w ;;
    krepeat n (mkK (k_in p) (k_bits p) (k_buffer p) (k_la p) (k_err p) m (k_out p + 1))
  end.

(** decompress.cl:296-361: one iteration of the loop.  [inl c] is "return c",
    [inr b] says whether the end template was read.  (For OP_REPEAT the
    variable op is overwritten with the count and is then never OP_END when
    the loop condition is evaluated: after "while (op-- > 0)" it is 2^64-1.) *)
Definition kstep (inp : list Z) (ilen olen : Z) (p : kstate) : outcome ((Z + bool) * kstate) :=
  '(op, p) <- kread_bits inp ilen p OP_BITS ;;
  if negb (k_err p =? 0) then Done (inl (k_err p), p)
  else if op =? OP_REPEAT then
    '(rep, p) <- kread_bits inp ilen p REPEAT_BITS ;;
    if negb (k_err p =? 0) then Done (inl (k_err p), p)
    else if k_out p =? 0 then Done (inl (- EINVAL), p)
    else
      let rep := rep + 1 in
      if k_out p * 8 + rep * 8 >? olen then Done (inl (- ENOSPC), p)
      else p <- krepeat (Z.to_nat rep) p ;; Done (inr false, p)
  else if op =? OP_ZEROS then
    if k_out p * 8 + 8 >? olen then Done (inl (- ENOSPC), p)
    else
      m <- store64 e (k_mem p) (8 * k_out p) 0 ;;
      Done (inr false, mkK (k_in p) (k_bits p) (k_buffer p) (k_la p) (k_err p) m (k_out p + 1))
  else if op =? OP_END then Done (inr true, p)
  else if op =? OPS_MAX - 1 then
    '(value, p) <- kread_bits inp ilen p 8 ;;
    if negb (k_err p =? 0) then Done (inl (k_err p), p)
    else
      let '(offset, p) := kget_index p 8 value I8_FIFO_SIZE in
      if negb (k_err p =? 0) then Done (inl (k_err p), p)
      else if k_out p * 8 + 8 >? olen then Done (inl (- ENOSPC), p)
      else
        w <- load64 e (k_mem p) (8 * Z.shiftr offset 3) ;;
        m <- store64 e (k_mem p) (8 * k_out p) w ;;
        Done (inr false, mkK (k_in p) (k_bits p) (k_buffer p) (k_la p) (k_err p) m (k_out p + 1))
  else
    p <- kdo_op inp ilen olen p op ;;
    if negb (k_err p =? 0) then Done (inl (k_err p), p) else Done (inr false, p).

(** decompress.cl:295-362: the do-while loop, with fuel. *)
Fixpoint kloop (fuel : nat) (inp : list Z) (ilen olen : Z) (p : kstate) : outcome (Z * kstate) :=
  match fuel with
  | O => NoFuel
  | S f =>
    '(r, p) <- kstep inp ilen olen p ;;
    match r with
    | inl c => Done (c, p)
    | inr true => Done (0, p)
    | inr false => kloop f inp ilen olen p
    end
  end.

(** decompress.cl:267-388: decompress_core.  [inp] and [out] are the memory
    behind the two pointers; the result is the return value, *olen and the
    output memory.  The CRC is read but not compared (decompress.cl:378-382:
    "if (false)"). *)
Definition decompress_core (inp : list Z) (ilen : Z) (out : list Z) (olen : Z) : outcome (Z * Z * list Z) :=
  l0 <- lookahead inp ilen 0 ;;
  l1 <- lookahead inp ilen 1 ;;
  l2 <- lookahead inp ilen 2 ;;
  l3 <- lookahead inp ilen 3 ;;
  l4 <- lookahead inp ilen 4 ;;
  l5 <- lookahead inp ilen 5 ;;
  '(c, p) <- kloop (S (Z.to_nat (8 * lenZ inp))) inp ilen olen (mkK 0 0 0 [l0; l1; l2; l3; l4; l5] 0 out 0) ;;
  if negb (c =? 0) then Done (c, 0, k_mem p)
  else
    '(crc, p) <- kread_bits inp ilen p CRC_BITS ;;
    if negb (k_err p =? 0) then Done (k_err p, 0, k_mem p)
    else Done (0, k_out p * 8, k_mem p).

(** common.h:66-69: LIB842_COMPRESSED_CHUNK_MARKER. *)
Definition MARKER : list Z :=
  [0xbe; 0x5a; 0x46; 0xbf; 0x97; 0xe5; 0x2d; 0xd7; 0xb2; 0x7c; 0x94; 0x1a; 0xee; 0xd6; 0x70; 0x76].
(** decompress.cl:410-411: the comparison with the marker. *)
Fixpoint list_eqb (a b : list Z) : bool :=
  match a, b with [], [] => true | x :: a, y :: b => (x =? y) && list_eqb a b | _, _ => false end.

(** cl.h:23-52: CLDecompressorInputFormat, without INPLACE_COMPRESSED_CHUNKS. *)
Inductive cl_format := AlwaysCompressed | MaybeCompressed.

(** The arguments of the kernel that do not change while it runs:
    decompress.cl:390-395 and the build options CL842_CHUNK_SIZE and
    CL842_CHUNK_STRIDE (cl842decompress.cpp:203-204).  A null buffer is [None]. *)
Record cl_args := mkA {
  a_format : cl_format; a_size : Z; a_stride : Z;
  a_in : list Z; a_inoff : Z; a_ilen : option (list Z); a_outoff : Z;
  a_num : Z; a_map : option (list Z) }.
(** What it changes: out, olen, returnValues. (decompress.cl:390-395.) *)
Record cl_mem := mkM { m_out : list Z; m_olen : option (list Z); m_ret : option (list Z) }.

(** decompress.cl:418-421, 426-429, 442-445: "if (o) o[i] = v". *)
Definition opt_set (o : option (list Z)) (i v : Z) : outcome (option (list Z)) :=
  match o with None => Done None | Some l => l' <- aset l i v ;; Done (Some l') end.
(** decompress.cl:407, 439: "o != NULL ? o[i] : dflt". *)
Definition opt_get (o : option (list Z)) (i dflt : Z) : outcome Z :=
  match o with None => Done dflt | Some l => aget l i end.

(** decompress.cl:418-422, 426-430: the chunk needs no decompression. *)
Definition item_done (a : cl_args) (m : cl_mem) (c : Z) (out : list Z) : outcome cl_mem :=
  ol <- opt_set (m_olen m) c (a_size a) ;;
  rv <- opt_set (m_ret m) c 0 ;;
  Done (mkM out ol rv).

(** decompress.cl:439-445: the chunk is decompressed.  [iaddr] and [oaddr]
    are my_in and my_out as byte offsets into the buffers. *)
Definition item_core (m : cl_mem) (inb : list Z) (c iaddr ilen oaddr : Z) : outcome cl_mem :=
  olen <- opt_get (m_olen m) c SIZE_MAX ;;
  '(ret, n, mem) <- decompress_core (skipn (Z.to_nat iaddr) inb) ilen (skipn (Z.to_nat oaddr) (m_out m)) olen ;;
  ol <- opt_set (m_olen m) c n ;;
  rv <- opt_set (m_ret m) c ret ;;
  Done (mkM (firstn (Z.to_nat oaddr) (m_out m) ++ mem) ol rv).

(** decompress.cl:390-446: the kernel run by the work item with global id [gid]. *)
Definition work_item (a : cl_args) (gid : Z) (m : cl_mem) : outcome cl_mem :=
  if gid >=? a_num a then Done m
  else
    c <- opt_get (a_map a) gid gid ;;
    let oaddr := 8 * (a_outoff a / 8 + a_size a / 8 * c) in
    let iaddr := 8 * (a_inoff a / 8 + a_stride a / 8 * c) in
    ilen <- opt_get (a_ilen a) c SIZE_MAX ;;
    match a_format a with
    | AlwaysCompressed => item_core m (a_in a) c iaddr ilen oaddr
    | MaybeCompressed =>
      hd <- load_bytes (a_in a) iaddr 16 ;;
      if negb (list_eqb hd MARKER) then
        bs <- load_bytes (a_in a) iaddr (8 * (a_size a / 8)) ;;
        out <- store_bytes (m_out m) oaddr bs ;;
        item_done a m c out
      else
        n <- load64 e (a_in a) (iaddr + 16) ;;
        if n =? 0 then item_done a m c (m_out m)
        else item_core m (a_in a) c (iaddr + 8 * (u64 (a_size a - n) / 8)) n oaddr
    end.

(** cl842decompress.cpp:73-79: the global size, a multiple of LOCAL_SIZE = 256
    (cl842decompress.cpp:24). *)
Definition global_size (num : Z) : Z := Z.land (u64 (num + 255)) (2 ^ 64 - 1 - 255).

(** The work items in the order [order].  Simplification: each work item runs
    without interruption. (cl842decompress.cpp:73-79.) *)
Fixpoint run_items (a : cl_args) (order : list Z) (m : cl_mem) : outcome cl_mem :=
  match order with
  | [] => Done m
  | gid :: order => m <- work_item a gid m ;; run_items a order m
  end.
End Endian.

(** cl842decompress.cpp:461-478 with 347-459: cl842_decompress.  [out] and [olen] are the caller's;
    [dev] is what the device buffer for the output holds before the kernel
    runs and [rv] the content of the buffer for the return value.  The result
    is the return value, *olen and the output memory.  CHUNK 65536, stride
    99999.  An empty input makes cl::Buffer throw CL_INVALID_BUFFER_SIZE; with
    more than one stride of input, elements 1.. of the arrays ilen, olen and
    ret are accessed, which are single variables.  Simplification: no other
    OpenCL call fails. *)
Definition cl842_decompress (e : endian) (dev : list Z) (rv : Z) (inp out : list Z) (olen : Z) : outcome (Z * Z * list Z) :=
  let ilen := lenZ inp in
  let num := u64 (ilen + 99999 - 1) / 99999 in
  if ilen =? 0 then Done (- ENOMEM, olen, out)
  else if num >? 1 then Undef
  else
    let a := mkA AlwaysCompressed 65536 99999 inp 0 (Some [ilen]) 0 num None in
    m <- run_items e a (map Z.of_nat (seq 0 (Z.to_nat (global_size num)))) (mkM dev (Some [olen]) (Some [rv])) ;;
    n <- opt_get (m_olen m) 0 0 ;;
    ret <- opt_get (m_ret m) 0 0 ;;
    host <- store_bytes out 0 (firstn (Z.to_nat olen) (m_out m)) ;;
    Done (ret, n, host).
