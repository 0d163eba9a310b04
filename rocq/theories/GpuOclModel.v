(** The OpenCL kernel /repo/src/ocl/decompress.cl as a work item that interleaves with the others at every access to the buffers out
    (buffer 0, in bytes), olen and returnValues (buffers 1 and 2, one cell for each element).  The input buffers are read only and
    not a part of the shared memory.  (OclModel.v has the same kernel as a function that runs without interruption; the build options are those of
    OclModel.v.)  The state of a work item is the [kstate] of OclModel.v with an unused [k_mem]. *)
From Coq Require Import ZArith List Bool.
From Verif Require Import CBase SerialCompModel SerialDecompModel OptCompModel OclModel GpuModel SpecOcl.
Import ListNotations.
Open Scope Z_scope.

Section Endian.
Variable e : endian.
(** decompress.cl:271: p.ostart, as a byte offset into the buffer out. *)
Variable base : Z.

(** "*p.out = w; p.out++" (decompress.cl:264, 321-322, 330-331, 352). *)
Definition qput (p : kstate) (w : Z) : prog kstate :=
  Store 0 (base + 8 * k_out p) (native_bytes e 8 w) (Ret (mkK (k_in p) (k_bits p) (k_buffer p) (k_la p) (k_err p) (k_mem p) (k_out p + 1))).

(** decompress.cl:215-257: the loop over the four fields. *)
Fixpoint qfields (fs : list (Z * Z * Z)) (p : kstate) (params opbits word bits : Z) : prog (option Z * kstate) :=
  match fs with
  | [] => Ret (Some word, p)
  | (is_index, dst_size, num_bits) :: fs' =>
    let bitsmask := if negb (num_bits =? 0) then oshr (2 ^ 64 - 1) (64 - num_bits) else 0 in
    let value := Z.land (oshr params (opbits - num_bits)) bitsmask in
    let opbits := u8 (opbits - num_bits) in
    let next p value := qfields fs' p params opbits (Z.lor word (oshl value (64 - dst_size * 8 - bits))) (bits + dst_size * 8) in
    if negb (is_index =? 0) then
      let fifo_size := 2048 - 1536 * b2z (Z.shiftr dst_size 2 <? 1) in
      let '(offset, p) := kget_index p dst_size value fifo_size in
      if negb (k_err p =? 0) then Ret (None, p)
      else
        let offset := Z.shiftr offset 1 in
        Load 0 (base + 2 * offset) 2 (fun b0 =>
        Load 0 (base + 2 * (offset + 1)) 2 (fun b1 =>
        let value := Z.lor (oshl (swap_be_to_native16 e (native_val e b0)) 48) (oshl (swap_be_to_native16 e (native_val e b1)) 32) in
        next p (oshr value (64 - dst_size * 8))))
    else next p value
  end.

(** decompress.cl:193-265: do_op. *)
Definition qdo_op (inp : list Z) (ilen olen : Z) (p : kstate) (op : Z) : prog kstate :=
  if op >=? OPS_MAX then Ret (kraise p (- EINVAL))
  else
    '(params, p) <~ lift (kread_bits e inp ilen p (kopbits op)) ;;
    if negb (k_err p =? 0) then Ret p
    else
      '(r, p) <~ qfields (map (kfield op) [0; 1; 2; 3]) p params (kopbits op) 0 0 ;;
      match r with
      | None => Ret p
      | Some word =>
        if k_out p * 8 + 8 >? olen then Ret (kraise p (- ENOSPC))
        else qput p (swap_be_to_native64 e word)
      end.

(** decompress.cl:320-323. *)
Fixpoint qrepeat (n : nat) (p : kstate) : prog kstate :=
  match n with
  | O => Ret p
  | S n =>
    Load 0 (base + 8 * (k_out p - 1)) 8 (fun bs =>
    p <~ qput p (native_val e bs) ;;
    qrepeat n p)
  end.

(** decompress.cl:296-361: one iteration of the loop. *)
Definition qstep (inp : list Z) (ilen olen : Z) (p : kstate) : prog ((Z + bool) * kstate) :=
  '(op, p) <~ lift (kread_bits e inp ilen p OP_BITS) ;;
  if negb (k_err p =? 0) then Ret (inl (k_err p), p)
  else if op =? OP_REPEAT then
    '(rep, p) <~ lift (kread_bits e inp ilen p REPEAT_BITS) ;;
    if negb (k_err p =? 0) then Ret (inl (k_err p), p)
    else if k_out p =? 0 then Ret (inl (- EINVAL), p)
    else
      let rep := rep + 1 in
      if k_out p * 8 + rep * 8 >? olen then Ret (inl (- ENOSPC), p)
      else p <~ qrepeat (Z.to_nat rep) p ;; Ret (inr false, p)
  else if op =? OP_ZEROS then
    if k_out p * 8 + 8 >? olen then Ret (inl (- ENOSPC), p)
    else p <~ qput p 0 ;; Ret (inr false, p)
  else if op =? OP_END then Ret (inr true, p)
  else if op =? OPS_MAX - 1 then
    '(value, p) <~ lift (kread_bits e inp ilen p 8) ;;
    if negb (k_err p =? 0) then Ret (inl (k_err p), p)
    else
      let '(offset, p) := kget_index p 8 value I8_FIFO_SIZE in
      if negb (k_err p =? 0) then Ret (inl (k_err p), p)
      else if k_out p * 8 + 8 >? olen then Ret (inl (- ENOSPC), p)
      else
        Load 0 (base + 8 * Z.shiftr offset 3) 8 (fun bs =>
        p <~ qput p (native_val e bs) ;;
        Ret (inr false, p))
  else
    p <~ qdo_op inp ilen olen p op ;;
    if negb (k_err p =? 0) then Ret (inl (k_err p), p) else Ret (inr false, p).

(** decompress.cl:295-362: the do-while loop, with fuel. *)
Fixpoint qloop (fuel : nat) (inp : list Z) (ilen olen : Z) (p : kstate) : prog (Z * kstate) :=
  match fuel with
  | O => Stuck
  | S f =>
    '(r, p) <~ qstep inp ilen olen p ;;
    match r with
    | inl c => Ret (c, p)
    | inr true => Ret (0, p)
    | inr false => qloop f inp ilen olen p
    end
  end.

(** decompress.cl:267-388: decompress_core; the return value and *olen. *)
Definition qcore (inp : list Z) (ilen olen : Z) : prog (Z * Z) :=
  l0 <~ lift (lookahead e inp ilen 0) ;;
  l1 <~ lift (lookahead e inp ilen 1) ;;
  l2 <~ lift (lookahead e inp ilen 2) ;;
  l3 <~ lift (lookahead e inp ilen 3) ;;
  l4 <~ lift (lookahead e inp ilen 4) ;;
  l5 <~ lift (lookahead e inp ilen 5) ;;
  '(c, p) <~ qloop (S (Z.to_nat (8 * lenZ inp))) inp ilen olen (mkK 0 0 0 [l0; l1; l2; l3; l4; l5] 0 [] 0) ;;
  if negb (c =? 0) then Ret (c, 0)
  else
    '(crc, p) <~ lift (kread_bits e inp ilen p CRC_BITS) ;;
    if negb (k_err p =? 0) then Ret (k_err p, 0)
    else Ret (0, k_out p * 8).
End Endian.

(** "if (olen) olen[c] = v" and "olen != NULL ? olen[c] : d" (decompress.cl:418-421, 426-429, 439, 442-445); [has] says whether the argument is not null. *)
Definition qset (has : bool) (b : nat) (c v : Z) : prog unit := if has then Store b c [v] (Ret tt) else Ret tt.
(** decompress.cl:439: olen != NULL ? olen[c] : d. *)
Definition qget (has : bool) (b : nat) (c d : Z) : prog Z := if has then Load b c 1 (fun vs => Ret (nth 0 vs 0)) else Ret d.
(** decompress.cl:414-416: the loop that copies a chunk, one word at a time. *)
Fixpoint qcopy (inb : list Z) (iaddr oaddr : Z) (n : nat) : prog unit :=
  match n with
  | O => Ret tt
  | S n => bs <~ lift (load_bytes inb iaddr 8) ;; Store 0 oaddr bs (qcopy inb (iaddr + 8) (oaddr + 8) n)
  end.
(** decompress.cl:418-422, 426-430. *)
Definition qitem_done (ho hr : bool) (a : cl_args) (c : Z) : prog unit :=
  _ <~ qset ho 1 c (a_size a) ;; qset hr 2 c 0.
(** decompress.cl:439-445. *)
Definition qitem_core (e : endian) (ho hr : bool) (inb : list Z) (c iaddr ilen oaddr : Z) : prog unit :=
  olen <~ qget ho 1 c SIZE_MAX ;;
  '(ret, n) <~ qcore e oaddr (skipn (Z.to_nat iaddr) inb) ilen olen ;;
  _ <~ qset ho 1 c n ;;
  qset hr 2 c ret.
(** decompress.cl:390-446: the kernel run by the work item with global id [gid]; [ho] and [hr]: olen and returnValues are given. *)
Definition qwork (e : endian) (ho hr : bool) (a : cl_args) (gid : Z) : prog unit :=
  if gid >=? a_num a then Ret tt
  else
    c <~ lift (opt_get (a_map a) gid gid) ;;
    let oaddr := 8 * (a_outoff a / 8 + a_size a / 8 * c) in
    let iaddr := 8 * (a_inoff a / 8 + a_stride a / 8 * c) in
    ilen <~ lift (opt_get (a_ilen a) c SIZE_MAX) ;;
    match a_format a with
    | AlwaysCompressed => qitem_core e ho hr (a_in a) c iaddr ilen oaddr
    | MaybeCompressed =>
      hd <~ lift (load_bytes (a_in a) iaddr 16) ;;
      if negb (list_eqb hd MARKER) then
        _ <~ qcopy (a_in a) iaddr oaddr (Z.to_nat (a_size a / 8)) ;;
        qitem_done ho hr a c
      else
        n <~ lift (load64 e (a_in a) (iaddr + 16)) ;;
        if n =? 0 then qitem_done ho hr a c
        else qitem_core e ho hr (a_in a) c (iaddr + 8 * (u64 (a_size a - n) / 8)) n oaddr
    end.

(** The memory of the machine for the buffers of a launch, and the launch: cl842decompress.cpp:73-79 (all work items of the index space). *)
Definition is_some {A} (o : option A) : bool := match o with Some _ => true | None => false end.
(** The content of a buffer that may be null. (decompress.cl:390-395: ilen, olen, chunkShuffleMap and returnValues may be null.) *)
Definition or_nil (o : option (list Z)) : list Z := match o with Some l => l | None => [] end.
(** The buffers the kernel writes (decompress.cl:390-395). *)
Definition gmem_of (m : cl_mem) : gmem := [m_out m; or_nil (m_olen m); or_nil (m_ret m)].
(** cl842decompress.cpp:73-79: the launch. *)
Definition ocl_start (e : endian) (a : cl_args) (m : cl_mem) : gsys :=
  mkG (gmem_of m) (map (qwork e (is_some (m_olen m)) (is_some (m_ret m)) a) (chunk_numbers (global_size (a_num a)))).
