(** Model of struct Block (/repo/include/lib842/stream/block.h) and of the two
    functions handle_block of the streams. *)
From Coq Require Import ZArith List Bool.
From Verif Require Import CBase ChunkedModel.
Import ListNotations.
Open Scope Z_scope.

(** stream/common.h:24-37. *)
Definition CHUNK_SIZE : Z := 65536.
(** stream/common.h:25. *)
Definition NUM_CHUNKS_PER_BLOCK : Z := 16.
(** stream/common.h:26. *)
Definition BLOCK_SIZE : Z := NUM_CHUNKS_PER_BLOCK * CHUNK_SIZE.
(** stream/common.h:30-35. *)
Definition COMPRESSIBLE_THRESHOLD : Z := CHUNK_SIZE - 16 - 8.

(** block.h:22-69: struct Block.  The source pointer is modelled by the bytes
    that follow it (None: nullptr); the chunk buffer by its address and content
    (None: nullptr). *)
Record block := mkBlock { b_offset : Z; b_padding : Z; b_source : option (list Z); b_sizes : list Z; b_buffer : option (Z * list Z) }.

(** A call of one of the four functions of ChunkedModel (member of lib842_implementation). *)
Definition chunked_impl := Z -> list Z -> Z -> list Z -> Z -> list Z -> Z -> list Z -> Z -> list Z ->
  outcome (Z * list Z * list Z * list Z).

(** DataCompressionStream.cpp:265-270: sizes of the chunks of the block. *)
Fixpoint chunk_sizes (rets olens : list Z) : list Z * bool :=
  match rets, olens with
  | r :: rets', n :: olens' =>
    let '(l, any) := chunk_sizes rets' olens' in
    let compressible := (r =? 0) && (n <=? COMPRESSIBLE_THRESHOLD) in
    ((if compressible then n else CHUNK_SIZE) :: l, compressible || any)
  | _, _ => ([], false)
  end.

(** DataCompressionStream.cpp:231-276: handle_block.  [paddr] and [src] are the
    address and the memory of _ptr, [baddr] and [buf] the address and the (arbitrary)
    initial content of the buffer that is allocated, [rets0] the (indeterminate) initial content of
    chunk_rets.  Allocation succeeds; the time statistics are not modelled. *)
Definition comp_handle_block (compress_chunked : chunked_impl) (rets0 : list Z) (paddr : Z) (src : list Z) (baddr : Z) (buf : list Z)
  (offset : Z) : outcome block :=
  let sizes16 := List.repeat CHUNK_SIZE 16 in
  let source := skipn (Z.to_nat offset) src in
  '(ret, rets, olens, buf') <- compress_chunked NUM_CHUNKS_PER_BLOCK rets0 (paddr + offset) source CHUNK_SIZE sizes16
                                 baddr buf CHUNK_SIZE sizes16 ;;
  if negb (ret =? 0) then Done (mkBlock SIZE_MAX CHUNK_SIZE (Some source) [] None)
  else
    let '(sizes, any_compressible) := chunk_sizes rets olens in
    Done (mkBlock offset CHUNK_SIZE (Some source) sizes (if any_compressible : bool then Some (baddr, buf') else None)).

(** DataDecompressionStream.cpp:216-235: the first loop of handle_block, from chunk
    [i] on.  Result: input_chunk_sizes and the memory at _ptr, or None if an
    assertion failed.  [ndebug] says that NDEBUG is defined (assertions off).
    block.h:49-57: get_chunk asserts that source is nullptr and then reads from it. *)
Fixpoint prepare (ndebug : bool) (b : block) (i : Z) (sizes : list Z) (mem : list Z) : outcome (option (list Z * list Z)) :=
  match sizes with
  | [] => Done (Some ([], mem))
  | n :: r =>
    let cont (ilen : Z) (mem : list Z) :=
      o <- prepare ndebug b (i + 1) r mem ;;
      match o with Some (l, mem') => Done (Some (ilen :: l, mem')) | None => Done None end in
    if n =? 0 then cont SIZE_MAX mem
    else if n =? CHUNK_SIZE then
      match b_source b with
      | Some src =>
        if negb ndebug then Done None
        else
          bs <- load_bytes src (i * CHUNK_SIZE) CHUNK_SIZE ;;
          mem' <- store_bytes mem (b_offset b + i * CHUNK_SIZE) bs ;;
          cont SIZE_MAX mem'
      | None => Undef
      end
    else if negb ndebug && negb ((0 <? n) && (n <=? COMPRESSIBLE_THRESHOLD)) then Done None
    else cont n mem
  end.

(** DataDecompressionStream.cpp:210-256: handle_block.  [paddr] and [mem] are the
    address and the memory of _ptr, [rets0] the initial content of chunk_rets (indeterminate in
    the code: entries of skipped chunks are compared with 0 as they are).  Result: the
    return value and the memory, or None if an assertion failed. *)
Definition decomp_handle_block (ndebug : bool) (decompress_chunked : chunked_impl) (rets0 : list Z) (paddr : Z) (mem : list Z) (b : block)
  : outcome (option (bool * list Z)) :=
  o <- prepare ndebug b 0 (b_sizes b) mem ;;
  match o with
  | None => Done None
  | Some (ilens, mem1) =>
    let '(baddr, buf) := match b_buffer b with Some p => p | None => (0, []) end in
    let d := Z.to_nat (b_offset b) in
    '(ret, rets, olens, out') <- decompress_chunked NUM_CHUNKS_PER_BLOCK rets0 baddr buf (b_padding b) ilens
                                   (paddr + b_offset b) (skipn d mem1) CHUNK_SIZE (List.repeat CHUNK_SIZE 16) ;;
    let mem2 := firstn d mem1 ++ out' in
    if negb (ret =? 0) then Done (Some (false, mem2))
    else if negb ndebug && negb (forallb (fun r => r =? 0) rets && forallb (fun n => n =? CHUNK_SIZE) olens) then Done None
    else Done (Some (true, mem2))
  end.
