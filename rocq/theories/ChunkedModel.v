(** Model of /repo/src/common/trivial_chunked.h. *)
From Coq Require Import ZArith List Bool.
From Verif Require Import CBase SerialCompModel SerialDecompModel OptCompModel OptDecompModel.
Import ListNotations.
Open Scope Z_scope.

(** A single-chunk function: address of [in], address of [out], the [ilen] input
    bytes, the memory at [out], the initial *olen; result (return value, *olen, memory). (trivial_chunked.h:21-23: simple_compress_func.) *)
Definition chunk_func := Z -> Z -> list Z -> list Z -> Z -> outcome (Z * Z * list Z).

(** trivial_chunked.h:11-29: the loop of LIB842_DEFINE_TRIVIAL_CHUNKED_COMPRESS.  [i],
    [soffset] and [doffset] are unsigned int, the strides size_t (so the sums are
    taken modulo 2^32).  [inp] and [out] are the memory at [in] (address [iaddr]) and
    at [out] (address [oaddr]).  The range in + soffset .. + ilens[i] has to be inside
    [inp], otherwise the call is undefined.  The local variable [ret] is computed as
    in the code but line 28 returns 0. *)
Fixpoint chunk_loop (call : chunk_func) (fuel : nat) (numchunks istride ostride iaddr oaddr : Z)
  (inp ilens : list Z) (i soffset doffset ret : Z) (rets out olens : list Z)
  : outcome (Z * list Z * list Z * list Z) :=
  if i <? numchunks then
    match fuel with
    | O => NoFuel
    | S f =>
      let next := chunk_loop call f numchunks istride ostride iaddr oaddr inp ilens
                    (u32 (i + 1)) (u32 (soffset + istride)) (u32 (doffset + ostride)) in
      ilen <- aget ilens i ;;
      if ilen =? SIZE_MAX then next ret rets out olens
      else
        ib <- load_bytes inp soffset ilen ;;
        cap <- aget olens i ;;
        if doffset >? lenZ out then Undef
        else
          '(r, n, m) <- call (iaddr + soffset) (oaddr + doffset) ib (skipn (Z.to_nat doffset) out) cap ;;
          rets' <- aset rets i r ;;
          olens' <- aset olens i n ;;
          let ret' := if (ret =? 0) && negb (r =? 0) && negb (r =? - ENOSPC) then r else ret in
          next ret' rets' (firstn (Z.to_nat doffset) out ++ m) olens'
    end
  else Done (0, rets, olens, out).

(** Result: (return value, rets, olens, output memory). (trivial_chunked.h:11-29.) *)
Definition chunked (call : chunk_func) (numchunks : Z) (rets : list Z) (iaddr : Z) (inp : list Z) (istride : Z) (ilens : list Z)
  (oaddr : Z) (out : list Z) (ostride : Z) (olens : list Z) : outcome (Z * list Z * list Z * list Z) :=
  chunk_loop call (S (Z.to_nat numchunks)) numchunks istride ostride iaddr oaddr inp ilens 0 0 0 0 rets out olens.

(** serial/842_compress.c:691-692 and serial_optimized/842_compress.cpp:684-685 (the two
    macros are the same, so it does not matter that their names are swapped there). *)
Definition sw842_compress_f (e : endian) : chunk_func := fun iaddr oaddr inp out olen => sw842_compress e iaddr inp out olen.
(** src/serial/842_decompress.c:297 as an argument of the macros. *)
Definition sw842_decompress_f (e : endian) : chunk_func := fun iaddr oaddr inp out olen => sw842_decompress e oaddr inp out olen.
(** src/serial_optimized/842_compress.cpp:569 as an argument of the macros. *)
Definition optsw842_compress_f (e : endian) : chunk_func := optsw842_compress e.
(** src/serial_optimized/842_decompress.cpp:277 as an argument of the macros. *)
Definition optsw842_decompress_f (e : endian) : chunk_func := optsw842_decompress e.
(** serial/842_compress.c:692. *)
Definition sw842_compress_chunked (e : endian) := chunked (sw842_compress_f e).
(** serial/842_compress.c:691. *)
Definition sw842_decompress_chunked (e : endian) := chunked (sw842_decompress_f e).
(** serial_optimized/842_compress.cpp:685. *)
Definition optsw842_compress_chunked (e : endian) := chunked (optsw842_compress_f e).
(** serial_optimized/842_compress.cpp:684. *)
Definition optsw842_decompress_chunked (e : endian) := chunked (optsw842_decompress_f e).
