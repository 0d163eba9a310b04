(** Model of the OpenCL sample program (sample/compdecomp_cl.cpp): the two ways it lays out a
    compressed file for the OpenCL decompressor, and of the host interface it calls. *)
From Coq Require Import ZArith List Bool.
From Verif Require Import CBase SerialCompModel OptCompModel OclModel.
Import ListNotations.
Open Scope Z_scope.

Section Endian.
Variable e : endian.
(** CHUNK_SIZE (compdecomp_cl.cpp:17; 65536 there). *)
Variable chunk_size : Z.

(** compdecomp_cl.cpp:91-111: one iteration with USE_MAYBE_COMPRESSED_CHUNKS.  [base] and [taddr] are the
    addresses of the file and of temp_buffer, [tmp] the content of temp_buffer, [out] of the buffer
    for all chunks.  The return value of optsw842_compress is not looked at. *)
Definition sample_maybe (base taddr : Z) (inp tmp : list Z) (c : Z) (out : list Z) : outcome (list Z) :=
  chunk <- load_bytes inp (chunk_size * c) chunk_size ;;
  '(_, n, t) <- optsw842_compress e (base + chunk_size * c) taddr chunk tmp (chunk_size * 2) ;;
  if n >? chunk_size - 16 - 8 then store_bytes out (chunk_size * c) chunk
  else
    out <- store_bytes out (chunk_size * c) MARKER ;;
    out <- store64 e out (chunk_size * c + 16) n ;;
    z <- load_bytes t 0 n ;;
    store_bytes out (chunk_size * c + (chunk_size - n)) z.

(** compdecomp_cl.cpp:115-122: one iteration with the default format.  [obase] is the address of the buffer. *)
Definition sample_always (base obase : Z) (inp : list Z) (c : Z) (out : list Z) : outcome (list Z) :=
  chunk <- load_bytes inp (chunk_size * c) chunk_size ;;
  '(_, n, m) <- optsw842_compress e (base + chunk_size * c) (obase + chunk_size * 2 * c) chunk
                  (skipn (Z.to_nat (chunk_size * 2 * c)) out) (chunk_size * 2) ;;
  Done (firstn (Z.to_nat (chunk_size * 2 * c)) out ++ m).

(** compdecomp_cl.cpp:86-91, 114-115: the iterations of the parallel loop, in the order [order].
    Simplification: an iteration is not interrupted. *)
Fixpoint sample_run (body : Z -> list Z -> outcome (list Z)) (order : list Z) (out : list Z) : outcome (list Z) :=
  match order with
  | [] => Done out
  | c :: order => out <- body c out ;; sample_run body order out
  end.
End Endian.

(** CLHostDecompressor::decompress (cl842decompress.cpp:347-457) without INPLACE_COMPRESSED_CHUNKS and with the three arrays
    of sizes and return values null.  [None]: a cl::Error is thrown.  [same]: input == output.  [dev] is what the device buffer holds before.
    Simplification: no OpenCL call fails but the creation of an empty buffer. *)
Definition host_decompress (e : endian) (f : cl_format) (size stride : Z) (order : list Z) (same : bool)
  (dev inp out : list Z) (osize : Z) (map : option (list Z)) : outcome (option (list Z)) :=
  let num := u64 (lenZ inp + stride - 1) / stride in
  if same && negb (osize =? 0) then Done None
  else if (match f with MaybeCompressed => true | AlwaysCompressed => false end) && negb (lenZ inp =? osize) then Done None
  else if lenZ inp =? 0 then Done None
  else
    m <- run_items e (mkA f size stride inp 0 None 0 num map) order (mkM dev None None) ;;
    host <- store_bytes out 0 (firstn (Z.to_nat osize) (m_out m)) ;;
    Done (Some host).

(** compdecomp_cl.cpp:19-169: compress_benchmark_core, as far as it decides between success and
    failure.  [corder] and [order] are the orders of the parallel loops, [map] is chunkShuffleMapPtr. *)
Definition compress_benchmark_core (e : endian) (f : cl_format) (chunk_size base taddr obase : Z) (tmp : Z -> list Z) (dev inp : list Z)
  (corder order : list Z) (map : option (list Z)) : outcome bool :=
  let ilen := lenZ inp in
  let num := ilen / chunk_size in
  let stride := match f with AlwaysCompressed => chunk_size * 2 | MaybeCompressed => chunk_size end in
  let out := repeat 0 (Z.to_nat (num * stride)) in
  let decompressed := repeat 0 (Z.to_nat ilen) in
  out <- sample_run (match f with
                     | AlwaysCompressed => sample_always e chunk_size base obase inp
                     | MaybeCompressed => fun c => sample_maybe e chunk_size base taddr inp (tmp c) c
                     end) corder out ;;
  r <- host_decompress e f chunk_size stride order false dev out decompressed ilen map ;;
  match r with
  | None => Done false
  | Some d => Done (list_eqb (firstn (Z.to_nat ilen) d) inp)
  end.
