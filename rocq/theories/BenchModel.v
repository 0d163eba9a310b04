(** Model of the sample program for the codecs that run on the CPU: sample/compdecomp.c and
    sample/compdecomp_driver.c, built for sw842 or optsw842 and without CONDENSE. *)
From Coq Require Import ZArith List Bool.
From Verif Require Import CBase SerialCompModel SerialDecompModel OptCompModel OptDecompModel OclModel ChunkedModel.
Import ListNotations.
Open Scope Z_scope.

(** A chunked function of the library (its result: return value, rets, olens, output memory). (include/lib842/common.h:38-59; called in compdecomp.c:106, 194.) *)
Definition chunked_call := Z -> list Z -> Z -> list Z -> Z -> list Z -> Z -> list Z -> Z -> list Z -> outcome (Z * list Z * list Z * list Z).

(** struct lib842_implementation as far as the sample uses it (include/lib842/common.h:55-62). *)
Record implementation := mkImpl {
  i_compress : chunk_func; i_decompress : chunk_func;
  i_compress_chunked : chunked_call; i_decompress_chunked : chunked_call; i_required : Z; i_preferred : Z }.

(** The values of the loop variables (compdecomp.c:110, 198): a, a + 1, ..., a + k - 1. *)
Definition from_to (a k : Z) : list Z := map (fun i => a + Z.of_nat i) (seq 0 (Z.to_nat k)).

Section Core.
Variable I : implementation.
(** CHUNK_SIZE, which is also CHUNK_STRIDE, and CHUNKS_PER_BATCH (compdecomp.c:26-32; 65536 and 16 there). *)
Variable C B : Z.
(** The addresses of in, out and decompressed, and the content of in. *)
Variable iaddr oaddr daddr : Z.
Variable inp : list Z.
(** The number of chunks. *)
Variable num : Z.

(** compdecomp.c:97-98, 181-182. *)
Definition batch_chunks (chunk_num : Z) : Z := if num - chunk_num <? B then num - chunk_num else B.

(** compdecomp.c:110-114: the loop over the return values of the chunks. *)
Fixpoint mark_full (err : Z) (rets sizes : list Z) : list Z :=
  match rets, sizes with
  | r :: rets, n :: sizes => (if (err =? 0) && (r =? - ENOSPC) then SIZE_MAX else n) :: mark_full err rets sizes
  | _, _ => sizes
  end.

(** compdecomp.c:97-131: the iteration of the first parallel loop with chunk_num = B * b.  The state is out, compressed_chunk_sizes and omp_success;
    [junk] is the content of the uninitialised chunk_rets.  The library function is given only the parts of the arrays that belong to the batch, so that
    an access to the others would be undefined. *)
Definition comp_batch (junk : Z -> list Z) (b : Z) (s : list Z * list Z * bool) : outcome (list Z * list Z * bool) :=
  let '(out, sizes, ok) := s in
  let first := B * b in
  let k := batch_chunks first in
  sizes <- store_bytes sizes first (repeat C (Z.to_nat k)) ;;
  chunk_in <- load_bytes inp (C * first) (C * k) ;;
  chunk_out <- load_bytes out (C * first) (C * k) ;;
  olens <- load_bytes sizes first k ;;
  '(err, rets, olens, chunk_out) <-
     i_compress_chunked I k (junk k) (iaddr + C * first) chunk_in C (repeat C (Z.to_nat k)) (oaddr + C * first) chunk_out C olens ;;
  sizes <- store_bytes sizes first (mark_full err rets olens) ;;
  out <- store_bytes out (C * first) chunk_out ;;
  Done (out, sizes, ok && (err =? 0)).

(** compdecomp.c:198-204: the loop that copies the chunks that were not compressed; [todo] are their numbers. *)
Fixpoint copy_raw (sizes todo dec dsizes : list Z) : outcome (list Z * list Z) :=
  match todo with
  | [] => Done (dec, dsizes)
  | c :: todo =>
    n <- aget sizes c ;;
    if n =? SIZE_MAX then
      x <- load_bytes inp (C * c) C ;;
      dec <- store_bytes dec (C * c) x ;;
      dsizes <- aset dsizes c C ;;
      copy_raw sizes todo dec dsizes
    else copy_raw sizes todo dec dsizes
  end.

(** compdecomp.c:181-227: the iteration of the second parallel loop.  The state is decompressed, decompressed_chunk_sizes and omp_success. *)
Definition decomp_batch (junk : Z -> list Z) (out sizes : list Z) (b : Z) (s : list Z * list Z * bool) : outcome (list Z * list Z * bool) :=
  let '(dec, dsizes, ok) := s in
  let first := B * b in
  let k := batch_chunks first in
  dsizes <- store_bytes dsizes first (repeat C (Z.to_nat k)) ;;
  chunk_out <- load_bytes out (C * first) (C * k) ;;
  ilens <- load_bytes sizes first k ;;
  chunk_decomp <- load_bytes dec (C * first) (C * k) ;;
  olens <- load_bytes dsizes first k ;;
  '(err, _, olens, chunk_decomp) <-
     i_decompress_chunked I k (junk k) (oaddr + C * first) chunk_out C ilens (daddr + C * first) chunk_decomp C olens ;;
  dsizes <- store_bytes dsizes first olens ;;
  dec <- store_bytes dec (C * first) chunk_decomp ;;
  '(dec, dsizes) <- copy_raw sizes (from_to first k) dec dsizes ;;
  Done (dec, dsizes, ok && (err =? 0)).

(** compdecomp.c:95-96, 179-180: the batches in the order [order].  Simplification: an iteration is not interrupted. *)
Fixpoint run_batches (body : Z -> list Z * list Z * bool -> outcome (list Z * list Z * bool)) (order : list Z) (s : list Z * list Z * bool)
  : outcome (list Z * list Z * bool) :=
  match order with
  | [] => Done s
  | b :: order => s <- body b s ;; run_batches body order s
  end.
End Core.

(** compdecomp.c:139-143 and 235-237, in arithmetic modulo 2^64. *)
Definition total (C : Z) (sizes : list Z) : Z := fold_left (fun t n => u64 (t + (if negb (n =? SIZE_MAX) then n else C))) sizes 0.

(** compdecomp.c:36-268: compress_benchmark_core.  The result is the return value, *olen ([None]: not written) and the content of "decompressed" at the end.  [junk1], [junk2]: the content of the arrays that
    are not initialised.  Simplification: no allocation fails. *)
Definition benchmark_core (I : implementation) (C B iaddr oaddr daddr : Z) (inp : list Z) (junk1 junk2 : Z -> list Z) (corder dorder : list Z)
  : outcome (bool * option Z * list Z) :=
  let ilen := lenZ inp in
  if (B >? 1) && negb (C mod i_required I =? 0) then Done (false, None, [])
  else
    let num := ilen / C in
    '(out, sizes, ok) <- run_batches (comp_batch I C B iaddr oaddr inp num junk1) corder (repeat 0 (Z.to_nat (ilen / C * C)), junk2 num, true) ;;
    if negb ok then Done (false, None, repeat 0 (Z.to_nat ilen))
    else
      let olen := total C sizes in
      '(dec, dsizes, ok) <- run_batches (decomp_batch I C B oaddr daddr inp num junk1 out sizes) dorder (repeat 0 (Z.to_nat ilen), junk2 num, true) ;;
      if negb ok then Done (false, Some olen, dec)
      else if negb (ilen =? fold_left (fun t n => u64 (t + n)) dsizes 0) || negb (list_eqb inp dec) then Done (false, Some olen, dec)
      else Done (true, Some olen, dec).

(** compdecomp.c:270-291 and compdecomp_driver.c:120-151: the test without chunks.  [out] and [dec] are the two buffers, which are as long as *olen and *dlen say.
    The result is the return value, dlen and the content of "decompressed". *)
Definition simple_test (I : implementation) (iaddr oaddr daddr : Z) (inp out dec : list Z) : outcome (bool * Z * list Z) :=
  '(err, olen, out) <- i_compress I iaddr oaddr inp out (lenZ out) ;;
  if negb (err =? 0) then Done (false, lenZ dec, dec)
  else
    z <- load_bytes out 0 olen ;;
    '(err, dlen, dec) <- i_decompress I oaddr daddr z dec (lenZ dec) ;;
    if negb (err =? 0) then Done (false, dlen, dec)
    else Done ((lenZ inp =? dlen) && list_eqb inp (firstn (length inp) dec), dlen, dec).

(** compdecomp_driver.c:17-20. *)
Definition nextMultipleOfChunkSize (input chunk_size : Z) : Z := Z.land (u64 (input + (chunk_size - 1))) (2 ^ 64 - 1 - (chunk_size - 1)).

(** compdecomp_driver.c:22-72: what read_file returns for a file with this content. *)
Definition read_file (file : list Z) (chunk_size : Z) : list Z :=
  file ++ repeat 0 (Z.to_nat (nextMultipleOfChunkSize (lenZ file) chunk_size) - length file).

(** compdecomp_driver.c:75-80. *)
Definition TEST_STRING : list Z :=
  [0x30; 0x30; 0x31; 0x31; 0x32; 0x32; 0x33; 0x33; 0x34; 0x34; 0x35; 0x35; 0x36; 0x36; 0x37; 0x37;
   0x38; 0x38; 0x39; 0x39; 0x40; 0x40; 0x41; 0x41; 0x42; 0x42; 0x43; 0x43; 0x44; 0x44; 0x45; 0x45].

(** compdecomp_driver.c:153-201 with compdecomp.c:293-296: the exit status of the program and what it has restored, that is the content of "decompressed" (its first dlen bytes in the
    simple test); [None]: it was started without a file name.  The buffers are at
    the addresses [iaddr], [oaddr] and [daddr], which are multiples of the alignment.  Simplification: reading the file and the allocations
    succeed (aligned_alloc(alignment, 0) as well). *)
Definition compdecomp (I : implementation) (C B iaddr oaddr daddr : Z) (junk1 junk2 : Z -> list Z) (corder dorder : Z -> list Z) (file : option (list Z)) : outcome (Z * list Z) :=
  let inp := match file with Some f => read_file f C | None => TEST_STRING end in
  if lenZ inp >? C then
    '(r, _, d) <- benchmark_core I C B iaddr oaddr daddr inp junk1 junk2 (corder (lenZ inp / C)) (dorder (lenZ inp / C)) ;;
    Done (if r then 0 else 1, d)
  else
    '(r, dlen, d) <- simple_test I iaddr oaddr daddr inp (repeat 0 (Z.to_nat (lenZ inp * 2))) (repeat 0 (length inp)) ;;
    Done (if r then 0 else 1, firstn (Z.to_nat dlen) d).

(** serial/842_compress.c:694-704, serial_optimized/842_compress.cpp:687-701. *)
Definition sw842_implementation (e : endian) : implementation :=
  mkImpl (sw842_compress_f e) (sw842_decompress_f e) (sw842_compress_chunked e) (sw842_decompress_chunked e) 1 1.
(** serial_optimized/842_compress.cpp:687-701. *)
Definition optsw842_implementation (e : endian) : implementation :=
  mkImpl (optsw842_compress_f e) (optsw842_decompress_f e) (optsw842_compress_chunked e) (optsw842_decompress_chunked e) 1 8.
