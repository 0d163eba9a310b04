(** Model of the other variants of sample/compdecomp.c that its macros provide for: CHUNKS_PER_BATCH = 1, and CONDENSE (the compressed chunks are moved together before they are decompressed).
    BenchModel.v has the variant that the file selects. *)
From Coq Require Import ZArith List Bool.
From Verif Require Import CBase OclModel ChunkedModel BenchModel.
Import ListNotations.
Open Scope Z_scope.

(** compdecomp.c:152-155: compressed_chunk_positions; [pos] is a size_t. *)
Fixpoint positions (sizes : list Z) (pos : Z) : list Z :=
  match sizes with
  | [] => []
  | n :: sizes => pos :: positions sizes (u64 (pos + n))
  end.

Section Condense.
Variable I : implementation.
(** CHUNK_SIZE = CHUNK_STRIDE (compdecomp.c:30-32). *)
Variable C : Z.
(** The addresses of in, out and decompressed, and the content of in. *)
Variable iaddr oaddr daddr : Z.
Variable inp : list Z.

(** compdecomp.c:97-132 with CHUNKS_PER_BATCH = 1: the iteration of the first parallel loop for chunk [c].  The state is out, compressed_chunk_sizes and omp_success. *)
Definition comp_one (c : Z) (s : list Z * list Z * bool) : outcome (list Z * list Z * bool) :=
  let '(out, sizes, ok) := s in
  sizes <- aset sizes c C ;;
  chunk_in <- load_bytes inp (C * c) C ;;
  chunk_out <- load_bytes out (C * c) C ;;
  olen <- aget sizes c ;;
  '(err, olen, chunk_out) <- i_compress I (iaddr + C * c) (oaddr + C * c) chunk_in chunk_out olen ;;
  let '(err, olen) := if err =? - ENOSPC then (0, SIZE_MAX) else (err, olen) in
  sizes <- aset sizes c olen ;;
  out <- store_bytes out (C * c) chunk_out ;;
  Done (out, sizes, ok && (err =? 0)).

(** compdecomp.c:163-169: one iteration of the loop that moves the chunks. *)
Definition condense_one (out sizes pos : list Z) (c : Z) (condensed : list Z) : outcome (list Z) :=
  p <- aget pos c ;;
  n <- aget sizes c ;;
  x <- load_bytes out (C * c) n ;;
  store_bytes condensed p x.
(** compdecomp.c:162-169: the loop, in the order [order]. *)
Fixpoint condense (out sizes pos : list Z) (order : list Z) (condensed : list Z) : outcome (list Z) :=
  match order with
  | [] => Done condensed
  | c :: order => condensed <- condense_one out sizes pos c condensed ;; condense out sizes pos order condensed
  end.

(** compdecomp.c:181-227 with CHUNKS_PER_BATCH = 1: the iteration of the second parallel loop for chunk [c].  [src] (at [saddr]) is the buffer with the compressed chunks, [pos] the positions in it.
    The return value of the decompressor is not looked at (lines 208-210). *)
Definition decomp_one (saddr : Z) (src sizes pos : list Z) (c : Z) (s : list Z * list Z * bool) : outcome (list Z * list Z * bool) :=
  let '(dec, dsizes, ok) := s in
  p <- aget pos c ;;
  dsizes <- aset dsizes c C ;;
  n <- aget sizes c ;;
  if negb (n =? SIZE_MAX) then
    z <- load_bytes src p n ;;
    chunk_decomp <- load_bytes dec (C * c) C ;;
    olen <- aget dsizes c ;;
    '(_, olen, chunk_decomp) <- i_decompress I (saddr + p) (daddr + C * c) z chunk_decomp olen ;;
    dsizes <- aset dsizes c olen ;;
    dec <- store_bytes dec (C * c) chunk_decomp ;;
    Done (dec, dsizes, ok)
  else
    x <- load_bytes inp (C * c) C ;;
    dec <- store_bytes dec (C * c) x ;;
    dsizes <- aset dsizes c C ;;
    Done (dec, dsizes, ok).

(** compdecomp.c:181-227 with CHUNKS_PER_BATCH > 1 and CONDENSE: batch [b].  The library gets all that follows in the buffer of the condensed chunks. *)
Definition decomp_batch_condensed (B num : Z) (junk : Z -> list Z) (caddr : Z) (condensed sizes pos : list Z) (b : Z) (s : list Z * list Z * bool) : outcome (list Z * list Z * bool) :=
  let '(dec, dsizes, ok) := s in
  let first := B * b in
  let k := batch_chunks B num first in
  p <- aget pos first ;;
  dsizes <- store_bytes dsizes first (repeat C (Z.to_nat k)) ;;
  chunk_out <- load_bytes condensed p (lenZ condensed - p) ;;
  ilens <- load_bytes sizes first k ;;
  chunk_decomp <- load_bytes dec (C * first) (C * k) ;;
  olens <- load_bytes dsizes first k ;;
  '(err, _, olens, chunk_decomp) <-
     i_decompress_chunked I k (junk k) (caddr + p) chunk_out C ilens (daddr + C * first) chunk_decomp C olens ;;
  dsizes <- store_bytes dsizes first olens ;;
  dec <- store_bytes dec (C * first) chunk_decomp ;;
  '(dec, dsizes) <- copy_raw C inp sizes (from_to first k) dec dsizes ;;
  Done (dec, dsizes, ok && (err =? 0)).
End Condense.

(** compdecomp.c:229-246: the end of compress_benchmark_core. *)
Definition finish (inp : list Z) (olen : Z) (s : list Z * list Z * bool) : bool * option Z * list Z :=
  let '(dec, dsizes, ok) := s in
  if negb ok then (false, Some olen, dec)
  else if negb (lenZ inp =? fold_left (fun t n => u64 (t + n)) dsizes 0) || negb (list_eqb inp dec) then (false, Some olen, dec)
  else (true, Some olen, dec).

(** compdecomp.c:36-268: compress_benchmark_core with CHUNKS_PER_BATCH = 1; [cond]: with CONDENSE.  The result is as for [benchmark_core].  [caddr]: the address of out_condensed; [junk2]: the content of memory
    that is not initialised; the orders are those of the three parallel loops. *)
Definition single_core (cond : bool) (I : implementation) (C iaddr oaddr daddr caddr : Z) (inp : list Z) (junk2 : Z -> list Z) (corder morder dorder : list Z)
  : outcome (bool * option Z * list Z) :=
  let ilen := lenZ inp in
  let num := ilen / C in
  '(out, sizes, ok) <- run_batches (comp_one I C iaddr oaddr inp) corder (repeat 0 (Z.to_nat (ilen / C * C)), junk2 num, true) ;;
  if negb ok then Done (false, None, repeat 0 (Z.to_nat ilen))
  else
    let olen := total C sizes in
    let dec := (repeat 0 (Z.to_nat ilen), junk2 num, true) in
    if cond then
      let pos := positions sizes 0 in
      condensed <- condense C out sizes pos morder (junk2 olen) ;;
      s <- run_batches (decomp_one I C daddr inp caddr condensed sizes pos) dorder dec ;;
      Done (finish inp olen s)
    else
      s <- run_batches (decomp_one I C daddr inp oaddr out sizes (map (fun c => C * c) (from_to 0 num))) dorder dec ;;
      Done (finish inp olen s).

(** compdecomp.c:36-268: compress_benchmark_core with CHUNKS_PER_BATCH = [B] > 1 and CONDENSE. *)
Definition condensed_core (I : implementation) (C B iaddr oaddr daddr caddr : Z) (inp : list Z) (junk1 junk2 : Z -> list Z) (corder morder dorder : list Z)
  : outcome (bool * option Z * list Z) :=
  let ilen := lenZ inp in
  if (B >? 1) && negb (C mod i_required I =? 0) then Done (false, None, [])
  else
    let num := ilen / C in
    '(out, sizes, ok) <- run_batches (comp_batch I C B iaddr oaddr inp num junk1) corder (repeat 0 (Z.to_nat (ilen / C * C)), junk2 num, true) ;;
    if negb ok then Done (false, None, repeat 0 (Z.to_nat ilen))
    else
      let olen := total C sizes in
      let pos := positions sizes 0 in
      condensed <- condense C out sizes pos morder (junk2 olen) ;;
      s <- run_batches (decomp_batch_condensed I C daddr inp B num junk1 caddr condensed sizes pos) dorder (repeat 0 (Z.to_nat ilen), junk2 num, true) ;;
      Done (finish inp olen s).
