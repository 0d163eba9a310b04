(** Model of the OpenCL sample program as a whole: sample/compdecomp_cl.cpp (all three formats, with and without USE_CHUNK_SHUFFLE_MAP, the simple test and main)
    with sample/compdecomp_driver.c, and the in-place branch of CLHostDecompressor::decompress.  SampleModel.v has the loop bodies without the sizes. *)
From Coq Require Import ZArith List Bool.
From Verif Require Import CBase OptCompModel OclModel InplaceModel BenchModel SampleModel.
Import ListNotations.
Open Scope Z_scope.

(** compdecomp_cl.cpp:24-30: the three formats. *)
Inductive sample_format := Always | Maybe | Inplace.

(** CLHostDecompressor::decompress (cl842decompress.cpp:347-457) with INPLACE_COMPRESSED_CHUNKS and the three arrays null.  [same]: input == output.
    [dev] is what the device buffer of inputBufferSize + 64 bytes (line 396) holds before.  [None]: a cl::Error is thrown.  Simplification: no OpenCL call fails but the copy of 0 bytes (line 398). *)
Definition host_inplace (e : endian) (size stride : Z) (order : list Z) (same : bool) (dev inp : list Z) (osize : Z) (map : option (list Z)) : outcome (option (list Z)) :=
  let num := u64 (lenZ inp + stride - 1) / stride in
  if negb same || negb (lenZ inp =? osize) then Done None
  else if lenZ inp =? 0 then Done None
  else
    buffer <- store_bytes dev 0 inp ;;
    m <- irun_items e (mkA MaybeCompressed size stride buffer 0 None 0 num map) order (mkM buffer None None) ;;
    host <- store_bytes inp 0 (firstn (Z.to_nat osize) (m_out m)) ;;
    Done (Some host).

Section Chunks.
Variable e : endian.
(** CHUNK_SIZE (compdecomp_cl.cpp:17; 65536 there). *)
Variable C : Z.
(** The addresses of in, temp_buffer and out, the content of in, and what temp_buffer holds when a chunk is started. *)
Variable base taddr obase : Z.
Variable inp : list Z.
Variable tmp : Z -> list Z.

(** compdecomp_cl.cpp:91-111: one iteration for the formats with a header; the state is out and chunk_olens. *)
Definition maybe_step (c : Z) (s : list Z * list Z) : outcome (list Z * list Z) :=
  let '(out, olens) := s in
  chunk <- load_bytes inp (C * c) C ;;
  olens <- aset olens c (C * 2) ;;
  olen <- aget olens c ;;
  '(_, n, t) <- optsw842_compress e (base + C * c) taddr chunk (tmp c) olen ;;
  olens <- aset olens c n ;;
  if n >? C - 16 - 8 then out <- store_bytes out (C * c) chunk ;; Done (out, olens)
  else
    out <- store_bytes out (C * c) MARKER ;;
    out <- store64 e out (C * c + 16) n ;;
    z <- load_bytes t 0 n ;;
    out <- store_bytes out (C * c + (C - n)) z ;;
    Done (out, olens).
(** compdecomp_cl.cpp:115-122: one iteration for the default format. *)
Definition always_step (c : Z) (s : list Z * list Z) : outcome (list Z * list Z) :=
  let '(out, olens) := s in
  chunk <- load_bytes inp (C * c) C ;;
  olens <- aset olens c (C * 2) ;;
  olen <- aget olens c ;;
  '(_, n, m) <- optsw842_compress e (base + C * c) (obase + C * 2 * c) chunk (skipn (Z.to_nat (C * 2 * c)) out) olen ;;
  olens <- aset olens c n ;;
  Done (firstn (Z.to_nat (C * 2 * c)) out ++ m, olens).
(** compdecomp_cl.cpp:86-91, 114-115: the iterations in the order [order].  Simplification: an iteration is not interrupted. *)
Fixpoint run_steps (body : Z -> list Z * list Z -> outcome (list Z * list Z)) (order : list Z) (s : list Z * list Z) : outcome (list Z * list Z) :=
  match order with
  | [] => Done s
  | c :: order => s <- body c s ;; run_steps body order s
  end.
End Chunks.

(** Conversion of an unsigned 64-bit number to int, as gcc does it. *)
Definition to_int (x : Z) : Z := (x + 2 ^ 31) mod 2 ^ 32 - 2 ^ 31.
(** compdecomp_cl.cpp:125: std::accumulate with an initial value of type int; the result is converted to size_t. *)
Definition accumulate (olens : list Z) : Z := u64 (fold_left (fun t n => to_int (u64 (t + n))) olens 0).

(** compdecomp_cl.cpp:140-144: std::stable_sort of 0, 1, ... by whether the chunk is at least as long as before; the order that a stable sort by a bool gives is the one of this list. *)
Definition shuffle_map (C : Z) (olens : list Z) : list Z :=
  let uncompressible i := nth (Z.to_nat i) olens 0 >=? C in
  let numbers := map Z.of_nat (seq 0 (length olens)) in
  filter (fun i => negb (uncompressible i)) numbers ++ filter uncompressible numbers.

(** compdecomp_cl.cpp:19-169: compress_benchmark_core.  The result is the return value, *olen and the content of "decompressed".  [use_map]: with USE_CHUNK_SHUFFLE_MAP. *)
Definition cl_benchmark_core (e : endian) (f : sample_format) (use_map : bool) (C base taddr obase : Z) (tmp : Z -> list Z) (dev inp : list Z) (corder order : list Z)
  : outcome (bool * Z * list Z) :=
  let ilen := lenZ inp in
  let num := ilen / C in
  let stride := match f with Always => C * 2 | _ => C end in
  let body := match f with Always => always_step e C base obase inp | _ => maybe_step e C base taddr inp tmp end in
  let decompressed := repeat 0 (Z.to_nat ilen) in
  '(out, olens) <- run_steps body corder (repeat 0 (Z.to_nat (num * stride)), repeat 0 (Z.to_nat num)) ;;
  let map := if use_map then Some (shuffle_map C olens) else None in
  r <- match f with
       | Inplace => host_inplace e C stride order true dev out ilen map
       | Maybe => host_decompress e MaybeCompressed C stride order false dev out decompressed ilen map
       | Always => host_decompress e AlwaysCompressed C stride order false dev out decompressed ilen map
       end ;;
  match r with
  | None => Done (false, accumulate olens, match f with Inplace => out | _ => decompressed end)
  | Some d => Done (list_eqb (firstn (Z.to_nat ilen) d) inp, accumulate olens, d)
  end.

(** compdecomp_cl.cpp:171-194 with compdecomp_driver.c:120-151: the test without chunks, as [simple_test].  [dev] and [rv]: see cl842_decompress. *)
Definition cl_simple_test (e : endian) (iaddr oaddr : Z) (dev : list Z) (rv : Z) (inp out dec : list Z) : outcome (bool * Z * list Z) :=
  '(err, olen, out) <- optsw842_compress e iaddr oaddr inp out (lenZ out) ;;
  if negb (err =? 0) then Done (false, lenZ dec, dec)
  else
    z <- load_bytes out 0 olen ;;
    '(err, dlen, dec) <- cl842_decompress e dev rv z dec (lenZ dec) ;;
    if negb (err =? 0) then Done (false, dlen, dec)
    else Done ((lenZ inp =? dlen) && list_eqb inp (firstn (length inp) dec), dlen, dec).

(** compdecomp_cl.cpp:196-199 with compdecomp_driver.c:153-201: the exit status of the program and what it has restored; [None]: it was started without a file name.  [dev n] is the content of a new device
    buffer of [n] bytes, [corder n] and [order n] are the orders in which [n] iterations or work items are run.  Simplification: reading the file and the allocations succeed. *)
Definition cl_compdecomp (e : endian) (f : sample_format) (use_map : bool) (C base taddr obase : Z) (tmp dev : Z -> list Z) (rv : Z) (corder order : Z -> list Z) (file : option (list Z)) : outcome (Z * list Z) :=
  let inp := match file with Some x => read_file x C | None => TEST_STRING end in
  if lenZ inp >? C then
    let size := match f with Inplace => lenZ inp + 64 | _ => lenZ inp end in
    '(r, _, d) <- cl_benchmark_core e f use_map C base taddr obase tmp (dev size) inp (corder (lenZ inp / C)) (order (global_size (lenZ inp / C))) ;;
    Done (if r then 0 else 1, d)
  else
    '(r, dlen, d) <- cl_simple_test e base obase (dev (Z.max 1 (lenZ inp))) rv inp (repeat 0 (Z.to_nat (lenZ inp * 2))) (repeat 0 (length inp)) ;;
    Done (if r then 0 else 1, firstn (Z.to_nat dlen) d).
