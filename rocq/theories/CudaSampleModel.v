(** Model of the CUDA sample program sample/compdecomp.cu, with and without USE_UNIFIED_MEM (with USE_STREAMS it does not compile: compressedH and decompressedH,
    lines 181 and 193, are not declared). *)
From Coq Require Import ZArith List Bool.
From Verif Require Import CBase SerialCompModel OptCompModel OclModel CudaModel GpuModel.
Import ListNotations.
Open Scope Z_scope.

Section Sample.
Variable e : endian.
(** CHUNKS_PER_THREAD (compdecomp.cu:13-17: 32 with USE_UNIFIED_MEM, otherwise 1024) and THREADS_PER_BLOCK (compdecomp.cu:10: 32). *)
Variables chunks_per_thread threads_per_block : Z.

(** compdecomp.cu:33-38: nextMultipleOfChunkSize. *)
Definition cu_nextMultipleOfChunkSize (input : Z) : Z :=
  let size := 1024 * chunks_per_thread * threads_per_block in
  Z.land (u64 (input + (size - 1))) (u64 (Z.lnot (size - 1))).

(** compdecomp.cu:157-165: one iteration of the parallel loop.  [iaddr] and [oaddr] are the addresses of the buffers "in" and "compressed", which [inp] and [out]
    are the content of.  The return value of optsw842_compress is not looked at; compressedChunkSizes is left out, since it is not read. *)
Definition cu_compress_chunk (iaddr oaddr : Z) (inp : list Z) (chunk_num : Z) (out : list Z) : outcome (list Z) :=
  chunk_in <- load_bytes inp (1024 * chunk_num) 1024 ;;
  '(_, _, chunk_out) <- optsw842_compress e (iaddr + 1024 * chunk_num) (oaddr + 1024 * 2 * chunk_num) chunk_in
                          (skipn (Z.to_nat (1024 * 2 * chunk_num)) out) (1024 * 2) ;;
  Done (firstn (Z.to_nat (1024 * 2 * chunk_num)) out ++ chunk_out).
(** compdecomp.cu:154-167: the iterations in the order [order].  Simplification: an iteration is not interrupted. *)
Fixpoint cu_compress (iaddr oaddr : Z) (inp : list Z) (order : list Z) (out : list Z) : outcome (list Z) :=
  match order with
  | [] => Done out
  | c :: order => out <- cu_compress_chunk iaddr oaddr inp c out ;; cu_compress iaddr oaddr inp order out
  end.

(** The launch of the kernel with [threads] threads and the wait for its end (compdecomp.cu:227-228); [sched] is the schedule of the threads. *)
Definition cu_launch (inp out : list Z) (threads : Z) (sched : list nat) : outcome (list Z) :=
  m <- glaunch (cuda_start inp out threads) sched ;; Done (nth 0 m []).
(** compdecomp.cu:205-216 (USE_UNIFIED_MEM): launches of chunks_per_kernel chunks each, with pointers into the middle of the buffers.  The launches are in one stream:
    one starts after the one before has ended. *)
Fixpoint cu_launches (fuel : nat) (compressed : list Z) (num_chunks i : Z) (scheds : Z -> list nat) (decompressed : list Z) : outcome (list Z) :=
  match fuel with
  | O => NoFuel
  | S fuel =>
    if i <? num_chunks then
      let chunks_per_kernel := chunks_per_thread * threads_per_block in
      d <- cu_launch (skipn (Z.to_nat (8 * (i * (1024 / 8) * 2))) compressed) (skipn (Z.to_nat (8 * (i * (1024 / 8)))) decompressed)
             (u32 (chunks_per_kernel / threads_per_block) * threads_per_block) (scheds i) ;;
      cu_launches fuel compressed num_chunks (i + chunks_per_kernel) scheds (firstn (Z.to_nat (8 * (i * (1024 / 8)))) decompressed ++ d)
    else Done decompressed
  end.

(** compdecomp.cu:144-271: from the buffer [inp] on.  [order] is the order of the iterations of the compression loop, [scheds] are the schedules of the launches, by their first chunk.
    The result says whether the program prints that it was successful; its exit status is 0 in both cases.
    Simplification: no CUDA call fails but for an access outside the buffers. *)
Definition cu_core (unified : bool) (iaddr oaddr : Z) (order : list Z) (scheds : Z -> list nat) (inp : list Z) : outcome bool :=
  let ilen := lenZ inp in
  let compressed := repeat 0 (Z.to_nat (ilen * 2)) in
  let decompressed := repeat 0 (Z.to_nat ilen) in
  d <- (if ilen >? 1024 then
          let num_chunks := ilen / 1024 in
          compressed <- cu_compress iaddr oaddr inp order compressed ;;
          if unified then cu_launches (S (Z.to_nat num_chunks)) compressed num_chunks 0 scheds decompressed
          else cu_launch compressed decompressed (u32 (num_chunks / threads_per_block) * threads_per_block) (scheds 0)
        else
          '(_, olen, m) <- optsw842_compress e iaddr oaddr inp compressed (ilen * 2) ;;
          (* compdecomp.cu:258: only the first olen bytes are copied to the device *)
          z <- load_bytes m 0 olen ;;
          compressedD <- store_bytes compressed 0 z ;;
          cu_launch (if unified then m else compressedD) decompressed 1 (scheds 0)) ;;
  Done (list_eqb (firstn (Z.to_nat ilen) d) inp).

(** compdecomp.cu:94-99. *)
Definition cu_tmp : list Z :=
  [0x30; 0x30; 0x31; 0x31; 0x32; 0x32; 0x33; 0x33; 0x34; 0x34; 0x35; 0x35; 0x36; 0x36; 0x37; 0x37;
   0x38; 0x38; 0x39; 0x39; 0x40; 0x40; 0x41; 0x41; 0x42; 0x42; 0x43; 0x43; 0x44; 0x44; 0x45; 0x45].
(** compdecomp.cu:69-142: main.  [args] are the contents of the files named on the command line, [None] for one that cannot be opened (fseek gets a null pointer).
    With more than one the buffers are never allocated. *)
Definition cuda_sample (unified : bool) (iaddr oaddr : Z) (order : list Z) (scheds : Z -> list nat) (args : list (option (list Z))) : outcome bool :=
  match args with
  | [] => cu_core unified iaddr oaddr order scheds cu_tmp
  | [Some file] => cu_core unified iaddr oaddr order scheds (file ++ repeat 0 (Z.to_nat (cu_nextMultipleOfChunkSize (lenZ file) - lenZ file)))
  | _ => Undef
  end.
End Sample.
