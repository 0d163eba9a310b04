(** C77: the sample program for the CPU (sample/compdecomp.c with its driver).

    Reading the statements: [compdecomp I C B iaddr oaddr daddr junk1 junk2 corder dorder file] is the exit status of the program built for the implementation [I], and the data it has restored, with chunks
    of [C] bytes in batches of [B], started with a file of this content (None: with none).  The buffers are at [iaddr], [oaddr] and [daddr]; [junk1 n], [junk2 n] is what uninitialised
    arrays of [n] elements contain; [corder num], [dorder num] are the orders in which the threads get to the batches of [num] chunks.
    [benchmark_core] is the part for more than one chunk: whether it succeeds, the size it reports and the data it has restored. *)
From Coq Require Import ZArith List Bool Lia Permutation.
From Verif Require Import SpecBits SpecCalls CBase SpecOcl InplaceItems ChunkedModel BenchModel SpecBench BenchProofs.
Import ListNotations.
Open Scope Z_scope.

(** With sw842 and optsw842 the program succeeds for every file that is not empty, in every order of the threads, and restores the file (padded with zeros). *)
Theorem C77_sample_succeeds : forall e I k B iaddr oaddr daddr junk1 junk2 corder dorder file,
  In I [sw842_implementation e; optsw842_implementation e] -> 3 <= k -> 0 < B -> B * 2 ^ k < 2 ^ 32 -> 2 ^ k < 2 ^ 31 ->
  iaddr mod i_preferred I = 0 -> oaddr mod i_preferred I = 0 -> daddr mod i_preferred I = 0 ->
  (forall n, 0 <= n -> lenZ (junk1 n) = n /\ lenZ (junk2 n) = n) ->
  (forall num, Permutation (corder num) (batches B num) /\ Permutation (dorder num) (batches B num)) ->
  (forall f, file = Some f -> is_bytes f /\ f <> [] /\ lenZ f + 2 ^ k <= 2 ^ 64) ->
  compdecomp I (2 ^ k) B iaddr oaddr daddr junk1 junk2 corder dorder file = Done (0, match file with Some f => padded (2 ^ k) f | None => TEST_STRING end).
Proof. exact driver_ok. Qed.
Print Assumptions C77_sample_succeeds.

(** The size it reports for more than one chunk is the sum of what the chunks need on their own. *)
Theorem C77_sample_size : forall e I C B iaddr oaddr daddr inp junk1 junk2 corder dorder num,
  In I [sw842_implementation e; optsw842_implementation e] ->
  0 < C <= UINT_MAX -> 0 < B -> B * C < 2 ^ 32 -> C mod i_preferred I = 0 ->
  iaddr mod i_preferred I = 0 -> oaddr mod i_preferred I = 0 -> daddr mod i_preferred I = 0 ->
  is_bytes inp -> 0 <= num -> lenZ inp = C * num -> C * num < 2 ^ 64 ->
  (forall k, 0 <= k <= B -> lenZ (junk1 k) = k) -> lenZ (junk2 num) = num ->
  Permutation corder (batches B num) -> Permutation dorder (batches B num) ->
  benchmark_core I C B iaddr oaddr daddr inp junk1 junk2 corder dorder = Done (true, Some (sum (map (stored_size I) (chunks_of C inp))), inp).
Proof. exact bench_ok. Qed.
Print Assumptions C77_sample_size.

(** Three chunks of 32 bytes in batches of two, of which the second cannot be compressed; the last is padded. *)
Definition bench_file : list Z := List.repeat 7 32 ++ map (fun i => (Z.of_nat i * Z.of_nat i * 7 + 13 * Z.of_nat i) mod 256) (seq 0 32) ++ [1; 2; 3].
Definition junk (n : Z) : list Z := List.repeat 77 (Z.to_nat n).
Example C77_hypotheses : is_bytes bench_file /\ bench_file <> [] /\ lenZ bench_file + 2 ^ 5 <= 2 ^ 64 /\ 2 * 2 ^ 5 < 2 ^ 32 /\ batches 2 3 = [0; 1] /\ Permutation [1; 0] (batches 2 3) /\
  forall n, 0 <= n -> lenZ (junk n) = n.
Proof.
  split; [apply is_bytes_b; vm_compute; reflexivity|]. split; [discriminate|]. split; [vm_compute; discriminate|]. split; [lia|]. split; [reflexivity|]. split; [apply perm_swap|].
  intros n Hn. unfold junk, lenZ. rewrite repeat_length. lia.
Qed.
Example C77_case : forall e I, In I [sw842_implementation e; optsw842_implementation e] ->
  map (stored_size I) (chunks_of 32 (read_file bench_file 32)) = [16; 32; 16] /\
  benchmark_core I 32 2 0 8 16 (read_file bench_file 32) junk junk [1; 0] [0; 1] = Done (true, Some 64, padded 32 bench_file) /\
  compdecomp I 32 2 0 8 16 junk junk (fun n => rev (batches 2 n)) (batches 2) (Some bench_file) = Done (0, padded 32 bench_file) /\
  compdecomp I 32 2 0 8 16 junk junk (batches 2) (batches 2) None = Done (0, TEST_STRING).
Proof. intros [] I [<-|[<-|[]]]; vm_compute; repeat split; reflexivity. Qed.

(** Whatever the library does (any functions in place of its own), the program does not report success if it has not restored the file. *)
Theorem C92_cpu_sample : forall I k B iaddr oaddr daddr junk1 junk2 corder dorder file d, 0 <= k <= 63 -> (forall f, file = Some f -> lenZ f + 2 ^ k <= 2 ^ 64) ->
  compdecomp I (2 ^ k) B iaddr oaddr daddr junk1 junk2 corder dorder file = Done (0, d) ->
  d = match file with Some f => padded (2 ^ k) f | None => TEST_STRING end.
Proof. exact driver_honest. Qed.
Print Assumptions C92_cpu_sample.
(** A library whose decompressor returns 0 and writes nothing: the program reports failure, for the simple test as well.  If the decompressor says that it has decompressed nothing, too. *)
Definition idle (e : endian) (n : Z) : implementation :=
  mkImpl (sw842_compress_f e) (fun _ _ _ out olen => Done (0, olen - n, out)) (sw842_compress_chunked e)
    (fun k rets _ _ _ _ _ out _ olens => Done (0, rets, map (fun l => l - n) olens, out)) 1 1.
Example C92_idle_case : forall e n, In n [0; 32] ->
  compdecomp (idle e n) 32 2 0 8 16 junk junk (batches 2) (batches 2) (Some bench_file) = Done (1, List.repeat 0 32 ++ firstn 32 (skipn 32 bench_file) ++ List.repeat 0 32) /\
  compdecomp (idle e n) 32 2 0 8 16 junk junk (batches 2) (batches 2) (Some [0; 0; 7]) = Done (1, List.repeat 0 (Z.to_nat (32 - n))).
Proof. intros [] n [<-|[<-|[]]]; vm_compute; split; reflexivity. Qed.
(** Nor if the decompressor restores all data but says that it was less. *)
Example C92_length_case : forall e,
  compdecomp (idle e 32) 32 2 0 8 16 junk junk (batches 2) (batches 2) (Some (List.repeat 0 64)) = Done (1, List.repeat 0 64) /\
  compdecomp (idle e 0) 32 2 0 8 16 junk junk (batches 2) (batches 2) (Some (List.repeat 0 64)) = Done (0, List.repeat 0 64).
Proof. intros []; vm_compute; split; reflexivity. Qed.

(** The driver pads the file to a multiple of a chunk size that is a power of two, with less than one chunk. *)
Theorem C77_padding : forall n k, 0 <= k <= 63 -> 0 <= n -> n + 2 ^ k <= 2 ^ 64 ->
  let m := nextMultipleOfChunkSize n (2 ^ k) in m mod 2 ^ k = 0 /\ n <= m < n + 2 ^ k.
Proof. exact next_multiple. Qed.
Print Assumptions C77_padding.
Example C77_padding_case : nextMultipleOfChunkSize 65537 (2 ^ 16) = 131072 /\ nextMultipleOfChunkSize 65536 (2 ^ 16) = 65536 /\ nextMultipleOfChunkSize 24 24 = 40.
Proof. repeat split; reflexivity. Qed.

(** An empty file makes the program fail, with optsw842 by reading from memory that does not belong to the buffer. *)
Theorem C77_empty_file_refuted : forall e k B iaddr oaddr daddr junk1 junk2 corder dorder, 0 <= k < 31 -> oaddr mod 8 = 0 -> iaddr mod 8 = 0 ->
  compdecomp (sw842_implementation e) (2 ^ k) B iaddr oaddr daddr junk1 junk2 corder dorder (Some []) = Done (1, []) /\
  compdecomp (optsw842_implementation e) (2 ^ k) B iaddr oaddr daddr junk1 junk2 corder dorder (Some []) = Undef.
Proof. exact driver_empty. Qed.
Print Assumptions C77_empty_file_refuted.
