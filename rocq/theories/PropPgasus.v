(** C89, C90: the sample programs for machines with several NUMA nodes (sample/compdecomp_pgasus.cpp, sample/compdecomp_pgasus_omp.cpp).

    Reading the statements: [pgasus compress decompress C iaddr oaddr daddr omp nprocs cpus junk csched dsched file] is the exit status of the program ([omp]: of the one that uses OpenMP) with chunks of [C] bytes,
    built with these library functions, and the data each node has restored, for a file with this content, on a machine with [nprocs] processors and one node with [n] threads for each element [n] of [cpus].
    The buffers of node [k] are at [iaddr k], [oaddr k] and [daddr k]; [junk n] is what an array of [n] elements from malloc contains.
    [csched] and [dsched] are the schedules of the two parallel phases: a list of pairs of a node and a thread, which makes a step when it has its turn; a step is taking a number or
    one chunk.  [NoFuel]: a thread has not ended when the schedule is over. *)
From Coq Require Import ZArith List Bool Lia.
From Verif Require Import SpecBits SpecCalls CBase ConcLib OptCompModel OptDecompModel InplaceItems PgasusModel SpecPgasus PgasusProofs.
Import ListNotations.
Open Scope Z_scope.

(** C89: on [K] nodes with [T] threads each, no schedule leads to an access outside the buffers or to another exit status than 0, and
    the nodes restore the handled part of the file; with enough turns for all threads the program ends. *)
Theorem C89_numa_sample_succeeds : forall e C iaddr oaddr daddr (K T : nat), 0 < C -> C mod 8 = 0 -> (0 < K)%nat -> (0 < T)%nat -> C * (Z.of_nat K * Z.of_nat T) < 2 ^ 62 ->
  (forall k, iaddr k mod 8 = 0) -> (forall k, oaddr k mod 8 = 0) -> (forall k, daddr k mod 8 = 0) ->
  forall junk, (forall n, 0 <= n -> lenZ (junk n) = n) -> forall file, is_bytes file -> 0 < lenZ file mod 2 ^ 32 < 2 ^ 31 -> forall omp csched dsched,
  let r := pgasus (optsw842_compress e) (optsw842_decompress e) C iaddr oaddr daddr omp (Z.of_nat K * Z.of_nat T) (repeat (Z.of_nat T) K) junk csched dsched file in
  let n := per_thread C K T (lenZ file mod 2 ^ 32) + 1 in
  exists ds, length ds = K /\ concat ds = handled_part C K T file /\
  (r = Done (0, ds) \/ r = NoFuel) /\ (lets_all_run n K T csched -> lets_all_run n K T dsched -> r = Done (0, ds)).
Proof. exact pgasus_ends_ok. Qed.
Print Assumptions C89_numa_sample_succeeds.

(** That is the whole file, and zeros, if the length of the file fits into an int. *)
Theorem C89_whole_file : forall C (K T : nat), 0 < C -> (0 < K)%nat -> (0 < T)%nat -> C * (Z.of_nat K * Z.of_nat T) < 2 ^ 62 ->
  forall file, 0 < lenZ file < 2 ^ 31 -> exists z, handled_part C K T file = file ++ repeat 0 z /\ Z.of_nat z < C * (Z.of_nat K * Z.of_nat T).
Proof. exact whole_file. Qed.
Print Assumptions C89_whole_file.
(** Whatever the library functions do, the program does not report success if the nodes have not restored the handled part of the file. *)
Theorem C92_numa_sample : forall compress decompress C iaddr oaddr daddr omp (K T : nat) junk csched dsched file ds, 0 < C -> (0 < K)%nat -> (0 < T)%nat ->
  C * (Z.of_nat K * Z.of_nat T) < 2 ^ 62 -> 0 < lenZ file mod 2 ^ 32 < 2 ^ 31 ->
  pgasus compress decompress C iaddr oaddr daddr omp (Z.of_nat K * Z.of_nat T) (repeat (Z.of_nat T) K) junk csched dsched file = Done (0, ds) ->
  length ds = K /\ concat ds = handled_part C K T file.
Proof. exact pgasus_honest_part. Qed.
Print Assumptions C92_numa_sample.

(** Two nodes with two threads each, chunks of 16 bytes: three chunks of the file and one of zeros. *)
Definition pg_file : list Z := map (fun i => Z.of_nat i mod 7) (seq 0 44).
Definition pg_junk (n : Z) : list Z := repeat 99 (Z.to_nat n).
Definition pg_sched : list (nat * nat) := [(1, 1); (0, 1); (0, 1); (1, 0); (0, 0); (1, 1); (1, 0); (0, 0)]%nat.
Example C89_hypotheses : is_bytes pg_file /\ 0 < lenZ pg_file mod 2 ^ 32 < 2 ^ 31 /\ 16 * (2 * 2) < 2 ^ 62 /\ per_thread 16 2 2 (lenZ pg_file) = 1 /\ lets_all_run 2 2 2 pg_sched /\
  forall n, 0 <= n -> lenZ (pg_junk n) = n.
Proof.
  split; [apply is_bytes_b; vm_compute; reflexivity|]. split; [vm_compute; split; reflexivity|]. split; [lia|]. split; [reflexivity|]. split.
  - intros k t Hk Ht. destruct k as [|[|k]]; [| |lia]; (destruct t as [|[|t]]; [| |lia]); vm_compute; discriminate.
  - intros n Hn. unfold pg_junk, lenZ. rewrite repeat_length. lia.
Qed.
Example C89_case : forall e omp, let run := pgasus (optsw842_compress e) (optsw842_decompress e) 16 (fun k => 8 * Z.of_nat k) (fun _ => 0) (fun _ => 8) omp 4 [2; 2] pg_junk in
  run pg_sched (rev pg_sched ++ pg_sched) pg_file = Done (0, [firstn 32 pg_file; skipn 32 pg_file ++ repeat 0 20]) /\ run pg_sched [(0, 0)]%nat pg_file = NoFuel.
Proof. intros [] []; vm_compute; split; reflexivity. Qed.
(** With a decompressor that does nothing, or one that writes a wrong byte, the exit status is 209 (exit(-47)). *)
Example C92_wrong_library_case : forall e omp,
  pgasus (optsw842_compress e) (fun _ _ _ out _ => Done (-1, 0, out)) 16 (fun k => 8 * Z.of_nat k) (fun _ => 0) (fun _ => 8) omp 4 [2; 2] pg_junk pg_sched pg_sched pg_file =
    Done (209, [repeat 0 32; repeat 0 32]) /\
  exists ds, pgasus (optsw842_compress e) (fun a b x out n => '(r, m, o) <- optsw842_decompress e a b x out n ;; Done (r, m, firstn 15 o ++ [77])) 16 (fun k => 8 * Z.of_nat k) (fun _ => 0) (fun _ => 8) omp 4 [2; 2]
    pg_junk pg_sched pg_sched pg_file = Done (209, ds).
Proof. intros [] []; (split; [|eexists]; vm_compute; reflexivity). Qed.

(** An empty file: every thread loops over chunks 0 to SIZE_MAX. *)
Theorem C89_empty_file_refuted : forall e C iaddr oaddr daddr omp (K T : nat) junk k t csched dsched, 0 < C -> (k < K)%nat -> (t < T)%nat -> C * (Z.of_nat K * Z.of_nat T) < 2 ^ 62 ->
  pgasus (optsw842_compress e) (optsw842_decompress e) C iaddr oaddr daddr omp (Z.of_nat K * Z.of_nat T) (repeat (Z.of_nat T) K) junk ((k, t) :: (k, t) :: csched) dsched [] = Undef.
Proof. exact pgasus_empty. Qed.
Print Assumptions C89_empty_file_refuted.
(** Nodes with different numbers of threads: the third thread of the second node has no chunk in the buffer of its node (the real chunk size, a file of one byte). *)
Theorem C89_different_nodes_refuted : forall e iaddr oaddr daddr omp csched dsched,
  pgasus (optsw842_compress e) (optsw842_decompress e) 65536 iaddr oaddr daddr omp 4 [1; 3] pg_junk ([(1, 0); (1, 1); (1, 2); (1, 2)]%nat ++ csched) dsched [1] = Undef.
Proof. exact different_nodes. Qed.
Print Assumptions C89_different_nodes_refuted.
(** A file of 4 GiB and some bytes: the program reports success although it has handled only the bytes at its beginning. *)
Theorem C89_large_file_refuted : forall e C iaddr oaddr daddr (K T : nat), 0 < C -> C mod 8 = 0 -> (0 < K)%nat -> (0 < T)%nat -> C * (Z.of_nat K * Z.of_nat T) < 2 ^ 31 ->
  (forall k, iaddr k mod 8 = 0) -> (forall k, oaddr k mod 8 = 0) -> (forall k, daddr k mod 8 = 0) ->
  forall junk, (forall n, 0 <= n -> lenZ (junk n) = n) -> forall file n, is_bytes file -> lenZ file = 2 ^ 32 + n -> 0 < n < 2 ^ 31 -> forall omp csched dsched,
  lets_all_run (per_thread C K T n + 1) K T csched -> lets_all_run (per_thread C K T n + 1) K T dsched ->
  exists ds, pgasus (optsw842_compress e) (optsw842_decompress e) C iaddr oaddr daddr omp (Z.of_nat K * Z.of_nat T) (repeat (Z.of_nat T) K) junk csched dsched file = Done (0, ds) /\
  concat ds = firstn (length (concat ds)) file /\ lenZ (concat ds) < n + C * (Z.of_nat K * Z.of_nat T) /\ lenZ (concat ds) < lenZ file.
Proof. exact large_file. Qed.
Print Assumptions C89_large_file_refuted.
Example C89_large_file_case : exists file n, is_bytes file /\ lenZ file = 2 ^ 32 + n /\ 0 < n < 2 ^ 31 /\ 65536 * (2 * 4) < 2 ^ 31.
Proof.
  exists (repeat 7 (Z.to_nat (2 ^ 32 + 5))), 5. split; [|split; [|lia]].
  - apply Forall_forall. intros x Hx. apply repeat_spec in Hx. subst. unfold is_byte. lia.
  - unfold lenZ. rewrite repeat_length. apply Z2Nat.id. lia.
Qed.

(** C90: the workspace of a node is the smallest power of two that holds its three buffers. *)
Theorem C90_workspace : forall len, 0 < len -> 4 * len <= 2 ^ 63 ->
  exists k, 0 <= k <= 63 /\ node_msource_size len = 2 ^ k /\ len + 2 * len + len <= 2 ^ k < 2 * (len + 2 * len + len).
Proof. exact workspace. Qed.
Print Assumptions C90_workspace.
Example C90_case : node_msource_size 65536 = 2 ^ 18 /\ node_msource_size 131073 = 2 ^ 20 /\ next_pow2 1 = 1 /\ next_pow2 (2 ^ 63) = 2 ^ 63.
Proof. repeat split; reflexivity. Qed.
(** Not for more than 2^63 bytes, and not for none. *)
Theorem C90_next_pow2_wraps : forall x, 2 ^ 63 < x < 2 ^ 64 \/ x = 0 -> next_pow2 x = 0.
Proof. exact next_pow2_wraps. Qed.
Print Assumptions C90_next_pow2_wraps.
Example C90_wraps_case : next_pow2 (2 ^ 63 + 1) = 0.
Proof. reflexivity. Qed.
