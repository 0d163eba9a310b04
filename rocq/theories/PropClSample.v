(** C97: the OpenCL sample program (sample/compdecomp_cl.cpp with its driver).

    Reading the statements: [cl_compdecomp e f use_map C base taddr obase tmp dev rv corder order file] is the exit status of the program built for the format [f], with or without the shuffle map, and the data
    it has restored, with chunks of [C] bytes (65536 in the source), started with a file of this content (None: with none).  [base], [taddr] and [obase] are the addresses of its buffers, [tmp] and [dev] is what
    uninitialised buffers contain; [corder n], [order n] are the orders in which the host's threads and the device get to [n] iterations or work items.
    [cl_benchmark_core] is the part for more than one chunk: whether it succeeds, the size it reports and the data it has restored.  padded, chunks_of, sum: SpecBench.v; the rest: SpecClSample.v. *)
From Coq Require Import ZArith List Bool Lia Permutation.
From Verif Require Import SpecBits SpecCalls CBase OptCompModel OclModel SpecOcl OclItems InplaceItems BenchModel SpecBench ClSampleModel SpecClSample ClSampleProofs PropInplace.
Import ListNotations.
Open Scope Z_scope.

(** With the default format the program succeeds for every file that is not empty, in every order of the threads and work items, and restores the file (padded with zeros). *)
Theorem C97_program_succeeds : forall e use_map k base taddr obase tmp dev rv corder order file,
  7 <= k <= 16 -> base mod 8 = 0 -> taddr mod 8 = 0 -> obase mod 8 = 0 ->
  (forall c, is_bytes (tmp c) /\ lenZ (tmp c) = 2 ^ k * 2) -> (forall n, 0 <= n -> is_bytes (dev n) /\ lenZ (dev n) = n) ->
  (forall n, Permutation (corder n) (chunk_numbers n) /\ Permutation (order n) (chunk_numbers n)) ->
  (forall x, file = Some x -> is_bytes x /\ x <> [] /\ lenZ x <= 2 ^ 61) ->
  cl_compdecomp e Always use_map (2 ^ k) base taddr obase tmp dev rv corder order file = Done (0, match file with Some x => padded (2 ^ k) x | None => TEST_STRING end).
Proof. intros. apply cl_driver; auto. intros x c _ _. split; [contradiction|discriminate]. Qed.
Print Assumptions C97_program_succeeds.

(** With the other formats it does if no chunk that is too large when compressed starts with the marker and, in place, if the output never catches up with the compressed data.
    What is missing: it fails for other files, see below. *)
Theorem C97_other_formats_partial : forall e f use_map k base taddr obase tmp dev rv corder order file,
  7 <= k <= 16 -> base mod 8 = 0 -> taddr mod 8 = 0 -> obase mod 8 = 0 ->
  (forall c, is_bytes (tmp c) /\ lenZ (tmp c) = 2 ^ k * 2) -> (forall n, 0 <= n -> is_bytes (dev n) /\ lenZ (dev n) = n) ->
  (forall n, Permutation (corder n) (chunk_numbers n) /\ Permutation (order n) (chunk_numbers n)) ->
  (forall x, file = Some x -> is_bytes x /\ x <> [] /\ lenZ x <= 2 ^ 61) ->
  (forall x c, file = Some x -> In c (chunks_of (2 ^ k) (padded (2 ^ k) x)) -> (f <> Always -> not_mistaken c) /\ (f = Inplace -> not_caught_up c)) ->
  cl_compdecomp e f use_map (2 ^ k) base taddr obase tmp dev rv corder order file = Done (0, match file with Some x => padded (2 ^ k) x | None => TEST_STRING end).
Proof. exact cl_driver. Qed.
Print Assumptions C97_other_formats_partial.

(** Three chunks of 128 bytes; the second cannot be compressed, the last is padded. *)
Definition clp_file : list Z := List.repeat 7 128 ++ map (fun i => (Z.of_nat i * Z.of_nat i * 7 + 13 * Z.of_nat i) mod 256) (seq 0 128) ++ [1; 2; 3].
Definition clp_tmp (C : Z) (c : Z) : list Z := List.repeat 77 (Z.to_nat (C * 2)).
Definition clp_dev (n : Z) : list Z := List.repeat 99 (Z.to_nat n).
Definition clp_run (e : endian) (f : sample_format) (use_map : bool) (C : Z) (file : option (list Z)) : outcome (Z * list Z) :=
  cl_compdecomp e f use_map C 0 8 16 (clp_tmp C) clp_dev 5 (fun n => rev (chunk_numbers n)) (fun n => rev (chunk_numbers n)) file.
Lemma clp_compressed (x z : list Z) : (forall e, observed (optsw842_compress e 0 0 x (List.repeat 0 (2 * length x)) (2 * lenZ x)) = Done (0, lenZ z, z)) -> forall z', compressed_to x z' -> z' = z.
Proof. intros H z' H'. specialize (H LE). specialize (H' LE). rewrite H in H'. injection H' as _ H'. auto. Qed.
Example C97_hypotheses : is_bytes clp_file /\ clp_file <> [] /\ lenZ clp_file <= 2 ^ 61 /\ (forall c, is_bytes (clp_tmp 128 c) /\ lenZ (clp_tmp 128 c) = 2 ^ 7 * 2) /\
  (forall n, 0 <= n -> is_bytes (clp_dev n) /\ lenZ (clp_dev n) = n) /\ (forall n, Permutation (rev (chunk_numbers n)) (chunk_numbers n)) /\
  length (chunks_of 128 (padded 128 clp_file)) = 3%nat.
Proof.
  split; [apply is_bytes_b; vm_compute; reflexivity|]. split; [discriminate|]. split; [vm_compute; discriminate|]. split.
  { intros c. split; [apply BitsLemmas.is_bytes_repeat; unfold is_byte; lia|reflexivity]. }
  split. { intros n Hn. split; [apply BitsLemmas.is_bytes_repeat; unfold is_byte; lia|unfold clp_dev, lenZ; rewrite repeat_length; lia]. }
  split; [intros n; apply Permutation_sym, Permutation_rev|reflexivity].
Qed.
Example C97_case : forall f, In f [Always; Maybe; Inplace] ->
  clp_run LE f true 128 (Some clp_file) = Done (0, padded 128 clp_file) /\ clp_run BE f false 128 (Some [5; 6]) = Done (0, padded 128 [5; 6]) /\ clp_run LE f false 128 None = Done (0, TEST_STRING).
Proof. intros f [<-|[<-|[<-|[]]]]; vm_compute; repeat split; reflexivity. Qed.

(** The format for decompression in place needs no condition on the compressed data if the chunks are small (as in C68).  The one on the marker is met by every file without it. *)
Theorem C97_inplace_small_chunks : forall e use_map k base taddr obase tmp dev rv corder order file,
  7 <= k <= 9 -> base mod 8 = 0 -> taddr mod 8 = 0 -> obase mod 8 = 0 ->
  (forall c, is_bytes (tmp c) /\ lenZ (tmp c) = 2 ^ k * 2) -> (forall n, 0 <= n -> is_bytes (dev n) /\ lenZ (dev n) = n) ->
  (forall n, Permutation (corder n) (chunk_numbers n) /\ Permutation (order n) (chunk_numbers n)) ->
  (forall x, file = Some x -> is_bytes x /\ x <> [] /\ lenZ x <= 2 ^ 61) ->
  (forall x c, file = Some x -> In c (chunks_of (2 ^ k) (padded (2 ^ k) x)) -> firstn 16 c <> MARKER) ->
  cl_compdecomp e Inplace use_map (2 ^ k) base taddr obase tmp dev rv corder order file = Done (0, match file with Some x => padded (2 ^ k) x | None => TEST_STRING end).
Proof.
  intros e use_map k base taddr obase tmp dev rv corder order file Hk HB HT HO HTM HD HP HF HM. apply cl_driver; auto; [lia|]. intros x c E Hc. destruct (HF x E) as (Bx & NE & LX).
  assert (PK : 128 <= 2 ^ k <= 512) by (split; [change 128 with (2 ^ 7)|change 512 with (2 ^ 9)]; apply Z.pow_le_mono_r; lia).
  split. { intros _ z _ _. now apply (HM x c E). }
  intros _. destruct (chunks_ok (2 ^ k) (padded (2 ^ k) x) c) as [B L]; auto; [lia| |].
  { unfold padded. apply BitsLemmas.is_bytes_app. split; auto. apply BitsLemmas.is_bytes_repeat. unfold is_byte. lia. }
  apply (small_not_caught (2 ^ k)); auto; [|lia]. replace k with (k - 3 + 3) by lia. rewrite Z.pow_add_r by lia. apply Z.mod_mul. lia.
Qed.
Print Assumptions C97_inplace_small_chunks.
Example C97_unmarked : forall c, In c (chunks_of 128 (padded 128 clp_file)) -> firstn 16 c <> MARKER /\ not_mistaken c /\ not_caught_up c.
Proof.
  intros c Hc. assert (M : firstn 16 c <> MARKER) by (vm_compute in Hc; destruct Hc as [<-|[<-|[<-|[]]]]; vm_compute; discriminate). split; auto. split; [intros z _ _; exact M|].
  destruct (chunks_ok 128 (padded 128 clp_file) c) as [B L]; auto; [lia|apply is_bytes_b; vm_compute; reflexivity|]. apply (small_not_caught 128); auto. lia.
Qed.

(** The program fails for this file of which the first chunk starts with the marker and cannot be compressed, and does not restore it. *)
Definition marked_file (e : endian) : list Z := MARKER ++ native_bytes e 8 8 ++ firstn 104 (skipn 152 clp_file) ++ [1].
Theorem C97_marked_chunk_refuted : forall e, is_bytes (marked_file e) /\ exists d, clp_run e Maybe false 128 (Some (marked_file e)) = Done (1, d) /\ d <> padded 128 (marked_file e).
Proof.
  intros e. split; [apply is_bytes_b; destruct e; vm_compute; reflexivity|].
  assert (X : match clp_run e Maybe false 128 (Some (marked_file e)) with Done (r, d) => Z.eqb r 1 && negb (list_eqb d (padded 128 (marked_file e))) | _ => false end = true) by (destruct e; vm_compute; reflexivity).
  destruct (clp_run e Maybe false 128 (Some (marked_file e))) as [[r d]| |]; try discriminate. apply andb_prop in X. destruct X as [X1 X2]. apply Z.eqb_eq in X1. subst r. exists d. split; auto.
  intros ->. apply negb_true_iff in X2. apply Bool.not_true_iff_false in X2. apply X2. now apply list_eqb_eq.
Qed.
Print Assumptions C97_marked_chunk_refuted.
(** In place it fails for this file, with chunks of 1024 bytes, although it does not have the marker: the output catches up with the compressed data. *)
Definition overtaken_file : list Z := List.repeat 0 240 ++ flat_map (fun i => bad_value (Z.of_nat i)) (seq 4 392) ++ [1].
Theorem C97_inplace_refuted : is_bytes overtaken_file /\ (forall c, In c (chunks_of 1024 (padded 1024 overtaken_file)) -> firstn 16 c <> MARKER) /\
  forall e, exists d, clp_run e Inplace false 1024 (Some overtaken_file) = Done (1, d) /\ d <> padded 1024 overtaken_file.
Proof.
  split; [apply is_bytes_b; vm_compute; reflexivity|]. split. { intros c Hc. vm_compute in Hc. destruct Hc as [<-|[<-|[]]]; vm_compute; discriminate. }
  intros e. assert (X : match clp_run e Inplace false 1024 (Some overtaken_file) with Done (r, d) => Z.eqb r 1 && negb (list_eqb d (padded 1024 overtaken_file)) | _ => false end = true) by (destruct e; vm_compute; reflexivity).
  destruct (clp_run e Inplace false 1024 (Some overtaken_file)) as [[r d]| |]; try discriminate. apply andb_prop in X. destruct X as [X1 X2]. apply Z.eqb_eq in X1. subst r. exists d. split; auto.
  intros ->. apply negb_true_iff in X2. apply Bool.not_true_iff_false in X2. apply X2. now apply list_eqb_eq.
Qed.
Print Assumptions C97_inplace_refuted.

(** The size reported for more than one chunk is the sum of the sizes of the compressed chunks if and only if that is below 2^31. *)
Theorem C97_size : forall e f use_map C n base taddr obase tmp dev inp corder order,
  C mod 8 = 0 -> 72 <= C -> 1 <= n -> 2 * C * (n + 1) <= 2 ^ 63 -> base mod 8 = 0 -> taddr mod 8 = 0 -> obase mod 8 = 0 ->
  (forall c, is_bytes (tmp c) /\ lenZ (tmp c) = C * 2) -> is_bytes inp -> lenZ inp = C * n ->
  is_bytes dev -> lenZ dev = match f with Inplace => lenZ inp + 64 | _ => lenZ inp end -> Permutation corder (chunk_numbers n) -> Permutation order (chunk_numbers (global_size n)) ->
  (forall c, In c (chunks_of C inp) -> (f <> Always -> not_mistaken c) /\ (f = Inplace -> not_caught_up c)) ->
  exists zs size, Forall2 compressed_to (chunks_of C inp) zs /\
    cl_benchmark_core e f use_map C base taddr obase tmp dev inp corder order = Done (true, size, inp) /\ (size = sum (map lenZ zs) <-> sum (map lenZ zs) < 2 ^ 31).
Proof. exact cl_size. Qed.
Print Assumptions C97_size.
Example C97_size_case : forall f, In f [Always; Maybe; Inplace] ->
  exists n, (n = 3 /\ lenZ (padded 128 clp_file) = 128 * n) /\
  cl_benchmark_core BE f false 128 0 8 16 (clp_tmp 128) (clp_dev (384 + match f with Inplace => 64 | _ => 0 end)) (padded 128 clp_file) [2; 0; 1] (chunk_numbers 256) = Done (true, 176, padded 128 clp_file).
Proof. intros f [<-|[<-|[<-|[]]]]; exists 3; (split; [split; reflexivity|]); vm_compute; reflexivity. Qed.

(** The program does not report success if it has not restored the file. *)
Theorem C97_program_honest : forall e f use_map k base taddr obase tmp dev rv corder order file d, 0 <= k <= 63 -> (forall x, file = Some x -> lenZ x + 2 ^ k <= 2 ^ 64) ->
  cl_compdecomp e f use_map (2 ^ k) base taddr obase tmp dev rv corder order file = Done (0, d) -> d = match file with Some x => padded (2 ^ k) x | None => TEST_STRING end.
Proof. exact cl_honest. Qed.
Print Assumptions C97_program_honest.
Example C97_honest_case : clp_run LE Inplace true 128 (Some clp_file) = Done (0, padded 128 clp_file) /\ lenZ clp_file + 2 ^ 7 <= 2 ^ 64.
Proof. split; [vm_compute; reflexivity|vm_compute; discriminate]. Qed.

(** An empty file makes the program read memory that does not belong to the buffer. *)
Theorem C97_empty_file_refuted : forall e f use_map k base taddr obase tmp dev rv corder order, 0 <= k < 31 -> base mod 8 = 0 -> obase mod 8 = 0 ->
  cl_compdecomp e f use_map (2 ^ k) base taddr obase tmp dev rv corder order (Some []) = Undef.
Proof. exact cl_empty. Qed.
Print Assumptions C97_empty_file_refuted.
