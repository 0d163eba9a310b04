(** C96: the other variants of the sample program for the CPU (sample/compdecomp.c with CHUNKS_PER_BATCH = 1 or CONDENSE).

    Reading the statements: [single_core cond I C iaddr oaddr daddr caddr inp junk corder morder dorder] is the benchmark for the file [inp] with one chunk of [C] bytes at a time, with CONDENSE if [cond]; whether it
    succeeds, the size it reports and the data it has restored.  [condensed_core I C B ...] is the same with batches of [B] chunks and CONDENSE.  The orders are those in which the threads get to the chunks or
    batches when they compress, move and decompress.  [setting] says that the implementation is sw842 or optsw842, the addresses are aligned and the file is [num] chunks long.  [fits I x]: the compressor
    can store the chunk [x] in as many bytes as it has. *)
From Coq Require Import ZArith List Bool Lia Permutation.
From Verif Require Import SpecBits SpecCalls CBase SpecOcl InplaceItems ChunkedModel BenchModel SpecBench BenchProofs CondenseModel CondenseProofs.
Import ListNotations.
Open Scope Z_scope.

(** Without CONDENSE: every file is restored, and the size reported is the sum of what the chunks need. *)
Theorem C96_single_chunks : forall e I C iaddr oaddr daddr caddr inp num junk corder morder dorder, setting e I C iaddr oaddr daddr caddr inp num -> lenZ (junk num) = num ->
  Permutation corder (chunk_numbers num) -> Permutation dorder (chunk_numbers num) ->
  single_core false I C iaddr oaddr daddr caddr inp junk corder morder dorder = Done (true, Some (sum (map (stored_size I) (chunks_of C inp))), inp).
Proof. exact variant_single. Qed.
Print Assumptions C96_single_chunks.

(** With CONDENSE: every file whose chunks all can be compressed is restored.  Missing: the others, for which it is false (below). *)
Theorem C96_condensed_partial : forall e I C iaddr oaddr daddr caddr inp num junk corder morder dorder, setting e I C iaddr oaddr daddr caddr inp num -> (forall n, 0 <= n -> lenZ (junk n) = n) ->
  Permutation corder (chunk_numbers num) -> Permutation morder (chunk_numbers num) -> Permutation dorder (chunk_numbers num) ->
  (forall x, In x (chunks_of C inp) -> fits I x) ->
  single_core true I C iaddr oaddr daddr caddr inp junk corder morder dorder = Done (true, Some (sum (map (stored_size I) (chunks_of C inp))), inp).
Proof. exact variant_condense. Qed.
Print Assumptions C96_condensed_partial.

(** A chunk that cannot be compressed: the program copies SIZE_MAX bytes. *)
Theorem C96_condensed_refuted : forall e I C iaddr oaddr daddr caddr inp num junk corder morder dorder, setting e I C iaddr oaddr daddr caddr inp num -> (forall n, 0 <= n -> lenZ (junk n) = n) ->
  Permutation corder (chunk_numbers num) -> Permutation morder (chunk_numbers num) ->
  (exists x, In x (chunks_of C inp) /\ ~ fits I x) ->
  single_core true I C iaddr oaddr daddr caddr inp junk corder morder dorder = Undef.
Proof. exact variant_condense_undef. Qed.
Print Assumptions C96_condensed_refuted.

(** Batches and CONDENSE: if the last batch has two chunks or more and one of them (not the last) gets smaller, the library looks for the last behind the end of the buffer: the program never ends normally. *)
Theorem C96_condensed_batches_refuted : forall e I C B iaddr oaddr daddr caddr inp num junk1 junk2 corder morder dorder r, setting e I C iaddr oaddr daddr caddr inp num -> 0 < B -> B * C < 2 ^ 32 ->
  (forall n, 0 <= n -> lenZ (junk1 n) = n) -> (forall n, 0 <= n -> lenZ (junk2 n) = n) ->
  Permutation corder (batches B num) -> Permutation morder (chunk_numbers num) -> Permutation dorder (batches B num) ->
  (exists c, 0 <= c /\ B * ((num - 1) / B) <= c < num - 1 /\ stored_size I (bytes_at inp (C * c) C) < C) ->
  condensed_core I C B iaddr oaddr daddr caddr inp junk1 junk2 corder morder dorder <> Done r.
Proof. exact variant_batches_bad. Qed.
Print Assumptions C96_condensed_batches_refuted.

(** Whatever the library does, no variant reports success if it has not restored the file. *)
Theorem C96_honest : forall I C B iaddr oaddr daddr caddr inp junk1 junk2 corder morder dorder o d,
  (exists cond, single_core cond I C iaddr oaddr daddr caddr inp junk2 corder morder dorder = Done (true, o, d)) \/
  condensed_core I C B iaddr oaddr daddr caddr inp junk1 junk2 corder morder dorder = Done (true, o, d) -> d = inp.
Proof. exact variants_honest. Qed.
Print Assumptions C96_honest.

(** Cases: a file whose two chunks of 32 bytes can be compressed, and one in which the second cannot. *)
Definition good_file : list Z := List.repeat 7 32 ++ [1; 2; 3; 4; 5; 6; 7; 8] ++ List.repeat 9 24.
Definition bad_file : list Z := List.repeat 7 32 ++ map (fun i => (Z.of_nat i * Z.of_nat i * 7 + 13 * Z.of_nat i) mod 256) (seq 0 32).
Definition junk (n : Z) : list Z := List.repeat 77 (Z.to_nat n).
Example C96_hypotheses : forall e I, In I [sw842_implementation e; optsw842_implementation e] ->
  setting e I 32 0 8 16 24 good_file 2 /\ setting e I 32 0 8 16 24 bad_file 2 /\ (forall n, 0 <= n -> lenZ (junk n) = n) /\ Permutation [1; 0] (chunk_numbers 2) /\ batches 2 2 = [0] /\
  (forall x, In x (chunks_of 32 good_file) -> fits I x) /\ (exists x, In x (chunks_of 32 bad_file) /\ ~ fits I x) /\
  2 * ((2 - 1) / 2) <= 0 < 2 - 1 /\ stored_size I (bytes_at good_file (32 * 0) 32) < 32.
Proof.
  assert (B1 : is_bytes good_file) by (apply is_bytes_b; vm_compute; reflexivity). assert (B2 : is_bytes bad_file) by (apply is_bytes_b; vm_compute; reflexivity).
  intros e I HI. assert (S : forall f, is_bytes f -> lenZ f = 64 -> setting e I 32 0 8 16 24 f 2).
  { intros f Bf Lf. unfold setting. destruct HI as [<-|[<-|[]]]; (split; [cbn [In]; tauto|]); (split; [unfold UINT_MAX; lia|]); repeat (split; [reflexivity|]); (split; [exact Bf|]); (split; [lia|]); (split; [exact Lf|reflexivity]). }
  split; [now apply S|]. split; [now apply S|]. split. { intros n Hn. unfold junk, lenZ. rewrite repeat_length. lia. } split; [apply perm_swap|]. split; [reflexivity|].
  split; [|split; [|split; [vm_compute; split; [discriminate|reflexivity]|]]].
  - intros x IX. cbv [chunks_of] in IX. vm_compute in IX. destruct IX as [<-|[<-|[]]]; destruct HI as [<-|[<-|[]]]; destruct e; (eexists _, _; vm_compute; reflexivity).
  - exists (skipn 32 bad_file). split; [vm_compute; tauto|]. intros (n & z & E). destruct HI as [<-|[<-|[]]]; destruct e; vm_compute in E; discriminate.
  - destruct HI as [<-|[<-|[]]]; destruct e; reflexivity.
Qed.
Example C96_case : forall e I, In I [sw842_implementation e; optsw842_implementation e] ->
  single_core false I 32 0 8 16 24 bad_file junk [1; 0] [] [0; 1] = Done (true, Some 48, bad_file) /\
  single_core true I 32 0 8 16 24 good_file junk [1; 0] [1; 0] [0; 1] = Done (true, Some 40, good_file) /\
  single_core true I 32 0 8 16 24 bad_file junk [1; 0] [1; 0] [0; 1] = Undef /\
  condensed_core I 32 2 0 8 16 24 good_file junk junk [0] [1; 0] [0] = Undef.
Proof. intros [] I [<-|[<-|[]]]; vm_compute; repeat split; reflexivity. Qed.
