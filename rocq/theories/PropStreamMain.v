(** C80: the sample program for the streams as a whole (sample/compdecomp_streams.cpp with its driver).

    Reading the statements: [program_start I file iaddr oaddr daddr n] is the program after it has read the file (None: it was started without one), built for the implementation [I] and
    with [n] threads; [program_step ... a] is a step of one of its threads; [ndebug] says that assertions are off.  [finished p] is the exit status and the data that was restored, if the
    program has ended. *)
From Coq Require Import ZArith List Bool Lia.
From Verif Require Import SpecBits CBase BitsLemmas ConcLib SpecSync StreamBlockModel StreamSampleModel SpecStreamSample BlockProps Expansion BenchModel SpecBench BenchProofs StreamMainModel SpecStreamMain StreamMainProofs.
Import ListNotations.
Open Scope Z_scope.

(** Under every schedule the program does not crash, and can end; when it has ended, its exit status is 0, and it has restored the file (padded with zeros to whole blocks).
    If assertions are on, this holds for the files that are not [incompressible]. *)
Theorem C80_program : forall e I ndebug file iaddr oaddr daddr n crets cbuf drets, program_setting e I file iaddr oaddr daddr n crets cbuf drets -> ndebug = true \/ ~ incompressible I file ->
  let step := program_step I ndebug file iaddr daddr n crets cbuf drets in
  forall p, reachable step (program_start I file iaddr oaddr daddr n) p ->
  ~ crashed p /\ (forall v, finished p = Some v -> v = (0, target file)) /\ exists l p', run step l p = Some p' /\ finished p' = Some (0, target file).
Proof. intros e I nd file ia oa da n cr cb dr S A step p R. destruct (program_ok e I nd file ia oa da n cr cb dr S A p R) as (X1 & X2 & X3 & _). auto. Qed.
Print Assumptions C80_program.
(** The size it reports for more than one block is the sum of what the chunks need on their own; a chunk that would save less than 24 bytes counts as a whole. *)
Theorem C80_size : forall e I ndebug file iaddr oaddr daddr n crets cbuf drets, program_setting e I file iaddr oaddr daddr n crets cbuf drets -> ndebug = true \/ ~ incompressible I file ->
  forall y r, reachable (program_step I ndebug file iaddr daddr n crets cbuf drets) (program_start I file iaddr oaddr daddr n) (Streams y) -> y_pc y = MReturn r ->
  reported y = sum (map (stream_size I) (chunks_of CHUNK_SIZE (target file))).
Proof. intros e I nd file ia oa da n cr cb dr S A y r R. destruct (program_ok e I nd file ia oa da n cr cb dr S A (Streams y) R) as (_ & _ & _ & X). now apply X. Qed.
Print Assumptions C80_size.

(** If assertions are on and the file is [incompressible], no schedule lets the program end: it goes on until it crashes, after a bounded number of steps. *)
Theorem C80_assertions_always_abort_refuted : forall e I file iaddr oaddr daddr n crets cbuf drets, program_setting e I file iaddr oaddr daddr n crets cbuf drets -> incompressible I file ->
  let step := program_step I false file iaddr daddr n crets cbuf drets in let start := program_start I file iaddr oaddr daddr n in
  (forall p, reachable step start p -> finished p = None /\ (crashed p \/ exists a p', is_wake a = false /\ step a p = Some p')) /\
  (forall l p, run step l start = Some p -> let N := Z.of_nat n in let B := lenZ (target file) / BLOCK_SIZE in
     cnt (fun a => negb (is_wake a)) l <= (B + 20) * (10 * B + N * ((N + 5) * (B + 1) + 28) + (3 * B + N * (N + 20)) + 1) + cnt is_wake l + 1).
Proof.
  intros e I file ia oa da n cr cb dr S INC step start. split; [intros p; exact (program_aborts e I file ia oa da n cr cb dr S INC p)|intros l p; exact (program_abort_bound e I file ia oa da n cr cb dr S INC l p)].
Qed.
Print Assumptions C80_assertions_always_abort_refuted.

(** Whatever the library does (any functions in place of its own), the exit status is not 0 if the program has not restored the file. *)
Theorem C92_streams_program : forall I ndebug file iaddr oaddr daddr n crets cbuf drets p d, (forall f, file = Some f -> lenZ f + BLOCK_SIZE <= 2 ^ 64) ->
  reachable (program_step I ndebug file iaddr daddr n crets cbuf drets) (program_start I file iaddr oaddr daddr n) p -> finished p = Some (0, d) -> d = target file.
Proof. exact program_honest. Qed.
Print Assumptions C92_streams_program.

(** An empty file makes the program fail, with optsw842 by reading from memory that does not belong to the buffer. *)
Theorem C80_empty_file_refuted : forall e iaddr oaddr daddr n, oaddr mod 8 = 0 -> iaddr mod 8 = 0 ->
  finished (program_start (sw842_implementation e) (Some []) iaddr oaddr daddr n) = Some (1, []) /\ crashed (program_start (optsw842_implementation e) (Some []) iaddr oaddr daddr n).
Proof. intros e ia oa da n HO HI. destruct (program_empty e ia oa da n HO HI) as [-> ->]. split; [reflexivity|exact Logic.I]. Qed.
Print Assumptions C80_empty_file_refuted.

(** A file of one block and one byte, of which the first chunk cannot be compressed; three threads. *)
Definition hard_file : list Z := hard_source ++ [0].
Definition zeros16 (k : Z) : list Z := List.repeat 0 16.
Definition zeros_block (off : Z) : Z * list Z := (1024, List.repeat 0 (Z.to_nat BLOCK_SIZE)).
Lemma some_setting e I hs cb : In I [sw842_implementation e; optsw842_implementation e] -> is_bytes hs -> lenZ hs = BLOCK_SIZE ->
  (forall off, fst (cb off) = 1024 /\ is_bytes (snd (cb off)) /\ lenZ (snd (cb off)) = BLOCK_SIZE) -> program_setting e I (Some (hs ++ [0])) 64 128 256 3 zeros16 cb zeros16.
Proof.
  intros HI HB HL HC. assert (A : forall a, a mod 8 = 0 -> a mod i_preferred I = 0) by (intros a H; destruct HI as [<-|[<-|[]]]; [apply Z.mod_1_r|exact H]).
  constructor.
  - exact HI.
  - intros f E. injection E as <-. split; [apply is_bytes_app; split; [exact HB|repeat constructor; unfold is_byte; lia]|]. split; [destruct hs; discriminate|].
    unfold lenZ in *. rewrite app_length. cbn [length]. assert (BLOCK_SIZE = 1048576) by reflexivity. lia.
  - now apply A.
  - now apply A.
  - now apply A.
  - lia.
  - reflexivity.
  - intros off. destruct (HC off) as (C1 & C2 & C3). rewrite C1. split; [now apply A|]. auto.
  - reflexivity.
Qed.
Lemma hard_setting e I : In I [sw842_implementation e; optsw842_implementation e] -> program_setting e I (Some hard_file) 64 128 256 3 zeros16 zeros_block zeros16.
Proof.
  intros HI. apply some_setting; [exact HI|apply ramp_bytes|exact hard_length|]. intros off. unfold zeros_block, fst, snd. split; [reflexivity|].
  split; [apply is_bytes_repeat; unfold is_byte; lia|]. unfold lenZ. rewrite repeat_length. apply Z2Nat.id. discriminate.
Qed.
Lemma some_case e I f cb : program_setting e I (Some f) 64 128 256 3 zeros16 cb zeros16 ->
  exists l p, run (program_step I true (Some f) 64 256 3 zeros16 cb zeros16) l (program_start I (Some f) 64 128 256 3) = Some p /\ finished p = Some (0, padded BLOCK_SIZE f).
Proof. intros S. destruct (C80_program e I true (Some f) 64 128 256 3 _ _ _ S (or_introl eq_refl) _ (re_init _ _)) as (_ & _ & X). exact X. Qed.
Example C80_program_case : forall e I, In I [sw842_implementation e; optsw842_implementation e] ->
  program_setting e I (Some hard_file) 64 128 256 3 zeros16 zeros_block zeros16 /\ incompressible I (Some hard_file) /\
  exists l p, run (program_step I true (Some hard_file) 64 256 3 zeros16 zeros_block zeros16) l (program_start I (Some hard_file) 64 128 256 3) = Some p /\ finished p = Some (0, padded BLOCK_SIZE hard_file).
Proof. intros e I HI. pose proof (hard_setting e I HI) as S. split; [exact S|]. split; [exact (hard_incompressible e I HI)|exact (some_case e I hard_file zeros_block S)]. Qed.
(** The test string, with assertions: the simple test. *)
Example C80_program_string_case : forall e I, In I [sw842_implementation e; optsw842_implementation e] -> program_start I None 64 128 256 1 = Simple (Done (0, TEST_STRING)) /\ ~ incompressible I None.
Proof. intros e I HI. split; [destruct e, HI as [<-|[<-|[]]]; vm_compute; reflexivity|]. intros [G _]. vm_compute in G. discriminate G. Qed.
