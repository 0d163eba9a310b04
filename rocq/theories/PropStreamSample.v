(** Properties of the sample program of the streams: C80. *)
From Coq Require Import ZArith List Bool Lia.
From Verif Require Import SpecBits CBase ConcLib SpecSync BarrierProofs ChunkedModel StreamBlockModel SpecBlock SpecStream BlockProps Expansion CompStreamModel DecompStreamModel StreamSampleModel SpecStreamSample StreamSampleProofs StreamSampleAbort StreamSampleHonest.
Import ListNotations.
Open Scope Z_scope.

Section C80.
Variable e : endian.
Variable gc gd : chunked_impl.
Variable ndebug : bool.
Variable inp : list Z.
Variable iaddr daddr : Z.
Variable n : nat.
Variable crets : Z -> list Z.
Variable cbuf : Z -> Z * list Z.
Variable drets : Z -> list Z.
Hypothesis SET : sample_setting e gc gd inp n crets cbuf drets.
Hypothesis RAW : no_raw_chunk gc ndebug inp iaddr crets cbuf.
Notation step := (ystep gc gd ndebug inp iaddr daddr n crets cbuf drets).
Notation start := (sample_start inp n).

(** C80: under every schedule of the main thread and the threads of the two streams, the program has no undefined behaviour and
    fails no assertion; when it returns, it returns true exactly if the input consists of whole blocks, and the whole
    blocks of the input have been restored (and nothing else was written), and all threads of the streams have ended. *)
Theorem C80_streams_restore : forall y, reachable step start y ->
  y_pc y <> MAbort /\ y_pc y <> MBroken /\
  forall r, y_pc y = MReturn r ->
    (r = true <-> lenZ inp mod BLOCK_SIZE = 0) /\ (r = true -> y_mem y = inp) /\
    let w := Z.to_nat (lenZ inp / BLOCK_SIZE * BLOCK_SIZE) in y_mem y = firstn w inp ++ List.repeat 0 (length inp - w) /\
    Forall (fun t => fst t = CExit) (c_thr (y_c y)) /\ Forall (fun t => fst t = DExit) (d_thr (y_d y)).
Proof.
  intros y R. destruct SET as [S1 S2 S3 S4 S5 S6 S7 S8].
  destruct (c80_result e gc gd ndebug inp iaddr daddr n crets cbuf drets S1 S2 S3 S4 ltac:(lia) ltac:(lia) S6 S7 S8 RAW y R) as (A & B & C).
  split; [exact A|]. split; [exact B|]. intros r PC. destruct (C r PC) as (D & M & TE). unfold final_result in D. unfold whole in M.
  split; [subst r; apply Z.eqb_eq|]. split; [|exact (conj M TE)]. intros RT. rewrite M. subst r. apply Z.eqb_eq in RT.
  assert (BP : 0 < BLOCK_SIZE) by reflexivity. pose proof (Z.div_mod (lenZ inp) BLOCK_SIZE ltac:(lia)) as X.
  replace (Z.to_nat (lenZ inp / BLOCK_SIZE * BLOCK_SIZE)) with (length inp) by (unfold lenZ in *; lia). now rewrite firstn_all, Nat.sub_diag, app_nil_r.
Qed.
(** It is never stuck: until it returns, some thread can take a step (without a spurious wakeup). *)
Theorem C80_never_stuck : forall y, reachable step start y -> (exists r, y_pc y = MReturn r) \/ exists a y', is_wake a = false /\ step a y = Some y'.
Proof.
  intros y R. destruct SET as [S1 S2 S3 S4 S5 S6 S7 S8].
  exact (c80_progress e gc gd ndebug inp iaddr daddr n crets cbuf drets S1 S2 S3 S4 ltac:(lia) ltac:(lia) S6 S7 S8 RAW y R).
Qed.
(** It ends: the number of steps is bounded by the number of blocks and of threads (each spurious wakeup allows one more). *)
Theorem C80_bounded : forall l y, run step l start = Some y ->
  let N := Z.of_nat n in let B := lenZ inp / BLOCK_SIZE in
  cnt (fun a => negb (is_wake a)) l <= (B + 20) * (10 * B + N * ((N + 5) * (B + 1) + 28) + (3 * B + N * (N + 20)) + 1) + cnt is_wake l.
Proof.
  intros l y R. destruct SET as [S1 S2 S3 S4 S5 S6 S7 S8].
  exact (c80_bound e gc gd ndebug inp iaddr daddr n crets cbuf drets S1 S2 S3 S4 ltac:(lia) ltac:(lia) S6 S7 S8 RAW l y R).
Qed.
(** From every state it can return. *)
Theorem C80_can_return : forall y, reachable step start y -> exists l y' r, run step l y = Some y' /\ y_pc y' = MReturn r.
Proof.
  intros y R. destruct SET as [S1 S2 S3 S4 S5 S6 S7 S8].
  exact (c80_returns e gc gd ndebug inp iaddr daddr n crets cbuf drets S1 S2 S3 S4 ltac:(lia) ltac:(lia) S6 S7 S8 RAW y R).
Qed.
End C80.
Print Assumptions C80_streams_restore.
Print Assumptions C80_never_stuck.
Print Assumptions C80_bounded.
Print Assumptions C80_can_return.

(** Whatever the library does (any functions in place of its own), the program does not return true if it has not restored the input. *)
Theorem C92_streams_sample : forall gc gd ndebug inp iaddr daddr n crets cbuf drets y,
  reachable (ystep gc gd ndebug inp iaddr daddr n crets cbuf drets) (sample_start inp n) y -> y_pc y = MReturn true ->
  y_mem y = inp /\ Forall (fun t => fst t = DExit) (d_thr (y_d y)).
Proof. exact sample_honest. Qed.
Print Assumptions C92_streams_sample.

(** One block that cannot be compressed, two threads, assertions off: the program returns true. *)
Definition zero_rets (k : Z) : list Z := List.repeat 0 16.
Definition zero_buf (off : Z) : Z * list Z := (0, List.repeat 0 (Z.to_nat BLOCK_SIZE)).
Lemma zeros_block k : k = Z.to_nat BLOCK_SIZE -> is_bytes (List.repeat 0 k) /\ lenZ (List.repeat 0 k) = BLOCK_SIZE.
Proof.
  intros H. split; [apply Forall_forall; intros x IN; apply repeat_spec in IN; subst x; split; [discriminate|reflexivity]|].
  unfold lenZ. rewrite repeat_length, H. apply Z2Nat.id. discriminate.
Qed.
Lemma hard_setting : sample_setting LE (sw842_compress_chunked LE) (optsw842_decompress_chunked LE) hard_source 2 zero_rets zero_buf zero_rets.
Proof.
  constructor.
  - left. reflexivity.
  - right. left. reflexivity.
  - apply ramp_bytes.
  - rewrite hard_length. discriminate.
  - split; [discriminate|reflexivity].
  - intros off. reflexivity.
  - intros off. exact (zeros_block (Z.to_nat BLOCK_SIZE) eq_refl).
  - intros k. reflexivity.
Qed.
Example C80_case : exists l y,
  run (ystep (sw842_compress_chunked LE) (optsw842_decompress_chunked LE) true hard_source 0 0 2 zero_rets zero_buf zero_rets) l (sample_start hard_source 2) = Some y /\
  y_pc y = MReturn true /\ y_mem y = hard_source.
Proof.
  pose proof hard_setting as S. assert (R : no_raw_chunk (sw842_compress_chunked LE) true hard_source 0 zero_rets zero_buf) by (left; reflexivity).
  destruct (C80_can_return _ _ _ _ _ 0 0 _ _ _ _ S R _ (re_init _ _)) as (l & y & r & E & PC). exists l, y.
  assert (RE : reachable (ystep (sw842_compress_chunked LE) (optsw842_decompress_chunked LE) true hard_source 0 0 2 zero_rets zero_buf zero_rets) (sample_start hard_source 2) y).
  { exact (run_reachable _ l _ y E). }
  destruct (C80_streams_restore _ _ _ _ _ 0 0 _ _ _ _ S R _ RE) as (_ & _ & X). destruct (X r PC) as (A & B & _).
  assert (r = true) as -> by (apply A; rewrite hard_length; reflexivity). auto.
Qed.

(** The second hypothesis is needed: with assertions on, the program aborts on an input that cannot be compressed (C35). *)
Theorem C80_assertions_refuted : forall e gc gd iaddr daddr crets cbuf drets, sample_setting e gc gd hard_source 1 crets cbuf drets ->
  is_bytes hard_source /\ lenZ hard_source = BLOCK_SIZE /\
  exists y, reachable (ystep gc gd false hard_source iaddr daddr 1 crets cbuf drets) (sample_start hard_source 1) y /\ y_pc y = MAbort.
Proof. intros. split; [apply ramp_bytes|]. split; [exact hard_length|]. eapply c80_abort; eauto. Qed.
Print Assumptions C80_assertions_refuted.
Example C80_abort_case : sample_setting LE (sw842_compress_chunked LE) (optsw842_decompress_chunked LE) hard_source 1 zero_rets zero_buf zero_rets.
Proof. destruct hard_setting. constructor; auto. split; [discriminate|reflexivity]. Qed.
