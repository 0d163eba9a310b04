(** Properties of the chunked calls (C28-C30, C50). *)
From Coq Require Import ZArith List Bool Lia.
From Verif Require Import SpecBits CBase SpecCalls BitsLemmas SerialCompModel SerialProps ChunkedModel SpecChunked ChunkedProofs.
Import ListNotations.
Open Scope Z_scope.

(** Each chunked function and the single-chunk function it is made of. *)
Definition chunked_pairs (e : endian) : list (chunk_func * chunked_func) :=
  [(sw842_compress_f e, sw842_compress_chunked e); (sw842_decompress_f e, sw842_decompress_chunked e);
   (optsw842_compress_f e, optsw842_compress_chunked e); (optsw842_decompress_f e, optsw842_decompress_chunked e)].

(** C28, for offsets below 2^32 (missing: larger offsets, where it is false, see below). *)
Theorem C28_chunked_as_single_calls_partial : forall e f g, In (f, g) (chunked_pairs e) -> as_single_calls (2 ^ 32) f g.
Proof. exact c28. Qed.
Print Assumptions C28_chunked_as_single_calls_partial.
Example C28_case : exists rets olens out,
  sw842_compress_chunked LE 3 [9;9;9] 0 (List.repeat 0 8 ++ [1;2;3;4;5;6;7;8] ++ List.repeat 7 16) 8 [8;SIZE_MAX;16]
    0 (List.repeat 170 100) 32 [32;5;32] = Done (0, rets, olens, out) /\
  seen rets olens out 32 0 = (0, 8, [231; 128; 0; 0; 0; 0; 0; 0]) /\ seen rets olens out 32 1 = (9, 5, List.repeat 170 5) /\
  seen rets olens out 32 2 = (0, 16, [0; 56; 56; 56; 56; 56; 56; 56; 62; 192; 246; 212; 239; 149; 72; 0]).
Proof. do 3 eexists. split; [vm_compute; reflexivity|]. split; [|split]; reflexivity. Qed.

(** C28 fails when an offset does not fit an unsigned int: with istride = 2^32
    chunk 1 is read from the place of chunk 0. *)
Theorem C28_large_offsets_refuted :
  exists e maxoff, ~ as_single_calls maxoff (sw842_compress_f e) (sw842_compress_chunked e).
Proof. exists LE, (2 ^ 33). exact wrap_refuted. Qed.
Print Assumptions C28_large_offsets_refuted.

(** C29 fails: a call with a chunk that was refused with -EINVAL returns 0. *)
Theorem C29_errors_reported_refuted :
  exists e n rets iaddr inp istride ilens oaddr out ostride olens rets' olens' out',
    sw842_decompress_chunked e n rets iaddr inp istride ilens oaddr out ostride olens = Done (0, rets', olens', out') /\
    exists j, live n ilens j /\ nth j rets' 0 <> 0 /\ nth j rets' 0 <> - ENOSPC.
Proof.
  exists LE, 2, [7;7], 0, (List.repeat 255 16), 8, [8;8], 0, (List.repeat 0 16), 8, [8;8]. do 3 eexists.
  split; [vm_compute; reflexivity|]. exists 0%nat. split; [split; [repeat constructor|discriminate]|]. split; discriminate.
Qed.
Print Assumptions C29_errors_reported_refuted.
(** In fact the value returned is 0 whatever the chunks returned; only rets[] tells. *)
Theorem C29_return_value_always_zero : forall f n rets iaddr inp istride ilens oaddr out ostride olens r a b c,
  chunked f n rets iaddr inp istride ilens oaddr out ostride olens = Done (r, a, b, c) -> r = 0.
Proof. exact chunked_ret. Qed.
Print Assumptions C29_return_value_always_zero.

(** C30: the outcome for a live chunk [j] is the same in two calls that agree on
    chunk [j] and may differ in the number of chunks and everything about the others.
    (Offsets below 2^32.) *)
Theorem C30_chunks_independent_partial : forall e f g, In (f, g) (chunked_pairs e) ->
  forall n rets iaddr inp istride ilens oaddr out ostride olens n' rets' inp' ilens' out' olens' j r1 a1 b1 m1 r2 a2 b2 m2,
  is_bytes inp -> is_bytes out -> 0 <= n <= UINT_MAX -> areas n rets inp istride ilens out ostride olens ->
  (n - 1) * istride < 2 ^ 32 -> (n - 1) * ostride < 2 ^ 32 ->
  (forall i, live n ilens i -> exists v, single f iaddr inp istride ilens oaddr out ostride olens i = Done v) ->
  is_bytes inp' -> is_bytes out' -> 0 <= n' <= UINT_MAX -> areas n' rets' inp' istride ilens' out' ostride olens' ->
  (n' - 1) * istride < 2 ^ 32 -> (n' - 1) * ostride < 2 ^ 32 ->
  (forall i, live n' ilens' i -> exists v, single f iaddr inp' istride ilens' oaddr out' ostride olens' i = Done v) ->
  live n ilens j -> live n' ilens' j ->
  nth j ilens 0 = nth j ilens' 0 -> nth j olens 0 = nth j olens' 0 ->
  slice (Z.to_nat (Z.of_nat j * istride)) (Z.to_nat (nth j ilens 0)) inp = slice (Z.to_nat (Z.of_nat j * istride)) (Z.to_nat (nth j ilens 0)) inp' ->
  slice (Z.to_nat (Z.of_nat j * ostride)) (Z.to_nat (nth j olens 0)) out = slice (Z.to_nat (Z.of_nat j * ostride)) (Z.to_nat (nth j olens 0)) out' ->
  g n rets iaddr inp istride ilens oaddr out ostride olens = Done (r1, a1, b1, m1) ->
  g n' rets' iaddr inp' istride ilens' oaddr out' ostride olens' = Done (r2, a2, b2, m2) ->
  seen a1 b1 m1 ostride j = seen a2 b2 m2 ostride j.
Proof. intros e f g H. exact (c30 f g (c28 e f g H)). Qed.
Print Assumptions C30_chunks_independent_partial.
(** C30: a skipped chunk keeps its rets[j], olens[j] and the bytes from out + j*ostride to the next chunk. *)
Theorem C30_skipped_chunks_untouched_partial : forall e f g, In (f, g) (chunked_pairs e) ->
  forall n rets iaddr inp istride ilens oaddr out ostride olens j,
  is_bytes inp -> is_bytes out -> 0 <= n <= UINT_MAX -> areas n rets inp istride ilens out ostride olens ->
  (n - 1) * istride < 2 ^ 32 -> (n - 1) * ostride < 2 ^ 32 ->
  (forall i, live n ilens i -> exists v, single f iaddr inp istride ilens oaddr out ostride olens i = Done v) ->
  (j < Z.to_nat n)%nat -> nth j ilens 0 = SIZE_MAX ->
  exists ret rets' olens' out',
    g n rets iaddr inp istride ilens oaddr out ostride olens = Done (ret, rets', olens', out') /\
    nth j rets' 0 = nth j rets 0 /\ nth j olens' 0 = nth j olens 0 /\
    slice (Z.to_nat (Z.of_nat j * ostride)) (Z.to_nat ostride) out' = slice (Z.to_nat (Z.of_nat j * ostride)) (Z.to_nat ostride) out.
Proof. intros e f g H. exact (c30_skip f g (c28 e f g H)). Qed.
Print Assumptions C30_skipped_chunks_untouched_partial.
Example C30_case : exists a b m a' b' m',
  sw842_compress_chunked LE 2 [9;9] 0 ([1;2;3;4;5;6;7;8] ++ List.repeat 7 16) 8 [8;16] 0 (List.repeat 170 100) 32 [32;32] = Done (0, a, b, m) /\
  sw842_compress_chunked LE 3 [9;9;9] 0 (List.repeat 9 8 ++ List.repeat 7 16) 8 [8;16;SIZE_MAX] 0 (List.repeat 170 100) 32 [32;32;4] = Done (0, a', b', m') /\
  seen a b m 32 1 = seen a' b' m' 32 1 /\ seen a b m 32 0 <> seen a' b' m' 32 0.
Proof. do 6 eexists. split; [vm_compute; reflexivity|]. split; [vm_compute; reflexivity|]. split; [reflexivity|discriminate]. Qed.

(** C30 fails when an offset does not fit an unsigned int: with ostride = 2^32 the output of chunk 1 is written to the place of chunk 0, which is marked as skipped, whatever is there. *)
Theorem C30_large_offsets_refuted : forall e iaddr oaddr out, is_bytes out -> lenZ out = 2 ^ 32 + 32 -> nth 0 out 0 <> 0 ->
  let inp := List.repeat 0 8 ++ [1;2;3;4;5;6;7;8] in
  areas 2 [9;9] inp 8 [SIZE_MAX;8] out (2 ^ 32) [32;32] /\
  (forall j, live 2 [SIZE_MAX;8] j -> exists v, single (sw842_compress_f e) iaddr inp 8 [SIZE_MAX;8] oaddr out (2 ^ 32) [32;32] j = Done v) /\
  exists rets' olens' out', sw842_compress_chunked e 2 [9;9] iaddr inp 8 [SIZE_MAX;8] oaddr out (2 ^ 32) [32;32] = Done (0, rets', olens', out') /\ nth 0 out' 0 <> nth 0 out 0.
Proof.
  intros e iaddr oaddr out Ho LO N0 inp.
  assert (BX : is_bytes [1;2;3;4;5;6;7;8]) by (repeat constructor; unfold is_byte; lia).
  destruct (c02 [1;2;3;4;5;6;7;8] BX) as (z & _ & _ & HZ).
  assert (ZR : exists r, z = 0 :: r).
  { assert (B : is_bytes (List.repeat 0 32)) by (apply is_bytes_repeat; unfold is_byte; lia). pose proof (HZ LE 0 (List.repeat 0 32) 32 B ltac:(vm_compute; split; discriminate)) as E.
    destruct ((lenZ z <=? 32) && (lenZ z <=? UINT_MAX)); vm_compute in E; [|discriminate]. injection E as _ <-. eexists. reflexivity. }
  assert (L : (lenZ z <=? 32) && (lenZ z <=? UINT_MAX) = true).
  { assert (B : is_bytes (List.repeat 0 32)) by (apply is_bytes_repeat; unfold is_byte; lia). pose proof (HZ LE 0 (List.repeat 0 32) 32 B ltac:(vm_compute; split; discriminate)) as E.
    destruct ((lenZ z <=? 32) && (lenZ z <=? UINT_MAX)); auto. vm_compute in E. discriminate. }
  split; [|split].
  - do 5 (split; [reflexivity || lia|]). intros j Hj. destruct Hj as [Hj Hs]. change (Z.to_nat 2) with 2%nat in Hj. assert (j = 0%nat \/ j = 1%nat) as [-> | ->] by lia; [now destruct Hs|]. rewrite LO. change (lenZ inp) with 16. cbn [nth]. lia.
  - intros j Hj. destruct Hj as [Hj Hs]. change (Z.to_nat 2) with 2%nat in Hj. assert (j = 0%nat \/ j = 1%nat) as [-> | ->] by lia; [now destruct Hs|].
    unfold single. change (Z.to_nat (nth 1 [SIZE_MAX; 8] 0)) with 8%nat. change (Z.to_nat (Z.of_nat 1 * 8)) with 8%nat. change (slice 8 8 inp) with [1;2;3;4;5;6;7;8]. unfold sw842_compress_f. change (nth 1 [32; 32] 0) with 32.
    rewrite HZ; [rewrite L; eauto|now apply is_bytes_slice|]. unfold lenZ in *. change (Z.of_nat 1 * 2 ^ 32) with (2 ^ 32). rewrite slice_length by (change (Z.to_nat 32) with 32%nat; lia). lia.
  - pose proof (HZ e (iaddr + 8) out 32 Ho ltac:(lia)) as E. rewrite L in E. destruct (sw842_compress e (iaddr + 8) [1;2;3;4;5;6;7;8] out 32) as [[[r n] m]| |] eqn:EC; try discriminate. cbn [observed] in E. injection E as -> -> F.
    assert (M0 : nth 0 m 0 = 0). { destruct ZR as (q & ->). unfold lenZ in F. rewrite Nat2Z.id in F. destruct m; [discriminate|]. cbn [length firstn] in F. injection F as -> _. reflexivity. }
    do 3 eexists. split.
    + unfold sw842_compress_chunked, chunked. change (S (Z.to_nat 2)) with 3%nat. cbn [chunk_loop]. change (0 <? 2) with true. cbv iota. change (aget [SIZE_MAX; 8] 0) with (Done SIZE_MAX). rewrite bind_done. change (SIZE_MAX =? SIZE_MAX) with true. cbv iota.
      change (u32 (0 + 1)) with 1. change (u32 (0 + 8)) with 8. change (u32 (0 + 2 ^ 32)) with 0. change (1 <? 2) with true. cbv iota. change (aget [SIZE_MAX; 8] 1) with (Done 8). rewrite bind_done. change (8 =? SIZE_MAX) with false. cbv iota.
      change (load_bytes inp 8 8) with (Done [1;2;3;4;5;6;7;8]). rewrite bind_done. change (aget [32; 32] 1) with (Done 32). rewrite bind_done. destruct (Z.gtb_spec 0 (lenZ out)); [lia|].
      unfold sw842_compress_f. change (Z.to_nat 0) with 0%nat. cbn [skipn firstn app]. rewrite EC, bind_done. change (aset [9; 9] 1 0) with (Done [9; 0]). rewrite bind_done.
      change (aset [32; 32] 1 (lenZ z)) with (Done [32; lenZ z]). rewrite bind_done. change (u32 (1 + 1)) with 2. change (2 <? 2) with false. cbv iota. reflexivity.
    + congruence.
Qed.
Print Assumptions C30_large_offsets_refuted.
Example C30_large_case : exists out, is_bytes out /\ lenZ out = 2 ^ 32 + 32 /\ nth 0 out 0 <> 0.
Proof.
  exists (170 :: List.repeat 170 (Z.to_nat (2 ^ 32 + 31))). split; [|split]; [|unfold lenZ; cbn [length]; rewrite repeat_length; lia|discriminate].
  constructor; [unfold is_byte; lia|]. apply is_bytes_repeat. unfold is_byte; lia.
Qed.

(** C50 fails: with more than UINT_MAX chunks the counter wraps and the loop never ends
    (shown for chunks that are all marked as skipped). *)
Theorem C50_chunked_terminates_refuted : exists n ilens, 0 <= n <= SIZE_MAX /\ lenZ ilens = n /\
  forall f fuel istride ostride iaddr oaddr inp rets out olens,
  chunk_loop f fuel n istride ostride iaddr oaddr inp ilens 0 0 0 0 rets out olens = NoFuel.
Proof. exact c50. Qed.
Print Assumptions C50_chunked_terminates_refuted.
