(** What the chunked calls read when the input offsets do not fit an unsigned int (C28). *)
From Coq Require Import ZArith List Bool Lia.
From Verif Require Import SpecBits CBase SpecCalls BitsLemmas ChunkedModel SpecChunked ChunkedProofs PropChunked.
Import ListNotations.
Open Scope Z_scope.

(** The single call f(in + src, ilens[j], out + j*ostride, &olens[j]), for an input offset [src] given by the caller. *)
Definition single_from (f : chunk_func) (src iaddr : Z) (inp ilens : list Z) (oaddr : Z) (out : list Z) (ostride : Z) (olens : list Z) (j : nat) : outcome (Z * Z * list Z) :=
  observed (f (iaddr + src) (oaddr + Z.of_nat j * ostride)
    (slice (Z.to_nat src) (Z.to_nat (nth j ilens 0)) inp)
    (slice (Z.to_nat (Z.of_nat j * ostride)) (Z.to_nat (nth j olens 0)) out) (nth j olens 0)).

(** C28, without a bound on the input stride: the input of chunk [j] is read at in + (j*istride mod 2^32).
    The four chunked functions do for every live chunk what the single call does with that input, and nothing else.
    (The output offsets are still below 2^32: missing are the calls whose output areas fall on each other.) *)
Theorem C28_input_offsets_wrap_partial : forall e f g, In (f, g) (chunked_pairs e) ->
  forall n rets iaddr inp istride ilens oaddr out ostride olens,
  is_bytes inp -> is_bytes out -> 0 <= n <= UINT_MAX ->
  lenZ ilens = n -> lenZ olens = n -> lenZ rets = n -> 0 <= ostride -> (n - 1) * ostride < 2 ^ 32 ->
  (forall j, live n ilens j ->
     0 <= nth j ilens 0 /\ Z.of_nat j * istride mod 2 ^ 32 + nth j ilens 0 <= lenZ inp /\
     0 <= nth j olens 0 <= ostride /\ Z.of_nat j * ostride + nth j olens 0 <= lenZ out /\ nth j olens 0 < 2 ^ 63) ->
  (forall j, live n ilens j -> exists v, single_from f (Z.of_nat j * istride mod 2 ^ 32) iaddr inp ilens oaddr out ostride olens j = Done v) ->
  exists rets' olens' out',
    g n rets iaddr inp istride ilens oaddr out ostride olens = Done (0, rets', olens', out') /\
    (forall j, live n ilens j ->
       single_from f (Z.of_nat j * istride mod 2 ^ 32) iaddr inp ilens oaddr out ostride olens j = Done (seen rets' olens' out' ostride j)) /\
    (forall j, (j < Z.to_nat n)%nat -> nth j ilens 0 = SIZE_MAX -> nth j rets' 0 = nth j rets 0 /\ nth j olens' 0 = nth j olens 0) /\
    length rets' = length rets /\ length olens' = length olens /\ length out' = length out /\ is_bytes out' /\
    (forall k, (forall j, live n ilens j -> ~ (Z.of_nat j * ostride <= Z.of_nat k < Z.of_nat j * ostride + nth j olens 0)) ->
       nth k out' 0 = nth k out 0).
Proof.
  intros e f g H n rets iaddr inp istride ilens oaddr out ostride olens Hi Ho Hn L1 L2 L3 OS WO AR DF.
  assert (GG : good_call f /\ g = chunked f).
  { unfold chunked_pairs in H. cbn [In] in H. destruct H as [H|[H|[H|[H|[]]]]]; injection H as <- <-; (split; [|reflexivity]);
      [apply good_sw_compress|apply good_sw_decompress|apply good_optsw_compress|apply good_optsw_decompress]. }
  destruct GG as [G ->].
  destruct (chunked_ok f G n istride ostride iaddr oaddr inp ilens olens out rets) as (r & o & m & E & A1 & A2 & A3 & A4 & D & RS); auto.
  { intros j Hj NE. apply AR. now split. }
  { intros j Hj NE. destruct (DF j) as [[[a b] c] E]; [now split|]. exists a, b, c. exact E. }
  exists r, o, m. split; [exact E|]. split.
  { intros j [Hj NE]. specialize (D j Hj). unfold chunk_done in D. destruct (Z.eqb_spec (nth j ilens 0) SIZE_MAX); [contradiction|]. apply D. }
  split.
  { intros j Hj E0. specialize (D j Hj). unfold chunk_done in D. rewrite E0 in D. exact D. }
  do 4 (split; auto).
  intros k Hk. apply RS. intros j Hj NE. apply Hk. now split.
Qed.
Print Assumptions C28_input_offsets_wrap_partial.

(** A stride of 2^32 + 8: the second chunk is read 8 bytes after the first one and the third 16 bytes after it. *)
Example C28_wrap_case : exists rets olens out,
  sw842_compress_chunked LE 3 [9;9;9] 0 (List.repeat 0 8 ++ [1;2;3;4;5;6;7;8] ++ List.repeat 0 8) (2 ^ 32 + 8) [8;8;8]
    0 (List.repeat 170 100) 32 [32;32;32] = Done (0, rets, olens, out) /\
  seen rets olens out 32 0 = seen rets olens out 32 2 /\ seen rets olens out 32 0 <> seen rets olens out 32 1 /\
  single_from (sw842_compress_f LE) 8 0 (List.repeat 0 8 ++ [1;2;3;4;5;6;7;8] ++ List.repeat 0 8) [8;8;8] 0 (List.repeat 170 100) 32 [32;32;32] 1 =
    Done (seen rets olens out 32 1).
Proof. do 3 eexists. split; [vm_compute; reflexivity|]. split; [|split]; [vm_compute; reflexivity|vm_compute; discriminate|vm_compute; reflexivity]. Qed.
