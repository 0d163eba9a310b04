(** Specification of the chunked calls: what the caller asks for chunk [j]. *)
From Coq Require Import ZArith List Bool.
From Verif Require Import SpecBits CBase SpecCalls ChunkedModel.
Import ListNotations.
Open Scope Z_scope.

Definition chunked_func := Z -> list Z -> Z -> list Z -> Z -> list Z -> Z -> list Z -> Z -> list Z ->
  outcome (Z * list Z * list Z * list Z).

(** Chunk [j] is to be processed. *)
Definition live (n : Z) (ilens : list Z) (j : nat) : Prop := (j < Z.to_nat n)%nat /\ nth j ilens 0 <> SIZE_MAX.

(** The arrays have an entry per chunk; every live chunk's input
    [in + j*istride, + ilens[j]) and output area [out + j*ostride, + olens[j]) are
    inside the buffers, and the output areas do not overlap (olens[j] <= ostride). *)
Definition areas (n : Z) (rets inp : list Z) (istride : Z) (ilens out : list Z) (ostride : Z) (olens : list Z) : Prop :=
  lenZ ilens = n /\ lenZ olens = n /\ lenZ rets = n /\ 0 <= istride /\ 0 <= ostride /\
  forall j, live n ilens j ->
    0 <= nth j ilens 0 /\ Z.of_nat j * istride + nth j ilens 0 <= lenZ inp /\
    0 <= nth j olens 0 <= ostride /\ Z.of_nat j * ostride + nth j olens 0 <= lenZ out /\ nth j olens 0 < 2 ^ 63.

(** The single call f(in + j*istride, ilens[j], out + j*ostride, &olens[j]). *)
Definition single (f : chunk_func) (iaddr : Z) (inp : list Z) (istride : Z) (ilens : list Z)
  (oaddr : Z) (out : list Z) (ostride : Z) (olens : list Z) (j : nat) : outcome (Z * Z * list Z) :=
  observed (f (iaddr + Z.of_nat j * istride) (oaddr + Z.of_nat j * ostride)
    (slice (Z.to_nat (Z.of_nat j * istride)) (Z.to_nat (nth j ilens 0)) inp)
    (slice (Z.to_nat (Z.of_nat j * ostride)) (Z.to_nat (nth j olens 0)) out) (nth j olens 0)).

(** What the caller sees of chunk [j] after the chunked call. *)
Definition seen (rets olens out : list Z) (ostride : Z) (j : nat) : Z * Z * list Z :=
  (nth j rets 0, nth j olens 0, slice (Z.to_nat (Z.of_nat j * ostride)) (Z.to_nat (nth j olens 0)) out).

(** The chunked function [g] does for every live chunk what [f] does, and nothing
    else: entries of skipped chunks and bytes outside the areas keep their values.
    [maxoff] bounds the offsets for which this is claimed. *)
Definition as_single_calls (maxoff : Z) (f : chunk_func) (g : chunked_func) : Prop :=
  forall n rets iaddr inp istride ilens oaddr out ostride olens,
  is_bytes inp -> is_bytes out -> 0 <= n <= UINT_MAX ->
  areas n rets inp istride ilens out ostride olens ->
  (n - 1) * istride < maxoff -> (n - 1) * ostride < maxoff ->
  (forall j, live n ilens j -> exists v, single f iaddr inp istride ilens oaddr out ostride olens j = Done v) ->
  exists ret rets' olens' out',
    g n rets iaddr inp istride ilens oaddr out ostride olens = Done (ret, rets', olens', out') /\
    (forall j, live n ilens j ->
       single f iaddr inp istride ilens oaddr out ostride olens j = Done (seen rets' olens' out' ostride j)) /\
    (forall j, (j < Z.to_nat n)%nat -> nth j ilens 0 = SIZE_MAX -> nth j rets' 0 = nth j rets 0 /\ nth j olens' 0 = nth j olens 0) /\
    length rets' = length rets /\ length olens' = length olens /\ length out' = length out /\ is_bytes out' /\
    (forall k, (forall j, live n ilens j -> ~ (Z.of_nat j * ostride <= Z.of_nat k < Z.of_nat j * ostride + nth j olens 0)) ->
       nth k out' 0 = nth k out 0).
