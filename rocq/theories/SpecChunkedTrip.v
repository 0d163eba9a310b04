(** Specification of the round trip through the chunked calls (C109). *)
From Coq Require Import ZArith List Bool.
From Verif Require Import SpecBits CBase SpecCalls ChunkedModel SpecChunked.
Import ListNotations.
Open Scope Z_scope.

(** Chunk [j] of a buffer cut at multiples of [stride]. *)
Definition chunk_of (buf : list Z) (stride : Z) (lens : list Z) (j : nat) : list Z :=
  slice (Z.to_nat (Z.of_nat j * stride)) (Z.to_nat (nth j lens 0)) buf.

(** After [gc] compressed [n] chunks that satisfy [ok] into areas with enough room (the bound of C04), all with success,
    [gd], given the compressed areas and lengths as they were left, restores every chunk: return value 0, its length
    and its bytes, for any areas [back + j*bstride, + blens[j]) at least as large as the chunks.  Both strides keep the offsets below 2^32 (see C28). *)
Definition round_trip (ok : list Z -> Prop) (gc gd : chunked_func) : Prop :=
  forall n rets iaddr inp istride ilens oaddr out ostride olens,
  is_bytes inp -> is_bytes out -> 0 <= n <= UINT_MAX -> areas n rets inp istride ilens out ostride olens ->
  (n - 1) * istride < 2 ^ 32 -> (n - 1) * ostride < 2 ^ 32 ->
  (forall j, (j < Z.to_nat n)%nat -> nth j ilens 0 <> SIZE_MAX /\ ok (chunk_of inp istride ilens j) /\
     let len := nth j ilens 0 in
     let room := words64 (69 * (len / 8) + (if len mod 8 =? 0 then 0 else 8 + 8 * (len mod 8)) + 37) in
     room <= nth j olens 0 /\ room <= UINT_MAX) ->
  exists ret rets' olens' out', gc n rets iaddr inp istride ilens oaddr out ostride olens = Done (ret, rets', olens', out') /\
  (forall j, (j < Z.to_nat n)%nat -> nth j rets' 0 = 0) /\
  forall iaddr' oaddr' rets2 back bstride blens, is_bytes back -> lenZ rets2 = n -> lenZ blens = n -> 0 <= bstride -> (n - 1) * bstride < 2 ^ 32 ->
  (forall j, (j < Z.to_nat n)%nat -> nth j ilens 0 <= nth j blens 0 <= bstride /\
     Z.of_nat j * bstride + nth j blens 0 <= lenZ back /\ nth j blens 0 < 2 ^ 63) ->
  exists ret2 rets2' blens' back', gd n rets2 iaddr' out' ostride olens' oaddr' back bstride blens = Done (ret2, rets2', blens', back') /\
  forall j, (j < Z.to_nat n)%nat -> nth j rets2' 0 = 0 /\ nth j blens' 0 = nth j ilens 0 /\ chunk_of back' bstride ilens j = chunk_of inp istride ilens j.

(** A pair of single calls that restores every data satisfying [ok]: given the room of C04, [fc] succeeds with data [z] that
    [fd] turns back into [x], wherever the buffers lie. *)
Definition codec (ok : list Z -> Prop) (fc fd : chunk_func) : Prop :=
  forall iaddr oaddr x out, is_bytes x -> ok x -> is_bytes out ->
  (let len := lenZ x in
   let room := words64 (69 * (len / 8) + (if len mod 8 =? 0 then 0 else 8 + 8 * (len mod 8)) + 37) in
   room <= lenZ out /\ room <= UINT_MAX) -> lenZ out < 2 ^ 63 ->
  exists z, is_bytes z /\ lenZ z <= lenZ out /\ observed (fc iaddr oaddr x out (lenZ out)) = Done (0, lenZ z, z) /\
  forall iaddr' oaddr' back, is_bytes back -> lenZ x <= lenZ back < 2 ^ 63 ->
    observed (fd iaddr' oaddr' z back (lenZ back)) = Done (0, lenZ x, x).
