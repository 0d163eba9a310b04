(** Specification vocabulary for the blocks that the streams exchange. *)
From Coq Require Import ZArith List Bool.
From Verif Require Import SpecBits CBase ChunkedModel SpecChunked StreamBlockModel.
Import ListNotations.
Open Scope Z_scope.

(** [mem] with the BLOCK_SIZE bytes from offset [off] replaced by those of [src]. *)
Definition restored (src mem : list Z) (off : Z) : list Z :=
  firstn (Z.to_nat off) mem ++ slice (Z.to_nat off) (Z.to_nat BLOCK_SIZE) src ++ skipn (Z.to_nat (off + BLOCK_SIZE)) mem.

(** The chunks of [b] that were not compressed. *)
Definition stored_raw (b : block) (j : nat) : Prop := (j < 16)%nat /\ nth j (b_sizes b) 0 = CHUNK_SIZE.
