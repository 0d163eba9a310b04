(** Zero blocks and sizes of templates, for the statements about the size of the output. *)
From Coq Require Import ZArith List Bool.
From Verif Require Import Spec842.
Import ListNotations.
Open Scope Z_scope.

(** The 8-byte blocks of [x] that are all zero and follow a block that is all zero. *)
Definition zero_block_at (x : list Z) (k : nat) : bool :=
  forallb (Z.eqb 0) (firstn 8 (skipn (8 * k) x)) && (8 * k + 8 <=? length x)%nat.
Definition zero_pairs (x : list Z) : Z :=
  Z.of_nat (length (filter (fun k => zero_block_at x k && zero_block_at x (S k)) (seq 0 (length x / 8)))).

(** The number of bits of the arguments of a template. *)
Fixpoint acts_size (acts : list action) : nat :=
  match acts with [] => 0 | D n :: r => 8 * n + acts_size r | I n :: r => index_bits n + acts_size r end%nat.
(** Every index of the template, whose arguments start at byte [b] of the block, is for a piece
    (given by offset and length) that is available. *)
Fixpoint usable (avail : nat -> nat -> bool) (b : nat) (acts : list action) : bool :=
  match acts with
  | [] => true
  | D n :: r => usable avail (b + n) r
  | I n :: r => avail b n && usable avail (b + n) r
  end.
