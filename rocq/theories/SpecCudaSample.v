(** Specification of the CUDA sample program. *)
From Coq Require Import ZArith List Bool.
From Verif Require Import SpecOcl.
Import ListNotations.
Open Scope Z_scope.

(** Each of [n] threads has at least [k] turns. *)
Definition lets_threads_run (k : nat) (n : Z) (sched : list nat) : Prop := forall t, 0 <= t < n -> (k <= count_occ Nat.eq_dec sched (Z.to_nat t))%nat.
(** The smallest multiple of [size] that is not below [n]. *)
Definition next_multiple (size n : Z) : Z := size * ((n + size - 1) / size).
(** A file padded with zeros to such a length. *)
Definition padded_file (size : Z) (file : list Z) : list Z := file ++ repeat 0 (Z.to_nat (next_multiple size (Z.of_nat (length file))) - length file).
