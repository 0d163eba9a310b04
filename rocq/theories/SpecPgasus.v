(** Specification of the sample programs for NUMA machines. *)
From Coq Require Import ZArith List Bool.
Import ListNotations.
Open Scope Z_scope.

(** How often thread [t] of node [k] has its turn in a schedule. *)
Definition turns (sched : list (nat * nat)) (k t : nat) : Z :=
  Z.of_nat (length (filter (fun s => Nat.eqb (fst s) k && Nat.eqb (snd s) t) sched)).
(** Each of the [T] threads of each of the [K] nodes has at least [n] turns. *)
Definition lets_all_run (n : Z) (K T : nat) (sched : list (nat * nat)) : Prop :=
  forall k t, (k < K)%nat -> (t < T)%nat -> n <= turns sched k t.
(** A file of [n] bytes in chunks of [C] bytes, divided among the threads: the number of chunks of each thread. *)
Definition per_thread (C : Z) (K T : nat) (n : Z) : Z := (n + C * (Z.of_nat K * Z.of_nat T) - 1) / (C * (Z.of_nat K * Z.of_nat T)).
(** What the program handles of a file: its first bytes, as many as its length modulo 2^32 says, rounded up to the same number of whole chunks for each thread;
    behind the end of the file there are zeros. *)
Definition handled_part (C : Z) (K T : nat) (file : list Z) : list Z :=
  let m := Z.to_nat (C * (Z.of_nat K * Z.of_nat T) * per_thread C K T (Z.of_nat (length file) mod 2 ^ 32)) in
  firstn m (file ++ repeat 0 m).
