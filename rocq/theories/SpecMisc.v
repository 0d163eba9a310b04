(** Specification of the placement of threads. *)
From Coq Require Import ZArith List Bool.
From Verif Require Import CBase MiscModel.
Import ListNotations.
Open Scope Z_scope.

(** A node whose memory the process may use. *)
Definition usable (h : machine) (n : Z) : Prop := 0 <= n <= h_max_node h /\ h_mems h n = true.
(** These nodes, in ascending order. *)
Definition usable_nodes (h : machine) : list Z := filter (h_mems h) (map Z.of_nat (seq 0 (Z.to_nat (h_max_node h + 1)))).
(** NUMA is available, the CPUs of the usable nodes are online and numbered below the number of CPUs, and each of these nodes has one. *)
Definition plain_machine (h : machine) : Prop :=
  h_numa h = true /\
  (forall n c, usable h n -> h_cpu h n c = true -> c < h_nprocs h /\ (0 <= c -> h_online h c = true)) /\
  (forall n, usable h n -> exists c, 0 <= c /\ h_cpu h n c = true).
(** No CPU belongs to two nodes. *)
Definition disjoint_nodes (h : machine) : Prop := forall n n' c, h_cpu h n c = true -> h_cpu h n' c = true -> n = n'.
(** A thread whose affinity is [a] runs on CPUs of the node [n] only. *)
Definition runs_on (h : machine) (n : Z) (a : option (list Z)) : bool := match a with Some cpus => forallb (h_cpu h n) cpus | None => false end.
(** The number of such threads. *)
Definition threads_on (h : machine) (n : Z) (l : list (option (list Z))) : nat := length (filter (runs_on h n) l).
