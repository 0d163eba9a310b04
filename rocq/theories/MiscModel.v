(** Models of /repo/src/stream/numa_spread.cpp and /repo/src/common/static_log2.h. *)
From Coq Require Import ZArith List Bool.
From Verif Require Import CBase.
Import ListNotations.
Open Scope Z_scope.

(** ** numa_spread.cpp *)
(** The machine: whether the NUMA system calls exist, numa_max_node(), get_nprocs() (the number of CPUs online), whether memory of node [n] may be used
    (numa_get_mems_allowed), and whether CPU [c] belongs to node [n] (numa_node_to_cpus). *)
Record machine := mkMachine { h_numa : bool; h_max_node : Z; h_nprocs : Z; h_mems : Z -> bool; h_cpu : Z -> Z -> bool; h_online : Z -> bool }.
(** The CPUs below [n] (numa_spread.cpp:39-78). *)
Definition cpus_below (n : Z) : list Z := map Z.of_nat (seq 0 (Z.to_nat n)).

(** numa_spread.cpp:39-78: get_numa_cpusets; a cpu_set_t is the list of its CPUs.  Simplification: nprocs is at most CPU_SETSIZE. *)
Definition get_numa_cpusets (h : machine) : list (list Z) :=
  if negb (h_numa h) then []
  else map (fun n => filter (fun c => h_cpu h n c) (cpus_below (h_nprocs h)))
         (filter (h_mems h) (cpus_below (h_max_node h + 1))).

(** pthread_setaffinity_np: fails with EINVAL if no CPU of the set is online (sched_setaffinity(2)); other errors are [fault]. *)
Definition setaffinity (h : machine) (fault : Z) (cpuset : list Z) : Z :=
  if negb (fault =? 0) then fault else if existsb (h_online h) cpuset then 0 else EINVAL.

(** numa_spread.cpp:92-104: the loop over the threads from thread [i] on, of which [k] are left.  The result is the affinity that each of them is given; None: it is left alone. *)
Fixpoint spread (h : machine) (faults : nat -> Z) (cpusets : list (list Z)) (k i : nat) : list (option (list Z)) :=
  match k with
  | O => []
  | S k' =>
    let cpuset := nth (i mod length cpusets) cpusets [] in
    if negb (setaffinity h (faults i) cpuset =? 0) then repeat None k
    else Some cpuset :: spread h faults cpusets k' (S i)
  end.
(** numa_spread.cpp:82-106, for [k] threads. *)
Definition spread_threads (h : machine) (faults : nat -> Z) (k : nat) : list (option (list Z)) :=
  match get_numa_cpusets h with
  | [] => repeat None k
  | cpusets => spread h faults cpusets k 0
  end.

(** ** static_log2.h *)
(** Lines 27-122: the preprocessor tests the bits 31 to 1, from above. *)
Fixpoint test_bits (arg : Z) (bits : list Z) : Z :=
  match bits with
  | [] => -1
  | b :: bits => if negb (Z.land arg (Z.shiftl 1 b) =? 0) then (if b =? 1 then 0 else b) else test_bits arg bits
  end.
(** The value of STATIC_LOG2_VALUE for STATIC_LOG2_ARG = [arg]. *)
Definition STATIC_LOG2_VALUE (arg : Z) : Z :=
  test_bits arg [31; 30; 29; 28; 27; 26; 25; 24; 23; 22; 21; 20; 19; 18; 17; 16; 15; 14; 13; 12; 11; 10; 9; 8; 7; 6; 5; 4; 3; 2; 1].
