(** C78, C79: the placement of the threads of a stream, and the logarithm at compile time.

    Reading the statements: [spread_threads h faults k] is what happens to the affinity of the [k] threads of a stream on the machine [h]; [faults i] is the error with which setting the
    affinity of thread [i] fails for a reason of its own (0: none). *)
From Coq Require Import ZArith List Bool Lia.
From Verif Require Import CBase MiscModel SpecMisc MiscProofs.
Import ListNotations.
Open Scope Z_scope.

(** C78: when the CPUs of the nodes are numbered without gaps and every node has one, every thread is bound to the CPUs of a node, thread i to that of the i-th node in turn. *)
Theorem C78_spread_partial : forall h k, plain_machine h -> usable_nodes h <> [] ->
  let m := length (usable_nodes h) in
  length (spread_threads h (fun _ => 0) k) = k /\
  forall i, (i < k)%nat -> exists cpus, nth i (spread_threads h (fun _ => 0) k) None = Some cpus /\ cpus <> [] /\
    forall c, In c cpus <-> 0 <= c /\ h_cpu h (nth (i mod m) (usable_nodes h) (-1)) c = true.
Proof. exact spread_ok. Qed.
Print Assumptions C78_spread_partial.
(** So no node gets more than one thread more than another. *)
Theorem C78_balanced_partial : forall h k n n', plain_machine h -> disjoint_nodes h -> usable h n -> usable h n' ->
  (threads_on h n (spread_threads h (fun _ => 0%Z) k) <= threads_on h n' (spread_threads h (fun _ => 0%Z) k) + 1)%nat.
Proof. exact balanced_nodes. Qed.
Print Assumptions C78_balanced_partial.
Definition two_nodes : machine := mkMachine true 1 4 (fun _ => true) (fun n c => (2 * n <=? c) && (c <? 2 * n + 2)) (fun c => (0 <=? c) && (c <? 4)).
Example C78_case : plain_machine two_nodes /\ disjoint_nodes two_nodes /\ usable_nodes two_nodes = [0; 1] /\
  spread_threads two_nodes (fun _ => 0) 5 = [Some [0; 1]; Some [2; 3]; Some [0; 1]; Some [2; 3]; Some [0; 1]].
Proof.
  split; [|split; [intros n n' c H H'; cbn [two_nodes h_cpu] in *; lia|split; reflexivity]]. split; [reflexivity|]. unfold usable. cbn [two_nodes h_max_node h_mems h_cpu h_nprocs h_online]. split.
  - intros n c (H1 & _) C. lia.
  - intros n (H1 & _). exists (2 * n). lia.
Qed.

(** With one CPU offline (CPU 1 of 0..3; so three are online) the CPU 3 is not used; when the ids of a node are all above the number of CPUs, nothing is bound from its first thread on. *)
Definition gap_nodes : machine := mkMachine true 1 2 (fun _ => true) (fun n c => (2 * n <=? c) && (c <? 2 * n + 2)) (fun c => (c =? 0) || (c =? 2)).
Theorem C78_gap_refuted : exists h k, h_numa h = true /\ (forall n, usable h n -> exists c, h_cpu h n c = true /\ h_online h c = true) /\ usable_nodes h <> [] /\
  exists i, (i < k)%nat /\ nth i (spread_threads h (fun _ => 0) k) None = None.
Proof.
  exists gap_nodes, 4%nat. split; [reflexivity|]. split.
  - intros n (H1 & _). cbn [gap_nodes h_max_node h_cpu h_online] in *. assert (n = 0 \/ n = 1) as [-> | ->] by lia; [exists 0|exists 2]; split; reflexivity.
  - split; [discriminate|]. exists 2%nat. split; [lia|reflexivity].
Qed.
Print Assumptions C78_gap_refuted.
(** The first failure ends the loop: the threads after it are left alone. *)
Theorem C78_failure_stops : forall h faults k i, (i < k)%nat -> nth i (spread_threads h faults k) None = None ->
  forall j, (i <= j)%nat -> nth j (spread_threads h faults k) None = None.
Proof. exact spread_stops. Qed.
Print Assumptions C78_failure_stops.
Example C78_failure_case : spread_threads two_nodes (fun i => if (i =? 1)%nat then 1 else 0) 4 = [Some [0; 1]; None; None; None] /\
  spread_threads gap_nodes (fun _ => 0) 4 = [Some [0; 1]; None; None; None].
Proof. split; reflexivity. Qed.

(** C79: the value is the logarithm rounded down, from 4 on and below 2^32. *)
Theorem C79_static_log2_partial : forall n, 4 <= n < 2 ^ 32 -> 2 ^ STATIC_LOG2_VALUE n <= n < 2 ^ (STATIC_LOG2_VALUE n + 1).
Proof. exact log2_ok. Qed.
Print Assumptions C79_static_log2_partial.
Example C79_case : STATIC_LOG2_VALUE 89 = 6 /\ STATIC_LOG2_VALUE 8 = 3 /\ STATIC_LOG2_VALUE 1234 = 10 /\ STATIC_LOG2_VALUE 65536 = 16 /\ STATIC_LOG2_VALUE 4294967295 = 31.
Proof. repeat split; reflexivity. Qed.
(** It is not for 1, 2 and 3 (and not from 2^32 on). *)
Theorem C79_small_refuted : STATIC_LOG2_VALUE 1 = -1 /\ STATIC_LOG2_VALUE 2 = 0 /\ STATIC_LOG2_VALUE 3 = 0 /\ STATIC_LOG2_VALUE (2 ^ 32) = -1.
Proof. repeat split; reflexivity. Qed.
Print Assumptions C79_small_refuted.
(** Exactly: the value is the logarithm rounded down of 4 and all larger numbers below 2^32, and of no other positive number. *)
Theorem C79_exact : forall n, 1 <= n -> (2 ^ STATIC_LOG2_VALUE n <= n < 2 ^ (STATIC_LOG2_VALUE n + 1) <-> 4 <= n < 2 ^ 32).
Proof.
  intros n P. split; [|apply log2_ok]. intros H.
  assert (M : STATIC_LOG2_VALUE n <= 31).
  { unfold STATIC_LOG2_VALUE. cbn [test_bits]. repeat match goal with |- context [if ?c then _ else _] => destruct c end; lia. }
  assert (L : 2 ^ (STATIC_LOG2_VALUE n + 1) <= 2 ^ 32) by (apply Z.pow_le_mono_r; lia).
  split; [|lia]. destruct (Z.lt_ge_cases n 4) as [S4|]; [|assumption]. exfalso.
  assert (n = 1 \/ n = 2 \/ n = 3) as [->|[->| ->]] by lia; cbv in H; destruct H as [_ H]; discriminate H.
Qed.
Print Assumptions C79_exact.
