(** Properties of the barrier (C40) and the latch (C41). *)
From Coq Require Import ZArith List Bool.
From Verif Require Import CBase ConcLib BarrierModel SpecSync BarrierProofs.
Import ListNotations.
Open Scope Z_scope.

(** C40: the k-th call of a thread returns only after every thread has made k calls, in every
    round, for any number of rounds (also when the 32-bit generation counter wraps). *)
Theorem C40_no_early_return : forall n s i j,
  reachable bstep (barrier_start n) s -> ~ interrupted s -> (i < n)%nat -> (j < n)%nat -> returns i s <= calls j s.
Proof. exact c40_early. Qed.
Print Assumptions C40_no_early_return.
(** A thread inside a call returns with its next step once everybody has made as many calls. *)
Theorem C40_released : forall n s i,
  reachable bstep (barrier_start n) s -> ~ interrupted s -> (i < n)%nat -> returns i s < calls i s ->
  (forall j, (j < n)%nat -> calls i s <= calls j s) ->
  exists s', bstep (BStep i) s = Some s' /\ returns i s' = calls i s.
Proof. exact c40_release. Qed.
Print Assumptions C40_released.
(** A thread that cannot take a step waits for one that has made fewer calls. *)
Theorem C40_blocked_only_by_missing_call : forall n s i,
  reachable bstep (barrier_start n) s -> ~ interrupted s -> (i < n)%nat -> bstep (BStep i) s = None ->
  exists j, (j < n)%nat /\ calls j s < calls i s.
Proof. exact c40_blocked. Qed.
Print Assumptions C40_blocked_only_by_missing_call.
(** After interrupt() the next step of every thread completes a call. *)
Theorem C40_interrupt : forall n s i, reachable bstep (barrier_start n) s -> interrupted s -> (i < n)%nat ->
  exists s', bstep (BStep i) s = Some s' /\ returns i s' = returns i s + 1.
Proof. exact c40_interrupt. Qed.
Print Assumptions C40_interrupt.
(** Two rounds of two threads, then thread 0 alone in the third. *)
Example C40_case : exists s, reachable bstep (barrier_start 2) s /\ ~ interrupted s /\
  calls 0 s = 3 /\ returns 0 s = 2 /\ calls 1 s = 2 /\ returns 1 s = 2 /\ bstep (BStep 0) s = None /\
  exists s', bstep (BStep 1) s = Some s' /\ returns 0 s' < calls 0 s'.
Proof.
  eexists. split; [apply (run_reachable bstep [BStep 0; BStep 1; BStep 0; BStep 1; BStep 0; BStep 1; BStep 0]); vm_compute; reflexivity|].
  split; [discriminate|]. repeat (split; [vm_compute; reflexivity|]). eexists. split; vm_compute; reflexivity.
Qed.

(** C41: wait() returns only after count_down was called as often as the initial value, ... *)
Theorem C41_wait_returns_late_enough : forall v n s i, 0 <= v ->
  reachable lstep (latch_start v n) s -> In (LReturn i) (ls_trace s) -> downs s = v.
Proof. exact c41_safe. Qed.
Print Assumptions C41_wait_returns_late_enough.
(** ... and from then on every call returns with its next step. *)
Theorem C41_then_never_blocks : forall v n s i, 0 <= v ->
  reachable lstep (latch_start v n) s -> downs s = v -> (i < n)%nat ->
  exists s', lstep (LStep i) s = Some s' /\ ls_trace s' = LReturn i :: ls_trace s.
Proof. exact c41_live. Qed.
Print Assumptions C41_then_never_blocks.
(** The assertion in count_down fails exactly for a call too many. *)
Theorem C41_count_down_assertion : forall v n s, 0 <= v ->
  reachable lstep (latch_start v n) s -> (lstep LCountDown s = None <-> downs s = v).
Proof. exact c41_assert. Qed.
Print Assumptions C41_count_down_assertion.
Example C41_case : exists s, reachable lstep (latch_start 2 1) s /\ In (LReturn 0) (ls_trace s) /\ downs s = 2.
Proof.
  eexists. split; [apply (run_reachable lstep [LStep 0; LCountDown; LStep 0; LCountDown; LStep 0]); vm_compute; reflexivity|].
  split; [left; reflexivity|reflexivity].
Qed.
