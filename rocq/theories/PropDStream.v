(** Properties of the decompression stream: C36-C38, C53 (its destructor), C54 (no lost wakeup) and C55 (order). *)
From Coq Require Import ZArith List Bool.
From Verif Require Import CBase ConcLib SpecSync BarrierProofs DecompStreamModel SpecDStream DecompCases DecompProps.
Import ListNotations.
Open Scope Z_scope.

(** C36: when the finalize callback reports success and the operation was not cancelled, every block was
    decompressed exactly as often as push_block accepted it, to the destination passed to start(), before the callback. *)
Theorem C36_exactly_once : forall n s newer op ptr older, (1 <= n)%nat -> reachable dstep (new_dstream n) s ->
  d_trace s = newer ++ VDone true :: op ++ VStart ptr :: older -> Forall devents op -> dcancels op = 0 ->
  (forall b, handled b op = accepted b op) /\ (forall p b ok, In (VHandled p b ok) op -> p = ptr /\ ok = true).
Proof. exact c36_exactly. Qed.
Print Assumptions C36_exactly_once.
(** In every operation, finished or not, failed or cancelled, a block is decompressed at most as often as it was
    accepted before, and to no other destination. *)
Theorem C36_at_most_once : forall n s newer op ptr older, (1 <= n)%nat -> reachable dstep (new_dstream n) s ->
  d_trace s = newer ++ op ++ VStart ptr :: older -> Forall devents op ->
  (forall b, handled b op <= accepted b op) /\ (forall p b ok, In (VHandled p b ok) op -> p = ptr).
Proof. exact c36_at_most. Qed.
Print Assumptions C36_at_most_once.
(** Two threads; block 7 is pushed twice. *)
Example C36_case : exists s op, reachable dstep (new_dstream 2) s /\ d_trace s = [] ++ VDone true :: op ++ VStart 4096 :: [] /\
  Forall devents op /\ dcancels op = 0 /\ accepted 7 op = 2 /\ accepted 9 op = 1.
Proof.
  eexists. exists [VHandled 4096 7 true; VHandled 4096 9 true; VHandled 4096 7 true; VFinalize false; VPush 7 true; VPush 9 true; VPush 7 true].
  split; [apply (run_reachable dstep (dcase_pushed ++ [BFinalize false] ++ dcase_threads)); vm_compute; reflexivity|].
  split; [vm_compute; reflexivity|]. split; [repeat constructor|]. repeat split.
Qed.

(** C37: while the stream is not being destroyed, what the user observes is a sequence of operations, each of
    them a start, pushes and decompressed blocks, one finalize, and then one call of the finalize callback. *)
Theorem C37_history : forall n s, (1 <= n)%nat -> reachable dstep (new_dstream n) s -> ~ In VQuit (d_trace s) -> dhistory (d_trace s).
Proof. exact c37_history. Qed.
Print Assumptions C37_history.
(** The argument of the finalize callback says whether all blocks succeeded. *)
Theorem C37_status : forall n s newer ok op ptr older, (1 <= n)%nat -> reachable dstep (new_dstream n) s ->
  d_trace s = newer ++ VDone ok :: op ++ VStart ptr :: older -> Forall devents op ->
  dfinalizes op = 1 /\ (ok = true <-> dfailures op = 0).
Proof. exact c37_status. Qed.
Print Assumptions C37_status.
(** push_block returns true exactly when no block of the operation has failed so far. *)
Theorem C37_push_result : forall n s newer b ok op ptr older, (1 <= n)%nat -> reachable dstep (new_dstream n) s ->
  d_trace s = newer ++ VPush b ok :: op ++ VStart ptr :: older -> Forall devents op ->
  (ok = true <-> dfailures op = 0) /\ dfinalizes op = 0.
Proof. exact c37_push. Qed.
Print Assumptions C37_push_result.
(** Two blocks that fail, after which a third is dropped. *)
Example C37_case : exists s op, reachable dstep (new_dstream 2) s /\ ~ In VQuit (d_trace s) /\
  d_trace s = [] ++ VDone false :: op ++ VStart 4096 :: [] /\ Forall devents op /\ dfailures op = 2 /\ accepted 7 op = 2 /\ handled 7 op = 1.
Proof.
  eexists. exists [VHandled 4096 9 false; VHandled 4096 7 false; VFinalize false; VPush 7 true; VPush 9 true; VPush 7 true].
  split; [apply (run_reachable dstep (dcase_pushed ++ [BFinalize false] ++ dcase_failing)); vm_compute; reflexivity|].
  split; [vm_compute; intuition discriminate|]. split; [vm_compute; reflexivity|]. split; [repeat constructor|]. repeat split.
Qed.
(** A push after a failure. *)
Example C37_push_case : exists s, reachable dstep (new_dstream 2) s /\
  d_trace s = [] ++ VPush 5 false :: [VHandled 4096 7 false; VPush 7 true] ++ VStart 4096 :: [].
Proof.
  eexists. split; [apply (run_reachable dstep (dcase_started ++ [BPush 7 1] ++ dthreads true [1; 1; 1]%nat ++ [BPush 5 0])); vm_compute; reflexivity|]. reflexivity.
Qed.

(** C38: after finalize(), until the finalize callback, some thread can always take a step ... *)
Theorem C38_no_deadlock : forall n s, (1 <= n)%nat -> reachable dstep (new_dstream n) s -> d_user s = VFinalizing -> ~ dstuck s.
Proof. exact c38_progress. Qed.
Print Assumptions C38_no_deadlock.
(** ... the number of steps is bounded (each spurious wakeup allows one more) ... *)
Theorem C38_bounded : forall n s op ptr older l s', (1 <= n)%nat -> reachable dstep (new_dstream n) s ->
  d_trace s = op ++ VStart ptr :: older -> Forall devents op -> Forall no_dcall l -> run dstep l s = Some s' ->
  cnt is_dthread l <= 3 * pushes op + Z.of_nat n * (Z.of_nat n + 13) + cnt is_dspurious l.
Proof. exact c38_bound. Qed.
Print Assumptions C38_bounded.
(** ... and when they end the finalize callback has been called. *)
Theorem C38_completes : forall n s l s', (1 <= n)%nat -> reachable dstep (new_dstream n) s -> d_user s = VFinalizing ->
  Forall no_dcall l -> run dstep l s = Some s' -> dstuck s' ->
  d_user s' = VIdle /\ exists ok rest, d_trace s' = VDone ok :: rest.
Proof. exact c38_completes. Qed.
Print Assumptions C38_completes.
(** Before finalize() the threads stop only when all accepted blocks are decompressed (or one failed). *)
Theorem C38_running : forall n s op ptr older, (1 <= n)%nat -> reachable dstep (new_dstream n) s -> d_user s = VRunning -> dstuck s ->
  d_trace s = op ++ VStart ptr :: older -> Forall devents op -> dfailures op = 0 -> forall b, handled b op = accepted b op.
Proof. exact c38_running. Qed.
Print Assumptions C38_running.
(** The condition 1 <= n is needed: a stream constructed with num_threads = 0 never calls the finalize callback. *)
Theorem C38_zero_threads_hang : exists s, reachable dstep (new_dstream 0) s /\ d_user s = VFinalizing /\ forall l s', Forall no_dcall l -> run dstep l s = Some s' -> s' = s.
Proof. exact c38_zero. Qed.
Print Assumptions C38_zero_threads_hang.
Example C38_case : exists s s', reachable dstep (new_dstream 2) s /\ d_user s = VFinalizing /\ Forall no_dcall dcase_threads /\
  run dstep dcase_threads s = Some s' /\ dstuck s'.
Proof.
  eexists. eexists. split; [apply (run_reachable dstep (dcase_pushed ++ [BFinalize false])); vm_compute; reflexivity|].
  split; [reflexivity|]. split; [apply Forall_map; repeat constructor|]. split; [vm_compute; reflexivity|].
  intros [|[|[|i]]] fail; reflexivity.
Qed.
(** All blocks decompressed, finalize not yet called. *)
Example C38_running_case : exists s op, reachable dstep (new_dstream 2) s /\ d_user s = VRunning /\ dstuck s /\
  d_trace s = op ++ VStart 4096 :: [] /\ Forall devents op /\ dfailures op = 0 /\ accepted 7 op = 2.
Proof.
  eexists. exists [VHandled 4096 7 true; VHandled 4096 9 true; VHandled 4096 7 true; VPush 7 true; VPush 9 true; VPush 7 true].
  split; [apply (run_reachable dstep (dcase_pushed ++ dcase_emptied)); vm_compute; reflexivity|].
  split; [reflexivity|]. split; [intros [|[|[|i]]] fail; reflexivity|]. split; [reflexivity|]. split; [repeat constructor|]. repeat split.
Qed.

(** C53: what the user observes when the stream is destroyed, at any time: before the destructor a history as in
    C37, and after its start only blocks being finished and at most one finalize callback, the one of an operation
    that was complete; in particular no empty function is called, no block is decompressed more often than it was
    accepted or to another destination, and nothing happens if no operation was in progress. *)
Theorem C53_destructor_callbacks : forall n s newer older, (1 <= n)%nat -> reachable dstep (new_dstream n) s ->
  d_trace s = newer ++ VQuit :: older ->
  dhistory older /\ Forall dlate newer /\
  ((forall ok, ~ In (VDone ok) newer) \/ (exists ok, newer = [VDone ok] /\ dclosed (VDone ok :: older))) /\
  (forall op ptr tr, older = op ++ VStart ptr :: tr -> Forall devents op ->
     Forall (dlate_to ptr) newer /\ forall b, handled b (newer ++ op) <= accepted b op) /\
  (dclosed older -> newer = []).
Proof. exact c53_callbacks. Qed.
Print Assumptions C53_destructor_callbacks.
(** After the critical section of the destructor the threads make at most seven steps each, whatever happens,
    and when they can make no more, all have returned: join() returns. *)
Theorem C53_destructor_terminates : forall n s l s', (1 <= n)%nat -> reachable dstep (new_dstream n) s -> d_user s = VGone ->
  run dstep l s = Some s' ->
  lenZ l <= 7 * Z.of_nat n /\ (dstuck s' -> Forall (fun t => fst t = DExit) (d_thr s')).
Proof. exact c53_terminates. Qed.
Print Assumptions C53_destructor_terminates.
(** Destroying a stream with two blocks in progress and one in the queue. *)
Example C53_case : exists s s' newer older, reachable dstep (new_dstream 2) s /\ d_user s = VGone /\
  run dstep dcase_quit s = Some s' /\ dstuck s' /\ d_trace s' = newer ++ VQuit :: older /\ newer = [VHandled 4096 9 true; VHandled 4096 7 true] /\
  older = [VPush 7 true; VPush 9 true; VPush 7 true; VStart 4096].
Proof.
  eexists. eexists. eexists. eexists. split; [apply (run_reachable dstep (dcase_pushed ++ dthreads false [0; 1]%nat ++ [BQuit1; BQuit2])); vm_compute; reflexivity|].
  split; [reflexivity|]. split; [vm_compute; reflexivity|]. split; [intros [|[|[|i]]] fail; reflexivity|].
  split; [|split; reflexivity]. reflexivity.
Qed.

(** C54: no wakeup is lost: as long as a thread sleeps, at least as many threads are awake and about to look at
    the queue as there are blocks in it, although push_block notifies only one thread. *)
Theorem C54_no_lost_wakeup : forall n s, (1 <= n)%nat -> reachable dstep (new_dstream n) s -> ~ In VQuit (d_trace s) ->
  0 < cnt sleeping (d_thr s) -> lenZ (h_queue (d_g s)) <= cnt looking (d_thr s).
Proof. exact c38_wakeups. Qed.
Print Assumptions C54_no_lost_wakeup.
Example C54_case : exists s, reachable dstep (new_dstream 2) s /\ ~ In VQuit (d_trace s) /\ 0 < cnt sleeping (d_thr s) /\ h_queue (d_g s) = [7].
Proof.
  eexists. split; [apply (run_reachable dstep (dcase_started ++ [BPush 7 1])); vm_compute; reflexivity|].
  split; [vm_compute; intuition discriminate|]. split; reflexivity.
Qed.

(** C55: with one thread the blocks are decompressed in the order in which push_block accepted them. *)
Theorem C55_order : forall s newer op ptr older, reachable dstep (new_dstream 1) s ->
  d_trace s = newer ++ op ++ VStart ptr :: older -> Forall devents op ->
  exists rest, accepted_list op = handled_list op ++ rest.
Proof. exact c55_order. Qed.
Print Assumptions C55_order.
Example C55_case : exists s op, reachable dstep (new_dstream 1) s /\ d_trace s = [] ++ op ++ VStart 4096 :: [] /\ Forall devents op /\
  accepted_list op = [7; 9; 8] /\ handled_list op = [7; 9].
Proof.
  eexists. exists [VHandled 4096 9 true; VHandled 4096 7 true; VPush 8 true; VPush 9 true; VPush 7 true].
  split; [apply (run_reachable dstep ([BStart1 4096; BStart2; BPush 7 0; BPush 9 0; BPush 8 0] ++ dthreads false [0; 0; 0; 0; 0; 0; 0; 0]%nat)); vm_compute; reflexivity|].
  split; [reflexivity|]. split; [repeat constructor|]. split; reflexivity.
Qed.
