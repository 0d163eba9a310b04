(** Properties of the compression stream: C31-C34 and C52 (its destructor). *)
From Coq Require Import ZArith List Bool.
From Verif Require Import CBase ConcLib SpecSync BarrierProofs StreamBlockModel CompStreamModel SpecStream CompCases CompProps.
Import ListNotations.
Open Scope Z_scope.

(** C31: in an operation that ended without failure and was not cancelled, the block callback was called
    exactly once for every whole block of the input and for nothing else, before the finalize callback. *)
Theorem C31_exactly_once : forall n s newer op size m older, (1 <= n)%nat -> Z.of_nat n < 2 ^ 32 -> reachable cstep (new_stream n) s ->
  c_trace s = newer ++ EDone true :: op ++ EStart size m :: older -> Forall inner op -> cancels op = 0 ->
  forall o, (block_offset size o -> delivered o op = 1) /\ (~ block_offset size o -> delivered o op = 0).
Proof. exact c31_exactly. Qed.
Print Assumptions C31_exactly_once.
(** In every operation, finished or not, failed or cancelled, no block is delivered twice. *)
Theorem C31_at_most_once : forall n s newer op size m older, (1 <= n)%nat -> Z.of_nat n < 2 ^ 32 -> reachable cstep (new_stream n) s ->
  c_trace s = newer ++ op ++ EStart size m :: older -> Forall inner op ->
  forall o, delivered o op <= 1 /\ (0 < delivered o op -> block_offset size o).
Proof. exact c31_at_most. Qed.
Print Assumptions C31_at_most_once.
(** Two threads, two blocks and five bytes: the run of [case_threads] ends with the finalize callback. *)
Example C31_case : exists s op, reachable cstep (new_stream 2) s /\
  c_trace s = [] ++ EDone true :: op ++ EStart 2097157 1048576 :: [] /\ Forall inner op /\ cancels op = 0 /\
  block_offset 2097157 1048576 /\ ~ block_offset 2097157 2097152.
Proof.
  eexists. exists [EBlock 1048576 true; EBlock 0 true; EFinalize false].
  split; [apply (run_reachable cstep (case_calls ++ case_threads)); vm_compute; reflexivity|].
  split; [vm_compute; reflexivity|]. split; [repeat constructor|]. split; [reflexivity|].
  split; [repeat split; discriminate|]. intros (_ & _ & H). now apply H.
Qed.

(** C32: while the stream is not being destroyed, what the user observes is a sequence of operations, each of
    them a start, block callbacks and one finalize, and then one call of the finalize callback. *)
Theorem C32_history : forall n s, (1 <= n)%nat -> Z.of_nat n < 2 ^ 32 -> reachable cstep (new_stream n) s -> ~ In EQuit (c_trace s) -> history (c_trace s).
Proof. exact c32_history. Qed.
Print Assumptions C32_history.
(** The argument of the finalize callback says whether all blocks succeeded. *)
Theorem C32_status : forall n s newer ok op size m older, (1 <= n)%nat -> Z.of_nat n < 2 ^ 32 -> reachable cstep (new_stream n) s ->
  c_trace s = newer ++ EDone ok :: op ++ EStart size m :: older -> Forall inner op ->
  finalizes op = 1 /\ (ok = true <-> failures op = 0).
Proof. exact c32_complete. Qed.
Print Assumptions C32_status.
(** The same with blocks that fail. *)
Example C32_case : exists s op, reachable cstep (new_stream 2) s /\ ~ In EQuit (c_trace s) /\
  c_trace s = [] ++ EDone false :: op ++ EStart 2097157 1048576 :: [] /\ Forall inner op /\ failures op = 2.
Proof.
  eexists. exists [EBlock 1048576 false; EBlock 0 false; EFinalize false].
  split; [apply (run_reachable cstep (case_calls ++ case_failing)); vm_compute; reflexivity|].
  split; [vm_compute; intuition discriminate|]. split; [vm_compute; reflexivity|]. split; [repeat constructor|reflexivity].
Qed.

(** C33: after finalize(), until the finalize callback, some thread can always take a step ... *)
Theorem C33_no_deadlock : forall n s, (1 <= n)%nat -> Z.of_nat n < 2 ^ 32 -> reachable cstep (new_stream n) s -> c_user s = UFinalizing -> ~ stuck s.
Proof. exact c33_progress. Qed.
Print Assumptions C33_no_deadlock.
(** ... the number of steps is bounded (each spurious wakeup allows one more) ... *)
Theorem C33_bounded : forall n s op size m older l s', (1 <= n)%nat -> Z.of_nat n < 2 ^ 32 -> reachable cstep (new_stream n) s ->
  c_trace s = op ++ EStart size m :: older -> Forall inner op -> Forall no_call l -> run cstep l s = Some s' ->
  cnt is_thread l <= 10 * (size / BLOCK_SIZE) + Z.of_nat n * ((Z.of_nat n + 5) * (size / BLOCK_SIZE + 1) + 28) + cnt is_spurious l.
Proof. exact c33_bound. Qed.
Print Assumptions C33_bounded.
(** ... and when they end the finalize callback has been called. *)
Theorem C33_completes : forall n s l s', (1 <= n)%nat -> Z.of_nat n < 2 ^ 32 -> reachable cstep (new_stream n) s -> c_user s = UFinalizing ->
  Forall no_call l -> run cstep l s = Some s' -> stuck s' ->
  c_user s' = UIdle /\ exists ok rest, c_trace s' = EDone ok :: rest.
Proof. exact c33_completes. Qed.
Print Assumptions C33_completes.
(** Before finalize() the threads stop only when all blocks are delivered (or one failed). *)
Theorem C33_running : forall n s op size m older, (1 <= n)%nat -> Z.of_nat n < 2 ^ 32 -> reachable cstep (new_stream n) s -> c_user s = URunning -> stuck s ->
  c_trace s = op ++ EStart size m :: older -> Forall inner op -> failures op = 0 -> forall o, block_offset size o -> delivered o op = 1.
Proof. exact c33_running. Qed.
Print Assumptions C33_running.
(** The condition 1 <= n is needed: a stream constructed with num_threads = 0 never calls the finalize callback. *)
Theorem C33_zero_threads_hang : exists s, reachable cstep (new_stream 0) s /\ c_user s = UFinalizing /\ forall l s', Forall no_call l -> run cstep l s = Some s' -> s' = s.
Proof. exact c33_zero. Qed.
Print Assumptions C33_zero_threads_hang.
Example C33_case : exists s s', reachable cstep (new_stream 2) s /\ c_user s = UFinalizing /\ Forall no_call case_threads /\
  run cstep case_threads s = Some s' /\ stuck s'.
Proof.
  eexists. eexists. split; [apply (run_reachable cstep case_calls); vm_compute; reflexivity|].
  split; [reflexivity|]. split; [apply Forall_map; repeat constructor|]. split; [vm_compute; reflexivity|].
  intros [|[|[|i]]] fail; reflexivity.
Qed.
(** All blocks delivered, finalize not yet called. *)
Example C33_running_case : exists s op, reachable cstep (new_stream 2) s /\ c_user s = URunning /\ stuck s /\
  c_trace s = op ++ EStart 2097157 1048576 :: [] /\ Forall inner op /\ failures op = 0.
Proof.
  eexists. exists [EBlock 1048576 true; EBlock 0 true].
  split; [apply (run_reachable cstep (firstn 3 case_calls ++ case_unfinalized)); vm_compute; reflexivity|].
  split; [reflexivity|]. split; [intros [|[|[|i]]] fail; reflexivity|]. split; [reflexivity|]. split; [repeat constructor|reflexivity].
Qed.

(** C34: with epochs of [m] bytes, when a block at or after k * m is delivered, all blocks before k * m have been
    delivered.  ([m] is the argument of the last call of set_offset_sync_epoch_multiple.) *)
Theorem C34_epochs : forall n s newer op size m older, (1 <= n)%nat -> Z.of_nat n < 2 ^ 32 -> reachable cstep (new_stream n) s ->
  c_trace s = newer ++ op ++ EStart size m :: older -> Forall inner op ->
  forall after o ok before, op = after ++ EBlock o ok :: before ->
  forall k o', 0 <= k -> k * m <= o -> o' < k * m -> block_offset size o' -> delivered o' before = 1.
Proof. exact c34_order. Qed.
Print Assumptions C34_epochs.
Example C34_case : exists s op after before, reachable cstep (new_stream 2) s /\
  c_trace s = [EDone true] ++ op ++ EStart 2097157 1048576 :: [] /\ Forall inner op /\
  op = after ++ EBlock 1048576 true :: before /\ 1 * 1048576 <= 1048576 /\ 0 < 1 * 1048576 /\ block_offset 2097157 0.
Proof.
  eexists. exists [EBlock 1048576 true; EBlock 0 true; EFinalize false], [], [EBlock 0 true; EFinalize false].
  split; [apply (run_reachable cstep (case_calls ++ case_threads)); vm_compute; reflexivity|].
  split; [vm_compute; reflexivity|]. split; [repeat constructor|]. split; [reflexivity|]. repeat split; discriminate.
Qed.

(** C52: what the user observes when the stream is destroyed, at any time: before the destructor a history as in
    C32, and after its start only block callbacks and at most one finalize callback, the one of an operation
    that was complete; in particular no empty function is called, still no block is delivered twice, and
    nothing is delivered if no operation was in progress. *)
Theorem C52_destructor_callbacks : forall n s newer older, (1 <= n)%nat -> Z.of_nat n < 2 ^ 32 -> reachable cstep (new_stream n) s ->
  c_trace s = newer ++ EQuit :: older ->
  history older /\ Forall late newer /\
  ((forall ok, ~ In (EDone ok) newer) \/ (exists ok, newer = [EDone ok] /\ closed (EDone ok :: older))) /\
  (forall op size m tr, older = op ++ EStart size m :: tr -> Forall inner op ->
     forall o, delivered o (newer ++ op) <= 1 /\ (0 < delivered o (newer ++ op) -> block_offset size o)) /\
  (closed older -> forall o, delivered o newer = 0).
Proof. exact c52_callbacks. Qed.
Print Assumptions C52_destructor_callbacks.
(** After the critical section of the destructor the threads make a bounded number of steps, whatever happens,
    and when they can make no more, all have returned: join() returns. *)
Theorem C52_destructor_terminates : forall n s l s', (1 <= n)%nat -> Z.of_nat n < 2 ^ 32 -> reachable cstep (new_stream n) s -> c_user s = UGone ->
  run cstep l s = Some s' ->
  lenZ l <= Z.of_nat n * (2 ^ 66 + 13) /\ (stuck s' -> Forall (fun t => fst t = CExit) (c_thr s')).
Proof. exact c52_terminates. Qed.
Print Assumptions C52_destructor_terminates.
(** Destroying a stream with a block in progress. *)
Example C52_case : exists s s' newer older, reachable cstep (new_stream 2) s /\ c_user s = UGone /\
  run cstep case_quit s = Some s' /\ stuck s' /\ c_trace s' = newer ++ EQuit :: older /\ newer = [EBlock 1048576 true; EBlock 0 true] /\
  older = [EFinalize false; EStart 2097157 1048576].
Proof.
  eexists. eexists. eexists. eexists. split; [apply (run_reachable cstep (case_calls ++ firstn 13 case_threads ++ [AQuit1; AQuit2])); vm_compute; reflexivity|].
  split; [reflexivity|]. split; [vm_compute; reflexivity|]. split; [intros [|[|[|i]]] fail; reflexivity|].
  split; [|split; reflexivity]. reflexivity.
Qed.
