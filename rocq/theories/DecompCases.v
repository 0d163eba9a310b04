(** Schedules of two threads used by the examples in PropDStream. *)
From Coq Require Import ZArith List Bool.
From Verif Require Import CBase DecompStreamModel.
Import ListNotations.
Open Scope Z_scope.

Definition dthreads (fail : bool) (l : list nat) : list daction := map (fun i => BThread i fail) l.
(** An operation is started and both threads go to sleep on the empty queue; then blocks 7, 9 and 7 are pushed. *)
Definition dcase_started : list daction := [BStart1 4096; BStart2] ++ dthreads false [0; 1; 0; 1; 0; 1; 0; 1]%nat.
Definition dcase_pushed : list daction := dcase_started ++ [BPush 7 1; BPush 9 0; BPush 7 0].
(** The threads empty the queue and go to sleep. *)
Definition dcase_emptied : list daction := dthreads false [0; 1; 0; 1; 0; 1; 0; 0]%nat.
(** After finalize the threads complete the operation, without and with failures. *)
Definition dcase_threads : list daction := dthreads false [0; 1; 0; 1; 0; 1; 0; 1; 0; 0; 1; 0; 1; 0; 1; 0; 0]%nat.
Definition dcase_failing : list daction := dthreads true [0; 1; 0; 1; 0; 1; 0; 1; 0; 1; 0; 1; 0; 1; 0; 0; 0]%nat.
(** After the destructor was called while both threads decompress a block. *)
Definition dcase_quit : list daction := dthreads false [0; 1; 0; 1; 0; 1; 0; 1; 0]%nat.
