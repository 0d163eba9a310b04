(** Schedules of two threads used by the examples in PropStream. *)
From Coq Require Import ZArith List Bool.
From Verif Require Import CBase CompStreamModel.
Import ListNotations.
Open Scope Z_scope.

(** Epochs of one block, an input of two blocks and five bytes, finalize without cancel. *)
Definition case_calls : list action := [ASetEpoch (2 ^ 20); AStart1 (2 ^ 21 + 5); AStart2; AFinalize false].
(** Then the threads run to completion, ... *)
Definition case_threads : list action := map (fun i => AThread i false)
  [0; 1; 0; 1; 0; 1; 0; 1; 0; 1; 0; 1; 0; 1; 0; 0; 0; 0; 0; 1; 0; 1; 1; 1; 1; 1; 1; 0; 1; 0; 1; 0; 1; 0; 1; 0; 1; 0; 1; 0; 0]%nat.
(** ... with all blocks failing, ... *)
Definition case_failing : list action := map (fun i => AThread i true)
  [0; 1; 0; 1; 0; 1; 0; 1; 0; 1; 0; 1; 0; 1; 0; 0; 0; 0; 0; 0; 1; 0; 1; 1; 1; 1; 1; 1; 1; 0; 1; 0; 1; 0; 1; 0; 1; 0; 1; 0; 1; 0; 0]%nat.
(** ... without finalize having been called, ... *)
Definition case_unfinalized : list action := map (fun i => AThread i false)
  [0; 1; 0; 1; 0; 1; 0; 1; 0; 1; 0; 1; 0; 1; 0; 0; 0; 0; 0; 1; 0; 1; 1; 1; 1; 1; 1; 0; 1; 0; 1; 0]%nat.
(** ... and after the destructor was called while thread 0 compresses a block. *)
Definition case_quit : list action := map (fun i => AThread i false)
  [0; 1; 0; 1; 0; 1; 0; 1; 0; 1; 0; 1; 0; 1; 0; 1; 0; 1; 0; 1; 0; 1]%nat.
