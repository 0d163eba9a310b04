(** Specification vocabulary for the compression stream: what the sequence of
    calls and callbacks of a user looks like.  Traces are newest first. *)
From Coq Require Import ZArith List Bool.
From Verif Require Import CBase ConcLib StreamBlockModel CompStreamModel.
Import ListNotations.
Open Scope Z_scope.

(** The offsets of the whole blocks of an input of [size] bytes. *)
Definition block_offset (size o : Z) : Prop := 0 <= o /\ o mod BLOCK_SIZE = 0 /\ o + BLOCK_SIZE <= size.
(** How often the block callback was called for offset [o] in [l]. *)
Definition delivered (o : Z) (l : list event) : Z :=
  cnt (fun ev => match ev with EBlock o' _ => o =? o' | _ => false end) l.
(** How many blocks failed. *)
Definition failures (l : list event) : Z := cnt (fun ev => match ev with EBlock _ false => true | _ => false end) l.
(** Calls of finalize, and those with cancel = true. *)
Definition finalizes (l : list event) : Z := cnt (fun ev => match ev with EFinalize _ => true | _ => false end) l.
Definition cancels (l : list event) : Z := cnt (fun ev => match ev with EFinalize true => true | _ => false end) l.
Definition inner (ev : event) : Prop := match ev with EBlock _ _ | EFinalize _ => True | _ => False end.

(** The events of one operation after its start, so far: block callbacks, at most one per block and
    only for the blocks of the input, and at most one finalize. *)
Record op_so_far (size : Z) (op : list event) : Prop := {
  os_inner : Forall inner op;
  os_once : forall o, delivered o op <= 1;
  os_valid : forall o, 0 < delivered o op -> block_offset size o;
  os_fin : finalizes op <= 1 }.
(** Epochs: with multiple [m] > 0, when a block at or after a multiple of [m] is delivered,
    all blocks before that multiple have been delivered. *)
Definition epochs_ordered (size m : Z) (op : list event) : Prop :=
  forall newer older o ok, op = newer ++ EBlock o ok :: older ->
  forall j o', 0 <= j -> j * m <= o -> o' < j * m -> block_offset size o' -> delivered o' older = 1.
(** A finished operation, whose finalize_callback got [ok]. *)
Record op_complete (size m : Z) (op : list event) (ok : bool) : Prop := {
  oc_so_far : op_so_far size op;
  oc_epochs : epochs_ordered size m op;
  oc_fin : finalizes op = 1;
  oc_ok : ok = true <-> failures op = 0;
  oc_all : ok = true -> cancels op = 0 -> forall o, block_offset size o -> delivered o op = 1 }.

(** A sequence of finished operations. *)
Inductive closed : list event -> Prop :=
| cl_nil : closed []
| cl_op : forall size m op ok tr, closed tr -> op_complete size m op ok -> closed (EDone ok :: op ++ EStart size m :: tr).
(** A sequence of finished operations, perhaps followed by one in progress. *)
Inductive history : list event -> Prop :=
| hi_closed : forall tr, closed tr -> history tr
| hi_open : forall size m op tr, closed tr -> op_so_far size op -> epochs_ordered size m op -> history (op ++ EStart size m :: tr).

(** No thread of the stream can take a step. *)
Definition stuck (s : cstate) : Prop := forall i fail, cstep (AThread i fail) s = None.
(** Steps of threads, and spurious wakeups: what happens without a call of the user. *)
Definition is_thread (a : action) : bool := match a with AThread _ _ => true | _ => false end.
Definition is_spurious (a : action) : bool := match a with ASpurious _ => true | _ => false end.
Definition no_call (a : action) : Prop := is_thread a = true \/ is_spurious a = true.
(** What the user can observe after the destructor was entered: callbacks. *)
Definition late (ev : event) : Prop := match ev with EBlock _ _ | EDone _ => True | _ => False end.
