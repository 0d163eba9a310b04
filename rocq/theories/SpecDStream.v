(** Specification vocabulary for the decompression stream: what the sequence of
    calls and callbacks of a user looks like.  Traces are newest first. *)
From Coq Require Import ZArith List Bool.
From Verif Require Import CBase ConcLib DecompStreamModel.
Import ListNotations.
Open Scope Z_scope.

(** How often block [b] was accepted by push_block, and how often it was decompressed (to any destination). *)
Definition accepted (b : Z) (l : list devent) : Z := cnt (fun ev => match ev with VPush b' true => b =? b' | _ => false end) l.
Definition handled (b : Z) (l : list devent) : Z := cnt (fun ev => match ev with VHandled _ b' _ => b =? b' | _ => false end) l.
(** Calls of push_block, blocks that failed, calls of finalize, and those with cancel = true. *)
Definition pushes (l : list devent) : Z := cnt (fun ev => match ev with VPush _ _ => true | _ => false end) l.
Definition dfailures (l : list devent) : Z := cnt (fun ev => match ev with VHandled _ _ false => true | _ => false end) l.
Definition dfinalizes (l : list devent) : Z := cnt (fun ev => match ev with VFinalize _ => true | _ => false end) l.
Definition dcancels (l : list devent) : Z := cnt (fun ev => match ev with VFinalize true => true | _ => false end) l.
(** The events of an operation with destination [ptr], after its start. *)
Definition dinner (ptr : Z) (ev : devent) : Prop :=
  match ev with VPush _ _ | VFinalize _ => True | VHandled p _ _ => p = ptr | _ => False end.

(** push_block returns false exactly when a block has failed before, in the same operation. *)
Definition pushes_report (op : list devent) : Prop :=
  forall newer b ok older, op = newer ++ VPush b ok :: older -> (ok = true <-> dfailures older = 0).
(** No push after finalize. *)
Definition pushes_first (op : list devent) : Prop :=
  forall newer c older, op = newer ++ VFinalize c :: older -> pushes newer = 0.
(** The events of one operation after its start, so far: every block decompressed was accepted, and is
    decompressed at most as often as it was accepted. *)
Record dop_so_far (ptr : Z) (op : list devent) : Prop := {
  ds_inner : Forall (dinner ptr) op;
  ds_once : forall newer older b, op = newer ++ older -> handled b older <= accepted b older;
  ds_report : pushes_report op;
  ds_first : pushes_first op;
  ds_fin : dfinalizes op <= 1 }.
(** A finished operation, whose finalize_callback got [ok]. *)
Record dop_complete (ptr : Z) (op : list devent) (ok : bool) : Prop := {
  dc_so_far : dop_so_far ptr op;
  dc_fin : dfinalizes op = 1;
  dc_ok : ok = true <-> dfailures op = 0;
  dc_all : ok = true -> dcancels op = 0 -> forall b, handled b op = accepted b op }.

(** A sequence of finished operations, and one perhaps followed by an operation in progress. *)
Inductive dclosed : list devent -> Prop :=
| dcl_nil : dclosed []
| dcl_op : forall ptr op ok tr, dclosed tr -> dop_complete ptr op ok -> dclosed (VDone ok :: op ++ VStart ptr :: tr).
Inductive dhistory : list devent -> Prop :=
| dhi_closed : forall tr, dclosed tr -> dhistory tr
| dhi_open : forall ptr op tr, dclosed tr -> dop_so_far ptr op -> dhistory (op ++ VStart ptr :: tr).

(** No thread of the stream can take a step. *)
Definition dstuck (s : dstate) : Prop := forall i fail, dstep (BThread i fail) s = None.
(** Steps of threads, and spurious wakeups: what happens without a call of the user. *)
Definition is_dthread (a : daction) : bool := match a with BThread _ _ => true | _ => false end.
Definition is_dspurious (a : daction) : bool := match a with BSpurious _ => true | _ => false end.
Definition no_dcall (a : daction) : Prop := is_dthread a = true \/ is_dspurious a = true.
(** What the user can observe after the destructor was entered; in the second case, with destination [ptr]. *)
Definition dlate (ev : devent) : Prop := match ev with VHandled _ _ _ | VDone _ => True | _ => False end.
Definition dlate_to (ptr : Z) (ev : devent) : Prop := match ev with VHandled p _ _ => p = ptr | VDone _ => True | _ => False end.
(** The events of an operation after its start, whatever the destination. *)
Definition devents (ev : devent) : Prop := match ev with VPush _ _ | VFinalize _ | VHandled _ _ _ => True | _ => False end.
(** The blocks accepted by push_block, and those decompressed, in the order in which this happened (oldest first). *)
Fixpoint accepted_list (l : list devent) : list Z :=
  match l with [] => [] | VPush b true :: l => accepted_list l ++ [b] | _ :: l => accepted_list l end.
Fixpoint handled_list (l : list devent) : list Z :=
  match l with [] => [] | VHandled _ b _ :: l => handled_list l ++ [b] | _ :: l => handled_list l end.
(** A thread that sleeps until the queue changes, and one that is awake and about to look at the queue. *)
Definition sleeping (t : dthread) : bool := match fst t with DQueue true => true | _ => false end.
Definition looking (t : dthread) : bool := match fst t with DQueue false => true | _ => false end.
