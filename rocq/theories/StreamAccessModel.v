(** The accesses to shared members made by the steps of the models of DataCompressionStream and
    DataDecompressionStream (CompStreamModel.v, DecompStreamModel.v), with the mutexes held.

    Simplifications: std::mutex and std::condition_variable are free of races themselves and are
    left out, as are members that are never written after the constructor (_impl842, the loggers,
    _threads) and the latch _threads_ready (all of whose accesses are under its own mutex).
    A step that makes several accesses is taken as making them at once. *)
From Coq Require Import ZArith List Bool.
From Verif Require Import CBase ConcLib BarrierModel StreamBlockModel CompStreamModel DecompStreamModel SpecRace.
Import ListNotations.
Open Scope Z_scope.

(** A read and a write. (No counterpart in /repo: an access in DataCompressionStream.cpp or DataDecompressionStream.cpp.) *)
Definition rd {L} (m : list guard) (l : L) : access L := mkAcc l false m.
(** See [rd]. (No counterpart in /repo: an access in DataCompressionStream.cpp or DataDecompressionStream.cpp.) *)
Definition wt {L} (m : list guard) (l : L) : access L := mkAcc l true m.

(** ** DataCompressionStream *)
(** comp.h:91-117: _trigger, _ptr, _size, _block_available_callback, _current_offset, _error,
    _finalizing, _finalize_callback, the members of _finalize_barrier, _quit,
    _offset_sync_epoch_multiple_log2; and the user's data at _ptr. *)
Inductive cloc := KTrigger | KPtr | KSize | KCb | KCur | KError | KFin | KFcb | KBar | KQuit | KEpoch | KData.

(** DataCompressionStream.cpp:95-228: the accesses of the next step of a thread that is at [pc]. *)
Definition thread_accesses (g : shared) (pc : cpc) : list (access cloc) :=
  let L := [MStream] in let B := [MBarrier] in let A := [MAtomic] in
  match pc with
  | CStart | CExit => []
  | CLoop => [rd [] KQuit]                                                      (* 107 *)
  | CTrig _ => [rd L KTrigger; rd L KQuit]                                      (* 112-116 *)
  | CInit => [rd [] KSize]                                                      (* 128 *)
  | CFetch _ _ => [rd A KCur; wt A KCur]                                        (* 130 *)
  | CEpoch _ _ _ => [rd [] KEpoch; rd [] KSize]                                 (* 134-136 *)
  | CArrive _ _ m => if m =? 0 then [] else [rd B KBar; wt B KBar]              (* 137-143 *)
  | CBar _ _ _ _ _ => [rd B KBar]                                               (* 138 *)
  | CWork _ _ => [rd [] KPtr; rd [] KData]                                      (* 149, 238, 252-254 *)
  | CErr _ _ => [rd L KError; wt L KError; wt A KCur]                           (* 156-159 *)
  | CCall _ _ _ => [rd [] KCb]                                                  (* 172 *)
  | CFin _ => [rd L KFin; rd L KQuit]                                           (* 176-177 *)
  | CFinArrive => [rd B KBar; wt B KBar]                                        (* 185 *)
  | CFinBar _ _ => [rd B KBar]                                                  (* 185 *)
  | CReset =>                                                                   (* 191-206 *)
    rd L KQuit :: (if g_quit g then [] else
      [wt L KPtr; wt L KSize; wt L KCb; wt A KCur; rd L KError; wt L KError; wt L KFin; rd L KFcb; wt L KFcb])
  | CCallback _ _ => []                                                         (* 208-209 *)
  end.
(** DataCompressionStream.cpp:45-93: the accesses of the members called by the user. *)
Definition call_accesses (a : action) : list (access cloc) :=
  let L := [MStream] in
  match a with
  | AThread _ _ | ASpurious _ => []
  | ASetEpoch _ => [wt [] KEpoch; rd [] KEpoch]                                 (* 63-67 *)
  | AStart1 _ => [wt [] KPtr; wt [] KSize; wt [] KCb]                           (* 77-79 *)
  | AStart2 => [rd L KTrigger; wt L KTrigger]                                   (* 81-83 *)
  | AFinalize _ => [wt L KFin; wt L KFcb; wt [MAtomic] KCur]                    (* 87-92 *)
  | AQuit1 => [wt L KQuit]                                                      (* 47-48 *)
  | AQuit2 => [wt [MAtomic] KCur; wt [MStream; MBarrier] KBar]                  (* 50-52 *)
  end.
(** DataCompressionStream.cpp:45-228: what the agents may access next.  The user may also touch the data
    when no operation is in progress (before start, and once finalize_callback was called). *)
Inductive c_about (s : cstate) : agent -> access cloc -> Prop :=
| ca_thread : forall i fail t s' a, nth_error (c_thr s) i = Some t -> cstep (AThread i fail) s = Some s' ->
    In a (thread_accesses (c_g s) (fst t)) -> c_about s (Thr i) a
| ca_call : forall act s' a, cstep act s = Some s' -> In a (call_accesses act) -> c_about s User a
| ca_data : c_user s = UIdle -> c_about s User (wt [] KData).

(** ** DataDecompressionStream *)
(** decomp.h:90-113: _trigger, _ptr, _queue, _error, _finalizing, _finalize_callback, the members of
    _finalize_barrier, _quit; and the part of the user's data at _ptr where block [b] goes. *)
Inductive dloc := JTrigger | JPtr | JQueue | JError | JFin | JFcb | JBar | JQuit | JData (b : Z).

(** DataDecompressionStream.cpp:91-208: the accesses of the next step of a thread that is at [pc]. *)
Definition dthread_accesses (g : dshared) (pc : dpc) : list (access dloc) :=
  let L := [MStream] in let B := [MBarrier] in
  match pc with
  | DStart | DExit => []
  | DLoop => [rd [] JQuit]                                                      (* 103 *)
  | DTrig _ => [rd L JTrigger; rd L JQuit]                                      (* 108-112 *)
  | DQueue _ => [rd L JQueue; wt L JQueue; rd L JFin; rd L JQuit]               (* 127-136 *)
  | DHandle b => [rd [] JPtr; wt [] (JData b)]                                  (* 143, 225-243 *)
  | DFail _ => [rd L JError; wt L JError; wt L JQueue; rd [] JPtr]              (* 150-153; _ptr was read at 143 *)
  | DArrive => [rd B JBar; wt B JBar]                                           (* 169 *)
  | DBar _ _ => [rd B JBar]                                                     (* 169 *)
  | DReset =>                                                                   (* 175-187 *)
    rd L JQuit :: (if h_quit g then [] else [rd L JError; wt L JError; wt L JFin; rd L JFcb; wt L JFcb])
  | DCallback _ _ => []                                                         (* 188-189 *)
  end.
(** DataDecompressionStream.cpp:38-89: the accesses of the members called by the user. *)
Definition dcall_accesses (a : daction) : list (access dloc) :=
  let L := [MStream] in
  match a with
  | BThread _ _ | BSpurious _ => []
  | BStart1 _ => [wt [] JPtr]                                                   (* 60 *)
  | BStart2 => [rd L JTrigger; wt L JTrigger]                                   (* 62-64 *)
  | BPush _ _ => [rd L JFin; rd L JError; wt L JQueue]                          (* 68-77 *)
  | BFinalize _ => [wt L JFin; wt L JFcb; wt L JQueue]                          (* 83-87 *)
  | BQuit1 => [wt L JQuit]                                                      (* 40-41 *)
  | BQuit2 => [wt [MStream; MBarrier] JBar]                                     (* 48 *)
  end.
(** DataDecompressionStream.cpp:38-208: what the agents may access next.  The user may also touch the data
    when no operation is in progress. *)
Inductive d_about (s : dstate) : agent -> access dloc -> Prop :=
| da_thread : forall i fail t s' a, nth_error (d_thr s) i = Some t -> dstep (BThread i fail) s = Some s' ->
    In a (dthread_accesses (d_g s) (fst t)) -> d_about s (Thr i) a
| da_call : forall act s' a, dstep act s = Some s' -> In a (dcall_accesses act) -> d_about s User a
| da_data : forall b, d_user s = VIdle -> d_about s User (wt [] (JData b)).

(** ** Values *)
(** comp.h:91-117: the variable has the same value in two states (_ptr and the data are not in the model). *)
Definition same_c (l : cloc) (g h : shared) : Prop :=
  match l with
  | KTrigger => g_trigger g = g_trigger h | KSize => g_size g = g_size h | KCb => g_cb g = g_cb h
  | KCur => g_cur g = g_cur h | KError => g_error g = g_error h | KFin => g_fin g = g_fin h | KFcb => g_fcb g = g_fcb h
  | KBar => g_bar g = g_bar h | KQuit => g_quit g = g_quit h | KEpoch => g_k g = g_k h | KPtr | KData => True
  end.
(** decomp.h:90-113: likewise. *)
Definition same_d (l : dloc) (g h : dshared) : Prop :=
  match l with
  | JTrigger => h_trigger g = h_trigger h | JPtr => h_ptr g = h_ptr h | JQueue => h_queue g = h_queue h
  | JError => h_error g = h_error h | JFin => h_fin g = h_fin h | JFcb => h_fcb g = h_fcb h
  | JBar => h_bar g = h_bar h | JQuit => h_quit g = h_quit h | JData _ => True
  end.
