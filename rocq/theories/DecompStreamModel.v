(** Model of the threads of DataDecompressionStream
    (/repo/src/stream/DataDecompressionStream.cpp, /repo/include/lib842/stream/decomp.h).

    Interleaving semantics as in CompStreamModel: one step is one critical section, one
    read of an unprotected member, or one call of handle_block or of the user's callback.

    Simplifications: a block is represented by a number that the user chose; that handle_block
    may fail is an input of the step; the latch _threads_ready, the statistics and the loggers
    are left out; the user calls start, then push_block any number of times, then finalize, waits for the
    callback, starts again, ..., and may destroy the stream between calls. *)
From Coq Require Import ZArith List Bool.
From Verif Require Import CBase ConcLib BarrierModel.
Import ListNotations.
Open Scope Z_scope.

(** Where a thread is in loop_decompress_thread (lines 91-208). *)
Inductive dpc :=
| DStart                              (* before line 100 *)
| DLoop                               (* line 103: while (!_quit) *)
| DTrig (asleep : bool)               (* lines 107-113 *)
| DQueue (asleep : bool)              (* lines 126-137 *)
| DHandle (b : Z)                     (* line 143 *)
| DFail (b : Z)                       (* lines 147-154 *)
| DArrive                             (* line 169 *)
| DBar (g : Z) (asleep : bool)        (* line 169, waiting *)
| DReset                              (* lines 172-187 *)
| DCallback (error present : bool)    (* lines 188-189 *)
| DExit.                              (* line 208 *)
(** A thread: where it is, and its last_trigger (line 102). *)
Definition dthread := (dpc * Z)%type.

(** decomp.h:90-113.  [h_fcb] says whether _finalize_callback holds a function. *)
Record dshared := mkH { h_trigger : Z; h_ptr : Z; h_queue : list Z; h_error : bool; h_fin : bool; h_fcb : bool; h_bar : barrier; h_quit : bool }.

(** What the user observes, newest first.  [VPush b ok]: push_block(b) returned [ok].
    [VHandled p b ok]: handle_block returned for block [b] with destination [p]; if it failed the
    event is recorded when the error flag is set.  [VCrash]: an empty function was called. (No counterpart in /repo: what the user of DataDecompressionStream.cpp:59-89 sees and DataDecompressionStream.cpp:140-200 does.) *)
Inductive devent := VStart (ptr : Z) | VPush (b : Z) (ok : bool) | VFinalize (cancel : bool) | VHandled (ptr b : Z) (ok : bool)
  | VDone (ok : bool) | VQuit | VCrash.

(** DataDecompressionStream.cpp:171: only thread 0 goes in. *)
Definition dafter (i : nat) : dpc := match i with O => DReset | _ => DLoop end.
(** A change of _finalize_barrier. (DataDecompressionStream.cpp:48, 169.) *)
Definition set_hbar (g : dshared) (b : barrier) : dshared :=
  mkH (h_trigger g) (h_ptr g) (h_queue g) (h_error g) (h_fin g) (h_fcb g) b (h_quit g).
(** A change of _queue. (DataDecompressionStream.cpp:77, 87, 136, 153.) *)
Definition set_queue (g : dshared) (q : list Z) : dshared :=
  mkH (h_trigger g) (h_ptr g) q (h_error g) (h_fin g) (h_fcb g) (h_bar g) (h_quit g).

(** One step of thread [i] of [n] (DataDecompressionStream.cpp:91-208); [fail]: whether handle_block fails
    if this is the step that calls it.  The boolean of the result says that the barrier's condition
    variable is notified. *)
Definition dtstep (n : Z) (i : nat) (fail : bool) (g : dshared) (t : dthread) : option (dshared * dthread * bool * list devent) :=
  let '(pc, lt) := t in
  let go (g' : dshared) (pc' : dpc) := Some (g', (pc', lt), false, []) in
  match pc with
  | DStart => go g DLoop
  | DLoop => go g (if h_quit g then DExit else DTrig false)
  | DTrig true => None
  | DTrig false =>
    if negb (h_trigger g =? lt) || h_quit g then Some (g, (DQueue false, h_trigger g), false, []) else go g (DTrig true)
  | DQueue true => None
  | DQueue false =>
    match h_queue g with
    | [] => if h_fin g || h_quit g then go g DArrive else go g (DQueue true)
    | b :: q => if h_quit g then go g DArrive else go (set_queue g q) (DHandle b)
    end
  | DHandle b => if fail then go g (DFail b) else Some (g, (DQueue false, lt), false, [VHandled (h_ptr g) b true])
  | DFail b =>
    Some (mkH (h_trigger g) (h_ptr g) [] true (h_fin g) (h_fcb g) (h_bar g) (h_quit g), (DQueue false, lt), false,
          [VHandled (h_ptr g) b false])
  | DArrive =>
    let '(b, last) := bar_arrive n (h_bar g) in
    if last : bool then Some (set_hbar g b, (dafter i, lt), true, [])
    else go (set_hbar g b) (if bar_pass b (b_gen b) then dafter i else DBar (b_gen b) true)
  | DBar gen true => None
  | DBar gen false => go g (if bar_pass (h_bar g) gen then dafter i else DBar gen true)
  | DReset =>
    if h_quit g then go g DLoop
    else go (mkH (h_trigger g) (h_ptr g) (h_queue g) false false false (h_bar g) (h_quit g)) (DCallback (h_error g) (h_fcb g))
  | DCallback err present => Some (g, (DLoop, lt), false, [if present then VDone (negb err) else VCrash])
  | DExit => None
  end.

(** Notifying all threads that wait on the barrier, on _trigger_changed, on _queue_available. (barrier.h:34, 48; DataDecompressionStream.cpp:43-44, 64, 88.) *)
Definition dwake_bar (t : dthread) : dthread := match t with (DBar g _, lt) => (DBar g false, lt) | _ => t end.
(** _trigger_changed.notify_all(). (DataDecompressionStream.cpp:43, 64.) *)
Definition dwake_trig (t : dthread) : dthread := match t with (DTrig _, lt) => (DTrig false, lt) | _ => t end.
(** _queue_available.notify_all(). (DataDecompressionStream.cpp:44, 88.) *)
Definition dwake_queue (t : dthread) : dthread := match t with (DQueue _, lt) => (DQueue false, lt) | _ => t end.
(** A spurious wakeup of a thread that is asleep. (No counterpart in /repo: std::condition_variable::wait may return at any time, as in DataDecompressionStream.cpp:109, 128 and barrier.h:37.) *)
Definition dwake_any (t : dthread) : option dthread :=
  match t with
  | (DTrig true, _) => Some (dwake_trig t)
  | (DQueue true, _) => Some (dwake_queue t)
  | (DBar _ true, _) => Some (dwake_bar t)
  | _ => None
  end.
(** A thread that waits on _queue_available. (DataDecompressionStream.cpp:128.) *)
Definition qwaiting (t : dthread) : bool := match fst t with DQueue a => a | _ => false end.
(** _queue_available.notify_one(): the implementation chooses the thread [j] among those that wait, if any. (DataDecompressionStream.cpp:78.) *)
Definition notify_one (j : nat) (thr : list dthread) : option (list dthread) :=
  if existsb qwaiting thr then
    match nth_error thr j with
    | Some t => if qwaiting t then Some (setnth j (dwake_queue t) thr) else None
    | None => None
    end
  else Some thr.

(** What the user is doing, as in CompStreamModel. (DataDecompressionStream.cpp:38-89.) *)
Inductive duphase := VIdle | VStarting | VRunning | VFinalizing | VQuitting | VGone.
(** The stream, its threads, the thread that uses it, and the history. (include/lib842/stream/decomp.h:82-113.) *)
Record dstate := mkD { d_g : dshared; d_thr : list dthread; d_user : duphase; d_trace : list devent }.

(** Actions: a step of a thread, a spurious wakeup, a call of the user.
    BStart1/BStart2: start(), line 60 and lines 62-64; BPush b j: push_block(), lines 67-80, where
    notify_one chooses thread j if threads are waiting; BFinalize: lines 82-89;
    BQuit1/BQuit2: the destructor, line 41 and lines 43-48 (one critical section in the code; _quit is read
    without the mutex at line 103, so the model lets threads see it before the notifications). *)
Inductive daction :=
| BThread (i : nat) (fail : bool) | BSpurious (i : nat)
| BStart1 (ptr : Z) | BStart2 | BPush (b : Z) (j : nat) | BFinalize (cancel : bool) | BQuit1 | BQuit2.

(** One step of the whole: of a thread (DataDecompressionStream.cpp:91-208), of the user (DataDecompressionStream.cpp:38-89), or a spurious wake-up. *)
Definition dstep (a : daction) (s : dstate) : option dstate :=
  let g := d_g s in let thr := d_thr s in let tr := d_trace s in
  match a with
  | BThread i fail =>
    match nth_error thr i with
    | None => None
    | Some t =>
      match dtstep (lenZ thr) i fail g t with
      | None => None
      | Some (g', t', w, evs) =>
        let thr' := setnth i t' (if w : bool then map dwake_bar thr else thr) in
        let user' := match evs with [VDone _] => (match d_user s with VFinalizing => VIdle | u => u end) | _ => d_user s end in
        Some (mkD g' thr' user' (evs ++ tr))
      end
    end
  | BSpurious i =>
    match nth_error thr i with
    | None => None
    | Some t => match dwake_any t with None => None | Some t' => Some (mkD g (setnth i t' thr) (d_user s) tr) end
    end
  | BStart1 ptr =>
    match d_user s with
    | VIdle => Some (mkD (mkH (h_trigger g) ptr (h_queue g) (h_error g) (h_fin g) (h_fcb g) (h_bar g) (h_quit g)) thr VStarting (VStart ptr :: tr))
    | _ => None
    end
  | BStart2 =>
    match d_user s with
    | VStarting =>
      Some (mkD (mkH (u32 (h_trigger g + 1)) (h_ptr g) (h_queue g) (h_error g) (h_fin g) (h_fcb g) (h_bar g) (h_quit g))
                (map dwake_trig thr) VRunning tr)
    | _ => None
    end
  | BPush b j =>
    match d_user s with
    | VRunning =>
      if h_error g then Some (mkD g thr (d_user s) (VPush b false :: tr))
      else
        match notify_one j thr with
        | Some thr' => Some (mkD (set_queue g (h_queue g ++ [b])) thr' (d_user s) (VPush b true :: tr))
        | None => None
        end
    | _ => None
    end
  | BFinalize cancel =>
    match d_user s with
    | VRunning =>
      Some (mkD (mkH (h_trigger g) (h_ptr g) (if cancel then [] else h_queue g) (h_error g) true true (h_bar g) (h_quit g))
                (map dwake_queue thr) VFinalizing (VFinalize cancel :: tr))
    | _ => None
    end
  | BQuit1 =>
    match d_user s with
    | VIdle | VRunning | VFinalizing =>
      Some (mkD (mkH (h_trigger g) (h_ptr g) (h_queue g) (h_error g) (h_fin g) (h_fcb g) (h_bar g) true) thr VQuitting (VQuit :: tr))
    | _ => None
    end
  | BQuit2 =>
    match d_user s with
    | VQuitting => Some (mkD (set_hbar g (bar_interrupt (h_bar g))) (map dwake_bar (map dwake_queue (map dwake_trig thr))) VGone tr)
    | _ => None
    end
  end.

(** DataDecompressionStream.cpp:19-36: a new stream with [n] threads. *)
Definition new_dstream (n : nat) : dstate :=
  mkD (mkH 0 0 [] false false false bar_init false) (List.repeat (DStart, 0) n) VIdle [].
