(** Model of the threads of DataCompressionStream
    (/repo/src/stream/DataCompressionStream.cpp, /repo/include/lib842/stream/comp.h).

    Interleaving semantics.  One step is one critical section, one access to
    the atomic _current_offset, one read of an unprotected member, or one call
    of handle_block or of a user callback.  Waits on condition variables are
    modelled as in BarrierModel: a thread is asleep until notified (or woken
    spuriously) and then evaluates its predicate under the mutex.

    Simplifications: _ptr is not modelled (it is read where _size is); the latch
    _threads_ready is modelled in BarrierModel only; the statistics and the
    loggers are left out; the user calls the members one at a time in the
    documented order (start, finalize, wait for the callback, start again, ...)
    and may destroy the stream between calls; no object is larger than 2^63 bytes. *)
From Coq Require Import ZArith List Bool.
From Verif Require Import CBase ConcLib BarrierModel StreamBlockModel.
Import ListNotations.
Open Scope Z_scope.

(** DataCompressionStream.cpp:13. *)
Definition BIG_OFFSET_TO_STOP_NEW_WORK : Z := 2 ^ 63.

(** Where a thread is in loop_compress_thread (lines 95-228). *)
Inductive cpc :=
| CStart                                             (* before line 104 *)
| CLoop                                              (* line 107: while (!_quit) *)
| CTrig (asleep : bool)                              (* lines 112-117 *)
| CInit                                              (* lines 126-128 *)
| CFetch (lvo last : Z)                              (* line 130 *)
| CEpoch (lvo last off : Z)                          (* lines 134-136 *)
| CArrive (lvo off n : Z)                            (* line 137 with n iterations to go, then 140-143 *)
| CBar (lvo off n g : Z) (asleep : bool)             (* line 138, waiting; n iterations to go after it *)
| CWork (lvo off : Z)                                (* line 149 *)
| CErr (lvo off : Z)                                 (* lines 153-160 *)
| CCall (lvo off : Z) (ok : bool)                    (* line 172 *)
| CFin (asleep : bool)                               (* lines 175-178 *)
| CFinArrive                                         (* line 185 *)
| CFinBar (g : Z) (asleep : bool)                    (* line 185, waiting *)
| CReset                                             (* lines 188-207 *)
| CCallback (error present : bool)                   (* lines 208-209 *)
| CExit.                                             (* line 228 *)
(** A thread: where it is, and its last_trigger (line 106). *)
Definition thread := (cpc * Z)%type.

(** comp.h:81-117.  [g_cb] and [g_fcb] say whether _block_available_callback and
    _finalize_callback hold a function; [g_k] is _offset_sync_epoch_multiple_log2. *)
Record shared := mkG { g_trigger : Z; g_size : Z; g_cb : bool; g_cur : Z; g_error : bool; g_fin : bool; g_fcb : bool;
  g_bar : barrier; g_quit : bool; g_k : Z }.

(** What the user observes, newest first.  [EStart size m]: start() was called, [m] is the
    argument of the last call of set_offset_sync_epoch_multiple (0: none).
    [EBlock off ok]: block_available_callback was called for the block at [off] ([ok] = false: the
    block is marked with offset SIZE_MAX because handle_block failed).  [ECrash]: an empty function was called. *)
Inductive event := EStart (size m : Z) | EFinalize (cancel : bool) | EBlock (off : Z) (ok : bool) | EDone (ok : bool) | EQuit | ECrash.

(** Which condition variable a step notifies. (the calls of notify_all in barrier.h:34, 48.) *)
Inductive wake := WNone | WBar.

(** DataCompressionStream.cpp:128: _size & ~(BLOCK_SIZE-1). *)
Definition last_valid_offset (size : Z) : Z := Z.land size (u64 (Z.lnot (BLOCK_SIZE - 1))).
(** DataCompressionStream.cpp:134-137: the number of iterations of the loop. *)
Definition num_epochs (g : shared) (last off : Z) : Z :=
  if g_k g =? UINT_MAX then 0
  else u64 (Z.shiftr (Z.min off (g_size g)) (g_k g) - Z.shiftr last (g_k g)).
(** DataCompressionStream.cpp:187: only thread 0 goes in. *)
Definition after_barrier (i : nat) : cpc := match i with O => CReset | _ => CLoop end.

(** Assignment to _current_offset. (DataCompressionStream.cpp:50, 91, 130, 159, 200.) *)
Definition set_cur (g : shared) (c : Z) : shared :=
  mkG (g_trigger g) (g_size g) (g_cb g) c (g_error g) (g_fin g) (g_fcb g) (g_bar g) (g_quit g) (g_k g).
(** A change of _finalize_barrier. (DataCompressionStream.cpp:52, 138, 185.) *)
Definition set_bar (g : shared) (b : barrier) : shared :=
  mkG (g_trigger g) (g_size g) (g_cb g) (g_cur g) (g_error g) (g_fin g) (g_fcb g) b (g_quit g) (g_k g).

(** One step of thread [i] of [n] (loop_compress_thread, DataCompressionStream.cpp:95-228).
    [fail] says whether handle_block fails if this is the step that calls it. *)
Definition tstep (n : Z) (i : nat) (fail : bool) (g : shared) (t : thread) : option (shared * thread * wake * list event) :=
  let '(pc, lt) := t in
  let go (g' : shared) (pc' : cpc) := Some (g', (pc', lt), WNone, []) in
  match pc with
  | CStart => go g CLoop
  | CLoop => go g (if g_quit g then CExit else CTrig false)
  | CTrig true => None
  | CTrig false =>
    if negb (g_trigger g =? lt) || g_quit g then Some (g, (CInit, g_trigger g), WNone, []) else go g (CTrig true)
  | CInit => go g (CFetch (last_valid_offset (g_size g)) 0)
  | CFetch lvo last => go (set_cur g (u64 (g_cur g + BLOCK_SIZE))) (CEpoch lvo last (g_cur g))
  | CEpoch lvo last off => go g (CArrive lvo off (num_epochs g last off))
  | CArrive lvo off m =>
    if m =? 0 then go g (if lvo <=? off then CFin false else CWork lvo off)
    else
      let '(b, last) := bar_arrive n (g_bar g) in
      if last : bool then Some (set_bar g b, (CArrive lvo off (m - 1), lt), WBar, [])
      else go (set_bar g b) (if bar_pass b (b_gen b) then CArrive lvo off (m - 1) else CBar lvo off (m - 1) (b_gen b) true)
  | CBar lvo off m gen true => None
  | CBar lvo off m gen false => go g (if bar_pass (g_bar g) gen then CArrive lvo off m else CBar lvo off m gen true)
  | CWork lvo off => go g (if fail then CErr lvo off else CCall lvo off true)
  | CErr lvo off =>
    go (mkG (g_trigger g) (g_size g) (g_cb g) BIG_OFFSET_TO_STOP_NEW_WORK true (g_fin g) (g_fcb g) (g_bar g) (g_quit g) (g_k g))
       (CCall lvo off false)
  | CCall lvo off ok => Some (g, (CFetch lvo off, lt), WNone, [if g_cb g then EBlock off ok else ECrash])
  | CFin true => None
  | CFin false => go g (if g_fin g || g_quit g then CFinArrive else CFin true)
  | CFinArrive =>
    let '(b, last) := bar_arrive n (g_bar g) in
    if last : bool then Some (set_bar g b, (after_barrier i, lt), WBar, [])
    else go (set_bar g b) (if bar_pass b (b_gen b) then after_barrier i else CFinBar (b_gen b) true)
  | CFinBar gen true => None
  | CFinBar gen false => go g (if bar_pass (g_bar g) gen then after_barrier i else CFinBar gen true)
  | CReset =>
    if g_quit g then go g CLoop
    else go (mkG (g_trigger g) 0 false 0 false false false (g_bar g) (g_quit g) (g_k g)) (CCallback (g_error g) (g_fcb g))
  | CCallback err present => Some (g, (CLoop, lt), WNone, [if present then EDone (negb err) else ECrash])
  | CExit => None
  end.

(** _cv.notify_all() of the barrier, and _trigger_changed.notify_all(). (barrier.h:34, 48; DataCompressionStream.cpp:51, 83, 92.) *)
Definition wake_bar (t : thread) : thread :=
  match t with
  | (CBar lvo off m g _, lt) => (CBar lvo off m g false, lt)
  | (CFinBar g _, lt) => (CFinBar g false, lt)
  | _ => t
  end.
(** _trigger_changed.notify_all() (DataCompressionStream.cpp:51, 83, 92). *)
Definition wake_trig (t : thread) : thread :=
  match t with (CTrig _, lt) => (CTrig false, lt) | (CFin _, lt) => (CFin false, lt) | _ => t end.
(** A spurious wakeup of a thread that is asleep. (No counterpart in /repo: std::condition_variable::wait may return at any time, as in DataCompressionStream.cpp:113, 177 and barrier.h:37.) *)
Definition wake_any (t : thread) : option thread :=
  match t with
  | (CTrig true, _) | (CFin true, _) => Some (wake_trig t)
  | (CBar _ _ _ _ true, _) | (CFinBar _ true, _) => Some (wake_bar t)
  | _ => None
  end.

(** What the user is doing: idle, between the two parts of start(), running an operation, waiting for
    finalize_callback, in the destructor before / after the critical section. (DataCompressionStream.cpp:45-93.) *)
Inductive uphase := UIdle | UStarting | URunning | UFinalizing | UQuitting | UGone.
(** The stream, its threads, the thread that uses it, and the history. (include/lib842/stream/comp.h:85-117.) *)
Record cstate := mkC { c_g : shared; c_thr : list thread; c_user : uphase; c_m : Z; c_trace : list event }.

(** DataCompressionStream.cpp:63-67: the loop that computes _offset_sync_epoch_multiple_log2 (None: out of fuel). *)
Fixpoint epoch_loop (fuel : nat) (k m : Z) : option Z :=
  match fuel with
  | O => None
  | S f => if 0 <? m then epoch_loop f (u32 (k + 1)) (Z.shiftr m 1) else Some k
  end.
(** DataCompressionStream.cpp:59-68; None: the assertion fails. *)
Definition set_epoch (m : Z) : option Z :=
  if (m mod BLOCK_SIZE =? 0) && (Z.land m (u64 (m - 1)) =? 0) then epoch_loop 65 UINT_MAX m else None.

(** Actions: a step of a thread, a spurious wakeup, a call of the user.
    AStart1/AStart2: start(), lines 77-79 and 81-83; AFinalize: lines 86-93;
    AQuit1/AQuit2: the destructor, line 48 and lines 50-52; ASetEpoch: lines 59-68. *)
Inductive action :=
| AThread (i : nat) (fail : bool) | ASpurious (i : nat)
| ASetEpoch (m : Z) | AStart1 (size : Z) | AStart2 | AFinalize (cancel : bool) | AQuit1 | AQuit2.

(** One step of the whole: of a thread (DataCompressionStream.cpp:95-228), of the user (DataCompressionStream.cpp:45-93), or a spurious wake-up. *)
Definition cstep (a : action) (s : cstate) : option cstate :=
  let g := c_g s in let thr := c_thr s in let tr := c_trace s in
  match a with
  | AThread i fail =>
    match nth_error thr i with
    | None => None
    | Some t =>
      match tstep (lenZ thr) i fail g t with
      | None => None
      | Some (g', t', w, evs) =>
        let thr' := setnth i t' (match w with WNone => thr | WBar => map wake_bar thr end) in
        let user' := match evs with [EDone _] => (match c_user s with UFinalizing => UIdle | u => u end) | _ => c_user s end in
        Some (mkC g' thr' user' (c_m s) (evs ++ tr))
      end
    end
  | ASpurious i =>
    match nth_error thr i with
    | None => None
    | Some t => match wake_any t with None => None | Some t' => Some (mkC g (setnth i t' thr) (c_user s) (c_m s) tr) end
    end
  | ASetEpoch m =>
    match c_user s with
    | UIdle =>
      if (0 <=? m) && (m <? 2 ^ 64) then
        match set_epoch m with
        | Some k => Some (mkC (mkG (g_trigger g) (g_size g) (g_cb g) (g_cur g) (g_error g) (g_fin g) (g_fcb g) (g_bar g) (g_quit g) k) thr (c_user s) m tr)
        | None => None
        end
      else None
    | _ => None
    end
  | AStart1 size =>
    match c_user s with
    | UIdle =>
      if (0 <=? size) && (size <=? 2 ^ 63) then
        Some (mkC (mkG (g_trigger g) size true (g_cur g) (g_error g) (g_fin g) (g_fcb g) (g_bar g) (g_quit g) (g_k g)) thr UStarting (c_m s)
                  (EStart size (c_m s) :: tr))
      else None
    | _ => None
    end
  | AStart2 =>
    match c_user s with
    | UStarting =>
      Some (mkC (mkG (u32 (g_trigger g + 1)) (g_size g) (g_cb g) (g_cur g) (g_error g) (g_fin g) (g_fcb g) (g_bar g) (g_quit g) (g_k g))
                (map wake_trig thr) URunning (c_m s) tr)
    | _ => None
    end
  | AFinalize cancel =>
    match c_user s with
    | URunning =>
      Some (mkC (mkG (g_trigger g) (g_size g) (g_cb g) (if cancel then BIG_OFFSET_TO_STOP_NEW_WORK else g_cur g) (g_error g) true true (g_bar g) (g_quit g) (g_k g))
                (map wake_trig thr) UFinalizing (c_m s) (EFinalize cancel :: tr))
    | _ => None
    end
  | AQuit1 =>
    match c_user s with
    | UIdle | URunning | UFinalizing =>
      Some (mkC (mkG (g_trigger g) (g_size g) (g_cb g) (g_cur g) (g_error g) (g_fin g) (g_fcb g) (g_bar g) true (g_k g)) thr UQuitting (c_m s) (EQuit :: tr))
    | _ => None
    end
  | AQuit2 =>
    match c_user s with
    | UQuitting =>
      Some (mkC (mkG (g_trigger g) (g_size g) (g_cb g) BIG_OFFSET_TO_STOP_NEW_WORK (g_error g) (g_fin g) (g_fcb g) (bar_interrupt (g_bar g)) (g_quit g) (g_k g))
                (map wake_bar (map wake_trig thr)) UGone (c_m s) tr)
    | _ => None
    end
  end.

(** DataCompressionStream.cpp:25-40: a new stream with [n] threads. *)
Definition new_stream (n : nat) : cstate :=
  mkC (mkG 0 0 false 0 false false false bar_init false UINT_MAX) (List.repeat (CStart, 0) n) UIdle 0 [].
