(** Model of /repo/include/lib842/detail/barrier.h and latch.h.

    A critical section of a mutex is one atomic step.  A thread waiting on a
    condition variable is "asleep" until it is notified or woken spuriously;
    awake, it takes the mutex, evaluates the predicate and either leaves the
    wait or falls asleep again.  std::mutex and std::condition_variable behave
    as specified by C++. *)
From Coq Require Import ZArith List Bool.
From Verif Require Import CBase ConcLib.
Import ListNotations.
Open Scope Z_scope.

(** barrier.h:51-57: _count (ptrdiff_t), _generation (unsigned int), _interrupted. *)
Record barrier := mkBar { b_count : Z; b_gen : Z; b_intr : bool }.
(** barrier.h:21-26. *)
Definition bar_init : barrier := mkBar 0 0 false.
(** barrier.h:31-34: ++_count == _num_threads; the result says whether the caller was the last. *)
Definition bar_arrive (n : Z) (b : barrier) : barrier * bool :=
  let c := b_count b + 1 in
  if c =? n then (mkBar 0 (u32 (b_gen b + 1)) (b_intr b), true) else (mkBar c (b_gen b) (b_intr b), false).
(** barrier.h:38: the predicate of the wait. *)
Definition bar_pass (b : barrier) (g : Z) : bool := negb (b_gen b =? g) || b_intr b.
(** barrier.h:45-49. *)
Definition bar_interrupt (b : barrier) : barrier := mkBar (b_count b) (b_gen b) true.

(** ** A barrier used by a fixed set of threads *)
(** A thread is outside arrive_and_wait, or waits at barrier.h:37 with
    current_generation [g]. *)
Inductive bpc := BOut | BIn (g : Z) (asleep : bool).
(** The events: a call of arrive_and_wait (barrier.h:29) and its return (barrier.h:41). *)
Inductive bevent := BCall (i : nat) | BReturn (i : nat).
(** The barrier (barrier.h:51-57), its threads and the history. *)
Record bsys := mkBS { bs_bar : barrier; bs_thr : list bpc; bs_trace : list bevent }.
(** barrier.h:34,48: _cv.notify_all(). *)
Definition bwake (t : bpc) : bpc := match t with BIn g _ => BIn g false | BOut => BOut end.
(** Who acts next: a thread in arrive_and_wait (barrier.h:29-41), a spurious wake-up from the wait of barrier.h:37-39, interrupt() (barrier.h:45-49). *)
Inductive baction := BStep (i : nat) | BSpurious (i : nat) | BInterrupt.

(** barrier.h:29-41 arrive_and_wait by thread [i] (BStep: the call up to the first sleep or the
    return, or one evaluation of the predicate after a wakeup) and barrier.h:45-49 interrupt.
    The barrier was made for as many threads as there are.  The newest event comes first. *)
Definition bstep (a : baction) (s : bsys) : option bsys :=
  let b := bs_bar s in let thr := bs_thr s in let tr := bs_trace s in
  match a with
  | BStep i =>
    match nth_error thr i with
    | Some BOut =>
      let '(b', last) := bar_arrive (lenZ thr) b in
      if last : bool then Some (mkBS b' (map bwake thr) (BReturn i :: BCall i :: tr))
      else if bar_pass b' (b_gen b') then Some (mkBS b' thr (BReturn i :: BCall i :: tr))
      else Some (mkBS b' (setnth i (BIn (b_gen b') true) thr) (BCall i :: tr))
    | Some (BIn g false) =>
      if bar_pass b g then Some (mkBS b (setnth i BOut thr) (BReturn i :: tr))
      else Some (mkBS b (setnth i (BIn g true) thr) tr)
    | _ => None
    end
  | BSpurious i =>
    match nth_error thr i with
    | Some (BIn g true) => Some (mkBS b (setnth i (BIn g false) thr) tr)
    | _ => None
    end
  | BInterrupt => Some (mkBS (bar_interrupt b) (map bwake thr) tr)
  end.

(** ** A latch *)
(** latch.h: wait() by any number of threads, count_down() by anybody.
    [LIn asleep]: in the wait of latch.h:36. *)
Inductive lpc := LOut | LIn (asleep : bool) | LDone.
(** The events: count_down() was called (latch.h:27), wait() returned (latch.h:37). *)
Inductive levent := LDown | LReturn (i : nat).
(** _value (latch.h:42), the threads and the history. *)
Record lsys := mkLS { ls_value : Z; ls_thr : list lpc; ls_trace : list levent }.
(** latch.h:31: _cv.notify_all(). *)
Definition lwake (t : lpc) : lpc := match t with LIn _ => LIn false | _ => t end.
(** Who acts next: count_down() (latch.h:27-32), a thread in wait() (latch.h:34-37), a spurious wake-up from the wait of latch.h:36. *)
Inductive laction := LCountDown | LStep (i : nat) | LSpurious (i : nat).
(** latch.h:27-32 count_down (None: the assertion fails) and latch.h:34-37 wait.  A thread
    may call wait() again after it returned. *)
Definition lstep (a : laction) (s : lsys) : option lsys :=
  match a with
  | LCountDown =>
    if 0 <? ls_value s then Some (mkLS (ls_value s - 1) (map lwake (ls_thr s)) (LDown :: ls_trace s)) else None
  | LStep i =>
    match nth_error (ls_thr s) i with
    | Some (LIn true) => None
    | Some _ =>
      if ls_value s =? 0 then Some (mkLS (ls_value s) (setnth i LDone (ls_thr s)) (LReturn i :: ls_trace s))
      else Some (mkLS (ls_value s) (setnth i (LIn true) (ls_thr s)) (ls_trace s))
    | None => None
    end
  | LSpurious i =>
    match nth_error (ls_thr s) i with
    | Some (LIn true) => Some (mkLS (ls_value s) (setnth i (LIn false) (ls_thr s)) (ls_trace s))
    | _ => None
    end
  end.
