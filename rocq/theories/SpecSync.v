(** Specification vocabulary for executions of transition systems and for the
    traces of barrier and latch. *)
From Coq Require Import ZArith List Bool.
From Verif Require Import CBase ConcLib BarrierModel.
Import ListNotations.
Open Scope Z_scope.

(** The states reachable from [init] by the steps of [step]. *)
Inductive reachable {A S} (step : A -> S -> option S) (init : S) : S -> Prop :=
| re_init : reachable step init init
| re_step : forall a s s', reachable step init s -> step a s = Some s' -> reachable step init s'.

(** [n] threads, none of which has called the barrier yet. *)
Definition barrier_start (n : nat) : bsys := mkBS bar_init (List.repeat BOut n) [].
(** Calls of arrive_and_wait made by thread [i], and how many of them have returned. *)
Definition calls (i : nat) (s : bsys) : Z := cnt (fun ev => match ev with BCall j => Nat.eqb i j | _ => false end) (bs_trace s).
Definition returns (i : nat) (s : bsys) : Z := cnt (fun ev => match ev with BReturn j => Nat.eqb i j | _ => false end) (bs_trace s).
Definition interrupted (s : bsys) : Prop := b_intr (bs_bar s) = true.

(** A latch with initial value [v] and [n] threads that may wait. *)
Definition latch_start (v : Z) (n : nat) : lsys := mkLS v (List.repeat LOut n) [].
Definition downs (s : lsys) : Z := cnt (fun ev => match ev with LDown => true | _ => false end) (ls_trace s).

(** The state after the actions [l], one after the other. *)
Fixpoint run {A S} (step : A -> S -> option S) (l : list A) (s : S) : option S :=
  match l with [] => Some s | a :: r => match step a s with Some s' => run step r s' | None => None end end.
