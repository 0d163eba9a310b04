(** What a data race between two threads of a GPU is. *)
From Coq Require Import ZArith List.
From Verif Require Import CBase GpuModel.
Import ListNotations.
Open Scope Z_scope.

(** The next access of a thread writes byte [j] of buffer [b]; it reads or writes it. *)
Definition writes (p : prog unit) (b : nat) (j : Z) : Prop :=
  match p with Store b' i bs _ => b' = b /\ i <= j < i + lenZ bs | _ => False end.
Definition accesses (p : prog unit) (b : nat) (j : Z) : Prop :=
  match p with
  | Load b' i n _ => b' = b /\ i <= j < i + n
  | Store b' i bs _ => b' = b /\ i <= j < i + lenZ bs
  | _ => False
  end.
(** Two different threads are both about to access the same byte, one of them to write it. *)
Definition data_race (s : gsys) : Prop :=
  exists t u p q b j, t <> u /\ nth_error (g_thr s) t = Some p /\ nth_error (g_thr s) u = Some q /\ writes p b j /\ accesses q b j.
