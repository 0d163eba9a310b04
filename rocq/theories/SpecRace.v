(** Specification vocabulary for data races: when two threads that share the members of an object
    may touch the same member at the same time.  Independent of the model. *)
From Coq Require Import List Bool.
Import ListNotations.

(** What orders accesses: the mutex of the stream, the mutex of its barrier; an operation on a
    std::atomic counts as an access that holds [MAtomic]. *)
Inductive guard := MStream | MBarrier | MAtomic.
(** An access to the variable [at_]: whether it writes, and the guards held. *)
Record access (L : Type) := mkAcc { at_ : L; wr : bool; held : list guard }.
Arguments mkAcc {L}. Arguments at_ {L}. Arguments wr {L}. Arguments held {L}.
(** [intro.races]: two accesses to the same variable conflict if one of them writes; they may
    happen at the same time if no guard is held by both. *)
Definition conflict {L} (a b : access L) : Prop :=
  at_ a = at_ b /\ (wr a = true \/ wr b = true) /\ (forall m, In m (held a) -> In m (held b) -> False).
(** Who accesses: the threads of the stream, and the user of the stream. *)
Inductive agent := Thr (i : nat) | User.
(** Two agents can take a step, and in these steps they access [l] at the same time.
    [about x a]: agent [x] can take a step that contains access [a]. *)
Definition race {L} (about : agent -> access L -> Prop) (l : L) : Prop :=
  exists x y a b, x <> y /\ about x a /\ about y b /\ conflict a b /\ at_ a = l.

(** ** What it means that a list of accesses describes a step *)
(** The step writes [l]. *)
Definition writes {L} (l : L) (accs : list (access L)) : Prop := exists a, In a accs /\ at_ a = l /\ wr a = true.
(** Two states agree on all that is read, or on all that is written; [same l g h]: [l] has the same value in [g] and [h]. *)
Definition reads_same {L G} (same : L -> G -> G -> Prop) (accs : list (access L)) (g h : G) : Prop :=
  Forall (fun a => wr a = false -> same (at_ a) g h) accs.
Definition writes_same {L G} (same : L -> G -> G -> Prop) (accs : list (access L)) (g h : G) : Prop :=
  Forall (fun a => wr a = true -> same (at_ a) g h) accs.
