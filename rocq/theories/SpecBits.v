(** Specification vocabulary: bit strings and byte strings.
    Independent of the model of the code. *)
From Coq Require Import ZArith List Bool.
Import ListNotations.
Open Scope Z_scope.

(** The [n] low bits of [v], most significant bit first. *)
Fixpoint bits_of (n : nat) (v : Z) : list bool :=
  match n with
  | O => []
  | S k => Z.testbit v (Z.of_nat k) :: bits_of k v
  end.

(** The unsigned number written by a bit string, most significant bit first. *)
Definition val (l : list bool) : Z :=
  fold_left (fun a (b : bool) => 2 * a + (if b then 1 else 0)) l 0.

(** A byte string: every element is in [0, 256). *)
Definition is_byte (b : Z) : Prop := 0 <= b < 256.
Definition is_bytes (l : list Z) : Prop := Forall is_byte l.

(** The bits of a byte string, each byte most significant bit first. *)
Definition bytes_bits (l : list Z) : list bool := flat_map (bits_of 8) l.

(** [n] consecutive elements of [l] from position [p]. *)
Definition slice {A} (p n : nat) (l : list A) : list A := firstn n (skipn p l).

(** [n] copies of [l] one after the other. *)
Definition copies {A} (n : nat) (l : list A) : list A := concat (List.repeat l n).
