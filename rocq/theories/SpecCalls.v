(** What the caller of a library function observes. *)
From Coq Require Import ZArith List Bool.
From Verif Require Import CBase.
Import ListNotations.
Open Scope Z_scope.

(** A call returns (return value, final *olen, final memory at [out]); the caller
    looks at the return value, *olen and the first *olen bytes of [out]. *)
Definition observed (r : outcome (Z * Z * list Z)) : outcome (Z * Z * list Z) :=
  match r with
  | Done (ret, n, m) => Done (ret, n, firstn (Z.to_nat n) m)
  | Undef => Undef
  | NoFuel => NoFuel
  end.

(** [ceil(b / 64) * 8]: bytes needed for [b] bits in whole 64-bit words. *)
Definition words64 (b : Z) : Z := 8 * ((b + 63) / 64).
