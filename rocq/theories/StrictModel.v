(** Model of sw842_compress (/repo/src/serial/842_compress.c) with the switch SW842_STRICT of line 101 as a parameter. *)
From Coq Require Import ZArith List Bool.
From Verif Require Import CBase SerialCompModel.
Import ListNotations.
Open Scope Z_scope.

(** 842_compress.c:537-689 with SW842_STRICT = [strict] (line 101).  Lines 565-573: *olen is set to 0, and in strict mode a length that is not
    a multiple of 8 is refused before anything is written.  The rest is [sw842_compress]; the message on stderr is left out. *)
Definition sw842_compress_cfg (strict : bool) (e : endian) (addr : Z) (inp out : list Z) (olen : Z) : outcome (Z * Z * list Z) :=
  if strict && negb (lenZ inp mod 8 =? 0) then Done (- EINVAL, 0, out)
  else sw842_compress e addr inp out olen.
