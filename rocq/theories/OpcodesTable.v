(** The tables of /repo/src/common/opcodes.h (generated by tools/gen_opcodes.py). *)
From Coq Require Import ZArith List.
From Verif Require Import SerialCompModel.
Import ListNotations.
Open Scope Z_scope.

(** common/842.h:121-123: widths of literal arguments. *)
Definition D2_BITS : Z := 16.
(** common/842.h:122. *)
Definition D4_BITS : Z := 32.
(** common/842.h:123. *)
Definition D8_BITS : Z := 64.

(** opcodes.h:6-231: ops_dict. *)
Definition ops_dict : list Z := [
  0; 0; 0; 0; 0; 0; 0; 0; 0; 0; 0; 0; 0; 0; 0; 0;
  0; 0; 0; 10; 0; 0; 0; 0; 0; 0; 0; 0; 0; 0; 0; 0;
  5; 0; 0; 0; 0; 0; 0; 0; 0; 0; 0; 0; 0; 2; 0; 0;
  0; 0; 0; 0; 15; 0; 0; 0; 0; 0; 0; 0; 0; 0; 0; 0;
  0; 12; 0; 0; 0; 0; 0; 1; 0; 0; 0; 0; 0; 0; 7; 20;
  0; 0; 0; 0; 0; 0; 0; 0; 0; 0; 0; 11; 0; 0; 0; 0;
  0; 17; 0; 0; 0; 0; 0; 0; 6; 0; 0; 0; 0; 0; 0; 0;
  0; 0; 0; 0; 0; 3; 0; 0; 0; 0; 0; 16; 0; 22; 0; 0;
  0; 0; 0; 0; 4; 0; 0; 0; 13; 0; 0; 0; 0; 0; 0; 0;
  0; 0; 0; 0; 0; 8; 0; 21; 14; 0; 0; 0; 0; 0; 0; 0;
  0; 0; 0; 0; 0; 9; 0; 0; 0; 18; 0; 0; 0; 0; 0; 0;
  0; 0; 0; 0; 0; 0; 0; 0; 19; 0; 0; 0; 0; 0; 0; 0;
  0; 0; 0; 0; 23; 0; 0; 0; 0; 0; 0; 0; 0; 0; 0; 0;
  0; 0; 0; 0; 24; 0; 0; 0; 0; 0; 0; 0; 0; 0; 0; 25 ].

(** opcodes.h:235-287: templates, the table used when BRANCH_FREE is 1: for each
    of the four columns, the position in dataAndIndices and the width in bits. *)
Definition templates : list (list (Z * Z)) := [
  [(6, D8_BITS); (15, 0); (15, 0); (15, 0)];
  [(4, D4_BITS); (2, D2_BITS); (10, I2_BITS); (15, 0)];
  [(4, D4_BITS); (9, I2_BITS); (3, D2_BITS); (15, 0)];
  [(4, D4_BITS); (9, I2_BITS); (10, I2_BITS); (15, 0)];
  [(4, D4_BITS); (12, I4_BITS); (15, 0); (15, 0)];
  [(0, D2_BITS); (8, I2_BITS); (5, D4_BITS); (15, 0)];
  [(0, D2_BITS); (8, I2_BITS); (2, D2_BITS); (10, I2_BITS)];
  [(0, D2_BITS); (8, I2_BITS); (9, I2_BITS); (3, D2_BITS)];
  [(0, D2_BITS); (8, I2_BITS); (9, I2_BITS); (10, I2_BITS)];
  [(0, D2_BITS); (8, I2_BITS); (12, I4_BITS); (15, 0)];
  [(7, I2_BITS); (1, D2_BITS); (5, D4_BITS); (15, 0)];
  [(7, I2_BITS); (14, D4_BITS); (10, I2_BITS); (15, 0)];
  [(7, I2_BITS); (1, D2_BITS); (9, I2_BITS); (3, D2_BITS)];
  [(7, I2_BITS); (1, D2_BITS); (9, I2_BITS); (10, I2_BITS)];
  [(7, I2_BITS); (1, D2_BITS); (12, I4_BITS); (15, 0)];
  [(7, I2_BITS); (8, I2_BITS); (5, D4_BITS); (15, 0)];
  [(7, I2_BITS); (8, I2_BITS); (2, D2_BITS); (10, I2_BITS)];
  [(7, I2_BITS); (8, I2_BITS); (9, I2_BITS); (3, D2_BITS)];
  [(7, I2_BITS); (8, I2_BITS); (9, I2_BITS); (10, I2_BITS)];
  [(7, I2_BITS); (8, I2_BITS); (12, I4_BITS); (15, 0)];
  [(11, I4_BITS); (5, D4_BITS); (15, 0); (15, 0)];
  [(11, I4_BITS); (2, D2_BITS); (10, I2_BITS); (15, 0)];
  [(11, I4_BITS); (9, I2_BITS); (3, D2_BITS); (15, 0)];
  [(11, I4_BITS); (9, I2_BITS); (10, I2_BITS); (15, 0)];
  [(11, I4_BITS); (12, I4_BITS); (15, 0); (15, 0)];
  [(13, I8_BITS); (15, 0); (15, 0); (15, 0)] ].
