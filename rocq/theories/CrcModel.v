(** Model of /repo/src/common/crc32.h (crc32_be), of the table of
    /repo/src/common/crc32table.h and of its generator
    /repo/src/tools/gen_crc32table.c. *)
From Coq Require Import ZArith List Bool.
From Verif Require Import CBase CrcTable.
Import ListNotations.
Open Scope Z_scope.

(** crc32table.h:4-9: macro [tobe]. *)
Definition tobe (e : endian) (x : Z) : Z :=
  match e with
  | LE =>
    Z.lor (Z.lor (Z.lor
      (u32 (Z.shiftl (Z.land x 0x000000FF) 24)) (u32 (Z.shiftl (Z.land x 0x0000FF00) 8)))
      (Z.shiftr (Z.land x 0x00FF0000) 8)) (Z.shiftr (Z.land x 0xFF000000) 24)
  | BE => x
  end.

(** crc32table.h:10-530: [crc32table_be[k][i & 255]]; every entry of the literal
    table is wrapped in [tobe].  The index is masked as in crc32.h:13-23. *)
Definition crc_tab (e : endian) (k : nat) (i : Z) : Z :=
  tobe e (nth (Z.to_nat (Z.land i 255)) (nth k crc32table_literal []) 0).

(** crc32.h:13 / 19: DO_CRC. *)
Definition do_crc (e : endian) (crc x : Z) : Z :=
  match e with
  | LE => Z.lxor (crc_tab e 0 (Z.lxor crc x)) (Z.shiftr crc 8)
  | BE => Z.lxor (crc_tab e 0 (Z.lxor (Z.shiftr crc 24) x)) (u32 (Z.shiftl crc 8))
  end.

(** crc32.h:14-15 / 20-21: DO_CRC4. *)
Definition do_crc4 (e : endian) (q : Z) : Z :=
  match e with
  | LE => Z.lxor (Z.lxor (Z.lxor (crc_tab e 3 q) (crc_tab e 2 (Z.shiftr q 8)))
                 (crc_tab e 1 (Z.shiftr q 16))) (crc_tab e 0 (Z.shiftr q 24))
  | BE => Z.lxor (Z.lxor (Z.lxor (crc_tab e 0 q) (crc_tab e 1 (Z.shiftr q 8)))
                 (crc_tab e 2 (Z.shiftr q 16))) (crc_tab e 3 (Z.shiftr q 24))
  end.

(** crc32.h:16-17 / 22-23: DO_CRC8. *)
Definition do_crc8 (e : endian) (q : Z) : Z :=
  match e with
  | LE => Z.lxor (Z.lxor (Z.lxor (crc_tab e 7 q) (crc_tab e 6 (Z.shiftr q 8)))
                 (crc_tab e 5 (Z.shiftr q 16))) (crc_tab e 4 (Z.shiftr q 24))
  | BE => Z.lxor (Z.lxor (Z.lxor (crc_tab e 4 q) (crc_tab e 5 (Z.shiftr q 8)))
                 (crc_tab e 6 (Z.shiftr q 16))) (crc_tab e 7 (Z.shiftr q 24))
  end.

(** crc32.h:35-40: alignment prologue.  [addr] is the address of [buf[0]], [i]
    the current offset; the loop runs while the address is not a multiple of 4
    and bytes remain.  At most 3 iterations: bounded by the fuel [k]. *)
Fixpoint crc_prologue (k : nat) (e : endian) (addr : Z) (buf : list Z) (crc i len : Z)
  : outcome (Z * Z * Z) :=
  if negb (Z.land (addr + i) 3 =? 0) && negb (len =? 0) then
    match k with
    | O => NoFuel
    | S k' => b <- load8 buf i ;; crc_prologue k' e addr buf (do_crc e crc b) (i + 1) (len - 1)
    end
  else Done (crc, i, len).

(** crc32.h:48-53: slicing-by-8 main loop, [k] iterations of 8 bytes. *)
Fixpoint crc_body (k : nat) (e : endian) (buf : list Z) (crc i : Z) : outcome (Z * Z) :=
  match k with
  | O => Done (crc, i)
  | S k' =>
    w1 <- load32 e buf i ;;
    let crc1 := do_crc8 e (Z.lxor crc w1) in
    w2 <- load32 e buf (i + 4) ;;
    crc_body k' e buf (Z.lxor crc1 (do_crc4 e w2)) (i + 8)
  end.

(** crc32.h:57-62: the last bytes. *)
Fixpoint crc_tail (k : nat) (e : endian) (buf : list Z) (crc i : Z) : outcome Z :=
  match k with
  | O => Done crc
  | S k' => b <- load8 buf i ;; crc_tail k' e buf (do_crc e crc b) (i + 1)
  end.

(** crc32.h:10-64: crc32_be(crc, buf, len) for a buffer of [len] bytes at
    address [addr]. *)
Definition crc32_be (e : endian) (addr : Z) (crc : Z) (buf : list Z) (len : Z) : outcome Z :=
  '(crc1, i1, len1) <- crc_prologue 4 e addr buf crc 0 len ;;
  '(crc2, i2) <- crc_body (Z.to_nat (Z.shiftr len1 3)) e buf crc1 i1 ;;
  crc3 <- crc_tail (Z.to_nat (Z.land len1 7)) e buf crc2 i2 ;;
  Done (swap_be_to_native32 e crc3).

(** gen_crc32table.c:6. *)
Definition CRCPOLY_BE : Z := 0x04c11db7.

(** gen_crc32table.c:17-21: first row.  One round of the outer loop appends
    [crc ^ t[j]] for [j < i]; eight rounds for i = 1, 2, 4, ..., 128. *)
Fixpoint gen_row0 (rounds : nat) (crc : Z) (t : list Z) : list Z :=
  match rounds with
  | O => t
  | S r =>
    let crc' := Z.lxor (u32 (Z.shiftl crc 1)) (if Z.land crc 0x80000000 =? 0 then 0 else CRCPOLY_BE) in
    gen_row0 r crc' (t ++ map (Z.lxor crc') t)
  end.
(** gen_crc32table.c:13-21: crc32table_be[0], with the initial values of crc and of the first entry. *)
Definition gen_t0 : list Z := gen_row0 8 0x80000000 [0].

(** gen_crc32table.c:22-28: [crc32table_be[j][i]] for j >= 1, by the recurrence
    of the inner loop. *)
Definition gen_next (crc : Z) : Z :=
  Z.lxor (nth (Z.to_nat (Z.land (Z.shiftr crc 24) 0xff)) gen_t0 0) (u32 (Z.shiftl crc 8)).
(** gen_crc32table.c:22-28: the rows [row], ... of the table. *)
Fixpoint gen_rows (n : nat) (row : list Z) : list (list Z) :=
  match n with
  | O => []
  | S k => row :: gen_rows k (map gen_next row)
  end.
(** gen_crc32table.c:10-29: crc32init_be. *)
Definition crc32init_be : list (list Z) := gen_rows 8 gen_t0.
