(** Specification of the checksum: bit-serial CRC-32, polynomial 0x04c11db7,
    most significant bit first, initial value 0, no final xor. *)
From Coq Require Import ZArith List Bool.
From Verif Require Import SpecBits.
Import ListNotations.
Open Scope Z_scope.

Definition crc_poly : Z := 0x04c11db7.

(** Feed one message bit into the 32-bit shift register. *)
Definition crc_step (c : Z) (b : bool) : Z :=
  let shifted := (2 * c) mod 2 ^ 32 in
  if xorb (Z.testbit c 31) b then Z.lxor shifted crc_poly else shifted.

Definition crc_bits (c : Z) (m : list bool) : Z := fold_left crc_step m c.

Definition crc32 (data : list Z) : Z := crc_bits 0 (bytes_bits data).
