(** Properties C12, C13, C14 (checksum). *)
From Coq Require Import ZArith List Bool Lia.
From Verif Require Import SpecBits SpecCrc CBase CrcTable CrcModel CrcFacts.
Import ListNotations.
Open Scope Z_scope.

(** C12: crc32_be(0, buf, len) is the bit-serial CRC-32 (polynomial 0x04c11db7, most
    significant bit first, initial value 0, no final xor) of the first [len] bytes,
    for every buffer, length, address and host endianness. *)
Theorem C12_crc32_be_is_bitwise_crc : forall e addr buf len,
  is_bytes buf -> 0 <= len <= lenZ buf ->
  crc32_be e addr 0 buf len = Done (crc32 (firstn (Z.to_nat len) buf)).
Proof. exact c12. Qed.
Print Assumptions C12_crc32_be_is_bitwise_crc.
(** "123456789" at an odd address; CRC-32/POSIX-like value without length and xor. *)
Example C12_case : crc32_be LE 3 0 [49;50;51;52;53;54;55;56;57] 9 = Done 0x89a1897f
  /\ crc32 [49;50;51;52;53;54;55;56;57] = 0x89a1897f.
Proof. split; vm_compute; reflexivity. Qed.

(** C13: the committed table is the generator's output ... *)
Theorem C13_table_is_generated : crc32table_literal = crc32init_be.
Proof. exact c13_generator. Qed.
Print Assumptions C13_table_is_generated.
(** ... has 8 rows of 256 entries, and entry [k][i] is the CRC of byte i followed by k
    zero bytes. *)
Theorem C13_table_shape :
  length crc32table_literal = 8%nat /\ Forall (fun row => length row = 256%nat) crc32table_literal.
Proof. exact c13_shape. Qed.
Print Assumptions C13_table_shape.
Theorem C13_table_entries : forall k i, (k < 8)%nat -> (i < 256)%nat ->
  nth i (nth k crc32table_literal []) 0 = crc32 (Z.of_nat i :: List.repeat 0 k).
Proof. exact c13_entries. Qed.
Print Assumptions C13_table_entries.
Example C13_case : nth 1 (nth 0 crc32table_literal []) 0 = 0x04c11db7.
Proof. vm_compute. reflexivity. Qed.

(** C14: two byte strings that differ, but only inside a window of at most 32
    consecutive bits (p and q are the common bits before and after), have
    different checksums. *)
Theorem C14_crc_detects_bursts : forall e e' addr addr' a b p u v q ca cb,
  is_bytes a -> is_bytes b ->
  bytes_bits a = p ++ u ++ q -> bytes_bits b = p ++ v ++ q ->
  length u = length v -> (length u <= 32)%nat -> u <> v ->
  crc32_be e addr 0 a (lenZ a) = Done ca ->
  crc32_be e' addr' 0 b (lenZ b) = Done cb -> ca <> cb.
Proof. exact c14. Qed.
Print Assumptions C14_crc_detects_bursts.
Example C14_case : exists p u v q ca cb,
  bytes_bits [1;2;3;4;5;6;7;8;9;10] = p ++ u ++ q /\ bytes_bits [1;2;3;4;255;0;77;9;9;10] = p ++ v ++ q /\
  length u = length v /\ (length u <= 32)%nat /\ u <> v /\
  crc32_be LE 0 0 [1;2;3;4;5;6;7;8;9;10] 10 = Done ca /\ crc32_be BE 1 0 [1;2;3;4;255;0;77;9;9;10] 10 = Done cb.
Proof.
  exists (bytes_bits [1;2;3;4]), (bytes_bits [5;6;7;8]), (bytes_bits [255;0;77;9]), (bytes_bits [9;10]).
  do 2 eexists. split; [reflexivity|]. split; [reflexivity|]. split; [reflexivity|]. split; [vm_compute; lia|].
  split; [discriminate|]. split; vm_compute; reflexivity.
Qed.
