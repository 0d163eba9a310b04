(** C106: decompression can be repeated with a larger buffer.
    [observed] is what the caller sees: return value, size and that many bytes of output. *)
From Coq Require Import ZArith List Bool Lia.
From Verif Require Import SpecBits SpecCalls CBase SerialDecompModel OptDecompModel OclModel Capacity CapacityOcl CapacityOclEnough.
Import ListNotations.
Open Scope Z_scope.

(** C106: a call of sw842_decompress with some capacity either says -ENOSPC, or its result is final: with every larger buffer
    (at any address, with any content, on any host) the result is the same.  The input may be malformed. *)
Theorem C106_sw842_larger_buffer : forall e e' oaddr oaddr' inp out out' olen olen',
  is_bytes inp -> is_bytes out -> is_bytes out' -> 0 <= olen <= lenZ out -> olen <= olen' -> olen' <= lenZ out' -> olen' < 2 ^ 63 ->
  (exists m, sw842_decompress e oaddr inp out olen = Done (- ENOSPC, 0, m)) \/
  observed (sw842_decompress e oaddr inp out olen) = observed (sw842_decompress e' oaddr' inp out' olen').
Proof. exact larger_sw. Qed.
Print Assumptions C106_sw842_larger_buffer.
(** C106: and the repetition ends: with 512/11 times the number of bits of the input as capacity it never says -ENOSPC
    (for sw842_decompress as long as this is not above UINT_MAX, see C46). *)
Theorem C106_sw842_enough : forall e oaddr inp out olen n m,
  is_bytes inp -> is_bytes out -> 512 * (8 * lenZ inp) <= 11 * olen -> olen <= lenZ out -> olen < 2 ^ 63 -> 512 * (8 * lenZ inp) <= 11 * UINT_MAX ->
  sw842_decompress e oaddr inp out olen <> Done (- ENOSPC, n, m).
Proof. intros e oaddr inp out olen n m Hi Ho H1 H2 H3 H4. apply enough_sw; auto; lia. Qed.
Print Assumptions C106_sw842_enough.

(** C106: the same for optsw842_decompress in aligned buffers (in others it is sw842_decompress). *)
Theorem C106_optsw842_larger_buffer : forall e e' iaddr oaddr iaddr' oaddr' inp out out' olen olen',
  is_bytes inp -> is_bytes out -> is_bytes out' -> iaddr mod 8 = 0 -> oaddr mod 8 = 0 -> iaddr' mod 8 = 0 -> oaddr' mod 8 = 0 ->
  0 <= olen <= lenZ out -> olen <= olen' -> olen' <= lenZ out' -> olen' < 2 ^ 63 ->
  (exists m, optsw842_decompress e iaddr oaddr inp out olen = Done (- ENOSPC, 0, m)) \/
  observed (optsw842_decompress e iaddr oaddr inp out olen) = observed (optsw842_decompress e' iaddr' oaddr' inp out' olen').
Proof. exact larger_opt. Qed.
Print Assumptions C106_optsw842_larger_buffer.
Theorem C106_optsw842_enough : forall e iaddr oaddr inp out olen n m,
  is_bytes inp -> is_bytes out -> 512 * (8 * lenZ inp) <= 11 * olen -> olen <= lenZ out -> olen < 2 ^ 63 -> iaddr mod 8 = 0 -> oaddr mod 8 = 0 ->
  optsw842_decompress e iaddr oaddr inp out olen <> Done (- ENOSPC, n, m).
Proof. intros e iaddr oaddr inp out olen n m Hi Ho H1 H2 H3 H4 H5. apply enough_opt; auto; lia. Qed.
Print Assumptions C106_optsw842_enough.

(** C106: the same for one chunk on the OpenCL device (with the two bytes behind the chunk that C43 is about). *)
Theorem C106_ocl_larger_buffer : forall e e' inp ilen out out' olen olen',
  is_bytes inp -> is_bytes out -> is_bytes out' -> 0 <= ilen -> 8 * ((ilen + 7) / 8) <= lenZ inp ->
  0 <= olen -> olen + 2 <= lenZ out -> olen <= olen' -> olen' + 2 <= lenZ out' -> olen' < 2 ^ 63 ->
  (exists m, decompress_core e inp ilen out olen = Done (- ENOSPC, 0, m)) \/
  observed (decompress_core e inp ilen out olen) = observed (decompress_core e' inp ilen out' olen').
Proof. exact larger_core. Qed.
Print Assumptions C106_ocl_larger_buffer.
Theorem C106_ocl_enough : forall e inp ilen out olen n m,
  is_bytes inp -> is_bytes out -> 0 <= ilen -> 8 * ((ilen + 7) / 8) <= lenZ inp -> 512 * (8 * ilen) <= 11 * olen -> olen <= lenZ out -> olen < 2 ^ 63 ->
  decompress_core e inp ilen out olen <> Done (- ENOSPC, n, m).
Proof. intros e inp ilen out olen n m Hi Ho H1 H2 H3 H4 H5. apply enough_core; auto; lia. Qed.
Print Assumptions C106_ocl_enough.

(** A zero block, a repetition of it 64 times, the end and the CRC: 520 bytes from 8. *)
Definition zeros_520 : list Z := [230; 255; 240; 0; 0; 0; 0; 0].
Definition room (n : nat) : list Z := List.repeat 165 n.
Example C106_case :
  observed (sw842_decompress LE 0 zeros_520 (room 600) 519) = Done (- ENOSPC, 0, []) /\
  observed (sw842_decompress LE 0 zeros_520 (room 600) 520) = Done (0, 520, List.repeat 0 520) /\
  observed (optsw842_decompress BE 0 0 zeros_520 (room 600) 519) = Done (- ENOSPC, 0, []) /\
  observed (optsw842_decompress BE 0 0 zeros_520 (room 600) 600) = Done (0, 520, List.repeat 0 520) /\
  observed (decompress_core LE zeros_520 8 (room 600) 519) = Done (- ENOSPC, 0, []) /\
  observed (decompress_core LE zeros_520 8 (room 600) 598) = Done (0, 520, List.repeat 0 520).
Proof. vm_compute. auto 10. Qed.
