(** When the OpenCL kernel reads behind its output chunk (C43). *)
From Coq Require Import ZArith List Bool Lia.
From Verif Require Import SpecBits CBase OclModel SpecOcl OclOverread.
Import ListNotations.
Open Scope Z_scope.

(** C43: the memory [tail] behind the output does not matter, except in one case.
    Whatever the input is, the decoding of a chunk either has the same outcome with and without [tail], and leaves [tail] as it is,
    or it is undefined without [tail]; then the bytes written so far have filled the output up to its last byte or the byte before it,
    and with [tail] the same call reports an error.  So an access behind the output is never made on the way to a success. *)
Theorem C43_overread_only_when_full : forall e inp ilen out tail olen,
  is_bytes inp -> is_bytes out -> is_bytes tail -> 0 <= ilen -> 8 * ((ilen + 7) / 8) <= lenZ inp ->
  0 <= olen <= lenZ out -> olen + 2 <= lenZ out + lenZ tail -> olen < 2 ^ 63 ->
  (exists ret n m, decompress_core e inp ilen out olen = Done (ret, n, m) /\ decompress_core e inp ilen (out ++ tail) olen = Done (ret, n, m ++ tail)) \/
  (decompress_core e inp ilen out olen = Undef /\
   exists ret w, (ret = - EINVAL \/ ret = - ENOSPC) /\ lenZ w <= olen /\ lenZ out < lenZ w + 2 /\
     decompress_core e inp ilen (out ++ tail) olen = Done (ret, 0, w ++ skipn (length w) (out ++ tail))).
Proof. exact overread. Qed.
Print Assumptions C43_overread_only_when_full.

(** Both cases: the stream has eight bytes of data, then an index to the last two of them. *)
Example C43_overread_case :
  let inp := [0; 8; 16; 24; 32; 40; 48; 56; 68; 128; 192; 192; 192; 252; 0; 0; 0; 0; 0; 0; 0; 0; 0; 0] in
  let out := List.repeat 170 8 in
  decompress_core LE inp 24 out 8 = Undef /\
  decompress_core LE inp 24 (out ++ [1; 2]) 8 = Done (- ENOSPC, 0, [1; 2; 3; 4; 5; 6; 7; 8; 1; 2]) /\
  decompress_core LE inp 24 (List.repeat 170 9) 9 = Undef /\
  decompress_core LE inp 24 (List.repeat 170 10) 10 = Done (- ENOSPC, 0, [1; 2; 3; 4; 5; 6; 7; 8; 170; 170]).
Proof. vm_compute. auto. Qed.
