(** C99: the switches of the OpenCL kernel (decompress.cl). *)
From Coq Require Import ZArith List Bool Lia.
From Verif Require Import SpecBits SpecCrc Spec842 SpecCalls CBase SerialDecompModel OptDecompModel OclModel OptConfigModel SpecOptConfig SpecOclConfig OclConfigModel OclConfigProofs.
Import ListNotations.
Open Scope Z_scope.

(** The settings of the repository give the kernel the other properties speak about. *)
Theorem C99_default : forall e inp ilen out olen, core_with e true true true inp ilen out olen = decompress_core e inp ilen out olen.
Proof. exact c99_default. Qed.
Print Assumptions C99_default.
Example C99_default_case : forall e, core_with e true true true [230; 192; 240; 0; 0; 0; 0; 0] 8 (repeat 7 24) 16 = Done (0, 16, repeat 0 16 ++ repeat 7 8).
Proof. intros []; vm_compute; reflexivity. Qed.

(** Without USE_LOOKAHEAD_BUFFER the outcome is the same, byte for byte, whenever the words the lookahead reads are inside the buffer. *)
Theorem C99_lookahead : forall e crc inp ilen out olen, is_bytes inp -> is_bytes out ->
  0 <= ilen -> 8 * ((ilen + 7) / 8) <= lenZ inp -> 0 <= olen <= lenZ out -> olen < 2 ^ 63 ->
  core_with e true false crc inp ilen out olen = core_with e true true crc inp ilen out olen.
Proof. exact c99_lookahead. Qed.
Print Assumptions C99_lookahead.
Example C99_lookahead_case : forall e, core_with e true false true [230; 192; 240; 0; 0; 0; 0; 0] 8 (repeat 7 24) 16 = Done (0, 16, repeat 0 16 ++ repeat 7 8) /\
  core_with e true false true [230; 192; 240; 0; 0; 0; 0; 0] 8 (repeat 7 24) 8 = Done (- ENOSPC, 0, repeat 0 8 ++ repeat 7 16).
Proof. intros []; vm_compute; auto. Qed.

(** Without it, every size up to that of the buffer is safe, also one that is no multiple of 8: a chunk is decompressed to x exactly if its whole words hold x and x fits; *)
Theorem C99_exact : forall e crc inp ilen out olen x, is_bytes inp -> is_bytes out -> 0 <= ilen <= lenZ inp -> 0 <= olen <= lenZ out -> olen < 2 ^ 63 ->
  (observed (core_with e true false crc inp ilen out olen) = Done (0, lenZ x, x) <->
   kernel_842 crc (firstn (Z.to_nat (8 * (ilen / 8))) inp) x /\ lenZ x <= olen).
Proof. exact c99_exact. Qed.
Print Assumptions C99_exact.
(** ... and any other chunk gives an error, with nothing written behind the room. *)
Theorem C99_bounds : forall e crc inp ilen out olen, is_bytes inp -> is_bytes out -> 0 <= ilen <= lenZ inp -> 0 <= olen -> olen + 2 <= lenZ out -> olen < 2 ^ 63 ->
  exists ret n m, core_with e true false crc inp ilen out olen = Done (ret, n, m) /\
    (ret = 0 \/ ((ret = - EINVAL \/ ret = - ENOSPC) /\ n = 0)) /\ 0 <= n <= olen /\
    exists w, is_bytes w /\ lenZ w <= olen /\ m = w ++ skipn (length w) out.
Proof. exact c99_bounds. Qed.
Print Assumptions C99_bounds.
Example C99_exact_case : forall e, core_with e true false true [230; 192; 240; 0; 0; 0; 0; 0; 5] 9 (repeat 7 24) 16 = Done (0, 16, repeat 0 16 ++ repeat 7 8) /\
  core_with e true false true [230; 192; 240; 0; 0] 5 (repeat 7 24) 16 = Done (- EINVAL, 0, repeat 7 24).
Proof. intros []; vm_compute; auto. Qed.

(** The lookahead is what makes such a size, and an absent one (SIZE_MAX), unsafe: the same chunk is then read outside the buffer. *)
Theorem C99_lookahead_refuted : exists inp, is_bytes inp /\ kernel_842 true inp (repeat 0 16) /\ forall e,
  core_with e true true true (inp ++ [5]) (lenZ inp + 1) (repeat 7 24) 16 = Undef /\
  core_with e true true true inp SIZE_MAX (repeat 7 24) 16 = Undef /\
  core_with e true false true (inp ++ [5]) (lenZ inp + 1) (repeat 7 24) 16 = Done (0, 16, repeat 0 16 ++ repeat 7 8) /\
  core_with e true false true inp SIZE_MAX (repeat 7 24) 16 = Done (0, 16, repeat 0 16 ++ repeat 7 8).
Proof.
  exists [230; 192; 240; 0; 0; 0; 0; 0]. split. { repeat constructor; discriminate. } split; [|intros []; vm_compute; auto].
  assert (B : is_bytes [230; 192; 240; 0; 0; 0; 0; 0]) by (repeat constructor; discriminate).
  destruct (c99_exact LE true [230; 192; 240; 0; 0; 0; 0; 0] 8 (repeat 7 24) 16 (repeat 0 16) B ltac:(repeat constructor; discriminate) ltac:(cbv; split; discriminate) ltac:(cbv; split; discriminate) ltac:(reflexivity)) as [H _].
  destruct H as [H _]; [vm_compute; reflexivity|exact H].
Qed.
Print Assumptions C99_lookahead_refuted.

(** Without ENABLE_ERROR_HANDLING (and so without the lookahead), or with larger sizes: what the checked kernel decompresses, the other one decompresses to the same bytes; *)
Theorem C99_unchecked_same : forall e eh crc inp ilen olen ilen' olen' out n m, eh = false \/ (ilen <= ilen' /\ olen <= olen') ->
  core_with e true false crc inp ilen out olen = Done (0, n, m) -> core_with e eh false crc inp ilen' out olen' = Done (0, n, m).
Proof. intros e eh crc inp ilen olen ilen' olen' out n m H. now apply lax_core. Qed.
Print Assumptions C99_unchecked_same.
(** ... so every chunk that holds x is decompressed to x if the memory has room for x, whatever the sizes passed. *)
Theorem C99_unchecked : forall e eh crc inp k out x, is_bytes inp -> is_bytes out -> 0 <= k -> 8 * k <= lenZ inp -> lenZ x <= lenZ out -> lenZ out < 2 ^ 63 ->
  kernel_842 crc (firstn (Z.to_nat (8 * k)) inp) x ->
  forall ilen olen, eh = false \/ (8 * k <= ilen /\ lenZ x <= olen) -> observed (core_with e eh false crc inp ilen out olen) = Done (0, lenZ x, x).
Proof. exact c99_unchecked. Qed.
Print Assumptions C99_unchecked.
Example C99_unchecked_case : forall e, core_with e false false true [230; 192; 240; 0; 0; 0; 0; 0] 0 (repeat 7 24) 0 = Done (0, 16, repeat 0 16 ++ repeat 7 8).
Proof. intros []; vm_compute; reflexivity. Qed.

(** Any other chunk may be read behind its end, be written behind its room, or yield bytes that were in the output before. *)
Theorem C99_unchecked_refuted : forall e,
  (core_with e false false true [0; 8; 16; 24; 32; 40; 48; 56] 8 (repeat 7 16) 8 = Undef /\
   core_with e true false true [0; 8; 16; 24; 32; 40; 48; 56] 8 (repeat 7 16) 8 = Done (- EINVAL, 0, repeat 7 16)) /\
  (core_with e false false true [230; 192; 240; 0; 0; 0; 0; 0] 8 (repeat 7 24) 8 = Done (0, 16, repeat 0 16 ++ repeat 7 8) /\
   core_with e true false true [230; 192; 240; 0; 0; 0; 0; 0] 8 (repeat 7 24) 8 = Done (- ENOSPC, 0, repeat 0 8 ++ repeat 7 16)) /\
  (core_with e false false true [200; 7; 128; 0; 0; 0; 0; 0] 8 (repeat 7 16) 8 = Done (0, 8, repeat 7 16) /\
   core_with e false false true [200; 7; 128; 0; 0; 0; 0; 0] 8 (repeat 9 16) 8 = Done (0, 8, repeat 9 16) /\
   core_with e true false true [200; 7; 128; 0; 0; 0; 0; 0] 8 (repeat 7 16) 8 = Done (- EINVAL, 0, repeat 7 16)).
Proof. intros []; vm_compute; auto 10. Qed.
Print Assumptions C99_unchecked_refuted.

(** With DISABLE_CRC every chunk the repository's kernel decompresses gives the same; *)
Theorem C99_without_crc_same : forall e eh la inp ilen out olen n m,
  core_with e eh la true inp ilen out olen = Done (0, n, m) -> core_with e eh la false inp ilen out olen = Done (0, n, m).
Proof. exact c99_without_crc. Qed.
Print Assumptions C99_without_crc_same.
(** ... and chunks that end with the end template are decompressed too (C99_exact with [crc = false]), for example this one. *)
Example C99_without_crc_case : forall e,
  core_with e true true false [0; 8; 16; 24; 32; 40; 48; 56; 71; 128; 0; 0; 0; 0; 0; 0] 16 (repeat 7 16) 8 = Done (0, 8, [1; 2; 3; 4; 5; 6; 7; 8] ++ repeat 7 8).
Proof. intros []; vm_compute; reflexivity. Qed.

(** Whatever the switches of optsw842_compress and of the kernel: what the former writes at addresses that are multiples of 8, the latter restores, unless the one leaves out the CRC the other needs. *)
Theorem C99_round_trip : forall e e' strict ccrc eh la dcrc iaddr oaddr inp out olen n m out2 olen2,
  is_bytes inp -> lenZ inp mod 8 = 0 -> inp <> [] -> iaddr mod 8 = 0 -> oaddr mod 8 = 0 -> is_bytes out -> 0 <= olen <= lenZ out ->
  compress_with e strict ccrc iaddr oaddr inp out olen = Done (0, n, m) ->
  (ccrc = true \/ dcrc = false) -> (eh = true \/ la = false) ->
  is_bytes out2 -> lenZ inp <= olen2 <= lenZ out2 -> lenZ out2 < 2 ^ 63 ->
  observed (core_with e' eh la dcrc (firstn (Z.to_nat n) m) n out2 olen2) = Done (0, lenZ inp, inp).
Proof. exact c99_round_trip. Qed.
Print Assumptions C99_round_trip.
Example C99_round_trip_case : compress_with LE true false 0 0 [1; 2; 3; 4; 5; 6; 7; 8] (repeat 0 16) 16 = Done (0, 16, [0; 8; 16; 24; 32; 40; 48; 56; 71; 128; 0; 0; 0; 0; 0; 0]).
Proof. vm_compute. reflexivity. Qed.

(** Otherwise it may not: where the stream of [inp] without CRC leaves less than 32 bits in its last word, the kernel of the repository rejects it. *)
Theorem C99_missing_crc_refuted : exists inp n m, is_bytes inp /\ lenZ inp mod 8 = 0 /\ forall e e',
  compress_with e true false 0 0 inp (repeat 0 24) 24 = Done (0, n, m) /\
  observed (core_with e' true true true (firstn (Z.to_nat n) m) n (repeat 0 32) 32) = Done (- EINVAL, 0, []) /\
  observed (core_with e' true true false (firstn (Z.to_nat n) m) n (repeat 0 32) 32) = Done (0, lenZ inp, inp).
Proof.
  exists [1; 2; 3; 4; 5; 6; 7; 8; 1; 2; 3; 4; 5; 6; 9; 9], 16, [0; 8; 16; 24; 32; 40; 48; 56; 69; 128; 0; 65; 33; 62; 0; 0; 0; 0; 0; 0; 0; 0; 0; 0]. split. { repeat constructor; discriminate. } split; [reflexivity|].
  intros [] []; vm_compute; auto.
Qed.
Print Assumptions C99_missing_crc_refuted.
