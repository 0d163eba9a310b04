(** C98: the switches of the optimized codec. *)
From Coq Require Import ZArith List Bool Lia.
From Verif Require Import SpecBits SpecCrc Spec842 SpecCalls SpecOptConfig CBase BitsLemmas SerialCompModel SerialDecompModel OptCompModel OptDecompModel OptConfigModel OptConfigProofs.
Import ListNotations.
Open Scope Z_scope.

(** The model with LIB842_CUDA_STRICT and ENABLE_ERROR_HANDLING defined and DISABLE_CRC not defined is the model of the repository. *)
Theorem C98_default : forall e iaddr oaddr inp out olen,
  compress_with e true true iaddr oaddr inp out olen = optsw842_compress e iaddr oaddr inp out olen /\
  decompress_with e true true iaddr oaddr inp out olen = optsw842_decompress e iaddr oaddr inp out olen.
Proof. intros. split; [apply compress_default|apply decompress_default]. Qed.
Print Assumptions C98_default.

(** Whatever the switches of the compressor: the input determines the compressed bytes; they hold the input, with the CRC unless it is
    switched off, and have at most 69 bits per 8 bytes and 5 or 37 more, in whole words; the result is -ENOSPC exactly if they do not fit,
    and nothing beyond olen is written. *)
Theorem C98_output : forall strict crc inp, is_bytes inp -> lenZ inp mod 8 = 0 -> inp <> [] ->
  exists z, is_bytes z /\ holds_842 crc z inp /\ lenZ z mod 8 = 0 /\ lenZ z <= words64 (69 * (lenZ inp / 8) + 5 + (if crc then 32 else 0)) /\
  forall e iaddr oaddr out olen, is_bytes out -> 0 <= olen <= lenZ out -> iaddr mod 8 = 0 -> oaddr mod 8 = 0 ->
    observed (compress_with e strict crc iaddr oaddr inp out olen) = (if lenZ z <=? olen then Done (0, lenZ z, z) else Done (- ENOSPC, 0, [])) /\
    exists ret n m, compress_with e strict crc iaddr oaddr inp out olen = Done (ret, n, m) /\ length m = length out /\ skipn (Z.to_nat olen) m = skipn (Z.to_nat olen) out.
Proof. exact c98_output. Qed.
Print Assumptions C98_output.
(** Without LIB842_CUDA_STRICT, 16 zero bytes take 2 words, and not 1. *)
Example C98_output_case : forall e,
  observed (compress_with e false true 0 0 (repeat 0 16) (repeat 0 24) 24) = Done (0, 16, [0; 0; 0; 0; 0; 0; 0; 0; 6; 64; 60; 0; 0; 0; 0; 0]) /\
  observed (compress_with e true true 0 0 (repeat 0 16) (repeat 0 24) 24) = Done (0, 8, [230; 192; 240; 0; 0; 0; 0; 0]).
Proof. intros []; vm_compute; auto. Qed.

(** With the checks, and with or without the CRC: an input is decompressed to x exactly if it holds x and x fits; *)
Theorem C98_input : forall e crc iaddr oaddr inp out olen x,
  is_bytes inp -> is_bytes out -> 0 <= olen <= lenZ out -> olen < 2 ^ 63 -> iaddr mod 8 = 0 -> oaddr mod 8 = 0 ->
  (observed (decompress_with e true crc iaddr oaddr inp out olen) = Done (0, lenZ x, x) <-> holds_842 crc (firstn (8 * (length inp / 8)) inp) x /\ lenZ x <= olen).
Proof. exact c98_input. Qed.
Print Assumptions C98_input.
(** and the call always returns, with 0, -EINVAL or -ENOSPC, and writes only within olen. *)
Theorem C98_checked : forall e crc iaddr oaddr inp out olen,
  is_bytes inp -> is_bytes out -> 0 <= olen <= lenZ out -> olen < 2 ^ 63 -> iaddr mod 8 = 0 -> oaddr mod 8 = 0 ->
  exists ret n m, decompress_with e true crc iaddr oaddr inp out olen = Done (ret, n, m) /\
    (ret = 0 \/ ((ret = - EINVAL \/ ret = - ENOSPC) /\ n = 0)) /\ 0 <= n <= olen /\ exists w, is_bytes w /\ lenZ w <= olen /\ m = w ++ skipn (length w) out.
Proof. exact c98_frame. Qed.
Print Assumptions C98_checked.
Example C98_input_case : forall e,
  observed (decompress_with e true false 0 0 [0; 8; 16; 24; 32; 40; 48; 56; 71; 128; 0; 0; 0; 0; 0; 0] (repeat 0 8) 8) = Done (0, 8, [1; 2; 3; 4; 5; 6; 7; 8]) /\
  observed (decompress_with e true true 0 0 [0; 8; 16; 24; 32; 40; 48; 56; 71; 128; 0; 0; 0; 0; 0; 0] (repeat 0 8) 8) = Done (- EINVAL, 0, []).
Proof. intros []; vm_compute; auto. Qed.

(** Without ENABLE_ERROR_HANDLING: an input that holds x is decompressed to x if the buffer has room for it; *olen is not looked at. *)
Theorem C98_unchecked : forall e crc iaddr oaddr inp out olen x,
  is_bytes inp -> is_bytes out -> lenZ out < 2 ^ 63 -> iaddr mod 8 = 0 -> oaddr mod 8 = 0 ->
  holds_842 crc (firstn (8 * (length inp / 8)) inp) x -> lenZ x <= lenZ out ->
  decompress_with e false crc iaddr oaddr inp out olen = Done (0, lenZ x, x ++ skipn (length x) out).
Proof. exact c98_unchecked. Qed.
Print Assumptions C98_unchecked.
(** So whatever the checked function decompresses, this one decompresses to the same. *)
Theorem C98_unchecked_same : forall e crc iaddr oaddr inp out olen n m, iaddr mod 8 = 0 -> oaddr mod 8 = 0 ->
  decompress_with e true crc iaddr oaddr inp out olen = Done (0, n, m) -> decompress_with e false crc iaddr oaddr inp out olen = Done (0, n, m).
Proof. intros. eapply unchecked_same; eauto. Qed.
Print Assumptions C98_unchecked_same.
(** And without the CRC, whatever is decompressed with it. *)
Theorem C98_without_crc_same : forall e eh iaddr oaddr inp out olen n m,
  decompress_with e eh true iaddr oaddr inp out olen = Done (0, n, m) -> decompress_with e eh false iaddr oaddr inp out olen = Done (0, n, m).
Proof. exact uncrc_same. Qed.
Print Assumptions C98_without_crc_same.
Example C98_unchecked_case : forall e,
  decompress_with e true true 0 0 [0; 0; 0; 0; 0; 0; 0; 0; 6; 64; 60; 0; 0; 0; 0; 0] (repeat 7 17) 16 = Done (0, 16, repeat 0 16 ++ [7]) /\
  decompress_with e false true 0 0 [0; 0; 0; 0; 0; 0; 0; 0; 6; 64; 60; 0; 0; 0; 0; 0] (repeat 7 17) 16 = Done (0, 16, repeat 0 16 ++ [7]).
Proof. intros []; vm_compute; auto. Qed.

(** Compressing with any switches and decompressing with any switches restores the input, if the CRC is written whenever it is checked:
    sw842_compress and sw842_decompress, which stand in when an address is not a multiple of 8, always write and check it. *)
Theorem C98_round_trip : forall e e' strict ccrc eh dcrc iaddr oaddr iaddr' oaddr' inp out olen n m out2 olen2,
  is_bytes inp -> lenZ inp mod 8 = 0 -> (lenZ inp <= UINT_MAX \/ iaddr' mod 8 = 0 /\ oaddr' mod 8 = 0) ->
  is_bytes out -> 0 <= olen <= lenZ out ->
  compress_with e strict ccrc iaddr oaddr inp out olen = Done (0, n, m) ->
  (ccrc = true \/ ~ (iaddr mod 8 = 0 /\ oaddr mod 8 = 0) \/ (dcrc = false /\ iaddr' mod 8 = 0 /\ oaddr' mod 8 = 0)) ->
  is_bytes out2 -> lenZ inp <= olen2 <= lenZ out2 -> lenZ out2 < 2 ^ 63 ->
  observed (decompress_with e' eh dcrc iaddr' oaddr' (firstn (Z.to_nat n) m) out2 olen2) = Done (0, lenZ inp, inp).
Proof. exact c98_round_trip. Qed.
Print Assumptions C98_round_trip.
Example C98_round_trip_case : compress_with LE false false 0 0 (repeat 9 16) (repeat 0 24) 24 = Done (0, 16, [0; 72; 72; 72; 72; 72; 72; 72; 78; 64; 60; 0; 0; 0; 0; 0] ++ repeat 0 8).
Proof. vm_compute. reflexivity. Qed.

(** What is compressed without the CRC, the repository's own optsw842_decompress rejects, unless the CRC of the input is 0. *)
Theorem C98_missing_crc : forall e e' strict iaddr oaddr iaddr' oaddr' inp out olen n m out2 olen2,
  is_bytes inp -> lenZ inp mod 8 = 0 -> inp <> [] -> is_bytes out -> 0 <= olen <= lenZ out -> iaddr mod 8 = 0 -> oaddr mod 8 = 0 ->
  compress_with e strict false iaddr oaddr inp out olen = Done (0, n, m) ->
  is_bytes out2 -> lenZ inp <= olen2 <= lenZ out2 -> olen2 < 2 ^ 63 -> iaddr' mod 8 = 0 -> oaddr' mod 8 = 0 -> crc32 inp <> 0 ->
  observed (optsw842_decompress e' iaddr' oaddr' (firstn (Z.to_nat n) m) out2 olen2) = Done (- EINVAL, 0, []).
Proof. exact c98_missing_crc. Qed.
Print Assumptions C98_missing_crc.
Example C98_missing_crc_case : compress_with LE true false 0 0 [1; 2; 3; 4; 5; 6; 7; 8] (repeat 0 16) 16 = Done (0, 16, [0; 8; 16; 24; 32; 40; 48; 56; 71; 128; 0; 0; 0; 0; 0; 0]) /\ crc32 [1; 2; 3; 4; 5; 6; 7; 8] <> 0.
Proof. vm_compute. split; [reflexivity|discriminate]. Qed.

(** With DISABLE_CRC, what was compressed at addresses that are multiples of 8 cannot be decompressed at others. *)
Theorem C98_unaligned_without_crc_refuted : exists inp out n m, is_bytes inp /\ lenZ inp mod 8 = 0 /\ forall e e' eh,
  compress_with e true false 0 0 inp out (lenZ out) = Done (0, n, m) /\
  observed (decompress_with e' eh false 1 0 (firstn (Z.to_nat n) m) (repeat 0 8) 8) = Done (- EINVAL, 0, []) /\
  observed (decompress_with e' eh false 0 0 (firstn (Z.to_nat n) m) (repeat 0 8) 8) = Done (0, 8, inp).
Proof.
  exists [1; 2; 3; 4; 5; 6; 7; 8], (repeat 0 16), 16, [0; 8; 16; 24; 32; 40; 48; 56; 71; 128; 0; 0; 0; 0; 0; 0].
  split; [repeat constructor; unfold is_byte; lia|]. split; [reflexivity|].
  intros [] [] []; (split; [vm_compute; reflexivity|]; split; vm_compute; reflexivity).
Qed.
Print Assumptions C98_unaligned_without_crc_refuted.

(** Without ENABLE_ERROR_HANDLING, inputs the repository's function rejects are undefined behaviour: the first is cut off, the second
    starts with a repeat, the third is larger than the buffer.  The last one, an index of data not yet written, passes. *)
Theorem C98_unchecked_refuted :
  (forall e crc, observed (decompress_with e true crc 0 0 [0; 8; 16; 24; 32; 40; 48; 56] (repeat 0 8) 8) = Done (- EINVAL, 0, []) /\
     decompress_with e false crc 0 0 [0; 8; 16; 24; 32; 40; 48; 56] (repeat 0 8) 8 = Undef) /\
  (forall e crc, observed (decompress_with e true crc 0 0 [216; 30; 0; 0; 0; 0; 0; 0] (repeat 0 8) 8) = Done (- EINVAL, 0, []) /\
     decompress_with e false crc 0 0 [216; 30; 0; 0; 0; 0; 0; 0] (repeat 0 8) 8 = Undef) /\
  (forall e crc, observed (decompress_with e true crc 0 0 [231; 60; 0; 0; 0; 0; 0; 0] (repeat 0 8) 8) = Done (- ENOSPC, 0, []) /\
     decompress_with e false crc 0 0 [231; 60; 0; 0; 0; 0; 0; 0] (repeat 0 8) 8 = Undef) /\
  (forall e, observed (decompress_with e true false 0 0 [200; 7; 128; 0; 0; 0; 0; 0] (repeat 5 8) 8) = Done (- EINVAL, 0, []) /\
     observed (decompress_with e false false 0 0 [200; 7; 128; 0; 0; 0; 0; 0] (repeat 5 8) 8) = Done (0, 8, repeat 5 8)).
Proof. repeat split; intros; repeat match goal with x : endian |- _ => destruct x | x : bool |- _ => destruct x end; vm_compute; reflexivity. Qed.
Print Assumptions C98_unchecked_refuted.
(** And *olen is no bound: here it is 0, and 8 bytes are written. *)
Theorem C98_unchecked_size_refuted : forall e crc,
  decompress_with e false crc 0 0 ([231; 128; 0; 0; 0; 0; 0; 0]) (repeat 7 8) 0 = Done (0, 8, repeat 0 8).
Proof. intros [] []; vm_compute; reflexivity. Qed.
Print Assumptions C98_unchecked_size_refuted.
