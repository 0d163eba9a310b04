(** Properties of optsw842_compress and optsw842_decompress: C16-C24, C48, C49.

    Reading the statements: [optsw842_compress e iaddr oaddr inp out olen] is the call with
    input bytes [inp] at address [iaddr], [out] the memory at the output pointer, whose
    address is [oaddr], and [olen] the initial *olen; the result is
    [Done (return value, final *olen, final memory)], or [Undef] for an access
    outside [inp] or [out] or other undefined behaviour.  [e] is the host
    endianness.  [observed r] keeps only the first *olen bytes of the memory.
    [olen < 2^63]: no object is larger than PTRDIFF_MAX. *)
From Coq Require Import ZArith List Bool Lia.
From Verif Require Import SpecBits SpecCrc Spec842 SpecCalls CBase SerialCompModel SerialDecompModel OptCompModel OptDecompModel OptProps.
Import ListNotations.
Open Scope Z_scope.

(** A concrete input with zeros, literals, a repeat and matches. *)
Definition osample : list Z :=
  [1;2;3;4;5;6;7;8; 1;2;3;4;5;6;7;8; 1;2;3;4;5;6;7;8; 0;0;0;0;0;0;0;0; 3;4;9;9;5;6;7;8].
Definition obuf (n : nat) : list Z := List.repeat 7 n.
Definition osample_z : list Z :=
  [0; 8; 16; 24; 32; 40; 48; 56; 70; 193; 224; 0; 193; 2; 66; 65; 65; 129; 194; 61; 246; 231; 47; 42].
Ltac isb := repeat constructor; unfold is_byte; lia.
Example osample_facts : is_bytes osample /\ is_bytes osample_z /\ lenZ osample = 40 /\ lenZ osample_z = 24 /\ is_bytes (obuf 64).
Proof. split; [isb|]. split; [isb|]. split; [reflexivity|]. split; [reflexivity|]. cbn [obuf List.repeat]. isb. Qed.

(** C16: round trip, whatever the alignment of the four pointers and the endianness of the
    two hosts.  The limit UINT_MAX is that of sw842_decompress, which is used when the
    pointers of the decompressing call are not aligned (C46). *)
Theorem C16_optsw842_round_trip : forall e e' iaddr oaddr iaddr' oaddr' inp out olen n m out2 olen2,
  is_bytes inp -> lenZ inp mod 8 = 0 -> (lenZ inp <= UINT_MAX \/ iaddr' mod 8 = 0 /\ oaddr' mod 8 = 0) ->
  is_bytes out -> 0 <= olen <= lenZ out ->
  optsw842_compress e iaddr oaddr inp out olen = Done (0, n, m) ->
  is_bytes out2 -> lenZ inp <= olen2 <= lenZ out2 -> olen2 < 2 ^ 63 ->
  observed (optsw842_decompress e' iaddr' oaddr' (firstn (Z.to_nat n) m) out2 olen2) = Done (0, lenZ inp, inp).
Proof. exact c16. Qed.
Print Assumptions C16_optsw842_round_trip.
Example C16_case : observed (optsw842_compress LE 0 8 osample (obuf 64) 64) = Done (0, 24, osample_z) /\
  observed (optsw842_decompress BE 16 24 osample_z (obuf 50) 50) = Done (0, 40, osample) /\
  observed (optsw842_decompress BE 16 25 osample_z (obuf 50) 50) = Done (0, 40, osample).
Proof. repeat split; vm_compute; reflexivity. Qed.

(** C17: one compressed buffer [z] per non-empty input; the call delivers exactly [z] if it
    fits and otherwise -ENOSPC with *olen = 0.  The model treats reading an
    uninitialised dictionary entry as undefined, so the result also shows that the
    content of uninitialised memory plays no role. *)
Theorem C17_optsw842_compress_contract : forall inp, is_bytes inp -> lenZ inp mod 8 = 0 -> inp <> [] ->
  exists z, is_bytes z /\ valid_842 false z inp /\ lenZ z mod 8 = 0 /\ lenZ z <= words64 (69 * (lenZ inp / 8) + 37) /\
  forall e iaddr oaddr out olen, is_bytes out -> 0 <= olen <= lenZ out -> iaddr mod 8 = 0 -> oaddr mod 8 = 0 ->
    observed (optsw842_compress e iaddr oaddr inp out olen) =
      if lenZ z <=? olen then Done (0, lenZ z, z) else Done (- ENOSPC, 0, []).
Proof. exact c17. Qed.
Print Assumptions C17_optsw842_compress_contract.
Example C17_case : observed (optsw842_compress BE 0 0 osample (obuf 64) 24) = Done (0, 24, osample_z) /\
  observed (optsw842_compress BE 0 0 osample (obuf 64) 23) = Done (- ENOSPC, 0, []) /\
  observed (optsw842_compress BE 0 0 osample (obuf 0) 0) = Done (- ENOSPC, 0, []).
Proof. repeat split; vm_compute; reflexivity. Qed.

(** C18 fails: with aligned pointers and ilen = 0 the first 8 bytes are read all the same
    (842_compress.cpp:609, last = ~read64(p.in)). *)
Theorem C18_optsw842_compress_in_bounds_refuted : exists inp out olen, is_bytes inp /\ is_bytes out /\ lenZ out = olen /\
  forall e, optsw842_compress e 0 0 inp out olen = Undef.
Proof.
  exists [], (obuf 64), 64. split; [constructor|]. split; [apply osample_facts|]. split; [reflexivity|].
  intros e. apply ocomp_empty. reflexivity.
Qed.
Print Assumptions C18_optsw842_compress_in_bounds_refuted.
(** That is the only case; in all others nothing is accessed outside the buffers and the memory
    from out + *olen on is not changed.  Missing for the full property: empty input. *)
Theorem C18_optsw842_compress_in_bounds_partial : forall e iaddr oaddr inp out olen,
  is_bytes inp -> is_bytes out -> 0 <= olen <= lenZ out ->
  (optsw842_compress e iaddr oaddr inp out olen = Undef <-> inp = [] /\ iaddr mod 8 = 0 /\ oaddr mod 8 = 0) /\
  (inp <> [] -> exists ret n m, optsw842_compress e iaddr oaddr inp out olen = Done (ret, n, m) /\
    0 <= n <= olen /\ length m = length out /\ skipn (Z.to_nat olen) m = skipn (Z.to_nat olen) out).
Proof.
  intros e iaddr oaddr inp out olen Hi Ho Hc. split; [symmetry; now apply c18_exact|]. intros. apply c18_bounds; auto.
Qed.
Print Assumptions C18_optsw842_compress_in_bounds_partial.
Example C18_case : exists m, optsw842_compress LE 0 0 osample (obuf 40) 20 = Done (- ENOSPC, 0, m) /\ skipn 20 m = obuf 20.
Proof. eexists. split; vm_compute; reflexivity. Qed.

(** C19 fails: an input length that is not a multiple of 8 is refused with -EINVAL but *olen
    keeps its value (842_compress.cpp:573-578). *)
Theorem C19_optsw842_compress_error_contract_refuted : exists inp out olen, is_bytes inp /\ is_bytes out /\ lenZ out = olen /\
  forall e iaddr oaddr, optsw842_compress e iaddr oaddr inp out olen = Done (- EINVAL, olen, out) /\ olen <> 0.
Proof.
  exists [1;2;3], (obuf 64), 64. split; [isb|]. split; [apply osample_facts|]. split; [reflexivity|].
  intros. split; [|discriminate]. apply ocomp_ragged. discriminate.
Qed.
Print Assumptions C19_optsw842_compress_error_contract_refuted.
(** Every other error is -ENOSPC with *olen = 0.  Missing: inputs of other lengths. *)
Theorem C19_optsw842_compress_error_contract_partial : forall e iaddr oaddr inp out olen ret n m,
  is_bytes inp -> is_bytes out -> 0 <= olen <= lenZ out ->
  optsw842_compress e iaddr oaddr inp out olen = Done (ret, n, m) -> ret <> 0 ->
  (lenZ inp mod 8 = 0 /\ ret = - ENOSPC /\ n = 0) \/ (lenZ inp mod 8 <> 0 /\ ret = - EINVAL /\ n = olen /\ m = out).
Proof. exact c19. Qed.
Print Assumptions C19_optsw842_compress_error_contract_partial.
Example C19_case : observed (optsw842_compress LE 0 0 osample (obuf 8) 8) = Done (- ENOSPC, 0, []) /\
  observed (optsw842_compress LE 0 1 osample (obuf 8) 8) = Done (- ENOSPC, 0, []).
Proof. split; vm_compute; reflexivity. Qed.

(** C20: optsw842_decompress with aligned pointers accepts exactly the hardware streams in the
    whole 8-byte words of its input. *)
Theorem C20_optsw842_decompress_exact : forall e iaddr oaddr inp out olen x,
  is_bytes inp -> is_bytes out -> 0 <= olen <= lenZ out -> olen < 2 ^ 63 -> iaddr mod 8 = 0 -> oaddr mod 8 = 0 ->
  (observed (optsw842_decompress e iaddr oaddr inp out olen) = Done (0, lenZ x, x)
   <-> valid_842 false (firstn (8 * (length inp / 8)) inp) x /\ lenZ x <= olen).
Proof. exact c20. Qed.
Print Assumptions C20_optsw842_decompress_exact.
(** What does not fit is refused with -ENOSPC, a wrong CRC with -EINVAL. *)
Theorem C20_optsw842_decompress_too_small : forall e iaddr oaddr inp out olen x rest,
  is_bytes inp -> is_bytes out -> 0 <= olen <= lenZ out -> olen < 2 ^ 63 -> iaddr mod 8 = 0 -> oaddr mod 8 = 0 ->
  stream false [] (bytes_bits (firstn (8 * (length inp / 8)) inp)) x rest -> olen < lenZ x ->
  exists m, optsw842_decompress e iaddr oaddr inp out olen = Done (- ENOSPC, 0, m).
Proof. exact c20_small. Qed.
Print Assumptions C20_optsw842_decompress_too_small.
Theorem C20_optsw842_decompress_crc_enforced : forall e iaddr oaddr inp out olen x c rest,
  is_bytes inp -> is_bytes out -> 0 <= olen <= lenZ out -> olen < 2 ^ 63 -> iaddr mod 8 = 0 -> oaddr mod 8 = 0 ->
  0 <= c < 2 ^ 32 -> stream false [] (bytes_bits (firstn (8 * (length inp / 8)) inp)) x (bits_of 32 c ++ rest) ->
  lenZ x <= olen -> c <> crc32 x ->
  exists m, optsw842_decompress e iaddr oaddr inp out olen = Done (- EINVAL, 0, m).
Proof. exact c20_crc. Qed.
Print Assumptions C20_optsw842_decompress_crc_enforced.
Example C20_case : observed (optsw842_decompress LE 0 0 osample_z (obuf 64) 40) = Done (0, 40, osample) /\
  observed (optsw842_decompress LE 0 0 osample_z (obuf 64) 39) = Done (- ENOSPC, 0, []) /\
  observed (optsw842_decompress LE 0 0 [240;0;0;0;8;0;0;0] (obuf 8) 8) = Done (- EINVAL, 0, []).
Proof. repeat split; vm_compute; reflexivity. Qed.

(** C21: whatever the input, the call returns, within bounds, 0 or one of two error codes. *)
Theorem C21_optsw842_decompress_in_bounds : forall e iaddr oaddr inp out olen,
  is_bytes inp -> is_bytes out -> 0 <= olen <= lenZ out -> olen < 2 ^ 63 -> iaddr mod 8 = 0 -> oaddr mod 8 = 0 ->
  exists ret n m, optsw842_decompress e iaddr oaddr inp out olen = Done (ret, n, m) /\
    (ret = 0 \/ ((ret = - EINVAL \/ ret = - ENOSPC) /\ n = 0)) /\ 0 <= n <= olen /\
    exists w, is_bytes w /\ lenZ w <= olen /\ m = w ++ skipn (length w) out.
Proof. exact c21. Qed.
Print Assumptions C21_optsw842_decompress_in_bounds.
(** At most 8*ilen/5 + 1 iterations of the main loop. *)
Theorem C21_optsw842_decompress_terminates : forall e inp out olen k,
  is_bytes inp -> is_bytes out -> 0 <= olen <= lenZ out -> olen < 2 ^ 63 -> 8 * lenZ inp / 5 + 1 <= Z.of_nat k ->
  odecomp_loop e k inp olen (mkP 0 0 0 0 out 0) <> NoFuel.
Proof. exact c21_steps. Qed.
Print Assumptions C21_optsw842_decompress_terminates.
(** The input that makes sw842_decompress read out of bounds (C06) is refused. *)
Example C21_case : observed (optsw842_decompress LE 0 0 [233; 11; 216; 0; 0; 0; 0; 0] (obuf 64) 64) = Done (- EINVAL, 0, []) /\
  observed (optsw842_decompress LE 0 0 [] (obuf 64) 64) = Done (- EINVAL, 0, []) /\
  observed (optsw842_decompress LE 0 0 [1;2;3;4;5;6;7] (obuf 64) 64) = Done (- EINVAL, 0, []).
Proof. repeat split; vm_compute; reflexivity. Qed.

(** C22: what either compressor produced ([is_compressed inp z], for some host, alignment and
    capacity) is restored by both decompressors. *)
Definition is_compressed (inp z : list Z) : Prop :=
  exists e out olen, is_bytes out /\ 0 <= olen <= lenZ out /\
    ((exists addr m, sw842_compress e addr inp out olen = Done (0, lenZ z, m) /\ firstn (length z) m = z) \/
     (exists iaddr oaddr m, optsw842_compress e iaddr oaddr inp out olen = Done (0, lenZ z, m) /\ firstn (length z) m = z)).
Theorem C22_cross_compatible : forall inp z e iaddr oaddr out olen,
  is_bytes inp -> lenZ inp mod 8 = 0 -> lenZ inp <= UINT_MAX -> is_compressed inp z ->
  is_bytes out -> lenZ inp <= olen <= lenZ out -> olen < 2 ^ 63 ->
  observed (sw842_decompress e oaddr z out olen) = Done (0, lenZ inp, inp) /\
  observed (optsw842_decompress e iaddr oaddr z out olen) = Done (0, lenZ inp, inp).
Proof. intros inp z e iaddr oaddr out olen **. split; [now apply c22_sw|]. apply c22_opt; auto. Qed.
Print Assumptions C22_cross_compatible.
Example C22_case : observed (sw842_compress LE 0 osample (obuf 64) 64) = Done (0, 24, [0; 8; 16; 24; 32; 40; 48; 56; 70; 193; 227; 128; 66; 66; 64; 62; 251; 115; 151; 149; 0; 0; 0; 0]) /\
  observed (optsw842_decompress LE 0 0 [0; 8; 16; 24; 32; 40; 48; 56; 70; 193; 227; 128; 66; 66; 64; 62; 251; 115; 151; 149; 0; 0; 0; 0] (obuf 64) 64) = Done (0, 40, osample).
Proof. split; vm_compute; reflexivity. Qed.

(** C23 fails for the compressor: the bytes produced depend on the alignment. *)
Theorem C23_compress_alignment_refuted : exists inp out olen, is_bytes inp /\ is_bytes out /\ lenZ out = olen /\
  forall e, observed (optsw842_compress e 0 0 inp out olen) <> observed (optsw842_compress e 1 0 inp out olen).
Proof.
  exists [1;2;1;2;1;2;1;2; 9;9;8;8;7;7;1;2; 1;2;3;3;4;4;5;5], (obuf 64), 64.
  split; [isb|]. split; [apply osample_facts|]. split; [reflexivity|]. intros []; vm_compute; discriminate.
Qed.
Print Assumptions C23_compress_alignment_refuted.
(** C23 fails for the decompressor: a stream with a short-data template is accepted or refused
    depending on the alignment. *)
Theorem C23_decompress_alignment_refuted : exists inp out olen x, is_bytes inp /\ is_bytes out /\ lenZ out = olen /\ x <> [] /\
  forall e, observed (optsw842_decompress e 0 0 inp out olen) = Done (- EINVAL, 0, []) /\
    observed (optsw842_decompress e 1 0 inp out olen) = Done (0, lenZ x, x).
Proof.
  exists [233; 42; 245; 189; 75; 1; 176; 0], (obuf 64), 64, [42].
  split; [isb|]. split; [apply osample_facts|]. split; [reflexivity|]. split; [discriminate|]. intros []; split; vm_compute; reflexivity.
Qed.
Print Assumptions C23_decompress_alignment_refuted.
(** On hardware streams of whole words the alignment makes no difference.  Missing: malformed streams (the
    error codes differ), short-data templates, partial words, outputs above UINT_MAX. *)
Theorem C23_decompress_alignment_partial : forall e e' iaddr oaddr iaddr' oaddr' inp out out' olen x,
  is_bytes inp -> is_bytes out -> 0 <= olen <= lenZ out -> is_bytes out' -> olen <= lenZ out' -> olen < 2 ^ 63 ->
  lenZ inp mod 8 = 0 -> valid_842 false inp x -> lenZ x <= UINT_MAX ->
  observed (optsw842_decompress e iaddr oaddr inp out olen) = observed (optsw842_decompress e' iaddr' oaddr' inp out' olen).
Proof. exact c23. Qed.
Print Assumptions C23_decompress_alignment_partial.
Example C23_case : valid_842 false [240; 0; 0; 0; 0; 0; 0; 0] [].
Proof.
  exists (repeat false 27). change (bytes_bits [240; 0; 0; 0; 0; 0; 0; 0]) with (bits_of 5 0x1e ++ bits_of 32 0 ++ repeat false 27).
  change (crc32 []) with 0. constructor.
Qed.

(** C24 (optimized implementation): the results depend only on whether the pointers are aligned. *)
Definition aligned (iaddr oaddr : Z) : bool := (iaddr mod 8 =? 0) && (oaddr mod 8 =? 0).
Theorem C24_optsw842_compress_portable : forall e e' iaddr iaddr' oaddr oaddr' inp out out' olen,
  is_bytes inp -> is_bytes out -> 0 <= olen <= lenZ out -> is_bytes out' -> olen <= lenZ out' ->
  lenZ inp mod 8 = 0 -> aligned iaddr oaddr = aligned iaddr' oaddr' ->
  observed (optsw842_compress e iaddr oaddr inp out olen) = observed (optsw842_compress e' iaddr' oaddr' inp out' olen).
Proof. exact ocomp_indep. Qed.
Print Assumptions C24_optsw842_compress_portable.
Theorem C24_optsw842_decompress_portable : forall e e' iaddr iaddr' oaddr oaddr' z out out' olen,
  is_bytes z -> is_bytes out -> 0 <= olen <= lenZ out -> is_bytes out' -> olen <= lenZ out' -> olen < 2 ^ 63 ->
  aligned iaddr oaddr = aligned iaddr' oaddr' ->
  observed (optsw842_decompress e iaddr oaddr z out olen) = observed (optsw842_decompress e' iaddr' oaddr' z out' olen).
Proof. exact odecomp_indep. Qed.
Print Assumptions C24_optsw842_decompress_portable.
Example C24_opt_case : observed (optsw842_compress LE 0 0 osample (obuf 64) 64) = Done (0, 24, osample_z) /\
  observed (optsw842_compress BE 8 80 osample (List.repeat 0 40) 40) = Done (0, 24, osample_z).
Proof. split; vm_compute; reflexivity. Qed.

(** C48: a hardware stream cut before the end of its CRC is refused with -EINVAL (if the capacity suffices). *)
Theorem C48_optsw842_truncated_rejected : forall e iaddr oaddr z out olen x rest k,
  is_bytes z -> is_bytes out -> 0 <= olen <= lenZ out -> olen < 2 ^ 63 -> iaddr mod 8 = 0 -> oaddr mod 8 = 0 ->
  stream false [] (bytes_bits z) x (bits_of 32 (crc32 x) ++ rest) ->
  (8 * k < length (bytes_bits z) - length rest)%nat -> lenZ x <= olen ->
  exists m, optsw842_decompress e iaddr oaddr (firstn k z) out olen = Done (- EINVAL, 0, m).
Proof. exact c48. Qed.
Print Assumptions C48_optsw842_truncated_rejected.
Example C48_case : observed (optsw842_decompress LE 0 0 (firstn 16 osample_z) (obuf 64) 64) = Done (- EINVAL, 0, []).
Proof. vm_compute. reflexivity. Qed.

(** C49: bytes after an accepted buffer of whole words do not matter. *)
Theorem C49_optsw842_trailing_bytes_ignored : forall e iaddr oaddr z s out olen x,
  is_bytes z -> is_bytes s -> is_bytes out -> 0 <= olen <= lenZ out -> olen < 2 ^ 63 -> iaddr mod 8 = 0 -> oaddr mod 8 = 0 ->
  lenZ z mod 8 = 0 ->
  observed (optsw842_decompress e iaddr oaddr z out olen) = Done (0, lenZ x, x) ->
  observed (optsw842_decompress e iaddr oaddr (z ++ s) out olen) = Done (0, lenZ x, x).
Proof. exact c49. Qed.
Print Assumptions C49_optsw842_trailing_bytes_ignored.
Example C49_case : observed (optsw842_decompress LE 0 0 (osample_z ++ [255;1;2]) (obuf 64) 64) = Done (0, 40, osample).
Proof. vm_compute. reflexivity. Qed.
