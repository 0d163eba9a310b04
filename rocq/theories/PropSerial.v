(** Properties of sw842_compress and sw842_decompress: C01-C11, C15, C24-C27, C46.

    Reading the statements: [sw842_compress e addr inp out olen] is the call with
    input bytes [inp] (ilen = their number) at address [addr], [out] the memory at the
    output pointer, [olen] the initial *olen; the result is
    [Done (return value, final *olen, final memory)], or [Undef] for an access
    outside [inp] or [out] or other undefined behaviour.  [e] is the host
    endianness.  [observed r] keeps only the first *olen bytes of the memory.
    [olen < 2^63]: no object is larger than PTRDIFF_MAX. *)
From Coq Require Import ZArith List Bool Lia.
From Verif Require Import SpecBits SpecCrc Spec842 SpecCalls SpecRefs CBase SerialCompModel SerialDecompModel TestPatterns SerialProps.
Import ListNotations.
Open Scope Z_scope.

(** A concrete input with zeros, literals, a repeat, matches and a short tail. *)
Definition sample : list Z :=
  [1;2;3;4;5;6;7;8; 1;2;3;4;5;6;7;8; 1;2;3;4;5;6;7;8; 0;0;0;0;0;0;0;0; 3;4;9;9;5;6;7;8; 42;43;44].
Definition buf (n : nat) : list Z := List.repeat 7 n.
Definition sample_z : list Z :=
  [0; 8; 16; 24; 32; 40; 48; 56; 70; 193; 227; 128; 66; 66; 64; 61; 101; 69; 101; 158; 94; 5; 244; 165].
Ltac isb := repeat constructor; unfold is_byte; lia.
Example sample_facts : is_bytes sample /\ is_bytes sample_z /\ lenZ sample = 43 /\ lenZ sample_z = 24 /\ is_bytes (buf 64).
Proof. split; [isb|]. split; [isb|]. split; [reflexivity|]. split; [reflexivity|]. cbn [buf List.repeat]. isb. Qed.

(** C01: round trip, for inputs of up to UINT_MAX bytes (see C46 for longer ones);
    compression and decompression may even run on hosts of different endianness. *)
Theorem C01_sw842_round_trip : forall e e' addr oaddr inp out olen n m out2 olen2,
  is_bytes inp -> lenZ inp <= UINT_MAX -> is_bytes out -> 0 <= olen <= lenZ out ->
  sw842_compress e addr inp out olen = Done (0, n, m) ->
  is_bytes out2 -> lenZ inp <= olen2 <= lenZ out2 -> olen2 < 2 ^ 63 ->
  observed (sw842_decompress e' oaddr (firstn (Z.to_nat n) m) out2 olen2) = Done (0, lenZ inp, inp).
Proof. exact c01. Qed.
Print Assumptions C01_sw842_round_trip.
Example C01_case : observed (sw842_compress LE 0 sample (buf 64) 64) = Done (0, 24, sample_z) /\
  observed (sw842_decompress BE 0 sample_z (buf 50) 50) = Done (0, 43, sample).
Proof. split; vm_compute; reflexivity. Qed.

(** C46: without the bound the round trip fails: 2^32 zero bytes are compressed
    successfully but no call of sw842_decompress, whatever the capacity, restores them. *)
Theorem C46_huge_input_round_trip_refuted : exists inp, is_bytes inp /\ lenZ inp = 2 ^ 32 /\
  exists olen out, is_bytes out /\ lenZ out = olen /\ forall e addr, exists n m,
    sw842_compress e addr inp out olen = Done (0, n, m) /\
    forall e' oaddr out2 olen2, is_bytes out2 -> 0 <= olen2 <= lenZ out2 -> olen2 < 2 ^ 63 ->
      observed (sw842_decompress e' oaddr (firstn (Z.to_nat n) m) out2 olen2) = Done (- ENOSPC, 0, []).
Proof. exact c46. Qed.
Print Assumptions C46_huge_input_round_trip_refuted.

(** C02: one compressed buffer [z] per input, valid for it; the call delivers exactly [z]
    if it fits and otherwise -ENOSPC with *olen = 0. *)
Theorem C02_sw842_compress_contract : forall inp, is_bytes inp ->
  exists z, is_bytes z /\ valid_842 true z inp /\
  forall e addr out olen, is_bytes out -> 0 <= olen <= lenZ out ->
    observed (sw842_compress e addr inp out olen) =
      if (lenZ z <=? olen) && (lenZ z <=? UINT_MAX) then Done (0, lenZ z, z) else Done (- ENOSPC, 0, []).
Proof. exact c02. Qed.
Print Assumptions C02_sw842_compress_contract.
Example C02_case : observed (sw842_compress BE 5 sample (buf 64) 24) = Done (0, 24, sample_z) /\
  observed (sw842_compress BE 5 sample (buf 64) 23) = Done (- ENOSPC, 0, []) /\
  observed (sw842_compress BE 5 sample (buf 0) 0) = Done (- ENOSPC, 0, []).
Proof. repeat split; vm_compute; reflexivity. Qed.

(** C03: never out of bounds (take [lenZ out = olen] for the exact buffer; then any
    access beyond the capacity would be [Undef]); bytes from out + *olen on keep
    their value. *)
Theorem C03_sw842_compress_in_bounds : forall e addr inp out olen,
  is_bytes inp -> is_bytes out -> 0 <= olen <= lenZ out ->
  exists ret n m, sw842_compress e addr inp out olen = Done (ret, n, m) /\
    0 <= n <= olen /\ length m = length out /\
    skipn (Z.to_nat olen) m = skipn (Z.to_nat olen) out.
Proof. exact c03. Qed.
Print Assumptions C03_sw842_compress_in_bounds.
Example C03_case : exists m, sw842_compress LE 0 sample (buf 40) 20 = Done (- ENOSPC, 0, m) /\ skipn 20 m = buf 20.
Proof. eexists. split; vm_compute; reflexivity. Qed.

(** C04: size and padding of the output. *)
Theorem C04_sw842_compress_size : forall e addr inp out olen n m,
  is_bytes inp -> is_bytes out -> 0 <= olen <= lenZ out ->
  sw842_compress e addr inp out olen = Done (0, n, m) ->
  n mod 8 = 0 /\
  n <= words64 (69 * (lenZ inp / 8) + (if lenZ inp mod 8 =? 0 then 0 else 8 + 8 * (lenZ inp mod 8)) + 37) /\
  exists used k, bytes_bits (firstn (Z.to_nat n) m) = used ++ repeat false k /\ (k < 64)%nat /\
    stream true [] used inp (bits_of 32 (crc32 inp)).
Proof. exact c04. Qed.
Print Assumptions C04_sw842_compress_size.
Theorem C04_sw842_compress_capacity_suffices : forall e addr inp out olen,
  is_bytes inp -> is_bytes out -> 0 <= olen <= lenZ out ->
  let bound := words64 (69 * (lenZ inp / 8) + (if lenZ inp mod 8 =? 0 then 0 else 8 + 8 * (lenZ inp mod 8)) + 37) in
  bound <= olen -> bound <= UINT_MAX ->
  exists n m, sw842_compress e addr inp out olen = Done (0, n, m).
Proof. exact c04_enough. Qed.
Print Assumptions C04_sw842_compress_capacity_suffices.
(** The bound is reached: 8 incompressible bytes need 69 + 37 bits = 16 bytes. *)
Example C04_case : observed (sw842_compress LE 0 [1;2;3;4;5;6;7;8] (buf 64) 64) =
  Done (0, words64 (69 * 1 + 0 + 37), [0; 8; 16; 24; 32; 40; 48; 56; 71; 159; 67; 205; 160; 64; 0; 0]).
Proof. vm_compute. reflexivity. Qed.

(** C05: sw842_decompress accepts exactly the well-formed streams, and decodes them to
    what they denote. *)
Theorem C05_sw842_decompress_exact : forall e oaddr inp out olen x,
  is_bytes inp -> is_bytes out -> 0 <= olen <= lenZ out -> olen < 2 ^ 63 ->
  (observed (sw842_decompress e oaddr inp out olen) = Done (0, lenZ x, x)
   <-> valid_842 true inp x /\ lenZ x <= olen /\ lenZ x <= UINT_MAX).
Proof. exact c05. Qed.
Print Assumptions C05_sw842_decompress_exact.
(** On success nothing but the output bytes is written. *)
Theorem C05_sw842_decompress_success_memory : forall e oaddr inp out olen n m,
  is_bytes inp -> is_bytes out -> 0 <= olen <= lenZ out -> olen < 2 ^ 63 ->
  sw842_decompress e oaddr inp out olen = Done (0, n, m) ->
  exists x, valid_842 true inp x /\ n = lenZ x /\ m = x ++ skipn (length x) out.
Proof. exact c05_memory. Qed.
Print Assumptions C05_sw842_decompress_success_memory.
Example C05_case : observed (sw842_decompress LE 0 PATTERN_MIXED_COMPRESSED (buf 100) 100)
  = Done (0, lenZ PATTERN_MIXED_UNCOMPRESSED, PATTERN_MIXED_UNCOMPRESSED).
Proof. vm_compute. reflexivity. Qed.

(** C06 fails: a short-data template of one byte followed by a repeat template makes
    the decompressor read before the start of the output buffer
    (842_decompress.c:341, memcpy(p.out, p.out - 8, 8)). *)
Theorem C06_sw842_decompress_in_bounds_refuted : exists inp out olen,
  is_bytes inp /\ lenZ out = olen /\ is_bytes out /\
  forall e oaddr, sw842_decompress e oaddr inp out olen = Undef.
Proof. exact c06_refuted. Qed.
Print Assumptions C06_sw842_decompress_in_bounds_refuted.
(** That is the only way: an access out of bounds happens exactly on inputs starting with
    short-data templates for 1 to 7 bytes in total directly followed by a repeat
    template (that fits).  Missing for the full property: these inputs. *)
Theorem C06_sw842_decompress_in_bounds_partial : forall e oaddr inp out olen,
  is_bytes inp -> is_bytes out -> 0 <= olen <= lenZ out -> olen < 2 ^ 63 ->
  (sw842_decompress e oaddr inp out olen = Undef <->
   exists ds n rest,
    Forall (fun d => is_bytes d /\ (1 <= length d)%nat) ds /\ 0 <= n < 64 /\
    bytes_bits inp = concat (map short_template ds) ++ repeat_template n ++ rest /\
    (1 <= length (concat ds) <= 7)%nat /\ lenZ (concat ds) + 8 * (n + 1) <= olen).
Proof. exact c06_exact. Qed.
Print Assumptions C06_sw842_decompress_in_bounds_partial.
(** Writes: whatever the return code, only a prefix [w] of at most olen bytes of the
    output memory has changed. *)
Theorem C06_sw842_decompress_writes : forall e oaddr inp out olen ret n m,
  is_bytes inp -> is_bytes out -> 0 <= olen <= lenZ out -> olen < 2 ^ 63 ->
  sw842_decompress e oaddr inp out olen = Done (ret, n, m) ->
  0 <= n <= olen /\ exists w, is_bytes w /\ lenZ w <= olen /\ m = w ++ skipn (length w) out.
Proof. exact c06_frame. Qed.
Print Assumptions C06_sw842_decompress_writes.
Example C06_case : sw842_decompress LE 0 sample_z (buf 50) 30 = Done (- ENOSPC, 0, firstn 24 sample ++ buf 26).
Proof. vm_compute. reflexivity. Qed.

(** C07: error contract. *)
Theorem C07_sw842_decompress_errors : forall e oaddr inp out olen ret n m,
  is_bytes inp -> is_bytes out -> 0 <= olen <= lenZ out -> olen < 2 ^ 63 ->
  sw842_decompress e oaddr inp out olen = Done (ret, n, m) -> ret <> 0 ->
  (ret = - EINVAL \/ ret = - ENOSPC \/ ret = - EOVERFLOW) /\ n = 0.
Proof. exact c07. Qed.
Print Assumptions C07_sw842_decompress_errors.
Example C07_case : observed (sw842_decompress LE 0 [250;0] (buf 8) 8) = Done (- EINVAL, 0, []) /\
  observed (sw842_decompress LE 0 [] (buf 8) 8) = Done (- EOVERFLOW, 0, []) /\
  observed (sw842_decompress LE 0 [224] (buf 8) 7) = Done (- ENOSPC, 0, []).
Proof. repeat split; vm_compute; reflexivity. Qed.

(** C08: the loop bound of the model is never the reason the function stops, and
    8*ilen/5 + 1 iterations of the main loop always suffice. *)
Theorem C08_sw842_decompress_terminates : forall e oaddr inp out olen,
  is_bytes inp -> is_bytes out -> 0 <= olen <= lenZ out -> olen < 2 ^ 63 ->
  sw842_decompress e oaddr inp out olen <> NoFuel /\
  (forall k, 8 * lenZ inp / 5 + 1 <= Z.of_nat k ->
     decomp_loop e k inp (mkReader 0 0 (lenZ inp), mkSink out 0 olen) <> NoFuel).
Proof. exact c08. Qed.
Print Assumptions C08_sw842_decompress_terminates.
(** Zero templates in four bytes: four iterations do not suffice, 8*4/5+1 = 7 do. *)
Example C08_case : decomp_loop LE 4 [231;57;206;115] (mkReader 0 0 4, mkSink (buf 80) 0 80) = NoFuel /\
  decomp_loop LE 7 [231;57;206;115] (mkReader 0 0 4, mkSink (buf 80) 0 80) <> NoFuel.
Proof. split; vm_compute; [reflexivity|discriminate]. Qed.

(** C09: a stream cut before the end of its CRC is never accepted, and with sufficient
    capacity the error is -EOVERFLOW. *)
Theorem C09_sw842_truncated_rejected : forall e oaddr z out olen x rest k,
  is_bytes z -> is_bytes out -> 0 <= olen <= lenZ out -> olen < 2 ^ 63 ->
  stream true [] (bytes_bits z) x (bits_of 32 (crc32 x) ++ rest) ->
  (8 * k < length (bytes_bits z) - length rest)%nat ->
  (forall n m, sw842_decompress e oaddr (firstn k z) out olen <> Done (0, n, m)) /\
  (lenZ x <= olen -> exists m, sw842_decompress e oaddr (firstn k z) out olen = Done (- EOVERFLOW, 0, m)).
Proof. exact c09. Qed.
Print Assumptions C09_sw842_truncated_rejected.
Example C09_case : observed (sw842_decompress LE 0 (firstn 20 sample_z) (buf 64) 64) = Done (- EOVERFLOW, 0, []).
Proof. vm_compute. reflexivity. Qed.

(** C10: bytes after a buffer do not matter, unless the buffer was too short. *)
Theorem C10_sw842_trailing_bytes_ignored : forall e oaddr z out olen s r n m,
  is_bytes z -> is_bytes s -> is_bytes out -> 0 <= olen <= lenZ out -> olen < 2 ^ 63 ->
  sw842_decompress e oaddr z out olen = Done (r, n, m) -> r <> - EOVERFLOW ->
  exists m', sw842_decompress e oaddr (z ++ s) out olen = Done (r, n, m') /\
    firstn (Z.to_nat n) m' = firstn (Z.to_nat n) m.
Proof. exact c10. Qed.
Print Assumptions C10_sw842_trailing_bytes_ignored.
Example C10_case : observed (sw842_decompress LE 0 (sample_z ++ [255;1;2]) (buf 64) 64) = Done (0, 43, sample).
Proof. vm_compute. reflexivity. Qed.

(** C11: a stream followed by anything but the CRC of what it denotes is rejected. *)
Theorem C11_sw842_crc_enforced : forall e oaddr z out olen x c rest,
  is_bytes z -> is_bytes out -> 0 <= olen <= lenZ out -> olen < 2 ^ 63 ->
  0 <= c < 2 ^ 32 -> stream true [] (bytes_bits z) x (bits_of 32 c ++ rest) ->
  lenZ x <= olen -> c <> crc32 x ->
  exists m, sw842_decompress e oaddr z out olen = Done (- EINVAL, 0, m).
Proof. exact c11. Qed.
Print Assumptions C11_sw842_crc_enforced.
Example C11_case : stream true [] (bytes_bits [240;0;0;0;8;0;0;0]) [] (bits_of 32 1 ++ repeat false 27) /\
  observed (sw842_decompress LE 0 [240;0;0;0;8;0;0;0] (buf 8) 8) = Done (- EINVAL, 0, []).
Proof.
  split; [|vm_compute; reflexivity].
  change (bytes_bits [240;0;0;0;8;0;0;0]) with (bits_of 5 0x1e ++ bits_of 32 1 ++ repeat false 27). constructor.
Qed.

(** C15: too small a buffer. *)
Theorem C15_sw842_too_small : forall e oaddr z out olen x rest,
  is_bytes z -> is_bytes out -> 0 <= olen <= lenZ out -> olen < 2 ^ 63 ->
  stream true [] (bytes_bits z) x rest -> olen < lenZ x ->
  exists m, sw842_decompress e oaddr z out olen = Done (- ENOSPC, 0, m).
Proof. exact c15. Qed.
Print Assumptions C15_sw842_too_small.
Example C15_case : observed (sw842_decompress LE 0 sample_z (buf 64) 42) = Done (- ENOSPC, 0, []).
Proof. vm_compute. reflexivity. Qed.

(** C24 (serial implementation): results do not depend on the host endianness, nor on
    the addresses or the previous content of the buffers. *)
Theorem C24_sw842_compress_portable : forall e e' addr addr' inp out out' olen,
  is_bytes inp -> is_bytes out -> 0 <= olen <= lenZ out -> is_bytes out' -> olen <= lenZ out' ->
  observed (sw842_compress e addr inp out olen) = observed (sw842_compress e' addr' inp out' olen).
Proof. exact comp_indep. Qed.
Print Assumptions C24_sw842_compress_portable.
Theorem C24_sw842_decompress_portable : forall e e' oaddr oaddr' z out out' olen,
  is_bytes z -> is_bytes out -> 0 <= olen <= lenZ out -> is_bytes out' -> olen <= lenZ out' -> olen < 2 ^ 63 ->
  observed (sw842_decompress e oaddr z out olen) = observed (sw842_decompress e' oaddr' z out' olen).
Proof. exact decomp_indep. Qed.
Print Assumptions C24_sw842_decompress_portable.
Example C24_case : observed (sw842_compress LE 0 sample (buf 64) 64) = Done (0, 24, sample_z) /\
  observed (sw842_compress BE 3 sample (List.repeat 0 40) 40) = Done (0, 24, sample_z).
Proof. split; vm_compute; reflexivity. Qed.

(** C25: in an accepted stream every copy reads bytes already produced and at most one
    window back. *)
Theorem C25_references_in_window : forall e oaddr inp out olen n m,
  is_bytes inp -> is_bytes out -> 0 <= olen <= lenZ out -> olen < 2 ^ 63 ->
  sw842_decompress e oaddr inp out olen = Done (0, n, m) ->
  exists rest refs, stream_refs [] (bytes_bits inp) (firstn (Z.to_nat n) m) rest refs /\
    Forall in_window refs.
Proof. exact c25. Qed.
Print Assumptions C25_references_in_window.
Example C25_case : window 2 = 512 /\ window 4 = 2048 /\ window 8 = 2048 /\
  in_window (mkRef 1000 2 488) /\ ~ in_window (mkRef 1000 2 487) /\ ~ in_window (mkRef 1000 2 999).
Proof. unfold in_window. vm_compute. intuition congruence. Qed.

(** C26: for whole blocks the output is a hardware stream. *)
Theorem C26_sw842_hardware_compatible : forall e addr inp out olen n m,
  is_bytes inp -> is_bytes out -> 0 <= olen <= lenZ out -> lenZ inp mod 8 = 0 ->
  sw842_compress e addr inp out olen = Done (0, n, m) ->
  valid_842 false (firstn (Z.to_nat n) m) inp.
Proof. exact c26. Qed.
Print Assumptions C26_sw842_hardware_compatible.
Example C26_case : exists n m, lenZ (firstn 40 sample) mod 8 = 0 /\
  sw842_compress LE 0 (firstn 40 sample) (buf 64) 64 = Done (0, n, m).
Proof. do 2 eexists. split; vm_compute; reflexivity. Qed.

(** C27: runs. *)
Theorem C27_sw842_runs : forall e addr b m out olen,
  is_bytes b -> length b = 8%nat -> (1 <= m)%nat -> is_bytes out -> 0 <= olen <= lenZ out ->
  let size := words64 ((if forallb (fun v => v =? 0) b then 5 else 69) + 11 * ((Z.of_nat m - 1 + 63) / 64) + 37) in
  size <= olen -> size <= UINT_MAX ->
  exists mem, sw842_compress e addr (copies m b) out olen = Done (0, size, mem).
Proof. exact c27. Qed.
Print Assumptions C27_sw842_runs.
Example C27_case : exists mem, sw842_compress LE 0 (copies 66 [0;0;0;0;0;0;0;1]) (buf 64) 64 = Done (0, words64 (69 + 11 * 2 + 37), mem).
Proof. eexists. vm_compute. reflexivity. Qed.

(** C47: no byte string denotes two different outputs. *)
Theorem C47_format_unambiguous : forall sw sw' z x x',
  valid_842 sw z x -> valid_842 sw' z x' -> x = x'.
Proof. exact c47. Qed.
Print Assumptions C47_format_unambiguous.
Example C47_case : exists x, valid_842 false [240; 0; 0; 0; 0] x.
Proof.
  exists [], (repeat false 3). change (bytes_bits [240; 0; 0; 0; 0]) with (bits_of 5 0x1e ++ bits_of 32 0 ++ repeat false 3).
  change (crc32 []) with 0. constructor.
Qed.
