(** Properties of the test programs (/repo/test): they hold for every data, not only for the built-in ones. *)
From Coq Require Import ZArith List Bool Lia.
From Verif Require Import SpecBits SpecCrc Spec842 SpecCalls CBase BitsLemmas SerialDecompModel OptDecompModel SerialProps OptProps TestPatterns TestProgModel TestProgProofs.
Import ListNotations.
Open Scope Z_scope.

(** The implementations "sw" and "optsw" on a host with byte order [e]. *)
Definition software (e : endian) : list impl := [sw_impl e; optsw_impl e].
(** What optsw842_compress accepts: whole 64-bit words, and an empty input only in unaligned buffers (C18). *)
Definition fits (i : impl) (ia oa : Z) (x : list Z) : Prop :=
  i_name i = OPTSW -> lenZ x mod 8 = 0 /\ (x <> [] \/ ia mod 8 <> 0 \/ oa mod 8 <> 0).
(** [z] is a compressed form of [x] that the implementation is meant to read. *)
Definition readable (i : impl) (z x : list Z) : Prop :=
  valid_842 true z x /\ (i_name i = OPTSW -> lenZ z mod 8 = 0 /\ valid_842 false z x).

Ltac isb := unfold is_bytes; repeat constructor; unfold is_byte; lia.
Definition junk (n : nat) : list Z := List.repeat 165 n.
Lemma junk_bytes n : is_bytes (junk n).
Proof. unfold is_bytes, junk. apply Forall_forall. intros v V. apply repeat_spec in V. subst v. unfold is_byte. lia. Qed.
Lemma random_bytes_are : is_bytes PATTERN_RANDOM_UNCOMPRESSED. Proof. isb. Qed.
Lemma random_compressed_bytes : is_bytes PATTERN_RANDOM_COMPRESSED. Proof. isb. Qed.
Lemma random_readable i : readable i PATTERN_RANDOM_COMPRESSED PATTERN_RANDOM_UNCOMPRESSED.
Proof.
  assert (V : valid_842 false PATTERN_RANDOM_COMPRESSED PATTERN_RANDOM_UNCOMPRESSED).
  { assert (E : observed (optsw842_decompress LE 0 0 PATTERN_RANDOM_COMPRESSED (junk 32) 32) = Done (0, lenZ PATTERN_RANDOM_UNCOMPRESSED, PATTERN_RANDOM_UNCOMPRESSED)) by (vm_compute; reflexivity).
    apply (c20 LE 0 0 PATTERN_RANDOM_COMPRESSED (junk 32) 32) in E; [exact (proj1 E)|apply random_compressed_bytes|apply junk_bytes|vm_compute; split; discriminate|reflexivity|reflexivity|reflexivity]. }
  split; [|intros _; split; [reflexivity|exact V]].
  assert (E : observed (sw842_decompress LE 0 PATTERN_RANDOM_COMPRESSED (junk 32) 32) = Done (0, lenZ PATTERN_RANDOM_UNCOMPRESSED, PATTERN_RANDOM_UNCOMPRESSED)) by (vm_compute; reflexivity).
  apply (c05 LE 0 PATTERN_RANDOM_COMPRESSED (junk 32) 32) in E; [exact (proj1 E)|apply random_compressed_bytes|apply junk_bytes|vm_compute; split; discriminate|reflexivity].
Qed.

(** C105: test_compress_pattern, test_compress_pattern_unaligned and test_compress_pattern_barelysmall (and _halfsmall) pass for every
    pattern up to 2 GiB and every content of the fresh buffers, with every pair of software implementations on any pair of hosts,
    at every address.  Only a pattern of exactly three bytes does not fit into the buffer the programs allocate. *)
Theorem C105_compress_tests : forall e e' c d x ia oa za ra out rec,
  In c (software e) -> In d (software e') -> is_bytes x -> lenZ x <= 2 ^ 31 -> lenZ x <> 3 ->
  fits c ia oa x -> (i_name d = OPTSW -> lenZ x mod 8 = 0) ->
  is_bytes out -> lenZ out = lenZ x * 2 + 8 -> is_bytes rec -> lenZ rec = lenZ x + 5 ->
  test_compress_pattern c d x ia (oa, out) za (ra, rec) = Done true /\
  test_compress_pattern_small c x ia (oa, out) = Done true /\
  ((i_name c = OPTSW -> lenZ x mod 8 = 0) -> ia mod 8 = 0 -> test_compress_pattern_unaligned c x ia (oa, out) (ra, rec) = Done true).
Proof.
  intros. split; [eapply t_compress_pattern; eauto|]. split; [eapply t_compress_small; eauto|].
  intros. eapply t_compress_unaligned; eauto.
Qed.
Print Assumptions C105_compress_tests.
Example C105_compress_case : test_compress_pattern (optsw_impl BE) (sw_impl LE) PATTERN_RANDOM_UNCOMPRESSED 64 (128, junk 72) 5 (0, junk 37) = Done true.
Proof.
  assert (HC : In (optsw_impl BE) (software BE)) by (right; left; reflexivity).
  assert (HD : In (sw_impl LE) (software LE)) by (left; reflexivity).
  assert (HF : fits (optsw_impl BE) 64 128 PATTERN_RANDOM_UNCOMPRESSED) by (intros _; split; [reflexivity|left; discriminate]).
  assert (HM : i_name (sw_impl LE) = OPTSW -> lenZ PATTERN_RANDOM_UNCOMPRESSED mod 8 = 0) by (intros N; discriminate N).
  assert (HL : lenZ PATTERN_RANDOM_UNCOMPRESSED <= 2 ^ 31) by (vm_compute; discriminate).
  assert (H3 : lenZ PATTERN_RANDOM_UNCOMPRESSED <> 3) by (vm_compute; discriminate).
  exact (proj1 (C105_compress_tests BE LE _ _ _ 64 128 5 0 (junk 72) (junk 37) HC HD random_bytes_are HL H3 HF HM (junk_bytes 72) eq_refl (junk_bytes 37) eq_refl)).
Qed.
Theorem C105_three_bytes_refuted : forall e d x ia oa za rec out, is_bytes x -> lenZ x = 3 -> is_bytes out -> lenZ out = lenZ x * 2 + 8 ->
  test_compress_pattern (sw_impl e) d x ia (oa, out) za rec = Done false /\ test_compress_pattern_small (sw_impl e) x ia (oa, out) = Done false.
Proof. exact t_sw_three. Qed.
Print Assumptions C105_three_bytes_refuted.
Example C105_three_bytes_case : test_compress_pattern_small (sw_impl LE) [1; 2; 3] 0 (0, junk 14) = Done false.
Proof.
  assert (B : is_bytes [1; 2; 3]) by isb.
  exact (proj2 (C105_three_bytes_refuted LE (sw_impl LE) [1; 2; 3] 0 0 0 (0, []) (junk 14) B eq_refl (junk_bytes 14) eq_refl)).
Qed.
(** The test of the empty pattern with "optsw" has undefined behaviour whenever the allocator returns 8-byte aligned buffers. *)
Theorem C105_empty_pattern_refuted : forall e d ia oa za rec out, ia mod 8 = 0 -> oa mod 8 = 0 ->
  test_compress_pattern (optsw_impl e) d [] ia (oa, out) za rec = Undef /\ test_compress_pattern_small (optsw_impl e) [] ia (oa, out) = Undef.
Proof. exact t_opt_empty. Qed.
Print Assumptions C105_empty_pattern_refuted.
Example C105_empty_case : test_compress_pattern (optsw_impl LE) (sw_impl LE) PATTERN_EMPTY_UNCOMPRESSED 16 (32, junk 8) 48 (64, junk 5) = Undef.
Proof. exact (proj1 (C105_empty_pattern_refuted LE (sw_impl LE) 16 32 48 (64, junk 5) (junk 8) eq_refl eq_refl)). Qed.

(** C105: test_compress_notmultipleof8 passes for every length up to 100 that is not a multiple of 8. *)
Theorem C105_ragged_test : forall e i x ia oa out,
  In i (software e) -> is_bytes x -> lenZ x mod 8 <> 0 -> lenZ x <= 100 -> is_bytes out -> lenZ out = 128 ->
  test_compress_notmultipleof8 i x ia (oa, out) = Done true.
Proof. exact t_notmultiple. Qed.
Print Assumptions C105_ragged_test.
Example C105_ragged_case : test_compress_notmultipleof8 (sw_impl BE) [17; 17; 17; 18; 18] 0 (0, junk 128) = Done true.
Proof. apply (C105_ragged_test BE); [left; reflexivity|isb|discriminate|vm_compute; discriminate|apply junk_bytes|reflexivity]. Qed.

(** C105: the tests that decompress patterns pass for every pattern and each of its compressed forms, whoever made it. *)
Theorem C105_decompress_tests : forall e i x z ia oa, In i (software e) -> is_bytes z -> readable i z x -> lenZ x <= 2 ^ 31 ->
  (forall out, is_bytes out -> lenZ out = lenZ x + 5 ->
     test_decompress_pattern i x z ia (oa, out) = Done true /\ test_decompress_pattern_unaligned i x z ia (oa, out) = Done true) /\
  (forall out, is_bytes out -> 1 < lenZ x -> lenZ out = lenZ x / 2 -> test_decompress_pattern_halfsmall i x z ia (oa, out) = Done true) /\
  (forall out, is_bytes out -> 1 < lenZ x -> lenZ out = lenZ x - 1 -> test_decompress_pattern_barelysmall i x z ia (oa, out) = Done true).
Proof.
  intros e i x z ia oa HI Hz HR HL. split; [|split].
  - intros. split; [eapply t_decompress_pattern; eauto|eapply t_decompress_unaligned; eauto].
  - intros. eapply t_decompress_half; eauto.
  - intros. eapply t_decompress_barely; eauto.
Qed.
Print Assumptions C105_decompress_tests.
Example C105_decompress_case : forall i, In i (software LE) ->
  test_decompress_pattern_barelysmall i PATTERN_RANDOM_UNCOMPRESSED PATTERN_RANDOM_COMPRESSED 0 (0, junk 31) = Done true.
Proof.
  intros i HI.
  assert (HL : lenZ PATTERN_RANDOM_UNCOMPRESSED <= 2 ^ 31) by (vm_compute; discriminate).
  exact (proj2 (proj2 (C105_decompress_tests LE i _ _ 0 0 HI random_compressed_bytes (random_readable i) HL)) (junk 31) (junk_bytes 31) eq_refl eq_refl).
Qed.

(** C105: test_decompress_crcerror passes for every bit stream that is well formed but for its CRC. *)
Theorem C105_crc_test : forall e i x z c rest ia oa out,
  In i (software e) -> is_bytes z -> lenZ z < 2 ^ 62 -> 0 <= c < 2 ^ 32 -> c <> crc32 x -> lenZ x <= lenZ z * 2 ->
  stream true [] (bytes_bits z) x (bits_of 32 c ++ rest) ->
  (i_name i = OPTSW -> lenZ z mod 8 = 0 /\ stream false [] (bytes_bits z) x (bits_of 32 c ++ rest)) ->
  is_bytes out -> lenZ out = lenZ z * 2 ->
  test_decompress_crcerror i z ia (oa, out) = Done true.
Proof. exact t_crcerror. Qed.
Print Assumptions C105_crc_test.
Example C105_crc_case : forall i, In i (software LE) -> test_decompress_crcerror i [231;128;0;0;0;64;0;0] 0 (0, junk 16) = Done true.
Proof.
  intros i HI.
  assert (HS : forall sw, stream sw [] (bytes_bits [231;128;0;0;0;64;0;0]) (List.repeat 0 8) (bits_of 32 1 ++ repeat false 22)).
  { intros sw. change (bytes_bits [231;128;0;0;0;64;0;0]) with (bits_of 5 0x1c ++ bits_of 5 0x1e ++ bits_of 32 1 ++ repeat false 22).
    apply st_zeros. apply st_end. }
  apply (C105_crc_test LE i (List.repeat 0 8) [231;128;0;0;0;64;0;0] 1 (repeat false 22)); auto; try (vm_compute; discriminate); try (split; [lia|reflexivity]); try reflexivity.
  - isb.
  - apply junk_bytes.
Qed.

(** C105: test_decompress_invalid_simple passes for every stream of two or more bytes whose first template is undefined (0x1a, 0x1f) or
    repeats data although there is none (0x1b, the built-in stream), whatever follows; with the software implementations, at every address. *)
Theorem C105_invalid_test : forall e i first second rest ia oa out,
  In i (software e) -> let z := first :: second :: rest in
  is_bytes z -> lenZ z < 2 ^ 62 -> In (first / 8) [0x1a; 0x1b; 0x1f] -> is_bytes out -> lenZ out = lenZ z * 2 ->
  test_decompress_invalid_simple i z ia (oa, out) = Done true.
Proof. exact t_invalid_simple. Qed.
Print Assumptions C105_invalid_test.
(** The stream of test_decompress_invalid_simple.c:9-13. *)
Example C105_invalid_case : forall e i ia oa, In i (software e) ->
  test_decompress_invalid_simple i
    [0xdc; 0x86; 0x04; 0x22; 0x39; 0x67; 0x26; 0xa7; 0xa6; 0x93; 0x2a; 0xe5; 0x5f; 0x74; 0x50; 0x39; 0x86; 0x4c; 0xba; 0x62; 0x55; 0xf3;
     0xfb; 0xe0; 0x8f; 0x61; 0xe8; 0x14; 0x8c; 0x77; 0xc2; 0x77] ia (oa, junk 64) = Done true.
Proof.
  intros e i ia oa HI. apply (C105_invalid_test e i); [exact HI|isb|vm_compute; reflexivity|right; left; reflexivity|apply junk_bytes|reflexivity].
Qed.

(** C105: test_decompress_boundscheck, the regression test for writes beyond the capacity, passes for all sizes (not only 256/64 and 12/8):
    whatever the input size from 4 bytes on, every smaller capacity is respected and reported. *)
Theorem C105_bounds_test : forall e i ibound1 dbound1 ibound2 dbound2 ia oa1 da1 oa2 da2 out1 dec1 out2 dec2,
  In i (software e) -> 4 <= ibound1 <= 2 ^ 31 -> 0 <= dbound1 < ibound1 -> (i_name i = OPTSW -> ibound1 mod 8 = 0) ->
  4 <= ibound2 <= 2 ^ 31 -> 0 <= dbound2 < ibound2 ->
  is_bytes out1 -> lenZ out1 = ibound1 * 4 -> is_bytes dec1 -> lenZ dec1 = ibound1 ->
  is_bytes out2 -> lenZ out2 = ibound2 * 4 -> is_bytes dec2 -> lenZ dec2 = ibound2 ->
  test_decompress_boundscheck e i ibound1 dbound1 ibound2 dbound2 ia (oa1, out1) (da1, dec1) (oa2, out2) (da2, dec2) = Done true.
Proof. exact t_boundscheck. Qed.
Print Assumptions C105_bounds_test.
(** the sizes of the program *)
Example C105_bounds_case : forall e i out1 dec1 out2 dec2, In i (software e) ->
  is_bytes out1 -> lenZ out1 = 256 * 4 -> is_bytes dec1 -> lenZ dec1 = 256 -> is_bytes out2 -> lenZ out2 = 12 * 4 -> is_bytes dec2 -> lenZ dec2 = 12 ->
  test_decompress_boundscheck e i 256 64 12 8 0 (0, out1) (0, dec1) (0, out2) (0, dec2) = Done true.
Proof.
  intros e i out1 dec1 out2 dec2 HI B1 L1 B2 L2 B3 L3 B4 L4.
  assert (H1 : 4 <= 256 <= 2 ^ 31) by (change (2 ^ 31) with 2147483648; lia).
  assert (H2 : 4 <= 12 <= 2 ^ 31) by (change (2 ^ 31) with 2147483648; lia).
  assert (H3 : 0 <= 64 < 256) by lia. assert (H4 : 0 <= 8 < 12) by lia.
  exact (C105_bounds_test e i 256 64 12 8 0 0 0 0 0 out1 dec1 out2 dec2 HI H1 H3 (fun _ => eq_refl) H2 H4 B1 L1 B2 L2 B3 L3 B4 L4).
Qed.

(** C105: test_compress_diffuse passes for every seed, every number of iterations and every buffer size that is a positive multiple of 8. *)
Theorem C105_diffuse_test : forall e i size seed its da ca comp ua uncomp,
  In i (software e) -> (0 < size)%nat -> (size mod 8 = 0)%nat -> Z.of_nat size <= 2 ^ 31 ->
  is_bytes comp -> lenZ comp = 2 * Z.of_nat size -> is_bytes uncomp -> lenZ uncomp = Z.of_nat size ->
  test_compress_diffuse i size seed its da (ca, comp) (ua, uncomp) = Done true.
Proof. exact t_diffuse. Qed.
Print Assumptions C105_diffuse_test.
(** the parameters of the program *)
Example C105_diffuse_case : forall e i size comp uncomp, In i (software e) -> Z.of_nat size = 2048 ->
  is_bytes comp -> lenZ comp = 2 * Z.of_nat size -> is_bytes uncomp -> lenZ uncomp = Z.of_nat size ->
  test_compress_diffuse i size 1234 13 0 (0, comp) (0, uncomp) = Done true.
Proof.
  intros e i size comp uncomp HI HS Hc HC Hu HU.
  assert (S0 : (0 < size)%nat) by lia.
  assert (S8 : (size mod 8 = 0)%nat) by (apply Nat2Z.inj; rewrite Nat2Z.inj_mod, HS; reflexivity).
  assert (SL : Z.of_nat size <= 2 ^ 31) by (rewrite HS; vm_compute; discriminate).
  exact (C105_diffuse_test e i size 1234 13 0 0 comp 0 uncomp HI S0 S8 SL Hc HC Hu HU).
Qed.
(** ... and its data "converges to all zeroes": the 13 iterations of the program are enough for every start and every size; 12 are not. *)
Theorem C105_diffuse_converges : forall data, is_bytes data -> Nat.iter 13 diffuse data = List.repeat 0 (length data).
Proof. exact diffuse13. Qed.
Print Assumptions C105_diffuse_converges.
Example C105_diffuse_converges_case : Nat.iter 12 diffuse [255; 255; 0; 255] <> [0; 0; 0; 0] /\ Nat.iter 13 diffuse [255; 255; 0; 255] = [0; 0; 0; 0].
Proof. split; [vm_compute; discriminate|reflexivity]. Qed.
Theorem C105_diffuse_not_sooner : forall n, (0 < n)%nat -> Nat.iter 12 diffuse (List.repeat 255 n) = List.repeat 1 n.
Proof. exact diffuse12. Qed.
Print Assumptions C105_diffuse_not_sooner.

(** C105: the primitive fuzz test.  For "optsw" in aligned buffers it has defined behaviour for every seed, sizes and number of runs.  For "sw" it
    has, if and only if no generated stream starts with 1 to 7 bytes of short data followed by a repeat template (C06). *)
Theorem C105_fuzz_test_optsw : forall e insize outsize ia oa, ia mod 8 = 0 -> oa mod 8 = 0 -> 0 <= outsize < 2 ^ 63 ->
  forall runs seed out, is_bytes out -> lenZ out = outsize ->
  generator_loop runs (optsw_impl e) insize outsize seed ia (oa, out) = Done true.
Proof. exact t_generator. Qed.
Print Assumptions C105_fuzz_test_optsw.
(** the parameters of the program *)
Example C105_fuzz_case : forall e runs out, Z.of_nat runs = 5000 -> is_bytes out -> lenZ out = 1024 -> generator_loop runs (optsw_impl e) 32 1024 12345 64 (128, out) = Done true.
Proof.
  intros e runs out _ Ho HO. assert (H : 0 <= 1024 < 2 ^ 63) by (split; [discriminate|reflexivity]).
  exact (C105_fuzz_test_optsw e 32%nat 1024 64 128 eq_refl eq_refl H runs 12345 out Ho HO).
Qed.
(** the [k]-th generated stream *)
Definition generated (insize : nat) (seed : Z) (k : nat) : list Z :=
  fst (random_bytes insize (Nat.iter k (fun s => snd (random_bytes insize s)) seed)).
Theorem C105_fuzz_test_sw : forall e insize outsize ia oa, 0 <= outsize < 2 ^ 63 ->
  forall runs seed out, is_bytes out -> lenZ out = outsize ->
  (generator_loop runs (sw_impl e) insize outsize seed ia (oa, out) = Done true <->
   forall k, (k < runs)%nat -> ~ exists ds n rest,
     Forall (fun d => is_bytes d /\ (1 <= length d)%nat) ds /\ 0 <= n < 64 /\
     bytes_bits (generated insize seed k) = concat (map short_template ds) ++ repeat_template n ++ rest /\
     (1 <= length (concat ds) <= 7)%nat /\ lenZ (concat ds) + 8 * (n + 1) <= outsize).
Proof.
  intros e insize outsize ia oa HO runs seed out Ho HL.
  destruct (t_generator_sw e insize outsize ia oa HO runs seed out Ho HL) as [(E & k & K & M)|(E & H)]; rewrite E; split; auto; try discriminate.
  intros H'. exfalso. exact (H' k K M).
Qed.
Print Assumptions C105_fuzz_test_sw.
(** the first streams of the program are harmless *)
Example C105_fuzz_sw_case : generator_loop 3 (sw_impl LE) 32 32 12345 0 (0, junk 32) = Done true /\ (forall k, (k < 3)%nat -> length (generated 32 12345 k) = 32%nat).
Proof. split; [vm_compute; reflexivity|]. intros k _. unfold generated. apply random_bytes_ok. Qed.
(** ... which is the case for the program itself: its stream 26 (counted from 0) is such a stream. *)
Theorem C105_fuzz_program_refuted : forall e runs ia oa out, 27 <= Z.of_nat runs -> is_bytes out -> lenZ out = 1024 ->
  generator_loop runs (sw_impl e) 32 1024 12345 ia (oa, out) = Undef.
Proof.
  intros e runs ia oa out HR Ho HL. assert (H : 0 <= 1024 < 2 ^ 63) by (split; [discriminate|reflexivity]).
  destruct (t_generator_sw e 32 1024 ia oa H runs 12345 out Ho HL) as [(E & _)|(_ & K)]; [exact E|].
  exfalso. apply (K 26%nat); [lia|]. apply (misplaced_mono 128); [lia|].
  apply (misplaced_of _ (junk 128)); [apply random_bytes_ok|apply junk_bytes|vm_compute; split; discriminate|reflexivity|vm_compute; reflexivity].
Qed.
Print Assumptions C105_fuzz_program_refuted.
