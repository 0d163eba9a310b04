(** Properties of the CUDA kernel built without LIB842_CUDA_STRICT: C100.

    [flat_chunk lg inp out] is the kernel for one chunk of 2^lg bytes; [flat_run 10 inp order out] is a launch with chunks of
    1024 bytes, as [cuda_run] in PropCuda.v; [compress_with e strict crc] is optsw842_compress built with or without LIB842_CUDA_STRICT and
    the CRC (PropOptConfig.v). *)
From Coq Require Import ZArith List Bool Lia Permutation.
From Verif Require Import SpecBits SpecCrc Spec842 SpecCalls CBase CudaModel CudaFlatModel SpecCudaFlat SpecOcl OptConfigModel CudaFlatProofs.
Import ListNotations.
Open Scope Z_scope.

(** Every stream of the kernel's own format is decoded to what it denotes, if there is room; the rest of the buffer is unchanged. *)
Theorem C100_decodes : forall lg inp out x rest, (4 <= lg <= 60)%nat ->
  is_bytes inp -> is_bytes out -> lenZ inp mod 8 = 0 -> lenZ out < 2 ^ 63 ->
  flat_stream lg [] (bytes_bits inp) x rest -> lenZ x <= lenZ out ->
  flat_chunk (Z.of_nat lg) inp out = Done (x ++ skipn (length x) out).
Proof. exact flat_chunk_ok. Qed.
Print Assumptions C100_decodes.
(** Words 1 to 8, then its bytes 3, 4 (item 1 of 2 bytes), 9, 9, and 5 to 8 (item 1 of 4 bytes): template 0x0e. *)
Definition flat_in : list Z := [0; 8; 16; 24; 32; 40; 48; 56; 67; 128; 33; 33; 32; 62; 0; 0].
Definition flat_x : list Z := [1; 2; 3; 4; 5; 6; 7; 8; 3; 4; 9; 9; 5; 6; 7; 8].
Example C100_decodes_case : flat_stream 10 [] (bytes_bits flat_in) flat_x (List.repeat false 16) /\ flat_chunk 10 flat_in (List.repeat 7 20) = Done (flat_x ++ List.repeat 7 4).
Proof.
  split; [|vm_compute; reflexivity].
  change (bytes_bits flat_in) with (bits_of 5 0 ++ bytes_bits [1; 2; 3; 4; 5; 6; 7; 8] ++ bits_of 5 14 ++ bits_of (flat_bits 10 2) (Z.of_nat 1) ++
    bytes_bits [9; 9] ++ bits_of (flat_bits 10 4) (Z.of_nat 1) ++ bits_of 5 30 ++ List.repeat false 16).
  eapply fs_template; [lia|reflexivity| |].
  { apply flat_data; [reflexivity|repeat constructor; unfold is_byte; lia|]. apply flat_nil. }
  eapply fs_template; [lia|reflexivity| |].
  { apply flat_index. { apply Nat2Z.inj_lt. vm_compute. reflexivity. } { cbn; lia. }
    apply flat_data; [reflexivity|repeat constructor; unfold is_byte; lia|].
    apply flat_index. { apply Nat2Z.inj_lt. vm_compute. reflexivity. } { cbn; lia. } apply flat_nil. }
  apply fs_end.
Qed.

(** A launch: whatever the order of the threads, every chunk is decoded and nothing else is changed. *)
Theorem C100_launch : forall inp n x order out,
  0 <= n <= 2 ^ 24 -> is_bytes inp -> lenZ inp mod 8 = 0 ->
  (forall c, 0 <= c < n -> lenZ (x c) <= 1024 /\
     exists rest, flat_stream 10 [] (bytes_bits (skipn (Z.to_nat (2048 * c)) inp)) (x c) rest) ->
  is_bytes out -> 1024 * n <= lenZ out < 2 ^ 63 -> Permutation order (chunk_numbers n) ->
  exists out', flat_run 10 inp order out = Done out' /\ length out' = length out /\
    (forall c, 0 <= c < n -> bytes_at out' (1024 * c) 1024 = x c ++ bytes_at out (1024 * c + lenZ (x c)) (1024 - lenZ (x c))) /\
    (forall p, 1024 * n <= Z.of_nat p -> nth p out' 0 = nth p out 0).
Proof. intros inp n x order out Hn Hi H8 Hx HB HM P. exact (flat_launch inp n x Hn Hi H8 Hx (length out) HM order out P HB eq_refl). Qed.
Print Assumptions C100_launch.
Example C100_launch_case : flat_run 10 (flat_in ++ List.repeat 0 2032 ++ flat_in) [1; 0] (List.repeat 7 2048) =
  Done (flat_x ++ List.repeat 7 1008 ++ flat_x ++ List.repeat 7 1008).
Proof. vm_compute. reflexivity. Qed.

(** The kernel as it is, with LIB842_CUDA_STRICT, decodes what optsw842_compress makes with any switches. *)
Theorem C100_strict_kernel : forall e strict crc iaddr oaddr x out0 olen n m inp out, is_bytes x -> lenZ x mod 8 = 0 -> x <> [] ->
  is_bytes out0 -> 0 <= olen <= lenZ out0 -> iaddr mod 8 = 0 -> oaddr mod 8 = 0 ->
  compress_with e strict crc iaddr oaddr x out0 olen = Done (0, n, m) ->
  is_bytes inp -> lenZ inp mod 8 = 0 -> firstn (Z.to_nat n) inp = firstn (Z.to_nat n) m -> is_bytes out -> lenZ x <= lenZ out < 2 ^ 63 ->
  cuda_chunk inp out = Done (x ++ skipn (length x) out).
Proof. exact strict_reads. Qed.
Print Assumptions C100_strict_kernel.

(** What this kernel without LIB842_CUDA_STRICT makes of it is another matter: nothing in the repository writes the format it reads.  With or
    without LIB842_CUDA_STRICT in the compressor, the index fields have other sizes and count from elsewhere.  The result is a wrong
    output without a sign of it, *)
Definition mixed_x : list Z := [1; 2; 3; 4; 5; 6; 7; 8; 9; 9; 3; 4; 5; 6; 7; 8].
Definition mixed_z : list Z := [0; 8; 16; 24; 32; 40; 48; 56; 66; 66; 66; 64; 64; 62; 249; 86; 101; 64; 0; 0; 0; 0; 0; 0].
Theorem C100_wrong_output_refuted : forall e strict,
  compress_with e strict true 0 0 mixed_x (List.repeat 0 24) 24 = Done (0, 24, mixed_z) /\
  cuda_chunk mixed_z (List.repeat 7 16) = Done mixed_x /\
  flat_chunk 10 mixed_z (List.repeat 7 16) = Done [1; 2; 3; 4; 5; 6; 7; 8; 9; 9; 5; 6; 5; 6; 7; 8].
Proof. intros [] []; vm_compute; auto. Qed.
Print Assumptions C100_wrong_output_refuted.
(** or an access outside the buffers, for 16 equal bytes. *)
Theorem C100_out_of_bounds_refuted : forall e strict, exists m,
  compress_with e strict true 0 0 (List.repeat 9 16) (List.repeat 0 24) 24 = Done (0, 16, m) /\
  cuda_chunk m (List.repeat 7 16) = Done (List.repeat 9 16) /\ flat_chunk 10 m (List.repeat 7 16) = Undef.
Proof.
  intros e strict.
  exists (if strict then [0; 72; 72; 72; 72; 72; 72; 72; 78; 192; 243; 91; 56; 82; 96; 0; 0; 0; 0; 0; 0; 0; 0; 0]
          else [0; 72; 72; 72; 72; 72; 72; 72; 78; 64; 60; 214; 206; 20; 152; 0; 0; 0; 0; 0; 0; 0; 0; 0]).
  destruct e, strict; vm_compute; auto.
Qed.
Print Assumptions C100_out_of_bounds_refuted.
