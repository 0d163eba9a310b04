(** Properties of the blocks the streams exchange (C35, C39) and of incompressible data (C51). *)
From Coq Require Import ZArith List Bool.
From Verif Require Import SpecBits CBase SpecCalls SerialCompModel SerialDecompModel ChunkedModel StreamBlockModel SpecBlock Expansion BlockProps.
Import ListNotations.
Open Scope Z_scope.

(** C35, for builds with NDEBUG and for blocks without raw chunks (missing: raw chunks
    with assertions enabled, where it is false, see below).  [rets0], [rets1] and [buf]
    are the indeterminate initial contents of local arrays and of the chunk buffer. *)
Theorem C35_block_round_trip_partial : forall e gc gd rets0 paddr src baddr buf off,
  In gc [sw842_compress_chunked e; optsw842_compress_chunked e] ->
  In gd [sw842_decompress_chunked e; optsw842_decompress_chunked e] ->
  is_bytes src -> is_bytes buf -> lenZ buf = BLOCK_SIZE -> length rets0 = 16%nat -> 0 <= off -> off + BLOCK_SIZE <= lenZ src ->
  exists b, comp_handle_block gc rets0 paddr src baddr buf off = Done b /\ b_offset b = off /\
    forall ndebug rets1 qaddr mem, is_bytes mem -> off + BLOCK_SIZE <= lenZ mem -> length rets1 = 16%nat ->
      (ndebug = true \/ forall j, ~ stored_raw b j) ->
      decomp_handle_block ndebug gd rets1 qaddr mem b = Done (Some (true, restored src mem off)).
Proof. exact c35. Qed.
Print Assumptions C35_block_round_trip_partial.
(** The hypotheses are met by the numbers 0, 1, 2, ... as 16-bit words. *)
Example C35_case : is_bytes hard_source /\ 0 + BLOCK_SIZE <= lenZ hard_source /\ length (List.repeat 5 16) = 16%nat.
Proof.
  split; [apply ramp_bytes|]. split; [|reflexivity]. rewrite hard_length. apply Z.le_refl.
Qed.

(** C35 fails with assertions enabled (the default build): a block with an incompressible chunk,
    as delivered by the compression stream, makes the decompression stream abort. *)
Theorem C35_raw_chunk_aborts_refuted : exists src, forall e gc gd rets0 rets1 paddr qaddr baddr buf mem,
  In gc [sw842_compress_chunked e; optsw842_compress_chunked e] ->
  is_bytes buf -> lenZ buf = BLOCK_SIZE -> length rets0 = 16%nat ->
  is_bytes src /\ lenZ src = BLOCK_SIZE /\
  exists b, comp_handle_block gc rets0 paddr src baddr buf 0 = Done b /\
    decomp_handle_block false gd rets1 qaddr mem b = Done None.
Proof. exists hard_source. exact c35_refuted. Qed.
Print Assumptions C35_raw_chunk_aborts_refuted.

(** C39 fails: in a build with NDEBUG handle_block reports success for every block, ... *)
Theorem C39_handle_block_never_reports : forall e gd rets0 paddr mem b r m,
  In gd [sw842_decompress_chunked e; optsw842_decompress_chunked e] ->
  decomp_handle_block true gd rets0 paddr mem b = Done (Some (r, m)) -> r = true.
Proof. exact c39_never. Qed.
Print Assumptions C39_handle_block_never_reports.
(** ... for instance for a block whose first chunk is 8 bytes 0xff, which the
    decompressor refuses; with assertions enabled the program aborts. *)
Theorem C39_corrupted_chunk_refuted :
  exists b mem, b_sizes b = 8 :: List.repeat 0 15 /\
  (exists buf, b_buffer b = Some (0, buf) /\ firstn 8 buf = List.repeat 255 8) /\
  (exists m n, sw842_decompress LE 0 (List.repeat 255 8) (firstn (Z.to_nat CHUNK_SIZE) mem) CHUNK_SIZE = Done (- EINVAL, n, m)) /\
  (exists m, decomp_handle_block true (sw842_decompress_chunked LE) (List.repeat 0 16) 0 mem b = Done (Some (true, m))) /\
  decomp_handle_block false (sw842_decompress_chunked LE) (List.repeat 0 16) 0 mem b = Done None.
Proof. exact c39_witness. Qed.
Print Assumptions C39_corrupted_chunk_refuted.

(** C51: on data without a repeated aligned 16-bit word the compressed size is exactly the bound of C04. *)
Theorem C51_size_bound_attained : forall e addr inp out olen n m,
  is_bytes inp -> is_bytes out -> 0 <= olen <= lenZ out -> lenZ inp mod 8 = 0 -> distinct16 inp ->
  sw842_compress e addr inp out olen = Done (0, n, m) -> n = words64 (69 * (lenZ inp / 8) + 37).
Proof. exact c51. Qed.
Print Assumptions C51_size_bound_attained.
(** There is such data of every even length up to 128 KiB. *)
Theorem C51_every_length : forall n, Z.of_nat n <= 65536 ->
  exists x, is_bytes x /\ length x = (2 * n)%nat /\ distinct16 x.
Proof. exact c51_data. Qed.
Print Assumptions C51_every_length.
Example C51_case : observed (sw842_compress LE 0 (ramp 8 0) (List.repeat 0 64) 64) =
  Done (0, words64 (69 * 2 + 37), [0; 0; 0; 0; 8; 0; 16; 0; 24; 0; 1; 0; 1; 64; 1; 128; 1; 252; 142; 26; 139; 50; 0; 0]).
Proof. vm_compute. reflexivity. Qed.
