(** Properties of the OpenCL decompressor: C42, C43, C44, C56, C57, C58.

    Reading the statements: [decompress_core e inp ilen out olen] is the decoding done by one
    work item: [inp] and [out] are the memory behind its two pointers, [ilen]
    the compressed size it was told, [olen] the room.  The result is
    [Done (return value, size, final output memory)], or [Undef] for an access
    outside [inp] or [out].  [run_items e a order m] runs the kernel over the
    index space in the order [order]; [a] has the arguments and [m] the buffers
    it changes.  layout_ok, sizes_ok, chunks_ok, packed, denotes_842: SpecOcl.v. *)
From Coq Require Import ZArith List Bool Lia Permutation.
From Verif Require Import SpecBits SpecCrc Spec842 SpecCalls CBase SerialDecompModel OptDecompModel OclModel SpecOcl OclProps PropSerial PropOpt.
Import ListNotations.
Open Scope Z_scope.

(** C42: a stream the software decompressors accept, without short data and in whole
    8-byte words, gives the same bytes and return value 0. *)
Theorem C42_ocl_decodes_like_software : forall e e' iaddr oaddr inp out olen x out2 olen2,
  is_bytes inp -> lenZ inp mod 8 = 0 -> iaddr mod 8 = 0 -> oaddr mod 8 = 0 ->
  is_bytes out -> 0 <= olen <= lenZ out -> olen < 2 ^ 63 ->
  observed (optsw842_decompress e iaddr oaddr inp out olen) = Done (0, lenZ x, x) ->
  is_bytes out2 -> lenZ x <= olen2 <= lenZ out2 -> olen2 < 2 ^ 63 ->
  observed (decompress_core e' inp (lenZ inp) out2 olen2) = Done (0, lenZ x, x).
Proof. exact c42_soft. Qed.
Print Assumptions C42_ocl_decodes_like_software.
(** What the kernel accepts, exactly: the 32 bits of the CRC must be there but may
    be anything (C57). *)
Theorem C42_ocl_core_exact : forall e inp ilen out olen x,
  is_bytes inp -> is_bytes out -> 0 <= ilen -> 8 * ((ilen + 7) / 8) <= lenZ inp -> 0 <= olen <= lenZ out -> olen < 2 ^ 63 ->
  (observed (decompress_core e inp ilen out olen) = Done (0, lenZ x, x)
   <-> denotes_842 (firstn (Z.to_nat (8 * (ilen / 8))) inp) x /\ lenZ x <= olen).
Proof. exact core_exact. Qed.
Print Assumptions C42_ocl_core_exact.
Theorem C42_ocl_core_too_small : forall e inp ilen out olen x,
  is_bytes inp -> is_bytes out -> 0 <= ilen -> 8 * ((ilen + 7) / 8) <= lenZ inp -> 0 <= olen -> olen + 2 <= lenZ out -> olen < 2 ^ 63 ->
  denotes_842 (firstn (Z.to_nat (8 * (ilen / 8))) inp) x -> olen < lenZ x ->
  exists m, decompress_core e inp ilen out olen = Done (- ENOSPC, 0, m).
Proof. exact core_small. Qed.
Print Assumptions C42_ocl_core_too_small.
(** The kernel with all its work items: every chunk is decoded, in place, to what
    it denotes, or its return value is not 0; bytes outside of the chunks are not touched. *)
Theorem C42_ocl_kernel_decodes_every_chunk : forall e a m order,
  layout_ok 2 a m -> sizes_ok a -> schedule a order ->
  exists m', run_items e a order m = Done m' /\
  length (m_out m') = length (m_out m) /\
  (forall c, 0 <= c < a_num a ->
    let z := bytes_at (a_in a) (in_pos a c) (elem (a_ilen a) c) in
    (forall x, elem (m_ret m') c = 0 /\ elem (m_olen m') c = lenZ x /\ bytes_at (m_out m') (out_pos a c) (lenZ x) = x
       <-> denotes_842 z x /\ lenZ x <= elem (m_olen m) c) /\
    (forall x, denotes_842 z x -> elem (m_olen m) c < lenZ x -> elem (m_ret m') c = - ENOSPC) /\
    (elem (m_ret m') c = 0 \/ ((elem (m_ret m') c = - EINVAL \/ elem (m_ret m') c = - ENOSPC) /\ elem (m_olen m') c = 0))) /\
  (forall p, (Z.of_nat p < a_outoff a \/ a_outoff a + a_size a * a_num a <= Z.of_nat p) -> nth p (m_out m') 0 = nth p (m_out m) 0).
Proof. intros e a m order HL. exact (batch_always e a m HL order). Qed.
Print Assumptions C42_ocl_kernel_decodes_every_chunk.
(** Two chunks of 40 bytes at stride 48, offsets 8 and 16, the second one with a
    stream that does not fit, and a shuffle map. *)
Definition pad_to (n : nat) (l : list Z) : list Z := l ++ List.repeat 0 (n - length l).
Definition sample_args : cl_args :=
  mkA AlwaysCompressed 40 48 (List.repeat 9 8 ++ pad_to 48 osample_z ++ osample_z) 8 (Some [24; 24]) 16 2 (Some [1; 0]).
Definition sample_mem : cl_mem := mkM (List.repeat 7 98) (Some [40; 39]) (Some [5; 5]).
Example sample_layout : layout_ok 2 sample_args sample_mem /\ sizes_ok sample_args /\ schedule sample_args (rev (chunk_numbers 256)).
Proof.
  split; [|split].
  - split; cbn -[Z.mul Z.add Z.le Z.modulo]; try (split; (lia || reflexivity)).
    + isb. + split; [isb|unfold lenZ; cbn; lia].
    + eexists. split; [reflexivity|]. split; [reflexivity|]. repeat constructor; lia.
    + eexists. split; reflexivity.
    + intros l E. injection E as <-. apply perm_swap.
  - split; [reflexivity|]. eexists. split; [reflexivity|]. split; [reflexivity|]. intros c Hc. cbn [a_num sample_args] in Hc.
    assert (c = 0 \/ c = 1) as [-> | ->] by lia; vm_compute; intuition discriminate.
  - unfold schedule. change (global_size (a_num sample_args)) with 256. symmetry. apply Permutation_rev.
Qed.
Example C42_case : observed (decompress_core LE osample_z 24 (obuf 40) 40) = Done (0, 40, osample) /\
  (exists m, decompress_core LE osample_z 24 (obuf 41) 39 = Done (- ENOSPC, 0, m)) /\
  (exists rest, run_items LE sample_args (rev (chunk_numbers 256)) sample_mem =
    Done (mkM (List.repeat 7 16 ++ osample ++ rest) (Some [40; 0]) (Some [0; - ENOSPC])) /\ skipn 40 rest = [7; 7]).
Proof.
  split; [vm_compute; reflexivity|]. split; [eexists; vm_compute; reflexivity|].
  exists (firstn 32 osample ++ List.repeat 7 10). split; vm_compute; reflexivity.
Qed.

(** C43 fails: an index that denotes the last two bytes of a full output chunk makes the
    kernel read two bytes behind it (decompress.cl:247-251), on the way to -ENOSPC. *)
Theorem C43_ocl_in_bounds_refuted : exists inp out olen, is_bytes inp /\ lenZ inp mod 8 = 0 /\ is_bytes out /\ lenZ out = olen /\
  forall e, decompress_core e inp (lenZ inp) out olen = Undef.
Proof.
  exists [0; 8; 16; 24; 32; 40; 48; 56; 68; 128; 192; 192; 192; 252; 0; 0; 0; 0; 0; 0; 0; 0; 0; 0], (obuf 8), 8.
  split; [isb|]. split; [reflexivity|]. split; [cbn; isb|]. split; [reflexivity|]. intros []; vm_compute; reflexivity.
Qed.
Print Assumptions C43_ocl_in_bounds_refuted.
(** It also fails for compressed sizes that are not multiples of 8: a whole word is
    read at the end (decompress.cl:124-131). *)
Theorem C43_ocl_ragged_input_refuted : exists inp out olen, is_bytes inp /\ is_bytes out /\ lenZ out = olen + 2 /\
  (exists x, valid_842 false inp x /\ lenZ x <= olen) /\
  forall e, decompress_core e inp (lenZ inp) out olen = Undef.
Proof.
  exists [240; 0; 0; 0; 0], (obuf 10), 8. split; [isb|]. split; [cbn; isb|]. split; [reflexivity|]. split.
  - exists []. split; [|cbn; lia]. exists [false; false; false].
    change (bytes_bits [240; 0; 0; 0; 0]) with (bits_of 5 0x1e ++ bits_of 32 (crc32 []) ++ [false; false; false]). apply st_end.
  - intros []; vm_compute; reflexivity.
Qed.
Print Assumptions C43_ocl_ragged_input_refuted.
(** With the last word of the input readable and two more bytes of memory behind the output chunk,
    nothing else is accessed and nothing behind the chunk is changed.  Missing
    for the full property: the two cases above. *)
Theorem C43_ocl_in_bounds_partial : forall e inp ilen out olen,
  is_bytes inp -> is_bytes out -> 0 <= ilen -> 8 * ((ilen + 7) / 8) <= lenZ inp -> 0 <= olen -> olen + 2 <= lenZ out -> olen < 2 ^ 63 ->
  exists ret n m, decompress_core e inp ilen out olen = Done (ret, n, m) /\
    (ret = 0 \/ ((ret = - EINVAL \/ ret = - ENOSPC) /\ n = 0)) /\ 0 <= n <= olen /\
    exists w, is_bytes w /\ lenZ w <= olen /\ m = w ++ skipn (length w) out.
Proof. exact core_bounds. Qed.
Print Assumptions C43_ocl_in_bounds_partial.
Example C43_case : exists m, decompress_core LE [0; 8; 16; 24; 32; 40; 48; 56; 68; 128; 192; 192; 192; 252; 0; 0; 0; 0; 0; 0; 0; 0; 0; 0] 24 (obuf 10) 8 = Done (- ENOSPC, 0, m) /\
  decompress_core BE [255; 1] 0 (obuf 2) 0 = Done (- EINVAL, 0, obuf 2).
Proof. eexists. split; vm_compute; reflexivity. Qed.

(** C44: a chunk without the marker is copied, a chunk with the header and a
    compressed stream is decompressed. *)
Theorem C44_ocl_maybe_compressed_partial : forall e a m order,
  layout_ok 2 a m -> chunks_ok e a -> schedule a order ->
  exists m', run_items e a order m = Done m' /\
  length (m_out m') = length (m_out m) /\
  (forall c, 0 <= c < a_num a ->
    let chunk := bytes_at (a_in a) (in_pos a c) (a_size a) in
    let result x := elem (m_ret m') c = 0 /\ elem (m_olen m') c = lenZ x /\ bytes_at (m_out m') (out_pos a c) (lenZ x) = x in
    (firstn 16 chunk <> MARKER -> result chunk) /\
    (forall z x, packed e (a_size a) chunk z -> lenZ z mod 8 = 0 -> denotes_842 z x -> lenZ x <= elem (m_olen m) c -> result x)) /\
  (forall p, (Z.of_nat p < a_outoff a \/ a_outoff a + a_size a * a_num a <= Z.of_nat p) -> nth p (m_out m') 0 = nth p (m_out m) 0).
Proof. intros e a m order HL. exact (batch_maybe e a m HL order). Qed.
Print Assumptions C44_ocl_maybe_compressed_partial.
(** It fails for raw chunks that start with the 16 marker bytes: this one is reported as
    decompressed but its content does not reach the output. *)
Definition marker_args : cl_args := mkA MaybeCompressed 24 24 (MARKER ++ List.repeat 0 8) 0 None 0 1 None.
Theorem C44_ocl_raw_marker_chunk_refuted : exists a m order m',
  layout_ok 2 a m /\ a_format a = MaybeCompressed /\ a_num a = 1 /\ schedule a order /\ lenZ (a_in a) = a_size a /\
  forall e, run_items e a order m = Done m' /\ elem (m_ret m') 0 = 0 /\ elem (m_olen m') 0 = a_size a /\
    bytes_at (m_out m') 0 (a_size a) <> a_in a.
Proof.
  exists marker_args, (mkM (List.repeat 7 26) (Some [24]) (Some [5])), (chunk_numbers 256), (mkM (List.repeat 7 26) (Some [24]) (Some [0])).
  split; [|split; [reflexivity|split; [reflexivity|split; [apply Permutation_refl|split; [reflexivity|]]]]].
  - split; cbn -[Z.mul Z.add Z.le Z.modulo]; try (split; (lia || reflexivity)).
    + isb. + split; [isb|unfold lenZ; cbn; lia].
    + eexists. split; [reflexivity|]. split; [reflexivity|]. repeat constructor; lia.
    + eexists. split; reflexivity.
    + discriminate.
  - intros e. split; [destruct e; vm_compute; reflexivity|]. split; [reflexivity|]. split; [reflexivity|]. vm_compute. discriminate.
Qed.
Print Assumptions C44_ocl_raw_marker_chunk_refuted.
Definition maybe_args : cl_args :=
  mkA MaybeCompressed 48 48 (MARKER ++ [24; 0; 0; 0; 0; 0; 0; 0] ++ osample_z ++ List.repeat 3 48) 0 None 0 2 None.
Definition maybe_mem : cl_mem := mkM (List.repeat 7 98) (Some [48; 48]) (Some [5; 5]).
Example C44_layout : layout_ok 2 maybe_args maybe_mem /\ chunks_ok LE maybe_args.
Proof.
  split.
  - split; cbn -[Z.mul Z.add Z.le Z.modulo]; try (split; (lia || reflexivity)).
    + isb. + split; [isb|unfold lenZ; cbn; lia].
    + eexists. split; [reflexivity|]. split; [reflexivity|]. repeat constructor; lia.
    + eexists. split; reflexivity.
    + discriminate.
  - split; [reflexivity|]. split; [cbn; lia|]. split; [discriminate|]. intros c Hc. cbn [a_num maybe_args] in Hc.
    assert (c = 0 \/ c = 1) as [-> | ->] by lia; (split; [vm_compute; discriminate|]).
    + right. exists osample_z. split; [|reflexivity]. exists []. split; reflexivity.
    + left. vm_compute. discriminate.
Qed.
Example C44_case : run_items LE maybe_args (chunk_numbers 256) maybe_mem =
  Done (mkM (osample ++ List.repeat 7 8 ++ List.repeat 3 48 ++ [7; 7]) (Some [40; 48]) (Some [0; 0])).
Proof. vm_compute. reflexivity. Qed.

(** C56: neither the order in which the device runs the work items nor the shuffle map
    changes anything in the result. *)
Theorem C56_ocl_schedule_independent : forall e a m mp order1 order2,
  layout_ok 2 a m -> sizes_ok a \/ chunks_ok e a ->
  (forall l, mp = Some l -> Permutation l (chunk_numbers (a_num a))) ->
  schedule a order1 -> schedule a order2 ->
  run_items e (mkA (a_format a) (a_size a) (a_stride a) (a_in a) (a_inoff a) (a_ilen a) (a_outoff a) (a_num a) mp) order1 m =
  run_items e a order2 m.
Proof. intros e a m mp order1 order2 HL. exact (batch_any_order e a m HL mp order1 order2). Qed.
Print Assumptions C56_ocl_schedule_independent.
Example C56_case : run_items LE sample_args (rev (chunk_numbers 256)) sample_mem =
  run_items LE (mkA AlwaysCompressed 40 48 (a_in sample_args) 8 (Some [24; 24]) 16 2 None) (chunk_numbers 256) sample_mem.
Proof. vm_compute. reflexivity. Qed.

(** C57 fails: the CRC is not compared (decompress.cl:378-382), so the kernel accepts
    streams that the software decompressor refuses. *)
Theorem C57_ocl_crc_enforced_refuted : exists inp out olen x, is_bytes inp /\ is_bytes out /\ lenZ out = olen /\
  ~ valid_842 false inp x /\
  forall e, observed (decompress_core e inp (lenZ inp) out olen) = Done (0, lenZ x, x) /\
            observed (optsw842_decompress e 0 0 inp out olen) = Done (- EINVAL, 0, []).
Proof.
  exists [240; 0; 0; 0; 8; 0; 0; 0], (obuf 8), 8, []. split; [isb|]. split; [cbn; isb|]. split; [reflexivity|]. split.
  - intros V. assert (A : observed (optsw842_decompress LE 0 0 [240; 0; 0; 0; 8; 0; 0; 0] (obuf 8) 8) = Done (0, lenZ (@nil Z), [])).
    { apply C20_optsw842_decompress_exact; try reflexivity; try isb; try (cbn; lia). split; [exact V|cbn; lia]. }
    vm_compute in A. discriminate.
  - intros []; split; vm_compute; reflexivity.
Qed.
Print Assumptions C57_ocl_crc_enforced_refuted.

(** C58: cl842_decompress, for 1 to 99999 bytes of input in whole words. *)
Theorem C58_cl842_decompress_exact_partial : forall e dev rv inp out olen x,
  is_bytes inp -> 0 < lenZ inp <= 99999 -> lenZ inp mod 8 = 0 ->
  is_bytes dev -> lenZ dev = Z.max 1 olen -> 0 <= olen <= lenZ out -> olen < 2 ^ 63 ->
  (observed (cl842_decompress e dev rv inp out olen) = Done (0, lenZ x, x) <-> denotes_842 inp x /\ lenZ x <= olen).
Proof. exact cl842_exact. Qed.
Print Assumptions C58_cl842_decompress_exact_partial.
(** Above 99999 bytes the function reads past its single size variable. *)
Theorem C58_cl842_decompress_large_input_refuted : forall e dev rv inp out olen,
  99999 < lenZ inp < 2 ^ 63 -> cl842_decompress e dev rv inp out olen = Undef.
Proof. exact cl842_large. Qed.
Print Assumptions C58_cl842_decompress_large_input_refuted.
Example C58_case : cl842_decompress LE (obuf 40) 5 osample_z (List.repeat 1 42) 40 = Done (0, 40, osample ++ [1; 1]) /\
  observed (cl842_decompress LE (obuf 39) 5 osample_z (List.repeat 1 42) 39) = Done (- ENOSPC, 0, []) /\
  cl842_decompress LE (obuf 39) 5 [] (List.repeat 1 42) 39 = Done (- ENOMEM, 39, List.repeat 1 42) /\
  (exists inp : list Z, 99999 < lenZ inp < 2 ^ 63).
Proof.
  split; [vm_compute; reflexivity|]. split; [vm_compute; reflexivity|]. split; [vm_compute; reflexivity|].
  exists (List.repeat 0 (Z.to_nat 100000)). unfold lenZ. rewrite repeat_length. rewrite Z2Nat.id; lia.
Qed.
