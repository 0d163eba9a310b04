(** Properties of in-place decompression on the OpenCL device: C68, C69.

    Reading the statements: [irun_items e a order m] runs the kernel built for
    INPLACE_COMPRESSED_CHUNKS over the index space in the order [order]; the buffer is
    [m_out m].  [inplace_core e mem ioff ilen olen] is the decoding of one chunk: [mem] is the memory
    behind the output pointer and the compressed data starts [ioff] bytes
    after it.  inplace_ok, stays_ahead, ends_with_crc, chunk_becomes: SpecInplace.v. *)
From Coq Require Import ZArith List Bool Lia Permutation.
From Verif Require Import SpecBits SpecCrc Spec842 SpecCalls CBase OptCompModel OclModel SpecOcl OclProps InplaceModel SpecInplace InplaceProofs InplaceSmall InplaceItems PropSerial PropOpt PropOcl.
Import ListNotations.
Open Scope Z_scope.

(** C68 fails: this chunk of 880 bytes, packed with what optsw842_compress produces for [bad_x], is
    reported as decompressed, with return value 0, but its size and its content are wrong. *)
Definition bad_value (i : Z) : list Z := let v := i mod 64 + 2048 * (i / 64) in [v / 256; v mod 256].
Definition bad_x : list Z := List.repeat 0 240 ++ flat_map (fun i => bad_value (Z.of_nat i)) (seq 4 320).
Definition bad_z : list Z :=
  Eval vm_compute in match optsw842_compress LE 0 0 bad_x (List.repeat 0 880) 880 with Done (0, n, o) => firstn (Z.to_nat n) o | _ => [] end.
Definition bad_chunk (e : endian) : list Z := MARKER ++ native_bytes e 8 704 ++ List.repeat 0 152 ++ bad_z.
Definition bad_args (e : endian) : cl_args := mkA MaybeCompressed 880 880 (bad_chunk e ++ [0; 0]) 0 None 0 1 None.
Definition bad_mem (e : endian) : cl_mem := mkM (bad_chunk e ++ [0; 0]) (Some [880]) (Some [5]).
Example bad_ok : forall e, inplace_ok e (bad_args e) (bad_mem e).
Proof.
  intros e. assert (B : is_bytes (bad_chunk e ++ [0; 0])) by (apply is_bytes_b; destruct e; vm_compute; reflexivity).
  assert (LB : lenZ (bad_chunk e ++ [0; 0]) = 882) by (destruct e; vm_compute; reflexivity).
  split; [|split; [|split; [reflexivity|split; reflexivity]]].
  - split; cbn [bad_args bad_mem a_num a_size a_stride a_inoff a_outoff a_in m_out m_olen m_ret a_map]; try (split; (lia || reflexivity)); auto.
    + split; auto. rewrite LB. lia.
    + eexists. split; [reflexivity|]. split; [reflexivity|]. repeat constructor; lia.
    + eexists. split; reflexivity.
    + discriminate.
  - split; [reflexivity|]. split; [cbn; lia|]. split; [discriminate|]. intros c Hc. cbn [bad_args a_num] in Hc. assert (c = 0) as -> by lia.
    unfold in_pos. cbn [bad_args a_size a_in a_inoff a_stride]. rewrite LB. split; [lia|]. right. exists bad_z. split; [|reflexivity].
    exists (List.repeat 0 152). split; destruct e; vm_compute; reflexivity.
Qed.
Theorem C68_inplace_catches_up_refuted : forall e, exists a m order m' z x,
  inplace_ok e a m /\ a_num a = 1 /\ schedule a order /\
  packed e (a_size a) (bytes_at (m_out m) (out_pos a 0) (a_size a)) z /\ lenZ z mod 8 = 0 /\ ends_with_crc z x /\ lenZ x <= elem (m_olen m) 0 /\
  irun_items e a order m = Done m' /\ elem (m_ret m') 0 = 0 /\ elem (m_olen m') 0 <> lenZ x /\
  bytes_at (m_out m') (out_pos a 0) (elem (m_olen m') 0) <> firstn (Z.to_nat (elem (m_olen m') 0)) x.
Proof.
  intros e. destruct (inplace_batch e _ _ (chunk_numbers 256) (bad_ok e) (Permutation_refl _)) as (m' & E & _).
  exists (bad_args e), (bad_mem e), (chunk_numbers 256), m', bad_z, bad_x.
  split; [apply bad_ok|]. split; [reflexivity|]. split; [apply Permutation_refl|].
  split. { exists (List.repeat 0 152). split; destruct e; vm_compute; reflexivity. }
  split; [reflexivity|]. split. { apply crc_end_check_ok. vm_compute. reflexivity. } split; [vm_compute; discriminate|]. split; [exact E|].
  assert (B : exists m1, irun_items e (bad_args e) (chunk_numbers 256) (bad_mem e) = Done m1 /\ elem (m_ret m1) 0 = 0 /\ elem (m_olen m1) 0 = 640 /\
    list_eqb (bytes_at (m_out m1) 0 640) (firstn 640 bad_x) = false).
  { destruct e; eexists; (split; [vm_compute; reflexivity|]); vm_compute; auto. }
  destruct B as (m1 & E1 & R & N & C). rewrite E in E1. injection E1 as ->. split; auto. rewrite N. split; [vm_compute; discriminate|].
  intros Q. change (out_pos (bad_args e) 0) with 0 in Q. change (Z.to_nat 640) with 640%nat in Q. rewrite Q in C. apply Bool.not_true_iff_false in C. apply C. apply OclItems.list_eqb_eq. reflexivity.
Qed.
Print Assumptions C68_inplace_catches_up_refuted.
(** Where the data came from. *)
Definition bad_source : bool :=
  Eval vm_compute in match optsw842_compress LE 0 0 bad_x (List.repeat 0 880) 880 with Done (0, n, o) => list_eqb (firstn (Z.to_nat n) o) bad_z && (n =? 704) | _ => false end.
Example C68_bad_source : bad_source = true.
Proof. reflexivity. Qed.

(** Every chunk whose compressed data is not caught up by its output becomes what it denotes;
    raw chunks stay; the memory around the chunks is not touched.  Missing for the full property: the chunks where
    the output catches up with the input. *)
Theorem C68_inplace_decompresses_partial : forall e a m order, inplace_ok e a m -> schedule a order ->
  exists m', irun_items e a order m = Done m' /\
  length (m_out m') = length (m_out m) /\
  (forall c, 0 <= c < a_num a ->
    chunk_becomes e (a_size a) (elem (m_olen m) c) (bytes_at (m_out m) (out_pos a c) (a_size a))
      (elem (m_ret m') c) (elem (m_olen m') c) (bytes_at (m_out m') (out_pos a c) (a_size a))) /\
  (forall p, (Z.of_nat p < a_outoff a \/ a_outoff a + a_size a * a_num a <= Z.of_nat p) -> nth p (m_out m') 0 = nth p (m_out m) 0).
Proof. exact inplace_batch. Qed.
Print Assumptions C68_inplace_decompresses_partial.
(** With chunks of at most 560 bytes the output never catches up. *)
Theorem C68_inplace_small_chunks : forall e a m order, inplace_ok e a m -> schedule a order -> a_size a <= 560 ->
  exists m', irun_items e a order m = Done m' /\
  forall c z x, 0 <= c < a_num a -> packed e (a_size a) (bytes_at (m_out m) (out_pos a c) (a_size a)) z -> lenZ z mod 8 = 0 ->
    ends_with_crc z x -> lenZ x <= elem (m_olen m) c ->
    elem (m_ret m') c = 0 /\ elem (m_olen m') c = lenZ x /\ bytes_at (m_out m') (out_pos a c) (lenZ x) = x.
Proof. exact inplace_small. Qed.
Print Assumptions C68_inplace_small_chunks.
(** The decoding of one chunk is the decoding from a separate copy of the compressed data. *)
Theorem C68_inplace_core_partial : forall e mem ioff ilen cap, is_bytes mem -> 0 <= ilen -> ilen mod 8 = 0 -> 0 <= ioff -> ioff + ilen <= lenZ mem ->
  0 <= cap < 2 ^ 63 -> cap + 2 <= lenZ mem -> stays_ahead ioff (bytes_at mem ioff ilen) ->
  inplace_core e mem ioff ilen cap = decompress_core e (bytes_at mem ioff ilen) ilen mem cap.
Proof. exact inplace_copy. Qed.
Print Assumptions C68_inplace_core_partial.
(** Two chunks of 48 bytes, one packed and one raw. *)
Definition good_buf : list Z := MARKER ++ native_bytes LE 8 24 ++ osample_z ++ List.repeat 3 48 ++ [7; 7].
Definition good_args : cl_args := mkA MaybeCompressed 48 48 good_buf 0 None 0 2 (Some [1; 0]).
Definition good_mem : cl_mem := mkM good_buf (Some [48; 48]) (Some [5; 5]).
Example C68_layout : inplace_ok LE good_args good_mem /\ schedule good_args (chunk_numbers 256) /\ a_size good_args <= 560 /\
  packed LE 48 (bytes_at good_buf 0 48) osample_z /\ ends_with_crc osample_z osample /\ stays_ahead 24 osample_z.
Proof.
  split; [|split; [apply Permutation_refl|split; [cbn; lia|split; [exists []; split; reflexivity|]]]].
  - split; [|split; [|split; [reflexivity|split; reflexivity]]].
    + split; cbn -[Z.mul Z.add Z.le Z.modulo]; try (split; (lia || reflexivity)).
      * apply is_bytes_b; vm_compute; reflexivity. * split; [apply is_bytes_b; vm_compute; reflexivity|vm_compute; discriminate].
      * eexists. split; [reflexivity|]. split; [reflexivity|]. repeat constructor; lia.
      * eexists. split; reflexivity.
      * intros l E. injection E as <-. apply perm_swap.
    + split; [reflexivity|]. split; [cbn; lia|]. split; [discriminate|]. intros c Hc. cbn [a_num good_args] in Hc.
      assert (c = 0 \/ c = 1) as [-> | ->] by lia; (split; [vm_compute; discriminate|]).
      * right. exists osample_z. split; [|reflexivity]. exists []. split; reflexivity.
      * left. vm_compute. discriminate.
  - assert (E : ends_with_crc osample_z osample) by (apply crc_end_check_ok; vm_compute; reflexivity). split; auto.
    apply (small_ahead 48 osample_z osample); auto; (reflexivity || (unfold lenZ; cbn; lia)).
Qed.
Example C68_case : irun_items LE good_args (chunk_numbers 256) good_mem =
  Done (mkM (osample ++ skipn 40 good_buf) (Some [40; 48]) (Some [0; 0])).
Proof. vm_compute. reflexivity. Qed.

(** C68 needs the chunk stride to be the chunk size, which the library does not check: with room between the chunks the
    output of a chunk is written over the compressed data of another, and what comes out depends on the order of the work items. *)
Definition gap_buf (e : endian) : list Z :=
  let z := MARKER ++ native_bytes e 8 24 ++ osample_z in
  List.repeat 3 96 ++ z ++ List.repeat 0 48 ++ z ++ List.repeat 7 50.
Definition gap_args (e : endian) : cl_args := mkA MaybeCompressed 48 96 (gap_buf e) 0 None 0 3 None.
Definition gap_mem (e : endian) : cl_mem := mkM (gap_buf e) (Some [48; 48; 48]) (Some [5; 5; 5]).
Theorem C68_gaps_refuted : forall e, layout_ok 2 (gap_args e) (gap_mem e) /\
  packed e 48 (bytes_at (gap_buf e) 96 48) osample_z /\ packed e 48 (bytes_at (gap_buf e) 192 48) osample_z /\ ends_with_crc osample_z osample /\
  exists order1 order2 m1 m2, schedule (gap_args e) order1 /\ schedule (gap_args e) order2 /\
    irun_items e (gap_args e) order1 (gap_mem e) = Done m1 /\ irun_items e (gap_args e) order2 (gap_mem e) = Done m2 /\
    bytes_at (m_out m1) (out_pos (gap_args e) 1) 40 = osample /\ bytes_at (m_out m2) (out_pos (gap_args e) 1) 40 <> osample /\
    m_ret m1 = Some [0; 0; 0] /\ m_ret m2 = Some [0; 0; 0].
Proof.
  intros e. split; [|split; [|split; [|split]]].
  - split; cbn -[Z.mul Z.add Z.le Z.modulo Z.lt gap_buf]; auto; try (split; (lia || reflexivity)); try discriminate.
    + apply is_bytes_b; destruct e; vm_compute; reflexivity.
    + split; [apply is_bytes_b; destruct e; vm_compute; reflexivity|destruct e; vm_compute; discriminate].
    + eexists. split; [reflexivity|]. split; [reflexivity|]. repeat constructor; lia.
    + eexists. split; reflexivity.
  - exists []. split; destruct e; vm_compute; reflexivity.
  - exists []. split; destruct e; vm_compute; reflexivity.
  - apply crc_end_check_ok; vm_compute; reflexivity.
  - exists (chunk_numbers 256), (rev (chunk_numbers 256)). destruct e.
    + do 2 eexists. split; [apply Permutation_refl|]. split; [apply Permutation_sym, Permutation_rev|].
      split; [vm_compute; reflexivity|]. split; [vm_compute; reflexivity|]. split; [vm_compute; reflexivity|]. split; [vm_compute; discriminate|]. split; reflexivity.
    + do 2 eexists. split; [apply Permutation_refl|]. split; [apply Permutation_sym, Permutation_rev|].
      split; [vm_compute; reflexivity|]. split; [vm_compute; reflexivity|]. split; [vm_compute; reflexivity|]. split; [vm_compute; discriminate|]. split; reflexivity.
Qed.
Print Assumptions C68_gaps_refuted.

(** C69: whatever the compressed data, the decoding ends, with one of three return values, and
    changes only the announced room at the output pointer.  (cl.h:36-51 warns of infinite loops.)  Compressed sizes need
    not be right; two more bytes behind the room are read, see C43. *)
Theorem C69_inplace_ends_in_bounds : forall e ioff ilen olen mem, 0 <= ioff -> is_bytes mem -> 0 <= ilen ->
  ioff + 8 * ((ilen + 7) / 8) <= lenZ mem -> 0 <= olen < 2 ^ 63 -> olen + 2 <= lenZ mem ->
  exists ret n m, inplace_core e mem ioff ilen olen = Done (ret, n, m) /\
    (ret = 0 \/ ((ret = - EINVAL \/ ret = - ENOSPC) /\ n = 0)) /\ 0 <= n <= olen /\
    exists w, is_bytes w /\ lenZ w <= olen /\ m = w ++ skipn (length w) mem.
Proof. intros e ioff ilen olen mem H. exact (inplace_bounds e ioff ilen olen H mem). Qed.
Print Assumptions C69_inplace_ends_in_bounds.
(** The header is trusted: with a compressed size larger than the chunk, memory far away is read. *)
Definition far_chunk (e : endian) : list Z := MARKER ++ native_bytes e 8 64 ++ List.repeat 0 24.
Theorem C69_inplace_header_refuted : forall e, exists a m order, layout_ok 2 a m /\ a_in a = m_out m /\ a_inoff a = a_outoff a /\ a_stride a = a_size a /\
  schedule a order /\ irun_items e a order m = Undef.
Proof.
  intros e. exists (mkA MaybeCompressed 48 48 (far_chunk e ++ [0; 0]) 0 None 0 1 None), (mkM (far_chunk e ++ [0; 0]) (Some [48]) (Some [5])), (chunk_numbers 256).
  split; [|split; [reflexivity|split; [reflexivity|split; [reflexivity|split; [apply Permutation_refl|]]]]].
  2: { change (chunk_numbers 256) with (0 :: map Z.of_nat (seq 1 255)). cbn [irun_items].
    assert (E : iwork_item e (mkA MaybeCompressed 48 48 (far_chunk e ++ [0; 0]) 0 None 0 1 None) 0 (mkM (far_chunk e ++ [0; 0]) (Some [48]) (Some [5])) = Undef).
    { destruct e; cbv -[inplace_core]; rewrite far_core; first [reflexivity|unfold lenZ; cbn; lia]. }
    rewrite E. reflexivity. }
  split; cbn -[Z.mul Z.add Z.le Z.modulo far_chunk]; try (split; (lia || reflexivity)).
  + apply is_bytes_b. destruct e; vm_compute; reflexivity.
  + split; [apply is_bytes_b; destruct e; vm_compute; reflexivity|]. destruct e; vm_compute; discriminate.
  + eexists. split; [reflexivity|]. split; [reflexivity|]. repeat constructor; lia.
  + eexists. split; reflexivity.
  + discriminate.
Qed.
Print Assumptions C69_inplace_header_refuted.
Example C69_case : exists m, inplace_core LE (bad_chunk LE ++ [0; 0]) 176 704 880 = Done (0, 640, m) /\
  (exists m, inplace_core BE (List.repeat 255 60) 24 32 40 = Done (- EINVAL, 0, m)).
Proof. eexists. split; [vm_compute; reflexivity|]. eexists. vm_compute. reflexivity. Qed.
