(** Properties of the implementation descriptors (C81) and of the AIX back end (C82).

    Reading the statements: [history2 pagesize info p0 h a p]: threads asked for the descriptor of the hardware
    implementation ([Get t], with what they got), used it ([Use t]) and ended ([End t]) in the order [h], calls to the
    operating system failing at arbitrary places (the script of [fresh]); the driver asks for an alignment of 2^k bytes. *)
From Coq Require Import ZArith List Bool Lia.
From Verif Require Import SpecBits CBase SpecCalls ChunkedModel SpecChunked PropChunked CryptodevModel SpecCryptodev ChunkedProofs ImplModel SpecImpl ImplProofs.
Import ListNotations.
Open Scope Z_scope.

(** C81: for the software implementations a buffer with the preferred alignment has all chunks aligned as required, and
    the streams accept the implementation. *)
Theorem C81_software_alignment : forall a, In a [sw842_alignments; optsw842_alignments] -> preferred_suffices a /\ stream_accepts a = true.
Proof.
  intros a [<-|[<-|[]]]; (split; [apply divides_suffices; eexists; cbn; rewrite Z.mul_1_r; reflexivity|reflexivity]).
Qed.
Print Assumptions C81_software_alignment.
(** The descriptor of the hardware implementation never changes once it was returned, whatever fails, and the streams accept it. *)
Theorem C81_hw_descriptor_stable : forall m k script fd h a p, 0 <= m -> 0 <= k <= 16 ->
  history2 (2 ^ m) (Some (2 ^ k - 1)) (fresh script fd) h a p ->
  forall t b, In (Get t, b) h -> b = a /\ (b = mkA (2 ^ k) (2 ^ m) \/ b = mkA (2 ^ 16) (2 ^ m)) /\ stream_accepts b = true.
Proof. exact hw_descriptor. Qed.
Print Assumptions C81_hw_descriptor_stable.
(** Chunks (64 KiB apart) of a buffer with the preferred alignment are never refused by the hardware calls for their
    alignment.  (The driver does not ask for more than a page.) *)
Theorem C81_hw_buffers_accepted : forall m k script fd h a p, 0 <= k <= 16 -> k <= m ->
  history2 (2 ^ m) (Some (2 ^ k - 1)) (fresh script fd) h a p ->
  forall t b buffer i, In (Get t, b) h -> aligned_to (preferred_alignment b) buffer -> 0 <= buffer + i * 65536 < 2 ^ 64 - 2 ^ 16 ->
  is_pointer_aligned (buffer + i * 65536) (2 ^ k - 1) = true.
Proof. exact hw_buffers. Qed.
Print Assumptions C81_hw_buffers_accepted.
(** If the first call could open the device, the preferred alignment meets the required one.  Missing: a first call that
    failed (refuted below). *)
Theorem C81_hw_alignment_partial : forall m k script fd h a p, 0 <= k <= 16 -> k <= m ->
  history2 (2 ^ m) (Some (2 ^ k - 1)) (fresh script fd) h a p ->
  forall t b, In (Get t, b) h -> required_alignment b <> 2 ^ 16 -> preferred_suffices b.
Proof.
  intros m k script fd h a p Hk Hkm H t b I N. destruct (hw_descriptor m k script fd h a p ltac:(lia) Hk H t b I) as (_ & [-> | ->] & _); [|now elim N].
  apply divides_suffices. now apply pow_divides.
Qed.
Print Assumptions C81_hw_alignment_partial.
(** A case, and the failure: the first call of get_hw842_implementation could not open the device (the results are those of
    tss_create, malloc, open); all later calls succeed, but the required alignment stays 65536, more than the preferred one. *)
Example C81_case : exists p, history2 4096 (Some 63) (fresh [] 3) [(Use 1, mkA 0 0); (Get 2, mkA 64 4096)] (mkA 64 4096) p.
Proof.
  eexists. eapply (g_get _ _ _ [(Use 1, mkA 0 0)]); [eapply (g_use _ _ _ []); [apply g_start|vm_compute; reflexivity]|vm_compute; reflexivity].
Qed.
Theorem C81_hw_first_failure_refuted : exists script h a p t, history2 4096 (Some 63) (fresh script 3) h a p /\
  In (Get t, a) h /\ ready t 63 p /\ ~ preferred_suffices a.
Proof.
  exists [0; 0; 5]. set (a := mkA 65536 4096).
  assert (H1 : exists p, history2 4096 (Some 63) (fresh [0; 0; 5] 3) ([] ++ [(Get 1, a)]) a p /\ p = mkP true true 0 [] (mkOS [] [] 3 0)).
  { eexists. split; [eapply g_get; [apply g_start|vm_compute; reflexivity]|reflexivity]. }
  destruct H1 as (p & H1 & ->).
  exists (([] ++ [(Get 1, a)]) ++ [(Use 1, a)]), a. eexists _, 1. split; [eapply g_use; [exact H1|vm_compute; reflexivity]|].
  split; [left; reflexivity|]. split; [repeat split; exists (mkCtx 3 (Some 63)); split; reflexivity|].
  intros S. destruct (S 4096 0 0) as (q & E); [exists 1; reflexivity|exists 0; reflexivity|]. cbn in E. lia.
Qed.
Print Assumptions C81_hw_first_failure_refuted.
(** Exactly: the preferred alignment meets the required one if and only if the latter is at most a page; so, with pages below 64 KiB, it fails for
    every descriptor that was asked for first when the device could not be opened, and (C81_hw_descriptor_stable) for all that are asked for later. *)
Theorem C81_hw_alignment_exact : forall m k script fd h a p, 0 <= k <= 16 -> k <= m ->
  history2 (2 ^ m) (Some (2 ^ k - 1)) (fresh script fd) h a p ->
  forall t b, In (Get t, b) h -> (preferred_suffices b <-> required_alignment b <= 2 ^ m).
Proof.
  intros m k script fd h a p Hk Hkm H t b I. destruct (hw_descriptor m k script fd h a p ltac:(lia) Hk H t b I) as (_ & D & _).
  assert (X : exists j, 0 <= j /\ b = mkA (2 ^ j) (2 ^ m)) by (destruct D; [exists k|exists 16]; split; auto; lia). destruct X as (j & Hj & ->). cbn [required_alignment].
  split.
  - intros S. destruct (S (2 ^ m) 0 0) as (q & E); [exists 1; cbn [preferred_alignment]; lia|exists 0; reflexivity|]. cbn [required_alignment] in E.
    rewrite Z.mul_0_l, Z.add_0_r in E. apply Z.divide_pos_le; [apply Z.pow_pos_nonneg; lia|]. now exists q.
  - intros L. apply divides_suffices. apply pow_divides. split; auto. apply Z.pow_le_mono_r_iff in L; lia.
Qed.
Print Assumptions C81_hw_alignment_exact.
(** The AIX descriptor has it the wrong way round: the required alignment is larger than the preferred one, so that
    buffers which are allocated as the streams and the samples do are not aligned as required. *)
Theorem C81_aix_refuted : ~ preferred_suffices aix842_alignments /\ stream_accepts aix842_alignments = true.
Proof.
  split; [|reflexivity]. intros S. destruct (S 128 0 0) as (q & E); [exists 1; reflexivity|exists 0; reflexivity|]. cbn in E. lia.
Qed.
Print Assumptions C81_aix_refuted.

(** C82: the AIX back end: chunked calls equal single calls, and skip the chunks marked with SIZE_MAX, whatever the
    functions of the operating system do with a chunk.  (Offsets below 2^32; missing: larger offsets, where it is false as in C28.) *)
Theorem C82_aix_chunked_partial : forall accel, well_behaved accel -> as_single_calls (2 ^ 32) (aix842_single accel) (aix842_chunked accel).
Proof. exact aix_spec. Qed.
Print Assumptions C82_aix_chunked_partial.
(** Functions that meet the hypothesis: the software ones. *)
Example C82_hypothesis : forall e f g, In (f, g) (chunked_pairs e) -> well_behaved f.
Proof.
  intros e f g [[= <- _]|[[= <- _]|[[= <- _]|[[= <- _]|[]]]]];
    [destruct (good_sw_compress e)|destruct (good_sw_decompress e)|destruct (good_optsw_compress e)|destruct (good_optsw_decompress e)]; split; assumption.
Qed.
(** C82 fails for larger offsets, as C28. *)
Theorem C82_large_offsets_refuted : exists accel maxoff, well_behaved accel /\ ~ as_single_calls maxoff (aix842_single accel) (aix842_chunked accel).
Proof. exists (sw842_compress_f LE), (2 ^ 33). split; [destruct (good_sw_compress LE); split; assumption|exact wrap_refuted]. Qed.
Print Assumptions C82_large_offsets_refuted.
Example C82_case : exists rets olens out,
  aix842_chunked (sw842_compress_f LE) 2 [9; 9] 0 ([1;2;3;4;5;6;7;8] ++ List.repeat 0 8) 8 [SIZE_MAX; 8] 0 (List.repeat 170 64) 32 [5; 32]
    = Done (0, rets, olens, out) /\ seen rets olens out 32 0 = (9, 5, List.repeat 170 5) /\ seen rets olens out 32 1 = (0, 8, [231; 128; 0; 0; 0; 0; 0; 0]).
Proof. do 3 eexists. split; [vm_compute; reflexivity|]. split; reflexivity. Qed.
