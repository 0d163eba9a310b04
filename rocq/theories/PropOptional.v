(** Properties of the OpenCL decompressor without the arrays of output sizes and of return values: C87, C88.

    Reading the statements: [without sizes rets m] are the buffers [m] with null instead of the array of output sizes (unless [sizes]) and of the array
    of return values (unless [rets]); [run_items e a order m] runs the work items one after the other, [run gstep l (ocl_start e a m)] interleaves them at every
    access to memory in the order [l] (C84); [layout_ok], [sizes_ok], [chunks_ok] and [schedule] are the conditions of C84. *)
From Coq Require Import ZArith List Bool Lia Permutation.
From Verif Require Import SpecBits SpecCrc Spec842 CBase SpecSync OclModel SpecOcl GpuModel SpecGpu GpuOclModel GpuOcl SpecOptional OclOptional OptProps PropOpt PropOcl PropGpu.
Import ListNotations.
Open Scope Z_scope.

(** C87, one after the other: the output and the array that is given are the same with and without the other array.  Without output sizes this is for
    chunks that decompress (C88 has the others); without return values it is for all chunks. *)
Theorem C87_optional_arrays : forall e a m order m' sizes rets, layout_ok 2 a m -> sizes_ok a \/ chunks_ok e a -> schedule a order ->
  run_items e a order m = Done m' -> (sizes = false -> forall c, 0 <= c < a_num a -> elem (m_ret m') c = 0) ->
  run_items e a order (without sizes rets m) = Done (without sizes rets m').
Proof. exact optional_arrays. Qed.
Print Assumptions C87_optional_arrays.

(** C87, interleaved: no access is out of bounds, no work item runs on forever, no two of them write the same byte at the same time, nor does one read what another
    writes if all chunks decompress; what an ended work item leaves, and what is left when all have ended, is what the work items leave that run one after the
    other with both arrays. *)
Theorem C87_optional_interleaved : forall e a m order m' sizes rets l s, layout_ok 2 a m -> sizes_ok a \/ chunks_ok e a -> schedule a order ->
  run_items e a order m = Done m' -> (sizes = false -> forall c, 0 <= c < a_num a -> elem (m_ret m') c = 0) ->
  run gstep l (ocl_start e a (without sizes rets m)) = Some s ->
  Z.of_nat (length l) <= a_num a * (9 * (a_size a / 8) + 11) /\
  (forall t p, nth_error (g_thr s) t = Some p -> p <> Fault /\ p <> Stuck /\ (p = Ret tt \/ exists s', gstep t s = Some s')) /\
  (forall t u p q b j, t <> u -> nth_error (g_thr s) t = Some p -> nth_error (g_thr s) u = Some q -> writes p b j -> ~ writes q b j) /\
  ((forall c, 0 <= c < a_num a -> elem (m_ret m') c = 0) -> ~ data_race s) /\
  (forall g c, 0 <= g < a_num a -> opt_get (a_map a) g g = Done c -> nth_error (g_thr s) (Z.to_nat g) = Some (Ret tt) ->
     bytes_at (nth 0 (g_mem s) []) (out_pos a c) (a_size a) = bytes_at (m_out m') (out_pos a c) (a_size a) /\
     (sizes = true -> nth (Z.to_nat c) (nth 1 (g_mem s) []) 0 = elem (m_olen m') c) /\ (rets = true -> nth (Z.to_nat c) (nth 2 (g_mem s) []) 0 = elem (m_ret m') c)) /\
  ((forall t p, nth_error (g_thr s) t = Some p -> p = Ret tt) -> g_mem s = gmem_of (without sizes rets m')).
Proof. exact optional_interleaving. Qed.
Print Assumptions C87_optional_interleaved.
(** The two chunks of [sample_layout] with room for both, without either array, the work items taking turns. *)
Example C87_case : layout_ok 2 sample_args roomy_mem /\ sizes_ok sample_args /\ schedule sample_args (rev (chunk_numbers 256)) /\
  (exists m', run_items LE sample_args (rev (chunk_numbers 256)) roomy_mem = Done m' /\ (forall c, 0 <= c < a_num sample_args -> elem (m_ret m') c = 0)) /\
  exists s, run gstep ([0; 1; 0; 1; 0; 1; 0; 1; 0; 1; 0; 1; 0; 1]%nat) (ocl_start LE sample_args (without false false roomy_mem)) = Some s /\
  Forall (eq (Ret tt)) (g_thr s) /\ bytes_at (nth 0 (g_mem s) []) (out_pos sample_args 1) 40 = osample.
Proof.
  split; [apply C85_case|]. split; [apply sample_layout|]. split; [apply sample_layout|]. split.
  - eexists. split; [vm_compute; reflexivity|]. intros c Hc. cbn [a_num sample_args] in Hc. assert (c = 0 \/ c = 1) as [-> | ->] by lia; reflexivity.
  - eexists. split; [vm_compute; reflexivity|]. split; [cbn [g_thr]; repeat constructor|]. vm_compute. reflexivity.
Qed.
(** The case of a chunk that does not fit, without return values: the other output is the same. *)
Example C87_failing_case : exists m', run_items LE sample_args (rev (chunk_numbers 256)) sample_mem = Done m' /\ m_ret m' = Some [0; - ENOSPC] /\
  run_items LE sample_args (rev (chunk_numbers 256)) (without true false sample_mem) = Done (mkM (m_out m') (Some [40; 0]) None).
Proof. eexists. split; [vm_compute; reflexivity|]. split; [reflexivity|]. vm_compute. reflexivity. Qed.

(** C88, the part that holds: with output sizes the content of the chunks does not matter; no access is out of bounds and nothing outside of the chunks is written,
    with or without return values. *)
Theorem C88_any_content_partial : forall e a m rets l s, layout_ok 2 a m -> sizes_ok a \/ chunks_ok e a ->
  run gstep l (ocl_start e a (without true rets m)) = Some s ->
  (forall t, nth_error (g_thr s) t <> Some Fault) /\
  forall p, Z.of_nat p < a_outoff a \/ a_outoff a + a_size a * a_num a <= Z.of_nat p -> nth p (nth 0 (g_mem s) []) 0 = nth p (m_out m) 0.
Proof. intros e a m rets l s HL HF. apply optional_outside with (order := chunk_numbers (global_size (a_num a))); auto; [apply Permutation_refl|discriminate]. Qed.
Print Assumptions C88_any_content_partial.
(** Two chunks of 32 bytes; the first decompresses to 40. *)
Definition over_args (z1 : list Z) : cl_args := mkA AlwaysCompressed 32 24 (osample_z ++ z1) 0 (Some [24; lenZ z1]) 0 2 None.
Definition over_mem : cl_mem := mkM (List.repeat 7 66) (Some [32; 32]) (Some [5; 5]).
(** The compressed form of eight zero bytes (the kernel does not compare the checksum). *)
Definition zeros_z : list Z := [0xe7; 0x80; 0; 0; 0; 0; 0; 0].
Lemma over_layout z1 : z1 = osample_z \/ z1 = zeros_z -> layout_ok 2 (over_args z1) over_mem /\ sizes_ok (over_args z1).
Proof.
  intros HZ. split; [split|]; cbn -[Z.mul Z.add Z.le Z.modulo osample_z]; try (split; (lia || reflexivity)).
  - destruct HZ as [-> | ->]; vm_compute; repeat constructor; discriminate.
  - split; [vm_compute; repeat constructor; discriminate|unfold lenZ; cbn; lia].
  - eexists. split; [reflexivity|]. split; [reflexivity|]. repeat constructor; lia.
  - eexists. split; reflexivity.
  - intros l E. discriminate E.
  - split; [reflexivity|]. eexists. split; [reflexivity|]. split; [reflexivity|]. intros c Hc. cbn [a_num over_args] in Hc.
    assert (c = 0 \/ c = 1) as [-> | ->] by lia; destruct HZ as [-> | ->]; vm_compute; intuition discriminate.
Qed.
Example C88_case : layout_ok 2 (over_args osample_z) over_mem /\ sizes_ok (over_args osample_z) /\
  exists s, run gstep ([0; 1; 0; 1; 0; 1; 0; 1; 0; 1; 0; 1]%nat) (ocl_start LE (over_args osample_z) (without true false over_mem)) = Some s /\ nth 64 (nth 0 (g_mem s) []) 0 = 7.
Proof. split; [apply over_layout; auto|]. split; [apply over_layout; auto|]. eexists. split; vm_compute; reflexivity. Qed.

(** C88, the rest: without output sizes the kernel has no bound for what it writes.  A chunk that decompresses to more than its size makes the
    kernel write behind the output buffer ... *)
Theorem C88_without_sizes_refuted : exists a m order, layout_ok 2 a m /\ sizes_ok a /\ schedule a order /\
  forall e, (exists m', run_items e a order m = Done m' /\ m_ret m' = Some [- ENOSPC; - ENOSPC]) /\ run_items e a order (without false true m) = Undef.
Proof.
  exists (over_args osample_z), over_mem, (chunk_numbers 256). split; [apply over_layout; auto|]. split; [apply over_layout; auto|]. split; [apply Permutation_refl|].
  intros e. split; [|destruct e; vm_compute; reflexivity].
  destruct e; (eexists; split; [vm_compute; reflexivity|reflexivity]).
Qed.
Print Assumptions C88_without_sizes_refuted.
(** ... or over another chunk that is good, while all return values are 0. *)
Theorem C88_other_chunk_refuted : exists a m order, layout_ok 2 a m /\ sizes_ok a /\ schedule a order /\
  forall e, (exists m', run_items e a order m = Done m' /\ m_ret m' = Some [- ENOSPC; 0] /\ bytes_at (m_out m') (out_pos a 1) 8 = List.repeat 0 8) /\
    exists m', run_items e a order (without false true m) = Done m' /\ m_ret m' = Some [0; 0] /\ bytes_at (m_out m') (out_pos a 1) 8 <> List.repeat 0 8.
Proof.
  exists (over_args zeros_z), over_mem, (rev (chunk_numbers 256)). split; [apply over_layout; auto|]. split; [apply over_layout; auto|].
  split; [unfold schedule; change (global_size (a_num (over_args zeros_z))) with 256; symmetry; apply Permutation_rev|].
  intros e. split; destruct e; (eexists; split; [vm_compute; reflexivity|split; [reflexivity|]]); vm_compute; (reflexivity || discriminate).
Qed.
Print Assumptions C88_other_chunk_refuted.
