(** Properties of the GPU kernels when their threads interleave at every access to memory: C83, C84, C85.

    Reading the statements: [cuda_start inp out n] is a launch of [n] threads of the CUDA kernel on the read-only input
    buffer [inp] and the output buffer [out]; [run gstep l s] lets the threads make one memory access each in the order [l]
    (GpuModel.v).  A thread is [Ret tt] when it has ended, [Fault] after an access outside of a buffer, [Stuck] if it ran longer than the
    model's fuel.  [ocl_start e a m] is a launch of the work items of the OpenCL kernel with arguments [a] and buffers [m] on a device of endianness [e]
    (GpuOclModel.v); [run_items e a order m] is the same launch with the work items one after the other (C56).  [bytes_at l p n] are the [n] bytes of [l] from offset [p] on. *)
From Coq Require Import ZArith List Bool Lia.
From Verif Require Import SpecBits SpecCrc Spec842 CBase SpecSync CudaModel OclModel SpecOcl GpuModel SpecGpu GpuCuda GpuOclModel GpuOcl OptProps PropOpt PropCuda PropOcl.
Import ListNotations.
Open Scope Z_scope.

(** C83: at every moment of every interleaving: no thread has accessed memory out of bounds, no two threads race, every thread has ended or
    can go on, the chunk of a thread that has ended is what its stream denotes (whatever the others still do), nothing behind the chunks changed;
    and no thread makes more than 2176 accesses.  Missing: more than 2^24 chunks (refuted in C59). *)
Theorem C83_cuda_any_interleaving_partial : forall inp n x out l s,
  0 <= n <= 2 ^ 24 -> is_bytes inp -> lenZ inp mod 8 = 0 ->
  (forall c, 0 <= c < n -> lenZ (x c) <= 1024 /\
     exists rest, stream false [] (bytes_bits (skipn (Z.to_nat (2048 * c)) inp)) (x c) rest) ->
  is_bytes out -> 1024 * n <= lenZ out < 2 ^ 63 ->
  run gstep l (cuda_start inp out n) = Some s ->
  (forall t, (count_occ Nat.eq_dec l t <= 2176)%nat) /\ Z.of_nat (length l) <= 2176 * n /\
  exists out', g_mem s = [out'] /\ length out' = length out /\
  ~ data_race s /\
  (forall t p, nth_error (g_thr s) t = Some p -> p <> Fault /\ p <> Stuck /\ (p = Ret tt \/ exists s', gstep t s = Some s')) /\
  (forall c, 0 <= c < n -> nth_error (g_thr s) (Z.to_nat c) = Some (Ret tt) ->
     bytes_at out' (1024 * c) 1024 = x c ++ bytes_at out (1024 * c + lenZ (x c)) (1024 - lenZ (x c))) /\
  (forall p, 1024 * n <= Z.of_nat p -> nth p out' 0 = nth p out 0).
Proof.
  intros inp n x out l s Hn Hi H8 Hx Ho HM HR. split; [|exact (cuda_any_interleaving inp n x out Hn Hi H8 Hx Ho HM l s HR)].
  intros t. refine (cuda_each 1024 inp n x out _ _ Hi H8 _ Ho _ l s t HR); try lia. intros c Hc. rewrite Z.mod_small by lia. auto.
Qed.
Print Assumptions C83_cuda_any_interleaving_partial.
(** What the missing part amounts to: with more chunks, up to 2^25, the kernel is as safe, but thread [c] decompresses the input chunk with number [c mod 2^24]. *)
Theorem C83_cuda_more_chunks : forall inp n x out l s,
  0 <= n <= 2 ^ 25 -> is_bytes inp -> lenZ inp mod 8 = 0 ->
  (forall c, 0 <= c < n -> lenZ (x c) <= 1024 /\
     exists rest, stream false [] (bytes_bits (skipn (Z.to_nat (2048 * (c mod 2 ^ 24))) inp)) (x c) rest) ->
  is_bytes out -> 1024 * n <= lenZ out < 2 ^ 63 ->
  run gstep l (cuda_start inp out n) = Some s ->
  exists out', g_mem s = [out'] /\ length out' = length out /\
  ~ data_race s /\
  (forall t p, nth_error (g_thr s) t = Some p -> p <> Fault /\ p <> Stuck /\ (p = Ret tt \/ exists s', gstep t s = Some s')) /\
  (forall c, 0 <= c < n -> nth_error (g_thr s) (Z.to_nat c) = Some (Ret tt) ->
     bytes_at out' (1024 * c) 1024 = x c ++ bytes_at out (1024 * c + lenZ (x c)) (1024 - lenZ (x c))).
Proof.
  intros inp n x out l s Hn Hi H8 Hx Ho HM HR.
  destruct (cuda_any_interleaving_mod 1024 inp n x out ltac:(lia) Hn Hi H8 Hx Ho ltac:(lia) l s HR) as (_ & out' & A & B & C & D & E & _). exists out'. auto.
Qed.
Print Assumptions C83_cuda_more_chunks.
(** The two chunks of [C59_hypotheses] (which shows that [cuda_in], [cuda_x] and [cuda_out] meet the other hypotheses), with the threads taking turns. *)
Example C83_case : exists s,
  run gstep [0; 1; 0; 1; 0; 1; 0; 1; 0; 1; 0; 1; 0; 1; 1; 1; 1; 1]%nat (cuda_start cuda_in cuda_out 2) = Some s /\
  s = mkG [osample ++ List.repeat 7 984 ++ cuda_x 1 ++ List.repeat 7 1012] [Ret tt; Ret tt].
Proof. eexists. split; [vm_compute; reflexivity|vm_compute; reflexivity]. Qed.

(** C84: at every moment of every interleaving: no work item has accessed memory out of bounds, every work item has ended or can go on, the chunk, size and return value of a work
    item that has ended are those of the work items running one after the other (in any order), so are all buffers when all have ended; and no execution has more accesses
    than 9 for each word of output and 11 for each chunk. *)
Theorem C84_ocl_any_interleaving : forall e a m order l s, layout_ok 2 a m -> sizes_ok a \/ chunks_ok e a -> schedule a order ->
  run gstep l (ocl_start e a m) = Some s ->
  Z.of_nat (length l) <= a_num a * (9 * (a_size a / 8) + 11) /\
  (forall t p, nth_error (g_thr s) t = Some p -> p <> Fault /\ p <> Stuck /\ (p = Ret tt \/ exists s', gstep t s = Some s')) /\
  exists m', run_items e a order m = Done m' /\
    (forall g c, 0 <= g < a_num a -> opt_get (a_map a) g g = Done c -> nth_error (g_thr s) (Z.to_nat g) = Some (Ret tt) ->
       bytes_at (nth 0 (g_mem s) []) (out_pos a c) (a_size a) = bytes_at (m_out m') (out_pos a c) (a_size a) /\
       nth (Z.to_nat c) (nth 1 (g_mem s) []) 0 = elem (m_olen m') c /\ nth (Z.to_nat c) (nth 2 (g_mem s) []) 0 = elem (m_ret m') c) /\
    ((forall t p, nth_error (g_thr s) t = Some p -> p = Ret tt) -> m_olen m' <> None /\ m_ret m' <> None /\ g_mem s = gmem_of m').
Proof. exact ocl_any_interleaving. Qed.
Print Assumptions C84_ocl_any_interleaving.
(** The two chunks of [sample_layout] with the work items taking turns; the second does not fit. *)
Example C84_case : exists s,
  run gstep ([0; 1; 0; 1; 0; 1; 0; 1; 0; 1; 0; 1; 0; 1; 0; 1; 0; 1; 1]%nat) (ocl_start LE sample_args sample_mem) = Some s /\
  Forall (eq (Ret tt)) (g_thr s) /\ Done (g_mem s) = bind (run_items LE sample_args (rev (chunk_numbers 256)) sample_mem) (fun m => Done (gmem_of m)) /\
  nth 1 (g_mem s) [] = [40; 0] /\ nth 2 (g_mem s) [] = [0; - ENOSPC].
Proof. eexists. split; [vm_compute; reflexivity|]. split; [cbn [g_thr]; repeat constructor|]. split; [vm_compute; reflexivity|]. split; vm_compute; reflexivity. Qed.

(** C85, the part that holds: two work items never race to write, and if all chunks decompress, there is no data race. *)
Theorem C85_ocl_no_race_partial : forall e a m order l s, layout_ok 2 a m -> sizes_ok a \/ chunks_ok e a -> schedule a order ->
  run gstep l (ocl_start e a m) = Some s ->
  (forall t u p q b j, t <> u -> nth_error (g_thr s) t = Some p -> nth_error (g_thr s) u = Some q -> writes p b j -> ~ writes q b j) /\
  exists m', run_items e a order m = Done m' /\ ((forall c, 0 <= c < a_num a -> elem (m_ret m') c = 0) -> ~ data_race s).
Proof. exact ocl_no_race. Qed.
Print Assumptions C85_ocl_no_race_partial.
(** The two chunks of [sample_layout] with room for both: all return values are 0. *)
Definition roomy_mem : cl_mem := mkM (List.repeat 7 98) (Some [40; 40]) (Some [5; 5]).
Example C85_case : layout_ok 2 sample_args roomy_mem /\ exists m', run_items LE sample_args (rev (chunk_numbers 256)) roomy_mem = Done m' /\ m_ret m' = Some [0; 0].
Proof.
  split.
  - destruct sample_layout as [[A1 A2 A3 A4 A5 A6 A7 A8 A9 A10] _]. constructor; auto.
    eexists. split; [reflexivity|]. split; [reflexivity|]. cbn [a_size sample_args]. repeat constructor; lia.
  - eexists. split; [vm_compute; reflexivity|]. reflexivity.
Qed.

(** C85, the rest: a chunk that decompresses to more than its size makes its work item read the start of the next chunk while the next work item writes it.  (The value does
    not matter: C84.) *)
Definition race_z : list Z := [0x00; 0x08; 0x10; 0x18; 0x20; 0x28; 0x30; 0x38; 0x44; 0x80; 0xc0; 0xc0; 0xc0; 0xc0; 0; 0].
Definition race_args : cl_args := mkA AlwaysCompressed 8 16 (race_z ++ race_z) 0 (Some [16; 16]) 0 2 None.
Definition race_mem : cl_mem := mkM (List.repeat 7 18) (Some [8; 8]) (Some [5; 5]).
Theorem C85_ocl_race_refuted : exists a m l s, layout_ok 2 a m /\ sizes_ok a /\ run gstep l (ocl_start LE a m) = Some s /\ data_race s.
Proof.
  exists race_args, race_mem, [0; 0; 0; 1]%nat. eexists. split; [|split; [|split]].
  - split; cbn -[Z.mul Z.add Z.le Z.modulo]; try (split; (lia || reflexivity)).
    + isb. + split; [isb|unfold lenZ; cbn; lia].
    + eexists. split; [reflexivity|]. split; [reflexivity|]. repeat constructor; lia.
    + eexists. split; reflexivity.
    + intros l E. discriminate E.
  - split; [reflexivity|]. eexists. split; [reflexivity|]. split; [reflexivity|]. intros c Hc. cbn [a_num race_args] in Hc.
    assert (c = 0 \/ c = 1) as [-> | ->] by lia; vm_compute; intuition discriminate.
  - vm_compute. reflexivity.
  - exists 1%nat, 0%nat. eexists _, _, 0%nat, 8. split; [discriminate|]. split; [reflexivity|]. split; [reflexivity|].
    split; split; try reflexivity; unfold lenZ; cbn; lia.
Qed.
Print Assumptions C85_ocl_race_refuted.
