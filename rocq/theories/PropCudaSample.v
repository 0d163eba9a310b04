(** C91: the CUDA sample program sample/compdecomp.cu.

    Reading the statements: [cuda_sample e cpt tpb unified iaddr oaddr order scheds args] is whether the program, compiled with [cpt] for CHUNKS_PER_THREAD and [tpb] for THREADS_PER_BLOCK and
    with USE_UNIFIED_MEM if [unified], reports success for files with the contents [args] on the command line.  (In the code [cpt] = 2^10, with USE_UNIFIED_MEM 2^5, and [tpb] = 2^5.)
    The host compresses the chunks in the order [order]; the threads of the launch that begins with chunk [i] take turns as [scheds i] says, one memory access per turn.
    [NoFuel]: a thread has not ended when the schedule of its launch is over.  [Undef]: undefined behaviour. *)
From Coq Require Import ZArith List Bool Lia Permutation.
From Verif Require Import SpecBits BitsLemmas CBase OclModel SpecOcl InplaceItems CudaSampleModel SpecCudaSample CudaSampleProofs.
Import ListNotations.
Open Scope Z_scope.

(** With unified memory, for every file: no interleaving leads to a wrong result or an access outside the buffers, and 2176 turns for each thread suffice. *)
Theorem C91_unified_succeeds : forall e a b, 0 <= a -> 0 <= b -> 1 <= a + b <= 24 -> forall iaddr oaddr, iaddr mod 8 = 0 -> oaddr mod 8 = 0 ->
  forall order scheds file, is_bytes file -> 0 < lenZ file < 2 ^ 62 -> Permutation order (chunk_numbers (next_multiple (1024 * 2 ^ a * 2 ^ b) (lenZ file) / 1024)) ->
  let r := cuda_sample e (2 ^ a) (2 ^ b) true iaddr oaddr order scheds [Some file] in
  (r = Done true \/ r = NoFuel) /\ ((forall i, lets_threads_run 2176 (2 ^ a * 2 ^ b) (scheds i)) -> r = Done true).
Proof. exact sample_unified. Qed.
Print Assumptions C91_unified_succeeds.
(** Without unified memory, for files of up to 16 GiB. *)
Theorem C91_succeeds_partial : forall e a b, 0 <= a -> 0 <= b -> 1 <= a + b <= 24 -> forall iaddr oaddr, iaddr mod 8 = 0 -> oaddr mod 8 = 0 ->
  forall order scheds file, is_bytes file -> 0 < lenZ file <= 2 ^ 34 -> Permutation order (chunk_numbers (next_multiple (1024 * 2 ^ a * 2 ^ b) (lenZ file) / 1024)) ->
  let r := cuda_sample e (2 ^ a) (2 ^ b) false iaddr oaddr order scheds [Some file] in
  (r = Done true \/ r = NoFuel) /\ (lets_threads_run 2176 (next_multiple (1024 * 2 ^ a * 2 ^ b) (lenZ file) / 1024) (scheds 0) -> r = Done true).
Proof. exact sample_default_ok. Qed.
Print Assumptions C91_succeeds_partial.
(** Without an argument. *)
Theorem C91_fixed_string : forall e cpt tpb unified iaddr oaddr order scheds, iaddr mod 8 = 0 -> oaddr mod 8 = 0 ->
  let r := cuda_sample e cpt tpb unified iaddr oaddr order scheds [] in
  (r = Done true \/ r = NoFuel) /\ (lets_threads_run 2176 1 (scheds 0) -> r = Done true).
Proof. exact sample_string. Qed.
Print Assumptions C91_fixed_string.

(** Four chunks, in two launches of two threads with unified memory: the last one is zeros. *)
Definition cu_file : list Z := map (fun i => Z.of_nat i * Z.of_nat i mod 251) (seq 0 2053).
Definition cu_turns (threads : list nat) : list nat := concat (repeat threads 2176).
Lemma cu_turns_enough threads n : (forall t, 0 <= t < n -> In (Z.to_nat t) threads) -> lets_threads_run 2176 n (cu_turns threads).
Proof.
  intros H t Ht. specialize (H t Ht). unfold cu_turns. apply (count_occ_In Nat.eq_dec) in H. generalize 2176%nat as k. induction k as [|k IH]; cbn [repeat concat]; [lia|].
  rewrite count_occ_app. lia.
Qed.
Example C91_hypotheses : is_bytes cu_file /\ lenZ cu_file = 2053 /\ next_multiple (1024 * 2 ^ 1 * 2 ^ 0) 2053 / 1024 = 4 /\ Permutation [2; 0; 3; 1] (chunk_numbers 4) /\
  lets_threads_run 2176 (2 ^ 1 * 2 ^ 0) (cu_turns [1; 0]%nat) /\ lets_threads_run 2176 4 (cu_turns [1; 3; 0; 2]%nat).
Proof.
  split; [apply is_bytes_b; vm_compute; reflexivity|]. split; [reflexivity|]. split; [reflexivity|]. split.
  - change (chunk_numbers 4) with [0; 1; 2; 3]. apply NoDup_Permutation; [| |intros x; cbn [In]; tauto]; repeat constructor; cbn [In]; intuition lia.
  - split; apply cu_turns_enough; intros t Ht; cbn [In]; lia.
Qed.
Example C91_case :
  cuda_sample LE 2 1 true 0 8 [2; 0; 3; 1] (fun _ => concat (repeat [1; 0]%nat 400)) [Some cu_file] = Done true /\
  cuda_sample LE 2 1 false 0 8 [3; 0; 2; 1] (fun _ => concat (repeat [1; 3; 0; 2]%nat 400)) [Some cu_file] = Done true /\
  cuda_sample LE 2 1 false 0 8 [3; 0; 2; 1] (fun _ => concat (repeat [1; 0; 2]%nat 400)) [Some cu_file] = NoFuel.
Proof. split; [|split]; vm_compute; reflexivity. Qed.

(** Without unified memory, more than 16 GiB (up to 32 GiB): the program reports failure if a byte differs from the one 16 GiB before it. *)
Theorem C91_large_file_refuted : forall e a b, 0 <= a -> 0 <= b -> 1 <= a + b <= 24 -> forall iaddr oaddr, iaddr mod 8 = 0 -> oaddr mod 8 = 0 ->
  forall order scheds file p, is_bytes file -> 2 ^ 34 <= p < lenZ file -> lenZ file <= 2 ^ 35 -> nth (Z.to_nat p) file 0 <> nth (Z.to_nat (p - 2 ^ 34)) file 0 ->
  Permutation order (chunk_numbers (next_multiple (1024 * 2 ^ a * 2 ^ b) (lenZ file) / 1024)) ->
  let r := cuda_sample e (2 ^ a) (2 ^ b) false iaddr oaddr order scheds [Some file] in
  (r = Done false \/ r = NoFuel) /\ (lets_threads_run 2176 (next_multiple (1024 * 2 ^ a * 2 ^ b) (lenZ file) / 1024) (scheds 0) -> r = Done false).
Proof. exact sample_default_large. Qed.
Print Assumptions C91_large_file_refuted.
Example C91_large_file : exists file p, is_bytes file /\ 2 ^ 34 <= p < lenZ file /\ lenZ file <= 2 ^ 35 /\ nth (Z.to_nat p) file 0 <> nth (Z.to_nat (p - 2 ^ 34)) file 0.
Proof.
  exists (repeat 0 (Z.to_nat (2 ^ 34)) ++ [1]), (2 ^ 34). rewrite Z.sub_diag. change (Z.to_nat 0) with O.
  assert (HN : Z.of_nat (Z.to_nat (2 ^ 34)) = 2 ^ 34) by (apply Z2Nat.id; lia). assert (H35 : 2 ^ 34 + 1 <= 2 ^ 35) by lia. assert (P : 0 < 2 ^ 34) by lia.
  revert HN H35 P. generalize (2 ^ 35). generalize (Z.to_nat (2 ^ 34)). generalize (2 ^ 34). intros z N M HN H35 P.
  split; [apply is_bytes_app; split; [apply rep0|repeat constructor; lia]|].
  unfold lenZ. rewrite app_length, repeat_length. cbn [length]. split; [lia|]. split; [lia|].
  rewrite app_nth2 by (rewrite repeat_length; lia). rewrite repeat_length, Nat.sub_diag. destruct N as [|N]; [lia|]. cbn [repeat app nth]. discriminate.
Qed.
(** An empty file: undefined behaviour. *)
Theorem C91_empty_file_refuted : forall e cpt tpb unified iaddr oaddr order scheds, iaddr mod 8 = 0 -> oaddr mod 8 = 0 -> 0 < 1024 * cpt * tpb < 2 ^ 63 -> (exists k, 0 <= k /\ 1024 * cpt * tpb = 2 ^ k) ->
  cuda_sample e cpt tpb unified iaddr oaddr order scheds [Some []] = Undef.
Proof. exact sample_empty. Qed.
Print Assumptions C91_empty_file_refuted.
Example C91_empty_case : cuda_sample LE 1024 32 false 0 8 [] (fun _ => []) [Some []] = Undef /\ exists k, 0 <= k /\ 1024 * 1024 * 32 = 2 ^ k.
Proof. split; [vm_compute; reflexivity|]. exists 25. split; [lia|reflexivity]. Qed.
