(** Properties of the CUDA decompressor: C59, C60.

    Reading the statements: [cuda_run inp order out] runs the threads with the
    numbers in [order], in that order, on the input buffer [inp] and the output
    buffer [out]; thread [c] decodes what starts at inp + 2048 * c into
    out + 1024 * c.  The result is [Done] with the final output buffer, or
    [Undef] for an access outside the buffers, outside the template table, or
    before the output chunk of the thread.
    [bytes_at l p n] are the [n] bytes of [l] from offset [p] on;
    [is_compressed x z]: some call of sw842_compress or optsw842_compress on [x]
    succeeded with the result [z] (OptProps.v). *)
From Coq Require Import ZArith List Bool Lia Permutation.
From Verif Require Import SpecBits SpecCrc Spec842 SpecCalls CBase CudaModel SpecOcl OptProps PropOpt CudaProofs.
Import ListNotations.
Open Scope Z_scope.

(** C59: whatever the order of the threads, every chunk is decoded to what its stream denotes
    and nothing else in the output buffer changes.  Missing: more than 2^24 chunks (refuted below). *)
Theorem C59_cuda_decodes_every_chunk_partial : forall inp n x order out,
  0 <= n <= 2 ^ 24 -> is_bytes inp -> lenZ inp mod 8 = 0 ->
  (forall c, 0 <= c < n -> lenZ (x c) <= 1024 /\
     exists rest, stream false [] (bytes_bits (skipn (Z.to_nat (2048 * c)) inp)) (x c) rest) ->
  is_bytes out -> 1024 * n <= lenZ out < 2 ^ 63 -> Permutation order (chunk_numbers n) ->
  exists out', cuda_run inp order out = Done out' /\ length out' = length out /\
    (forall c, 0 <= c < n -> bytes_at out' (1024 * c) 1024 = x c ++ bytes_at out (1024 * c + lenZ (x c)) (1024 - lenZ (x c))) /\
    (forall p, 1024 * n <= Z.of_nat p -> nth p out' 0 = nth p out 0).
Proof. intros inp n x order out Hn Hi H8 Hx HB HM P. exact (cuda_launch inp n x Hn Hi H8 Hx (length out) HM order out P HB eq_refl). Qed.
Print Assumptions C59_cuda_decodes_every_chunk_partial.
(** In particular, chunks made by any of the compressors come back. *)
Theorem C59_cuda_round_trip_partial : forall inp n x z order out,
  0 <= n <= 2 ^ 24 -> is_bytes inp -> lenZ inp mod 8 = 0 ->
  (forall c, 0 <= c < n -> lenZ (x c) <= 1024 /\ is_bytes (x c) /\ lenZ (x c) mod 8 = 0 /\
     is_compressed (x c) (z c) /\ bytes_at inp (2048 * c) (lenZ (z c)) = z c) ->
  1024 * n <= lenZ out < 2 ^ 63 -> Permutation order (chunk_numbers n) -> is_bytes out ->
  exists out', cuda_run inp order out = Done out' /\ length out' = length out /\
    (forall c, 0 <= c < n -> bytes_at out' (1024 * c) (lenZ (x c)) = x c).
Proof. exact cuda_launch_compressed. Qed.
Print Assumptions C59_cuda_round_trip_partial.
Definition cuda_x (c : Z) : list Z :=
  if c =? 0 then osample else [1;2;3;4;5;6;7;8; 7;8;5;6;3;4;1;2; 7;8;5;6;3;4;1;2].
Definition cuda_in : list Z :=
  osample_z ++ List.repeat 255 2024 ++ [0; 8; 16; 24; 32; 40; 48; 56; 68; 128; 192; 128; 64; 50; 3; 224] ++ List.repeat 0 2032.
Definition cuda_out : list Z := List.repeat 7 2060.
Example C59_hypotheses : is_bytes cuda_in /\ lenZ cuda_in = 4096 /\ Permutation [1; 0] (chunk_numbers 2) /\ is_bytes cuda_out /\
  (forall c, 0 <= c < 2 -> lenZ (cuda_x c) <= 1024 /\ exists rest, stream false [] (bytes_bits (skipn (Z.to_nat (2048 * c)) cuda_in)) (cuda_x c) rest).
Proof.
  split. { assert (B : forallb (fun b => (0 <=? b) && (b <? 256)) cuda_in = true) by (vm_compute; reflexivity).
    apply Forall_forall. rewrite forallb_forall in B. intros b Hb. specialize (B b Hb). unfold is_byte. lia. }
  split; [vm_compute; reflexivity|]. split; [apply perm_swap|].
  split. { apply Forall_forall. intros b Hb. apply repeat_spec in Hb. subst. unfold is_byte. lia. }
  intros c Hc. assert (c = 0 \/ c = 1) as [-> | ->] by lia; (split; [vm_compute; discriminate|]);
    apply (decoded_stream 20); vm_compute; reflexivity.
Qed.
Example C59_case : cuda_run cuda_in [1; 0] cuda_out = Done (osample ++ List.repeat 7 984 ++ cuda_x 1 ++ List.repeat 7 1012).
Proof. vm_compute. reflexivity. Qed.
(** The bound on the number of chunks is needed: thread 2^24 decodes chunk 0 again, whatever its
    own chunk is (842_decompress.cu:140-141: 32-bit products). *)
Theorem C59_cuda_many_chunks_refuted : forall inp out x rest,
  is_bytes inp -> is_bytes out -> lenZ inp mod 8 = 0 -> 1024 * (2 ^ 24 + 1) <= lenZ out < 2 ^ 63 ->
  stream false [] (bytes_bits inp) x rest -> lenZ x <= 1024 ->
  exists out', cuda_thread inp (2 ^ 24) out = Done out' /\ bytes_at out' (1024 * 2 ^ 24) (lenZ x) = x.
Proof. exact cuda_wraps. Qed.
Print Assumptions C59_cuda_many_chunks_refuted.
Example C59_many_chunks_case : exists rest, stream false [] (bytes_bits cuda_in) osample rest.
Proof. apply (decoded_stream 20). vm_compute. reflexivity. Qed.

(** C60 fails: a chunk that starts with "repeat" makes its thread read the word before the output
    buffer, an opcode that is not defined makes it read behind the template table, and a
    chunk without an end makes it read behind the input buffer. *)
Theorem C60_cuda_malformed_in_bounds_refuted :
  forall bad, In bad [[216; 30]; [208]; [224]] -> exists inp out, is_bytes inp /\ lenZ inp = 2048 /\ is_bytes out /\ lenZ out = 1024 /\
  firstn (length bad) inp = bad /\ cuda_run inp [0] out = Undef.
Proof.
  intros bad Hb. exists (bad ++ List.repeat 0 (2048 - length bad)), (List.repeat 7 1024).
  assert (BZ : forall k n, 0 <= k < 256 -> is_bytes (List.repeat k n)).
  { intros k n Hk. apply Forall_forall. intros b Hi. apply repeat_spec in Hi. subst. exact Hk. }
  assert (BB : is_bytes (bad ++ List.repeat 0 (2048 - length bad))).
  { apply Forall_app. split; [|apply BZ; lia]. destruct Hb as [<-|[<-|[<-|[]]]]; isb. }
  split; [exact BB|]. destruct Hb as [<-|[<-|[<-|[]]]]; (split; [vm_compute; reflexivity|]); (split; [apply BZ; lia|]); repeat split; vm_compute; reflexivity.
Qed.
Print Assumptions C60_cuda_malformed_in_bounds_refuted.
(** A stream for more than 1024 bytes runs into the next chunk: what that chunk holds in the end
    depends on the order of the threads. *)
Theorem C60_cuda_chunk_confined_refuted : exists inp out out1 out2, is_bytes inp /\ lenZ inp = 4096 /\ is_bytes out /\ lenZ out = 2048 /\
  cuda_run inp [0; 1] out = Done out1 /\ cuda_run inp [1; 0] out = Done out2 /\
  bytes_at out1 1024 8 = List.repeat 0 8 /\ bytes_at out2 1024 8 = [1; 2; 3; 4; 5; 6; 7; 8].
Proof.
  exists ([0; 8; 16; 24; 32; 40; 48; 56; 70; 255; 223; 254] ++ List.repeat 0 2036 ++ [231; 128] ++ List.repeat 0 2046), (List.repeat 7 2048).
  eexists _, _.
  assert (BZ : forall k n, 0 <= k < 256 -> is_bytes (List.repeat k n)).
  { intros k n Hk. apply Forall_forall. intros b Hi. apply repeat_spec in Hi. subst. exact Hk. }
  split. { apply Forall_app. split; [isb|]. apply Forall_app. split; [apply BZ; lia|]. apply Forall_app. split; [isb|apply BZ; lia]. }
  split; [vm_compute; reflexivity|]. split; [apply BZ; lia|]. split; [vm_compute; reflexivity|].
  split; [vm_compute; reflexivity|]. split; [vm_compute; reflexivity|]. split; vm_compute; reflexivity.
Qed.
Print Assumptions C60_cuda_chunk_confined_refuted.
