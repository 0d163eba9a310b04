(** C71: what the sample program writes is what the OpenCL decompressor reads.

    Reading the statements: [compress_benchmark_core e f size base taddr obase tmp dev inp corder order map] is the run of the sample
    (sample/compdecomp_cl.cpp:19-169) on the file [inp] cut into chunks of [size] bytes.
    The file and the two buffers are at [base], [obase] and [taddr]; [tmp c] is what the temporary buffer holds before chunk [c], [dev] what the
    output buffer on the device holds; [corder] and [order] are the orders in which the chunks are compressed and the work items run. *)
From Coq Require Import ZArith List Bool Lia Permutation.
From Verif Require Import SpecBits CBase OclModel SpecOcl InplaceItems SampleModel SampleProofs PropSerial PropOpt PropOcl.
Import ListNotations.
Open Scope Z_scope.

Theorem C71_sample_round_trip : forall e f size n base taddr obase tmp dev inp corder order map,
  size mod 8 = 0 -> 72 <= size -> 1 <= n -> 2 * size * (n + 1) <= 2 ^ 63 -> base mod 8 = 0 -> taddr mod 8 = 0 -> obase mod 8 = 0 ->
  (forall c, is_bytes (tmp c) /\ lenZ (tmp c) = size * 2) -> is_bytes dev -> lenZ dev = lenZ inp -> is_bytes inp -> lenZ inp = size * n ->
  Permutation corder (chunk_numbers n) -> Permutation order (chunk_numbers (global_size n)) -> (forall l, map = Some l -> Permutation l (chunk_numbers n)) ->
  (f = MaybeCompressed -> forall c, 0 <= c < n -> firstn 16 (bytes_at inp (size * c) size) <> MARKER) ->
  compress_benchmark_core e f size base taddr obase tmp dev inp corder order map = Done true.
Proof. exact sample_round_trip. Qed.
Print Assumptions C71_sample_round_trip.

(** Two chunks of 72 bytes, the second cannot be compressed. *)
Definition sample_file : list Z := List.repeat 9 72 ++ map (fun i => (Z.of_nat i * Z.of_nat i * 7 + 13 * Z.of_nat i) mod 256) (seq 0 72).
Example C71_hypotheses : is_bytes sample_file /\ lenZ sample_file = 72 * 2 /\ 2 * 72 * (2 + 1) <= 2 ^ 63 /\ Permutation [1; 0] (chunk_numbers 2) /\
  forall c, 0 <= c < 2 -> firstn 16 (bytes_at sample_file (72 * c) 72) <> MARKER.
Proof.
  split; [apply is_bytes_b; vm_compute; reflexivity|]. split; [reflexivity|]. split; [vm_compute; discriminate|]. split; [apply perm_swap|].
  intros c Hc. assert (c = 0 \/ c = 1) as [-> | ->] by lia; vm_compute; discriminate.
Qed.
Definition sample_buffer : outcome (list Z) := Eval vm_compute in
  sample_run (fun c => sample_maybe LE 72 0 0 sample_file (List.repeat 5 144) c) [1; 0] (List.repeat 0 144).
Example C71_case : (exists z, lenZ z = 16 /\ sample_buffer = Done (MARKER ++ native_bytes LE 8 16 ++ List.repeat 0 32 ++ z ++ skipn 72 sample_file)) /\
  forall f e, compress_benchmark_core e f 72 0 0 0 (fun _ => List.repeat 5 144) (List.repeat 1 144) sample_file [1; 0] (rev (chunk_numbers 256)) (Some [1; 0]) = Done true.
Proof.
  split. { eexists (firstn 16 (skipn 56 (match sample_buffer with Done l => l | _ => [] end))). split; vm_compute; reflexivity. }
  intros [] []; vm_compute; reflexivity.
Qed.

(** An incompressible chunk that starts with the marker is not restored: the format has no way to represent it. *)
Definition marked_file : list Z := MARKER ++ native_bytes LE 8 16 ++ map (fun i => (Z.of_nat i * Z.of_nat i * 7 + 13 * Z.of_nat i) mod 256) (seq 0 48).
Theorem C71_marked_chunk_refuted : exists size n inp tmp dev corder order,
  is_bytes inp /\ lenZ inp = size * n /\ size mod 8 = 0 /\ 72 <= size /\ 1 <= n /\ is_bytes dev /\ lenZ dev = lenZ inp /\
  is_bytes tmp /\ lenZ tmp = size * 2 /\ Permutation corder (chunk_numbers n) /\ Permutation order (chunk_numbers (global_size n)) /\
  compress_benchmark_core LE MaybeCompressed size 0 0 0 (fun _ => tmp) dev inp corder order None = Done false.
Proof.
  exists 72, 1, marked_file, (List.repeat 5 144), (List.repeat 1 72), [0], (chunk_numbers 256).
  split; [apply is_bytes_b; vm_compute; reflexivity|]. split; [reflexivity|]. split; [reflexivity|]. split; [lia|]. split; [lia|].
  split; [apply is_bytes_b; vm_compute; reflexivity|]. split; [reflexivity|]. split; [apply is_bytes_b; vm_compute; reflexivity|]. split; [reflexivity|].
  split; [apply Permutation_refl|]. split; [apply Permutation_refl|]. vm_compute. reflexivity.
Qed.
Print Assumptions C71_marked_chunk_refuted.

(** A file shorter than one chunk fails: the decompressor cannot be called with an empty
    buffer.  (For the driver, compdecomp_driver.c:47 and 153-158, such a file is padded and takes another path.) *)
Theorem C71_short_file : forall e f size base taddr obase tmp dev inp order map, lenZ inp < size ->
  compress_benchmark_core e f size base taddr obase tmp dev inp [] order map = Done false.
Proof. exact sample_short. Qed.
Print Assumptions C71_short_file.
Example C71_short_case : lenZ osample < 72 /\ compress_benchmark_core LE AlwaysCompressed 72 0 0 0 (fun _ => []) (List.repeat 1 40) osample [] (chunk_numbers 256) None = Done false.
Proof. split; vm_compute; reflexivity. Qed.
