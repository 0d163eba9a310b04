(** C72: return values and shuffle map of CLDeviceDecompressor::decompress.

    Reading the statements: [declared_decompress e a order out olen returnValues chunkShuffleMap] is the call as declared in cl.h:116-127, its
    result the content of the four buffers after it; [device_decompress e a order out olen chunkShuffleMap returnValues] is the call in the
    order of the definition (cl842decompress.cpp:43-55).  returnValues and chunkShuffleMap are buffers of
    4 and 8 bytes for each chunk: [flat_map (native_bytes e 8) numbers] is the buffer that holds these 64-bit numbers. *)
From Coq Require Import ZArith List Bool Lia Permutation.
From Verif Require Import SpecBits SpecCrc Spec842 CBase OclModel SpecOcl SpecNull InplaceItems DeviceModel DeviceProofs PropSerial PropOpt PropOcl PropNull.
Import ListNotations.
Open Scope Z_scope.

(** C72 fails for a caller who uses the header: no call with a buffer for the return values is defined, whatever
    the chunks; the kernel takes the buffer for the shuffle map and reads behind its end. *)
Theorem C72_return_values_refuted : forall e a order out olen returnValues chunkShuffleMap result,
  1 <= a_num a <= 2 ^ 64 - 256 -> schedule a order -> lenZ returnValues = 4 * a_num a ->
  declared_decompress e a order out olen (Some returnValues) chunkShuffleMap <> Done result.
Proof. exact declared_fails. Qed.
Print Assumptions C72_return_values_refuted.
(** With a shuffle map and no return values the map is overwritten. *)
Definition dev_args : cl_args := mkA AlwaysCompressed 40 48 (pad_to 48 osample_z ++ osample_z) 0 (Some [24; 24]) 0 2 None.
Theorem C72_shuffle_map_refuted : exists a order out olen, a_num a = 2 /\ schedule a order /\
  forall e, let map := native_bytes e 8 1 ++ native_bytes e 8 0 in
  exists out' olen', declared_decompress e a order out olen None (Some map) = Done (out', olen', None, Some (native_bytes e 8 0 ++ native_bytes e 8 0)).
Proof.
  exists dev_args, (chunk_numbers 256), (List.repeat 7 82), (Some [40; 40]). split; [reflexivity|]. split; [apply Permutation_refl|].
  intros e. exists (osample ++ osample ++ [7; 7]), (Some [40; 40]). destruct e; vm_compute; reflexivity.
Qed.
Print Assumptions C72_shuffle_map_refuted.

(** Without both, the call restores well-formed chunks. *)
Theorem C72_declared_partial : forall e a out olen x order,
  let a' := with_map a None in let m := mkM out olen None in
  nlayout_ok a' m -> (forall c, 0 <= c < a_num a -> chunk_holds e a' m c (x c)) -> schedule a order ->
  exists out' olen', declared_decompress e a order out olen None None = Done (out', olen', None, None) /\
    forall c, 0 <= c < a_num a -> bytes_at out' (out_pos a c) (lenZ (x c)) = x c.
Proof. exact declared_null. Qed.
Print Assumptions C72_declared_partial.
(** In the order of the definition, which CLHostDecompressor uses, the map only decides on the order
    and a zero is written for every well-formed chunk; bytes that are left over stay as they are. *)
Theorem C72_definition_order_partial : forall e a out olen shuffle returnValues x order,
  let a' := with_map a shuffle in let m := mkM out olen None in
  1 <= a_num a -> 4 * a_num a <= lenZ returnValues < 4 * a_num a + 4 -> nlayout_ok a' m -> (forall c, 0 <= c < a_num a -> chunk_holds e a' m c (x c)) -> schedule a order ->
  exists out' olen' zeros, device_decompress e a order out olen (option_map (flat_map (native_bytes e 8)) shuffle) (Some returnValues) =
      Done (out', olen', Some (zeros ++ skipn (4 * Z.to_nat (a_num a)) returnValues)) /\
    zeros = List.repeat 0 (4 * Z.to_nat (a_num a)) /\
    forall c, 0 <= c < a_num a -> bytes_at out' (out_pos a c) (lenZ (x c)) = x c.
Proof. exact definition_order_numbers. Qed.
Print Assumptions C72_definition_order_partial.

(** Two chunks, the return values filled with 9, the map that exchanges the chunks. *)
Definition dev_map (e : endian) : list Z := native_bytes e 8 1 ++ native_bytes e 8 0.
Example C72_hypotheses : forall e, dev_map e = flat_map (native_bytes e 8) [1; 0] /\ nlayout_ok (with_map dev_args (Some [1; 0])) (mkM (List.repeat 7 80) None None) /\
  (forall c, 0 <= c < 2 -> chunk_holds e (with_map dev_args (Some [1; 0])) (mkM (List.repeat 7 80) None None) c osample) /\
  nlayout_ok (with_map dev_args None) (mkM (List.repeat 7 80) None None).
Proof.
  intros e. assert (NL : forall mp, (forall l, mp = Some l -> Permutation l [0; 1]) -> forall rv, (forall l, rv = Some l -> lenZ l = 2) -> nlayout_ok (with_map dev_args mp) (mkM (List.repeat 7 80) None rv)).
  { intros mp HP rv HR. split; cbn -[Z.mul Z.add Z.le Z.modulo Z.lt]; auto; try discriminate; try (split; (lia || reflexivity)).
    - split; [isb|unfold lenZ; cbn; lia]. - split; [isb|unfold lenZ; cbn; lia]. - intros l E. injection E as <-. reflexivity. }
  split; [unfold dev_map; cbn [flat_map]; now rewrite app_nil_r|]. split; [|split].
  - apply NL; [|discriminate]. intros l E. injection E as <-. apply perm_swap.
  - intros c Hc. exists 24. split; [lia|]. split; [reflexivity|]. split.
    + assert (c = 0 \/ c = 1) as [-> | ->] by lia; exact osample_denotes.
    + split; [vm_compute; discriminate|]. assert (c = 0 \/ c = 1) as [-> | ->] by lia; vm_compute; split; (reflexivity || discriminate).
  - apply NL; discriminate.
Qed.
Example C72_case : forall e, device_decompress e dev_args (chunk_numbers 256) (List.repeat 7 80) None (Some (dev_map e)) (Some (List.repeat 9 8)) = Done (osample ++ osample, None, Some (List.repeat 0 8)) /\
  declared_decompress e dev_args (chunk_numbers 256) (List.repeat 7 80) None (Some (List.repeat 9 8)) (Some (dev_map e)) = Undef.
Proof. intros []; split; vm_compute; reflexivity. Qed.

(** In the order of the definition, for chunks of any content whose sizes are given: the buffer of the
    return values holds one int for each chunk, 0 exactly for those that are well-formed and fit, a negative error code for the others. *)
Theorem C72_definition_order_any_partial : forall e a out olen shuffle returnValues order,
  let a' := with_map a shuffle in let m := mkM out olen (Some (chunk_numbers (a_num a))) in
  4 * a_num a <= lenZ returnValues < 4 * a_num a + 4 -> layout_ok 2 a' m -> sizes_ok a -> schedule a order ->
  exists out' olen' rets, device_decompress e a order out olen (option_map (flat_map (native_bytes e 8)) shuffle) (Some returnValues) = Done (out', olen', Some rets) /\ length rets = length returnValues /\
    forall c, 0 <= c < a_num a ->
    let z := bytes_at (a_in a) (in_pos a c) (elem (a_ilen a) c) in
    (forall x, int_at e rets c = 0 /\ elem olen' c = lenZ x /\ bytes_at out' (out_pos a c) (lenZ x) = x <-> denotes_842 z x /\ lenZ x <= elem olen c) /\
    (forall x, denotes_842 z x -> elem olen c < lenZ x -> int_at e rets c = - ENOSPC) /\
    (int_at e rets c = 0 \/ ((int_at e rets c = - EINVAL \/ int_at e rets c = - ENOSPC) /\ elem olen' c = 0)).
Proof. exact definition_any_numbers. Qed.
Print Assumptions C72_definition_order_any_partial.
(** The first chunk is cut off, the second has too little room. *)
Definition dev_bad : cl_args := mkA AlwaysCompressed 40 48 (pad_to 48 osample_z ++ osample_z) 0 (Some [16; 24]) 0 2 None.
Example C72_any_case : forall e, layout_ok 2 (with_map dev_bad (Some [1; 0])) (mkM (List.repeat 7 82) (Some [40; 32]) (Some (chunk_numbers 2))) /\
  sizes_ok dev_bad /\
  exists out' olen' rets, device_decompress e dev_bad (chunk_numbers 256) (List.repeat 7 82) (Some [40; 32]) (Some (dev_map e)) (Some (List.repeat 9 8)) = Done (out', olen', Some rets) /\
    rets = native_bytes e 4 (2 ^ 32 - EINVAL) ++ native_bytes e 4 (2 ^ 32 - ENOSPC).
Proof.
  intros e. split; [|split].
  - split; cbn -[Z.mul Z.add Z.le Z.modulo Z.lt]; auto; try (split; (lia || reflexivity)).
    + isb. + split; [isb|unfold lenZ; cbn; lia].
    + eexists. split; [reflexivity|]. split; [reflexivity|]. repeat constructor; lia.
    + eexists. split; reflexivity.
    + intros l E. injection E as <-. apply perm_swap.
  - split; [reflexivity|]. eexists. split; [reflexivity|]. split; [reflexivity|]. intros c Hc. cbn [a_num dev_bad] in Hc.
    assert (c = 0 \/ c = 1) as [-> | ->] by lia; vm_compute; repeat split; discriminate.
  - destruct e; do 3 eexists; split; vm_compute; reflexivity.
Qed.
