(** The extent of C60: every chunk whose stream denotes more than 1024 bytes overwrites the chunks that follow it. *)
From Coq Require Import ZArith List Bool Lia.
From Verif Require Import SpecBits SpecCrc Spec842 SpecCalls CBase BitsLemmas SerialFacts SerialProps CudaModel SpecOcl OptProps PropOpt CudaProofs PropCuda.
Import ListNotations.
Open Scope Z_scope.

(** C60: whatever the stream of chunk [c], if it denotes the data [x], all of [x] ends up in the output buffer from the place of
    the chunk on.  With more than 1024 bytes that replaces what the next chunks hold. *)
Theorem C60_every_long_chunk_overruns_refuted : forall inp out c x rest,
  is_bytes inp -> is_bytes out -> lenZ inp mod 8 = 0 -> lenZ out < 2 ^ 63 -> 0 <= c < 2 ^ 24 ->
  stream false [] (bytes_bits (skipn (Z.to_nat (2048 * c)) inp)) x rest -> 1024 < lenZ x -> 1024 * c + lenZ x <= lenZ out ->
  exists out', cuda_run inp [c] out = Done out' /\
    bytes_at out' (1024 * (c + 1)) (lenZ x - 1024) = skipn 1024 x.
Proof.
  intros inp out c x rest HI HO H8 HL Hc HS HX HF. cbn [cuda_run]. unfold cuda_thread. change (1024 / 8) with 128.
  unfold u32. rewrite !Z.mod_small by lia. replace (8 * (128 * 2 * c)) with (2048 * c) by lia. replace (8 * (128 * c)) with (1024 * c) by lia.
  set (o := Z.to_nat (1024 * c)).
  assert (LS : lenZ (skipn o out) = lenZ out - 1024 * c) by (unfold lenZ in *; rewrite skipn_length; unfold o; lia).
  assert (L8 : lenZ (skipn (Z.to_nat (2048 * c)) inp) mod 8 = 0).
  { unfold lenZ in *. rewrite skipn_length. destruct (Nat.le_gt_cases (length inp) (Z.to_nat (2048 * c))) as [G|G].
    - replace (length inp - Z.to_nat (2048 * c))%nat with 0%nat by lia. reflexivity.
    - rewrite Nat2Z.inj_sub by lia. rewrite Z2Nat.id by lia. replace (2048 * c) with (8 * (256 * c)) by lia.
      rewrite Zminus_mod, H8, Z.mul_comm, Z_mod_mult. reflexivity. }
  rewrite (cuda_chunk_ok _ _ x rest); auto; try lia. 2,3: now apply is_bytes_skipn.
  rewrite !bind_done. eexists. split; [reflexivity|]. unfold bytes_at, slice.
  replace (Z.to_nat (1024 * (c + 1))) with (o + 1024)%nat by (unfold o; lia).
  rewrite skipn_app, firstn_length, skipn_all2 by (rewrite firstn_length; lia). cbn [app].
  replace (o + 1024 - Nat.min o (length out))%nat with 1024%nat by (unfold lenZ in *; unfold o in *; lia).
  rewrite skipn_app. apply firstn_app_exact. unfold lenZ in *. rewrite skipn_length. lia.
Qed.
Print Assumptions C60_every_long_chunk_overruns_refuted.
(** The stream of C60_cuda_chunk_confined_refuted. *)
Example C60_overrun_case : exists x rest, lenZ x = 1032 /\
  stream false [] (bytes_bits ([0; 8; 16; 24; 32; 40; 48; 56; 70; 255; 223; 254] ++ List.repeat 0 2036)) x rest.
Proof.
  set (x := concat (List.repeat [1;2;3;4;5;6;7;8] 129)). exists x.
  destruct (decoded_stream 20 ([0; 8; 16; 24; 32; 40; 48; 56; 70; 255; 223; 254] ++ List.repeat 0 2036) x) as (rest & R).
  { vm_compute. reflexivity. }
  exists rest. split; [vm_compute; reflexivity|exact R].
Qed.
