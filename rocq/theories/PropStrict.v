(** sw842_compress with SW842_STRICT: C101. *)
From Coq Require Import ZArith List Bool Lia.
From Verif Require Import SpecBits SpecCrc Spec842 SpecCalls CBase BitsLemmas SerialCompModel SerialDecompModel SerialFacts SerialProps
  OptDecompModel OptDecomp SerialIdeal SerialValid PureDecoder OptProps CudaModel CudaProofs StrictModel.
Import ListNotations.
Open Scope Z_scope.

(** In strict mode a length that is not a multiple of 8 is refused: -EINVAL, *olen = 0, and nothing is written.  Otherwise the input determines the
    compressed bytes, the same ones as without strict mode; they are delivered if they fit, and the result is -ENOSPC if not. *)
Theorem C101_contract : forall inp, is_bytes inp ->
  exists z, is_bytes z /\ valid_842 true z inp /\ forall strict e addr out olen, is_bytes out -> 0 <= olen <= lenZ out ->
    (strict = true -> lenZ inp mod 8 <> 0 -> sw842_compress_cfg strict e addr inp out olen = Done (- EINVAL, 0, out)) /\
    (strict = false \/ lenZ inp mod 8 = 0 -> observed (sw842_compress_cfg strict e addr inp out olen) =
       if (lenZ z <=? olen) && (lenZ z <=? UINT_MAX) then Done (0, lenZ z, z) else Done (- ENOSPC, 0, [])).
Proof.
  intros inp BI. destruct (c02 inp BI) as (z & BZ & VZ & C). exists z. split; auto. split; auto. intros strict e addr out olen BO HO.
  unfold sw842_compress_cfg. split.
  - intros -> M. apply Z.eqb_neq in M. rewrite M. reflexivity.
  - intros [-> |M]; [now apply C|]. rewrite M, andb_false_r. now apply C.
Qed.
Print Assumptions C101_contract.

(** The comment above SW842_STRICT: "so that all compressed buffers produced by this function will be decompressable by the 842 hardware
    decompressor".  [valid_842 false z x]: the bytes [z] are a stream of the hardware's format for [x], with its CRC. *)
Theorem C101_strict_output : forall e addr inp out olen n m, is_bytes inp -> is_bytes out -> 0 <= olen <= lenZ out ->
  sw842_compress_cfg true e addr inp out olen = Done (0, n, m) ->
  lenZ inp mod 8 = 0 /\ valid_842 false (firstn (Z.to_nat n) m) inp.
Proof.
  intros e addr inp out olen n m BI BO HO. unfold sw842_compress_cfg. cbn [andb].
  destruct (Z.eqb_spec (lenZ inp mod 8) 0) as [M|M]; cbn [negb]; [|discriminate]. intros E. split; auto.
  pose proof (c03 e addr inp out olen BI BO HO) as (r1 & n1 & m1 & E1 & N1 & L1 & _). rewrite E in E1. injection E1 as <- <- <-.
  assert (LF : length (firstn (Z.to_nat n) m) = Z.to_nat n) by (unfold lenZ in *; rewrite firstn_length; lia).
  apply compressed_valid; auto. exists e, out, olen. split; auto. split; auto. left. exists addr, m.
  unfold lenZ. rewrite LF, Z2Nat.id by lia. auto.
Qed.
Print Assumptions C101_strict_output.
Example C101_case : observed (sw842_compress_cfg true LE 0 [1;2;3;4;5;6;7;8] (repeat 0 64) 64) = Done (0, 16, [0; 8; 16; 24; 32; 40; 48; 56; 71; 159; 67; 205; 160; 64; 0; 0]) /\
  sw842_compress_cfg true LE 0 [42] (repeat 7 9) 9 = Done (- EINVAL, 0, repeat 7 9) /\
  observed (sw842_compress_cfg false LE 0 [42] (repeat 7 9) 9) = Done (0, 8, [233; 42; 245; 189; 75; 1; 176; 0]).
Proof. repeat split; vm_compute; reflexivity. Qed.
(** So the hardware-format readers restore the input: optsw842_decompress at any address, and the CUDA kernel. *)
Theorem C101_strict_round_trip : forall e e' addr iaddr oaddr inp out olen n m out2 olen2, is_bytes inp -> is_bytes out -> 0 <= olen <= lenZ out ->
  (lenZ inp <= UINT_MAX \/ iaddr mod 8 = 0 /\ oaddr mod 8 = 0) ->
  sw842_compress_cfg true e addr inp out olen = Done (0, n, m) ->
  is_bytes out2 -> lenZ inp <= olen2 <= lenZ out2 -> lenZ out2 < 2 ^ 63 ->
  observed (optsw842_decompress e' iaddr oaddr (firstn (Z.to_nat n) m) out2 olen2) = Done (0, lenZ inp, inp) /\
  cuda_chunk (firstn (Z.to_nat n) m) out2 = Done (inp ++ skipn (length inp) out2).
Proof.
  intros e e' addr iaddr oaddr inp out olen n m out2 olen2 BI BO HO HU E B2 H2 L2. 
  destruct (C101_strict_output e addr inp out olen n m BI BO HO E) as (M & (rest & V)).
  revert E. unfold sw842_compress_cfg. rewrite M. cbn [andb negb Z.eqb]. intros E.
  pose proof (c03 e addr inp out olen BI BO HO) as (r1 & n1 & m1 & E1 & N1 & L1 & _). rewrite E in E1. injection E1 as <- <- <-.
  assert (LF : length (firstn (Z.to_nat n) m) = Z.to_nat n) by (unfold lenZ in *; rewrite firstn_length; lia).
  assert (C : is_compressed inp (firstn (Z.to_nat n) m)).
  { exists e, out, olen. split; auto. split; auto. left. exists addr, m. unfold lenZ. rewrite LF, Z2Nat.id by lia. auto. }
  destruct (compressed_valid _ _ BI M C) as (BZ & _ & _ & Z8).
  split; [apply c22_opt; auto; lia|]. eapply cuda_chunk_ok; eauto; lia.
Qed.
Print Assumptions C101_strict_round_trip.

(** Without it, whatever has another length is compressed to something that no hardware-format reader accepts, as anything. *)
Lemma args_length out acts bs out' rest : args out acts bs out' rest -> length out' = (length out + acts_len acts)%nat.
Proof.
  induction 1; cbn [acts_len fold_right act_len]; try lia.
  - rewrite IHargs, app_length. unfold acts_len. lia.
  - rewrite IHargs, app_length. rewrite slice_length. unfold acts_len. lia.
    unfold refers in *. pose proof (Z.mul_div_le (Z.of_nat (length out)) 8 ltac:(lia)). lia.
Qed.
Lemma hardware_length out bits x rest : stream false out bits x rest -> (length out mod 8 = 0)%nat -> (length x mod 8 = 0)%nat.
Proof.
  remember false as sw. intros H. induction H; intros L; auto; try congruence.
  - apply IHstream; auto. rewrite app_length, repeat_length, <- Nat.add_mod_idemp_l, L by lia. reflexivity.
  - apply IHstream; auto. rewrite app_length, copies_length. rewrite last8_length by auto.
    rewrite <- Nat.add_mod_idemp_l, L, Nat.add_0_l by lia. apply Nat.mod_mul. lia.
  - apply IHstream; auto. destruct (template_sizes _ _ H0) as (_ & TL & _). apply args_length in H1. rewrite H1, TL, <- Nat.add_mod_idemp_l, L by lia. reflexivity.
Qed.
Theorem C101_not_strict_output : forall e addr inp out olen n m, is_bytes inp -> is_bytes out -> 0 <= olen <= lenZ out ->
  sw842_compress_cfg false e addr inp out olen = Done (0, n, m) -> lenZ inp mod 8 <> 0 ->
  valid_842 true (firstn (Z.to_nat n) m) inp /\ forall x, ~ valid_842 false (firstn (Z.to_nat n) m) x.
Proof.
  intros e addr inp out olen n m BI BO HO E M. unfold sw842_compress_cfg in E. cbn [andb] in E.
  assert (V : valid_842 true (firstn (Z.to_nat n) m) inp).
  { destruct (c04 e addr inp out olen n m BI BO HO E) as (_ & _ & used & k & EU & _ & S). exists (repeat false k). rewrite EU.
    apply stream_more. exact S. }
  split; auto. intros x (rest & S). destruct V as (rest' & S').
  destruct (stream_det _ _ _ _ _ _ _ S S') as [-> _]. apply hardware_length in S; [|reflexivity].
  apply M. unfold lenZ. rewrite <- (Nat2Z.inj_mod _ 8), S. reflexivity.
Qed.
Print Assumptions C101_not_strict_output.
