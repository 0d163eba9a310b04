(** How the capacity changes what the OpenCL kernel returns for a chunk. *)
From Coq Require Import ZArith List Bool Lia.
From Verif Require Import SpecBits SpecCrc Spec842 SpecCalls CBase BitsLemmas SerialIdeal SerialValid PureDecoder SerialFacts SerialDecomp OptDecomp OclModel SpecOcl OclPure OclProofs OclItems OclProps Capacity.
Import ListNotations.
Open Scope Z_scope.

Lemma kd_step_cap ml cap cap' out bits : cap <= cap' -> kd_step ml cap out bits = (false, PErr (- ENOSPC)) \/ kd_step ml cap out bits = kd_step ml cap' out bits.
Proof.
  intros H. unfold kd_step. destruct (rdb 5 bits) as [[op b]|]; [|now right]. destruct (template op) as [acts|].
  - destruct (rdb _ b) as [[v b2]|]; [|now right]. destruct (kvals ml out acts _); [|now right|now right].
    destruct (Z.gtb_spec (lenZ out + 8) cap); [now left|]. destruct (Z.gtb_spec (lenZ out + 8) cap'); [lia|now right].
  - destruct (op =? 0x1b).
    { destruct (rdb 6 b) as [[rep b2]|]; [|now right]. destruct (length out =? 0)%nat; [now right|].
      destruct (Z.gtb_spec (lenZ out + (rep + 1) * 8) cap); [now left|]. destruct (Z.gtb_spec (lenZ out + (rep + 1) * 8) cap'); [lia|now right]. }
    destruct (op =? 0x1c); [|now right].
    destruct (Z.gtb_spec (lenZ out + 8) cap); [now left|]. destruct (Z.gtb_spec (lenZ out + 8) cap'); [lia|now right].
Qed.
Lemma kd_loop_cap ml cap cap' f : cap <= cap' -> forall out bits, kd_loop f ml cap out bits = Some (PErr (- ENOSPC)) \/ kd_loop f ml cap out bits = kd_loop f ml cap' out bits.
Proof.
  intros H. induction f as [|f IH]; intros out bits; [now right|]. cbn [kd_loop].
  destruct (kd_step_cap ml cap cap' out bits H) as [E|E]; rewrite E; [now left|]. destruct (kd_step ml cap' out bits) as [[] [o b|c|]]; auto.
Qed.
Lemma larger_core e e' inp ilen out out' olen olen' : is_bytes inp -> is_bytes out -> is_bytes out' -> 0 <= ilen -> 8 * ((ilen + 7) / 8) <= lenZ inp ->
  0 <= olen -> olen + 2 <= lenZ out -> olen <= olen' -> olen' + 2 <= lenZ out' -> olen' < 2 ^ 63 ->
  (exists m, decompress_core e inp ilen out olen = Done (- ENOSPC, 0, m)) \/
  observed (decompress_core e inp ilen out olen) = observed (decompress_core e' inp ilen out' olen').
Proof.
  intros Hi Ho Ho' HL HR H1 H2 H3 H4 H5. pose proof (readable_words _ _ HL HR) as RD.
  pose proof (core_pure e inp ilen out olen Hi Ho RD ltac:(lia) ltac:(lia)) as P.
  pose proof (core_pure e' inp ilen out' olen' Hi Ho' RD ltac:(lia) H5) as P'. unfold krun, kfin in *.
  set (bits := bytes_bits (whole (firstn (Z.to_nat ilen) inp))) in *. set (f := S (Z.to_nat (8 * lenZ inp))) in *.
  destruct (kd_loop_ml (lenZ out) (olen' + 2) olen f ltac:(lia) ltac:(lia) [] bits eq_refl ltac:(rewrite (@lenZ_nil Z); lia)) as [E1 _].
  destruct (kd_loop_ml (lenZ out') (olen' + 2) olen' f ltac:(lia) ltac:(lia) [] bits eq_refl ltac:(rewrite (@lenZ_nil Z); lia)) as [E1' _].
  rewrite E1 in P. rewrite E1' in P'. clear E1 E1'.
  destruct (kd_loop_cap (olen' + 2) olen olen' f H3 [] bits) as [E|E]; rewrite E in P.
  { left. destruct P as (_ & _ & _ & P). eauto. }
  right. destruct (kd_loop f (olen' + 2) olen' [] bits) as [[x rest|c|]|]; [| | |contradiction].
  - destruct P as (m & -> & _ & _ & _ & ->). destruct P' as (m' & -> & _ & _ & _ & ->).
    destruct (rdb 32 rest) as [[crc b]|]; [|reflexivity]. cbn [observed]. now rewrite !firstn_whole.
  - destruct P as (_ & _ & _ & ->). destruct P' as (_ & _ & _ & ->). reflexivity.
  - now rewrite P, P'.
Qed.
