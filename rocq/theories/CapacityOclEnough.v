(** How much room is always enough for the OpenCL kernel. *)
From Coq Require Import ZArith List Bool Lia.
From Verif Require Import SpecBits SpecCrc Spec842 SpecCalls CBase BitsLemmas SerialIdeal SerialValid PureDecoder SerialFacts SerialDecomp OptDecomp OclModel SpecOcl OclPure OclProofs OclItems OclProps Capacity CapacityOcl.
Import ListNotations.
Open Scope Z_scope.

Lemma kval_len ml base a bits bs r : kval ml base a bits = KOk bs r -> (length bs <= act_len a)%nat.
Proof.
  destruct a as [n|n]; cbn [kval act_len]; destruct (rdb _ bits) as [[v b]|]; try discriminate.
  - intros H. injection H as <- _. now rewrite be_bytes_length.
  - cbv zeta. repeat match goal with |- (if ?c then _ else _) = _ -> _ => destruct c; try discriminate end.
    intros H. injection H as <- _. rewrite ?app_length, ?repeat_length. unfold slice. rewrite firstn_length. lia.
Qed.
Lemma kvals_len ml base acts : forall bits bs r, kvals ml base acts bits = KOk bs r -> (length bs <= acts_len acts)%nat.
Proof.
  induction acts as [|a acts IH]; intros bits bs r H; cbn [kvals] in H.
  - injection H as <- _. cbn. lia.
  - destruct (kval ml base a bits) as [b1 r1| |] eqn:E; try discriminate. destruct (kvals ml base acts r1) as [b2 r2| |] eqn:E2; try discriminate.
    injection H as <- _. apply kval_len in E. apply IH in E2. rewrite app_length. cbn [acts_len fold_right]. fold (acts_len acts). lia.
Qed.
Lemma kd_step_enough ml cap out bits : 11 * lenZ out + 512 * len bits <= 11 * cap ->
  match kd_step ml cap out bits with
  | (_, POk o b) => 11 * lenZ o + 512 * len b <= 11 * lenZ out + 512 * len bits
  | (_, PErr c) => c <> - ENOSPC
  | (_, PUndef) => True
  end.
Proof.
  intros H. unfold kd_step. destruct (rdb 5 bits) as [[op b]|] eqn:R; [|discriminate]. apply rdb_len in R.
  destruct (template op) as [acts|] eqn:T.
  { destruct (template_sizes _ _ T) as (_ & TL & _). destruct (rdb _ b) as [[v b2]|] eqn:R2; [|discriminate]. apply rdb_len in R2.
    destruct (kvals _ _ _ _) as [bs r| |] eqn:K; [|discriminate|exact Logic.I]. apply kvals_len in K. rewrite TL in K.
    destruct (Z.gtb_spec (lenZ out + 8) cap); [lia|]. rewrite lenZ_app. unfold lenZ at 2. lia. }
  destruct (op =? 0x1b).
  { destruct (rdb 6 b) as [[rep b2]|] eqn:R2; [|discriminate]. destruct (rdb_some' _ _ _ _ R2) as [_ V]. change (2 ^ Z.of_nat 6) with 64 in V. apply rdb_len in R2. destruct (length out =? 0)%nat; [discriminate|].
    destruct (Z.gtb_spec (lenZ out + (rep + 1) * 8) cap); [lia|].
    rewrite lenZ_app. assert (lenZ (copies (Z.to_nat (rep + 1)) (last8 out)) <= 512); [|lia].
    unfold lenZ. rewrite copies_length. pose proof (last8_short out). nia. }
  destruct (op =? 0x1c). { destruct (Z.gtb_spec (lenZ out + 8) cap); [lia|]. rewrite lenZ_app. change (lenZ (List.repeat 0 8)) with 8. lia. }
  destruct (op =? 0x1e); [lia|discriminate].
Qed.
Lemma kd_loop_enough ml cap f : forall out bits, 11 * lenZ out + 512 * len bits <= 11 * cap ->
  match kd_loop f ml cap out bits with Some (PErr c) => c <> - ENOSPC | _ => True end.
Proof.
  induction f as [|f IH]; intros out bits H; cbn [kd_loop]; auto. pose proof (kd_step_enough ml cap out bits H) as P.
  destruct (kd_step ml cap out bits) as [[] [o b|c|]]; auto. apply IH. lia.
Qed.
Lemma enough_core e inp ilen out olen n m : is_bytes inp -> is_bytes out -> 0 <= ilen -> 8 * ((ilen + 7) / 8) <= lenZ inp ->
  4096 * ilen <= 11 * olen -> olen <= lenZ out -> olen < 2 ^ 63 ->
  decompress_core e inp ilen out olen <> Done (- ENOSPC, n, m).
Proof.
  intros Hi Ho HL HR H1 H2 H3 E. pose proof (readable_words _ _ HL HR) as RD.
  pose proof (core_pure e inp ilen out olen Hi Ho RD ltac:(lia) H3) as P. unfold krun in P.
  set (bits := bytes_bits (whole (firstn (Z.to_nat ilen) inp))) in *.
  assert (LB : len bits <= 8 * ilen).
  { unfold bits. rewrite bytes_bits_length, whole_length, firstn_length. pose proof (Nat.mul_div_le (Nat.min (Z.to_nat ilen) (length inp)) 8 ltac:(lia)). lia. }
  pose proof (kd_loop_enough (lenZ out) olen (S (Z.to_nat (8 * lenZ inp))) [] bits ltac:(rewrite (@lenZ_nil Z); lia)) as Q.
  destruct (kd_loop _ _ olen [] bits) as [[x rest|c|]|]; [| | |contradiction].
  - destruct P as (m' & _ & _ & _ & _ & P). rewrite P in E. destruct (rdb 32 rest) as [[crc b]|]; discriminate.
  - destruct P as (_ & _ & _ & P). rewrite P in E. injection E as E _ _. contradiction.
  - rewrite P in E. discriminate.
Qed.
