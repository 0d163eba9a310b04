(** When the kernel reads behind its output chunk. *)
From Coq Require Import ZArith List Bool Lia.
From Verif Require Import SpecBits SpecCrc Spec842 CBase BitsLemmas SerialIdeal SerialValid PureDecoder SerialFacts SerialDecomp OptDecomp OclModel SpecOcl OclPure OclProofs OclItems OclProps.
Import ListNotations.
Open Scope Z_scope.

Lemma kval_mono ml ml' base a bits : ml <= ml' -> kval ml base a bits = KUndef \/ kval ml base a bits = kval ml' base a bits.
Proof.
  intros H. destruct a as [n|n]; [now right|]. cbn [kval]. destruct (rdb _ bits) as [[i r]|]; [|now right]. cbv zeta.
  destruct (_ >? ptotal _); [now right|].
  destruct (Z.gtb_spec (poff (length base) n i + Z.max 4 (Z.of_nat n)) ml); [now left|].
  destruct (Z.gtb_spec (poff (length base) n i + Z.max 4 (Z.of_nat n)) ml'); [lia|now right].
Qed.
Lemma kvals_mono ml ml' base acts : ml <= ml' -> forall bits, kvals ml base acts bits = KUndef \/ kvals ml base acts bits = kvals ml' base acts bits.
Proof.
  intros H. induction acts as [|a acts IH]; intros bits; [now right|]. cbn [kvals].
  destruct (kval_mono ml ml' base a bits H) as [-> | ->]; [now left|].
  destruct (kval ml' base a bits) as [bs r| |]; [|now right|now right].
  destruct (IH r) as [-> | ->]; [now left|now right].
Qed.
Lemma kd_step_mono ml ml' cap out bits : al8 out -> lenZ out <= cap -> cap <= ml -> ml <= ml' -> cap + 2 <= ml' ->
  kd_step ml cap out bits = kd_step ml' cap out bits \/
  (kd_step ml cap out bits = (false, PUndef) /\ ml < lenZ out + 2 /\ exists c, (c = - EINVAL \/ c = - ENOSPC) /\ kd_step ml' cap out bits = (false, PErr c)).
Proof.
  intros HA HC HM ML H2. unfold kd_step. destruct (rdb 5 bits) as [[op b]|]; [|now left]. destruct (template op) as [acts|] eqn:T; [|now left].
  destruct (template_sizes _ _ T) as (TS & TL). destruct (rdb _ b) as [[v r]|]; [|now left].
  set (pb := bits_of _ v). clearbody pb.
  destruct (kvals_mono ml ml' out acts ML pb) as [U|E]; [|left; now rewrite E].
  pose proof (kvals_pd ml (lenZ out + 8) out acts HA TS ltac:(lia) [] pb ltac:(cbn [length]; lia)) as P. rewrite U in P.
  pose proof (kvals_pd ml' (lenZ out + 8) out acts HA TS ltac:(lia) [] pb ltac:(cbn [length]; lia)) as P'.
  right. rewrite U. split; [reflexivity|]. split; [exact P|].
  destruct (kvals ml' out acts pb) as [bs r'| |]; [| |lia].
  - exists (- ENOSPC). split; auto. destruct (Z.gtb_spec (lenZ out + 8) cap); [reflexivity|lia].
  - exists (- EINVAL). auto.
Qed.
Lemma kd_loop_mono ml ml' cap f : cap <= ml -> ml <= ml' -> cap + 2 <= ml' -> forall out bits, al8 out -> lenZ out <= cap ->
  (kd_loop f ml cap out bits = kd_loop f ml' cap out bits /\ kd_fin f ml cap out bits = kd_fin f ml' cap out bits) \/
  (kd_loop f ml cap out bits = Some PUndef /\ ml < lenZ (kd_fin f ml' cap out bits) + 2 /\
   exists c, (c = - EINVAL \/ c = - ENOSPC) /\ kd_loop f ml' cap out bits = Some (PErr c)).
Proof.
  intros HM ML H2. induction f as [|f IH]; intros out bits HA HC; [now left|]. cbn [kd_loop kd_fin].
  destruct (kd_step_mono ml ml' cap out bits HA HC HM ML H2) as [E|(E1 & E2 & c & E3 & E4)].
  - rewrite E. destruct (kd_step ml' cap out bits) as [[] [o b|c|]] eqn:E'; auto.
    assert (HM' : cap <= ml') by lia. destruct (kd_step_keeps _ _ _ _ _ _ _ HA HC HM' E'). auto.
  - right. rewrite E1, E4. eauto.
Qed.

Lemma overread e inp ilen out tail olen : is_bytes inp -> is_bytes out -> is_bytes tail -> 0 <= ilen -> 8 * ((ilen + 7) / 8) <= lenZ inp ->
  0 <= olen <= lenZ out -> olen + 2 <= lenZ out + lenZ tail -> olen < 2 ^ 63 ->
  (exists ret n m, decompress_core e inp ilen out olen = Done (ret, n, m) /\ decompress_core e inp ilen (out ++ tail) olen = Done (ret, n, m ++ tail)) \/
  (decompress_core e inp ilen out olen = Undef /\
   exists ret w, (ret = - EINVAL \/ ret = - ENOSPC) /\ lenZ w <= olen /\ lenZ out < lenZ w + 2 /\
     decompress_core e inp ilen (out ++ tail) olen = Done (ret, 0, w ++ skipn (length w) (out ++ tail))).
Proof.
  intros Hi Ho Ht HL HR Hc H2 H63. pose proof (readable_words _ _ HL HR) as RD.
  pose proof (core_pure e inp ilen out olen Hi Ho RD Hc H63) as C.
  assert (LT : lenZ (out ++ tail) = lenZ out + lenZ tail) by apply lenZ_app. assert (0 <= lenZ tail) by (unfold lenZ; lia).
  pose proof (core_pure e inp ilen (out ++ tail) olen Hi ltac:(now apply is_bytes_app) RD ltac:(lia) H63) as C'.
  unfold krun, kfin in C, C'.
  assert (SK : forall w, lenZ w <= olen -> (w ++ skipn (length w) out) ++ tail = w ++ skipn (length w) (out ++ tail)).
  { intros w LW. rewrite <- app_assoc. f_equal. rewrite skipn_app. replace (length w - length out)%nat with 0%nat by (unfold lenZ in *; lia). reflexivity. }
  destruct (kd_loop_mono (lenZ out) (lenZ (out ++ tail)) olen (S (Z.to_nat (8 * lenZ inp))) ltac:(lia) ltac:(lia) ltac:(lia) []
    (bytes_bits (whole (firstn (Z.to_nat ilen) inp))) eq_refl ltac:(rewrite lenZ_nil; lia)) as [[E1 E2]|(E1 & E2 & c & E3 & E4)].
  - rewrite <- E1, <- E2 in C'. destruct (kd_loop _ (lenZ out) olen [] _) as [[x rest|c|]|] eqn:K.
    + destruct C as (m & -> & B & F & _ & E). destruct C' as (m' & -> & _ & _ & _ & E'). rewrite <- SK in E' by auto.
      left. destruct (rdb 32 rest); eauto.
    + destruct C as (_ & B & F & E). destruct C' as (_ & _ & _ & E'). cbv zeta in *. rewrite <- SK in E' by auto. left. eauto.
    + exfalso. destruct (kd_meaning (lenZ (out ++ tail)) olen (bytes_bits (whole (firstn (Z.to_nat ilen) inp))) (S (Z.to_nat (8 * lenZ inp))) ltac:(lia)) as (_ & _ & _ & p & P1 & P2 & _).
      { rewrite bytes_bits_length, whole_length. set (q := firstn (Z.to_nat ilen) inp). pose proof (Nat.mul_div_le (length q) 8 ltac:(lia)).
        assert (length q <= length inp)%nat by (unfold q; rewrite firstn_length; lia). unfold lenZ. lia. }
      rewrite <- E1 in P1. injection P1 as <-. specialize (P2 eq_refl). lia.
    + destruct C.
  - rewrite E1 in C. rewrite E4 in C'. destruct C' as (_ & B & F & E'). cbv zeta in *. right. split; [exact C|].
    exists c. eexists. split; [exact E3|]. split; [|split; [|exact E']]; auto.
Qed.
