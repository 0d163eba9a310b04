(** Lemmas behind C109 for the cryptodev back end. *)
From Coq Require Import ZArith List Bool Lia.
From Verif Require Import SpecBits SpecCalls CBase BitsLemmas SerialProps ChunkedModel SpecChunked ChunkedProofs SpecChunkedTrip ChunkedTrip SpecCryptodev.
Import ListNotations.
Open Scope Z_scope.

Section Steps.
Variables (ok : list Z -> Prop) (fc fd : chunk_func).
Hypothesis RT : codec ok fc fd.
Variables (n : Z) (rets : list Z) (iaddr : Z) (inp : list Z) (istride : Z) (ilens : list Z) (oaddr : Z) (out : list Z) (ostride : Z) (olens : list Z).
Hypothesis (Hi : is_bytes inp) (Ho : is_bytes out) (AR : areas n rets inp istride ilens out ostride olens).
Hypothesis CH : forall j, (j < Z.to_nat n)%nat -> nth j ilens 0 <> SIZE_MAX /\ ok (chunk_of inp istride ilens j) /\
  room_for (nth j ilens 0) <= nth j olens 0 /\ room_for (nth j ilens 0) <= UINT_MAX.

Lemma compressed j : (j < Z.to_nat n)%nat -> exists z, is_bytes z /\ lenZ z <= nth j olens 0 /\
  single fc iaddr inp istride ilens oaddr out ostride olens j = Done (0, lenZ z, z) /\
  forall ia' oa' out2, is_bytes out2 -> nth j ilens 0 <= lenZ out2 < 2 ^ 63 ->
    observed (fd ia' oa' z out2 (lenZ out2)) = Done (0, nth j ilens 0, chunk_of inp istride ilens j).
Proof.
  intros Hj. pose proof AR as (L1 & L2 & L3 & IS & OS & AJ).
  destruct (CH j Hj) as (NS & OK & R & RU). destruct (AJ j (conj Hj NS)) as (A1 & A2 & A3 & A4 & A5).
  assert (LX : lenZ (chunk_of inp istride ilens j) = nth j ilens 0) by (apply lenZ_slice; nia).
  assert (LO : lenZ (slice (Z.to_nat (Z.of_nat j * ostride)) (Z.to_nat (nth j olens 0)) out) = nth j olens 0) by (apply lenZ_slice; nia).
  destruct (RT (iaddr + Z.of_nat j * istride) (oaddr + Z.of_nat j * ostride) (chunk_of inp istride ilens j) (slice (Z.to_nat (Z.of_nat j * ostride)) (Z.to_nat (nth j olens 0)) out)
    (is_bytes_slice _ _ _ Hi) OK (is_bytes_slice _ _ _ Ho)) as (z & Bz & Lz & E & D).
  { cbv zeta. rewrite LX, LO. split; [exact R|exact RU]. }
  { rewrite LO. exact A5. }
  rewrite LO in Lz, E. rewrite LX in D. exists z. split; [exact Bz|]. split; [exact Lz|]. split; [exact E|exact D].
Qed.

Lemma compress_defined : all_defined fc n iaddr inp istride ilens oaddr out ostride olens.
Proof. intros j [Hj _]. destruct (compressed j Hj) as (z & _ & _ & E & _). eauto. Qed.

Variables (rets' olens' out' : list Z).
Hypothesis (Lo : length olens' = length olens) (Lm : length out' = length out).
Hypothesis D : forall j, live n ilens j -> single fc iaddr inp istride ilens oaddr out ostride olens j = Done (seen rets' olens' out' ostride j).

Lemma step1 j : (j < Z.to_nat n)%nat -> nth j rets' 0 = 0 /\ 0 <= nth j olens' 0 <= nth j olens 0 /\
  forall ia' oa' out2, is_bytes out2 -> nth j ilens 0 <= lenZ out2 < 2 ^ 63 ->
    observed (fd ia' oa' (chunk_of out' ostride olens' j) out2 (lenZ out2)) = Done (0, nth j ilens 0, chunk_of inp istride ilens j).
Proof.
  intros Hj. destruct (compressed j Hj) as (z & Bz & Lz & F & G). destruct (CH j Hj) as (NS & _). pose proof (D j (conj Hj NS)) as DJ. rewrite F in DJ.
  unfold seen in DJ. injection DJ as E1 E2 E3. split; [auto|]. unfold chunk_of at 1. rewrite <- E3, <- E2. split; [pose proof (lenZ_nonneg z); lia|exact G].
Qed.

Variables (iaddr' oaddr' : Z) (rets2 back : list Z) (bstride : Z) (blens : list Z).
Hypothesis (Bb : is_bytes back) (LR : lenZ rets2 = n) (LB : lenZ blens = n) (BS : 0 <= bstride).
Hypothesis BJ : forall j, (j < Z.to_nat n)%nat -> nth j ilens 0 <= nth j blens 0 <= bstride /\ Z.of_nat j * bstride + nth j blens 0 <= lenZ back /\ nth j blens 0 < 2 ^ 63.

Lemma step2_areas : areas n rets2 out' ostride olens' back bstride blens.
Proof.
  pose proof AR as (L1 & L2 & L3 & IS & OS & AJ).
  unfold areas. do 3 (split; [unfold lenZ in *; lia|]). split; [exact OS|]. split; [exact BS|]. intros j [Hj _].
  destruct (step1 j Hj) as (_ & R & _). destruct (CH j Hj) as (NS & _). destruct (AJ j (conj Hj NS)) as (A1 & A2 & A3 & A4 & A5). destruct (BJ j Hj) as (B1 & B2 & B3).
  unfold lenZ in *. rewrite Lm. lia.
Qed.
Lemma step2_single j : (j < Z.to_nat n)%nat -> live n olens' j /\
  single fd iaddr' out' ostride olens' oaddr' back bstride blens j = Done (0, nth j ilens 0, chunk_of inp istride ilens j).
Proof.
  intros Hj. pose proof AR as (L1 & L2 & L3 & IS & OS & AJ). destruct (step1 j Hj) as (_ & R & G). destruct (CH j Hj) as (NS & _).
  destruct (AJ j (conj Hj NS)) as (A1 & _ & _ & _ & A5). destruct (BJ j Hj) as (B1 & B2 & B3). split; [split; [auto|unfold SIZE_MAX; lia]|].
  assert (LO : lenZ (slice (Z.to_nat (Z.of_nat j * bstride)) (Z.to_nat (nth j blens 0)) back) = nth j blens 0) by (apply lenZ_slice; nia).
  pose proof (G (iaddr' + Z.of_nat j * ostride) (oaddr' + Z.of_nat j * bstride) _ (is_bytes_slice _ _ back Bb) ltac:(rewrite LO; lia)) as G1.
  rewrite LO in G1. exact G1.
Qed.
End Steps.
