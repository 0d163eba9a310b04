(** What the chunked calls of compression and decompression do together: lemmas behind C109. *)
From Coq Require Import ZArith List Bool Lia.
From Verif Require Import SpecBits SpecCrc Spec842 SpecCalls CBase BitsLemmas SerialCompModel SerialDecompModel SerialProps OptCompModel OptDecompModel OptProps
  ChunkedModel SpecChunked ChunkedProofs PropChunked AgreeProps PropSerial PropOpt PropAlignData.
Import ListNotations.
Open Scope Z_scope.

(** Room that is enough for the compressed form of [n] bytes (C04). *)
Definition room_for (n : Z) : Z := words64 (69 * (n / 8) + (if n mod 8 =? 0 then 0 else 8 + 8 * (n mod 8)) + 37).

Lemma done_inj {A} (a b : A) : Done a = Done b -> a = b.
Proof. now injection 1. Qed.

Section Trip.
Variables (fc fd : chunk_func) (gc gd : chunked_func) (ok : list Z -> Prop).
Hypothesis SC : as_single_calls (2 ^ 32) fc gc.
Hypothesis SD : as_single_calls (2 ^ 32) fd gd.
Hypothesis RT : forall ia oa x out, is_bytes x -> ok x -> is_bytes out -> room_for (lenZ x) <= lenZ out -> room_for (lenZ x) <= UINT_MAX -> lenZ out < 2 ^ 63 ->
  exists z, is_bytes z /\ lenZ z <= lenZ out /\ observed (fc ia oa x out (lenZ out)) = Done (0, lenZ z, z) /\
  forall ia' oa' out2, is_bytes out2 -> lenZ x <= lenZ out2 < 2 ^ 63 -> observed (fd ia' oa' z out2 (lenZ out2)) = Done (0, lenZ x, x).

Lemma lenZ_slice (p n : Z) (l : list Z) : 0 <= p -> 0 <= n -> p + n <= lenZ l -> lenZ (slice (Z.to_nat p) (Z.to_nat n) l) = n.
Proof. intros. unfold lenZ in *. rewrite slice_length; lia. Qed.

Lemma trip n rets iaddr inp istride ilens oaddr out ostride olens :
  is_bytes inp -> is_bytes out -> 0 <= n <= UINT_MAX -> areas n rets inp istride ilens out ostride olens ->
  (n - 1) * istride < 2 ^ 32 -> (n - 1) * ostride < 2 ^ 32 ->
  (forall j, (j < Z.to_nat n)%nat -> nth j ilens 0 <> SIZE_MAX /\ room_for (nth j ilens 0) <= nth j olens 0 /\ room_for (nth j ilens 0) <= UINT_MAX /\
     ok (slice (Z.to_nat (Z.of_nat j * istride)) (Z.to_nat (nth j ilens 0)) inp)) ->
  exists ret rets' olens' out', gc n rets iaddr inp istride ilens oaddr out ostride olens = Done (ret, rets', olens', out') /\
  (forall j, (j < Z.to_nat n)%nat -> nth j rets' 0 = 0) /\
  forall iaddr' oaddr' rets2 back bstride blens, is_bytes back -> lenZ rets2 = n -> lenZ blens = n -> 0 <= bstride -> (n - 1) * bstride < 2 ^ 32 ->
  (forall j, (j < Z.to_nat n)%nat -> nth j ilens 0 <= nth j blens 0 <= bstride /\ Z.of_nat j * bstride + nth j blens 0 <= lenZ back /\ nth j blens 0 < 2 ^ 63) ->
  exists ret2 rets2' blens' back', gd n rets2 iaddr' out' ostride olens' oaddr' back bstride blens = Done (ret2, rets2', blens', back') /\
  forall j, (j < Z.to_nat n)%nat -> seen rets2' blens' back' bstride j =
    (0, nth j ilens 0, slice (Z.to_nat (Z.of_nat j * istride)) (Z.to_nat (nth j ilens 0)) inp).
Proof.
  intros Hi Ho Hn AR WI WO CH. pose proof AR as (L1 & L2 & L3 & IS & OS & AJ).
  assert (Z1 : forall j, (j < Z.to_nat n)%nat -> exists z, is_bytes z /\ lenZ z <= nth j olens 0 /\
    single fc iaddr inp istride ilens oaddr out ostride olens j = Done (0, lenZ z, z) /\
    forall ia' oa' out2, is_bytes out2 -> nth j ilens 0 <= lenZ out2 < 2 ^ 63 ->
      observed (fd ia' oa' z out2 (lenZ out2)) = Done (0, nth j ilens 0, slice (Z.to_nat (Z.of_nat j * istride)) (Z.to_nat (nth j ilens 0)) inp)).
  { intros j Hj. destruct (CH j Hj) as (NS & R & RU & OK). destruct (AJ j (conj Hj NS)) as (A1 & A2 & A3 & A4 & A5).
    assert (LX : lenZ (slice (Z.to_nat (Z.of_nat j * istride)) (Z.to_nat (nth j ilens 0)) inp) = nth j ilens 0) by (apply lenZ_slice; nia).
    assert (LO : lenZ (slice (Z.to_nat (Z.of_nat j * ostride)) (Z.to_nat (nth j olens 0)) out) = nth j olens 0) by (apply lenZ_slice; nia).
    destruct (RT (iaddr + Z.of_nat j * istride) (oaddr + Z.of_nat j * ostride) _ (slice (Z.to_nat (Z.of_nat j * ostride)) (Z.to_nat (nth j olens 0)) out)
      (is_bytes_slice _ _ _ Hi) OK (is_bytes_slice _ _ _ Ho) ltac:(rewrite LX, LO; exact R) ltac:(rewrite LX; exact RU) ltac:(rewrite LO; exact A5)) as (z & Bz & Lz & E & D).
    rewrite LO in Lz, E. rewrite LX in D. exists z. split; [exact Bz|]. split; [exact Lz|]. split; [exact E|exact D]. }
  destruct (SC n rets iaddr inp istride ilens oaddr out ostride olens Hi Ho Hn AR WI WO) as (ret & rets' & olens' & out' & E & D & _ & Lr & Lo & Lm & Bm & _).
  { intros j [Hj _]. destruct (Z1 j Hj) as (z & _ & _ & F & _). eauto. }
  assert (Z2 : forall j, (j < Z.to_nat n)%nat -> nth j rets' 0 = 0 /\ 0 <= nth j olens' 0 <= nth j olens 0 /\
    forall ia' oa' out2, is_bytes out2 -> nth j ilens 0 <= lenZ out2 < 2 ^ 63 ->
      observed (fd ia' oa' (slice (Z.to_nat (Z.of_nat j * ostride)) (Z.to_nat (nth j olens' 0)) out') out2 (lenZ out2)) =
      Done (0, nth j ilens 0, slice (Z.to_nat (Z.of_nat j * istride)) (Z.to_nat (nth j ilens 0)) inp)).
  { intros j Hj. destruct (Z1 j Hj) as (z & Bz & Lz & F & G). destruct (CH j Hj) as (NS & _). pose proof (D j (conj Hj NS)) as DJ. rewrite F in DJ.
    unfold seen in DJ. injection DJ as E1 E2 E3. split; [auto|]. rewrite <- E3, <- E2. split; [pose proof (lenZ_nonneg z); lia|exact G]. }
  exists ret, rets', olens', out'. split; [exact E|]. split; [intros j Hj; apply (Z2 j Hj)|].
  intros iaddr' oaddr' rets2 back bstride blens Bb LR LB BS WB BJ.
  assert (AR2 : areas n rets2 out' ostride olens' back bstride blens).
  { unfold areas. do 3 (split; [unfold lenZ in *; lia|]). split; [exact OS|]. split; [exact BS|]. intros j [Hj _].
    destruct (Z2 j Hj) as (_ & R & _). destruct (CH j Hj) as (NS & _). destruct (AJ j (conj Hj NS)) as (A1 & A2 & A3 & A4 & A5). destruct (BJ j Hj) as (B1 & B2 & B3).
    unfold lenZ in *. rewrite Lm. lia. }
  assert (SG : forall j, (j < Z.to_nat n)%nat -> single fd iaddr' out' ostride olens' oaddr' back bstride blens j =
    Done (0, nth j ilens 0, slice (Z.to_nat (Z.of_nat j * istride)) (Z.to_nat (nth j ilens 0)) inp)).
  { intros j Hj. destruct (Z2 j Hj) as (_ & R & G). destruct (CH j Hj) as (NS & _). destruct (AJ j (conj Hj NS)) as (A1 & _). destruct (BJ j Hj) as (B1 & B2 & B3).
    assert (LO : lenZ (slice (Z.to_nat (Z.of_nat j * bstride)) (Z.to_nat (nth j blens 0)) back) = nth j blens 0) by (apply lenZ_slice; nia).
    pose proof (G (iaddr' + Z.of_nat j * ostride) (oaddr' + Z.of_nat j * bstride) _ (is_bytes_slice _ _ back Bb) ltac:(rewrite LO; lia)) as G1.
    rewrite LO in G1. exact G1. }
  destruct (SD n rets2 iaddr' out' ostride olens' oaddr' back bstride blens Bm Bb Hn AR2 WO WB) as (ret2 & rets2' & blens' & back' & E' & D' & _).
  { intros j [Hj _]. rewrite SG by auto. eauto. }
  exists ret2, rets2', blens', back'. split; [exact E'|]. intros j Hj.
  assert (LV : live n olens' j). { split; auto. destruct (Z2 j Hj) as (_ & R & _). destruct (CH j Hj) as (NS & _). destruct (AJ j (conj Hj NS)) as (_ & _ & _ & _ & A5). unfold SIZE_MAX. lia. }
  specialize (D' j LV). rewrite SG in D' by auto. symmetry. now apply done_inj.
Qed.
End Trip.

Lemma room_len n : 0 <= n -> n <= room_for n.
Proof.
  intros H. unfold room_for, words64. pose proof (Z.div_mod n 8 ltac:(lia)). pose proof (Z.mod_pos_bound n 8 ltac:(lia)).
  assert (0 <= n / 8) by (apply Z.div_pos; lia). set (q := n / 8) in *. set (r := n mod 8) in *. destruct (Z.eqb_spec r 0) as [E|E].
  - assert (q <= (69 * q + 0 + 37 + 63) / 64) by (apply Z.div_le_lower_bound; lia). lia.
  - assert (q + 1 <= (69 * q + (8 + 8 * r) + 37 + 63) / 64) by (apply Z.div_le_lower_bound; lia). lia.
Qed.

(** sw842_compress and sw842_decompress, any data. *)
Lemma sw_trip e e' ia oa x out : is_bytes x -> True -> is_bytes out -> room_for (lenZ x) <= lenZ out -> room_for (lenZ x) <= UINT_MAX -> lenZ out < 2 ^ 63 ->
  exists z, is_bytes z /\ lenZ z <= lenZ out /\ observed (sw842_compress_f e ia oa x out (lenZ out)) = Done (0, lenZ z, z) /\
  forall ia' oa' out2, is_bytes out2 -> lenZ x <= lenZ out2 < 2 ^ 63 -> observed (sw842_decompress_f e' ia' oa' z out2 (lenZ out2)) = Done (0, lenZ x, x).
Proof.
  intros Bx _ Bo R RU H63. destruct (C02_sw842_compress_contract x Bx) as (z & Bz & V & F).
  assert (L : 0 <= lenZ out <= lenZ out) by (pose proof (lenZ_nonneg out); lia).
  destruct (C04_sw842_compress_capacity_suffices e ia x out (lenZ out) Bx Bo L R RU) as (n & m & E).
  pose proof (F e ia out (lenZ out) Bo L) as F1. exists z. split; [exact Bz|].
  destruct ((lenZ z <=? lenZ out) && (lenZ z <=? UINT_MAX)) eqn:C.
  - apply andb_prop in C. destruct C as [C _]. apply Z.leb_le in C. split; [exact C|]. split; [exact F1|].
    intros ia' oa' out2 B2 L2. pose proof (lenZ_nonneg x) as NX. pose proof (room_len _ NX). unfold sw842_decompress_f.
    apply C05_sw842_decompress_exact; auto; [lia|lia|]. split; [exact V|lia].
  - rewrite E in F1. discriminate F1.
Qed.

(** Any of the two compressors, whole blocks: data that both decompressors accept wherever it lies. *)
Definition whole (x : list Z) : Prop := x <> [] /\ lenZ x mod 8 = 0.
Definition compressors e := [sw842_compress_f e; optsw842_compress_f e].
Definition decompressors e := [sw842_decompress_f e; optsw842_decompress_f e].

Lemma sw_whole e ia x out : is_bytes x -> whole x -> is_bytes out -> room_for (lenZ x) <= lenZ out -> room_for (lenZ x) <= UINT_MAX ->
  exists z, is_bytes z /\ lenZ z <= lenZ out /\ lenZ z mod 8 = 0 /\ valid_842 false z x /\ observed (sw842_compress e ia x out (lenZ out)) = Done (0, lenZ z, z).
Proof.
  intros Bx [_ W] Bo R RU. destruct (C02_sw842_compress_contract x Bx) as (z & Bz & V & F).
  assert (L : 0 <= lenZ out <= lenZ out) by (pose proof (lenZ_nonneg out); lia).
  destruct (C04_sw842_compress_capacity_suffices e ia x out (lenZ out) Bx Bo L R RU) as (n & m & E).
  pose proof (F e ia out (lenZ out) Bo L) as F1.
  pose proof (C26_sw842_hardware_compatible _ _ _ _ _ _ _ Bx Bo L W E) as HV.
  pose proof (C04_sw842_compress_size _ _ _ _ _ _ _ Bx Bo L E) as (M8 & _).
  destruct ((lenZ z <=? lenZ out) && (lenZ z <=? UINT_MAX)) eqn:C.
  - apply andb_prop in C. destruct C as [C _]. apply Z.leb_le in C.
    assert (Q : n = lenZ z /\ firstn (Z.to_nat n) m = z). { pose proof F1 as F2. rewrite E in F2. apply done_inj in F2. injection F2 as Q1 Q2. rewrite Q1 in *. auto. }
    destruct Q as [Q1 Q2]. rewrite Q2 in HV. rewrite Q1 in M8. exists z. auto.
  - rewrite E in F1. discriminate F1.
Qed.

Lemma any_whole e fc ia oa x out : In fc (compressors e) -> is_bytes x -> whole x -> is_bytes out -> room_for (lenZ x) <= lenZ out -> room_for (lenZ x) <= UINT_MAX ->
  exists z, is_bytes z /\ lenZ z <= lenZ out /\ lenZ z mod 8 = 0 /\ valid_842 false z x /\ observed (fc ia oa x out (lenZ out)) = Done (0, lenZ z, z).
Proof.
  intros [<- | [<- | []]] Bx W Bo R RU; [now apply sw_whole|]. destruct (al ia oa) eqn:A.
  - apply al_true in A. destruct W as [NE W8]. destruct (C17_optsw842_compress_contract x Bx W8 NE) as (z & Bz & V & M8 & LZ & F).
    assert (L : 0 <= lenZ out <= lenZ out) by (pose proof (lenZ_nonneg out); lia).
    assert (LZ' : lenZ z <= lenZ out). { unfold room_for in R. rewrite W8 in R. change (0 =? 0) with true in R. cbv iota in R. rewrite Z.add_0_r in R. lia. }
    exists z. do 4 (split; [assumption|]). pose proof (F e ia oa out (lenZ out) Bo L (proj1 A) (proj2 A)) as F1.
    apply Z.leb_le in LZ'. rewrite LZ' in F1. exact F1.
  - destruct (sw_whole e ia x out Bx W Bo R RU) as (z & H1 & H2 & H3 & H4 & H5). exists z. do 4 (split; [assumption|]).
    unfold optsw842_compress_f. rewrite ocomp_unaligned by auto. rewrite (proj2 W). exact H5.
Qed.

Lemma any_reads e fd ia oa z x out : In fd (decompressors e) -> is_bytes z -> lenZ z mod 8 = 0 -> valid_842 false z x -> is_bytes out -> lenZ x <= lenZ out < 2 ^ 63 -> lenZ x <= UINT_MAX ->
  observed (fd ia oa z out (lenZ out)) = Done (0, lenZ x, x).
Proof.
  intros I Bz M8 V Bo L U. pose proof (lenZ_nonneg out) as N.
  assert (F : firstn (8 * (length z / 8)) z = z).
  { apply firstn_all2. unfold lenZ in M8. apply Nat2Z.inj_le. rewrite Nat2Z.inj_mul, Nat2Z.inj_div. change (Z.of_nat 8) with 8.
    pose proof (Z.div_mod (Z.of_nat (length z)) 8 ltac:(lia)). lia. }
  assert (V1 : valid_842 true z x) by (apply words_valid; now rewrite F).
  assert (S1 : forall oa, observed (sw842_decompress e oa z out (lenZ out)) = Done (0, lenZ x, x)).
  { intros o. apply C05_sw842_decompress_exact; auto; [lia|lia|]. split; [exact V1|lia]. }
  destruct I as [<- | [<- | []]]; [apply S1|]. unfold optsw842_decompress_f. destruct (al ia oa) eqn:A.
  - apply al_true in A. apply C20_optsw842_decompress_exact; try tauto; try lia. rewrite F. split; [exact V|lia].
  - rewrite odecomp_unaligned by auto. apply S1.
Qed.

Lemma mixed_trip e e' fc fd : In fc (compressors e) -> In fd (decompressors e') ->
  forall ia oa x out, is_bytes x -> whole x -> is_bytes out -> room_for (lenZ x) <= lenZ out -> room_for (lenZ x) <= UINT_MAX -> lenZ out < 2 ^ 63 ->
  exists z, is_bytes z /\ lenZ z <= lenZ out /\ observed (fc ia oa x out (lenZ out)) = Done (0, lenZ z, z) /\
  forall ia' oa' out2, is_bytes out2 -> lenZ x <= lenZ out2 < 2 ^ 63 -> observed (fd ia' oa' z out2 (lenZ out2)) = Done (0, lenZ x, x).
Proof.
  intros IC ID ia oa x out Bx W Bo R RU _. destruct (any_whole e fc ia oa x out IC Bx W Bo R RU) as (z & Bz & Lz & M8 & V & E).
  exists z. do 3 (split; [assumption|]). intros ia' oa' out2 B2 L2. pose proof (room_len _ (lenZ_nonneg x)). apply (any_reads e'); auto. lia.
Qed.
