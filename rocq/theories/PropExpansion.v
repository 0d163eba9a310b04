(** C107: how far compressed data can expand.  An n-byte buffer holds 8 n bits; 37 of them are the end template and
    the CRC, and no 11 of the rest stand for more than 512 bytes. *)
From Coq Require Import ZArith List Bool Lia.
From Verif Require Import SpecBits SpecCrc Spec842 SpecCalls SpecOcl CBase SerialCompModel SerialDecompModel OptCompModel OptDecompModel OclModel
  BitsLemmas SerialIdeal SerialValid PureDecoder SerialProps OptProps AgreeProps PropSerial PropOpt PropOcl PropCapacity ExpandBound.
Import ListNotations.
Open Scope Z_scope.

(** C107: no decompressor delivers more than that, whatever bytes it is given. *)
Theorem C107_sw842_decompress_bound : forall e oaddr inp out olen x,
  is_bytes inp -> is_bytes out -> 0 <= olen <= lenZ out -> olen < 2 ^ 63 ->
  observed (sw842_decompress e oaddr inp out olen) = Done (0, lenZ x, x) ->
  11 * lenZ x <= 512 * (8 * lenZ inp - 37).
Proof.
  intros e oaddr inp out olen x Hi Ho H1 H2 H. apply C05_sw842_decompress_exact in H; auto. destruct H as [V _]. apply expansion in V. lia.
Qed.
Print Assumptions C107_sw842_decompress_bound.
Theorem C107_optsw842_decompress_bound : forall e iaddr oaddr inp out olen x,
  is_bytes inp -> is_bytes out -> 0 <= olen <= lenZ out -> olen < 2 ^ 63 -> iaddr mod 8 = 0 -> oaddr mod 8 = 0 ->
  observed (optsw842_decompress e iaddr oaddr inp out olen) = Done (0, lenZ x, x) ->
  11 * lenZ x <= 512 * (8 * lenZ inp - 37).
Proof.
  intros e iaddr oaddr inp out olen x Hi Ho H1 H2 H3 H4 H. apply C20_optsw842_decompress_exact in H; auto. destruct H as [V _]. apply expansion in V.
  unfold lenZ in *. rewrite firstn_length in V. lia.
Qed.
Print Assumptions C107_optsw842_decompress_bound.
Theorem C107_ocl_bound : forall e inp ilen out olen x,
  is_bytes inp -> is_bytes out -> 0 <= ilen -> 8 * ((ilen + 7) / 8) <= lenZ inp -> 0 <= olen <= lenZ out -> olen < 2 ^ 63 ->
  observed (decompress_core e inp ilen out olen) = Done (0, lenZ x, x) ->
  11 * lenZ x <= 512 * (8 * ilen - 37).
Proof.
  intros e inp ilen out olen x Hi Ho H1 H2 H3 H4 H. apply C42_ocl_core_exact in H; auto. destruct H as [(rest & S & L) _].
  apply stream_expand in S. rewrite bytes_bits_length in S. unfold lenZ. pose proof (firstn_le_length (Z.to_nat (8 * (ilen / 8))) inp) as F.
  pose proof (Z.mul_div_le ilen 8 ltac:(lia)). rewrite firstn_length in S. cbn [length] in S. lia.
Qed.
Print Assumptions C107_ocl_bound.

(** C107: read the other way round: no input, however regular, compresses better. *)
Theorem C107_sw842_compress_bound : forall e addr inp out olen n m,
  is_bytes inp -> is_bytes out -> 0 <= olen <= lenZ out ->
  sw842_compress e addr inp out olen = Done (0, n, m) ->
  11 * lenZ inp <= 512 * (8 * n - 37).
Proof.
  intros e addr inp out olen n m Hi Ho H1 H. destruct (C02_sw842_compress_contract inp Hi) as (z & _ & V & C).
  specialize (C e addr out olen Ho H1). rewrite H in C. cbn [observed] in C. apply expansion in V.
  destruct ((lenZ z <=? olen) && (lenZ z <=? UINT_MAX)); [|discriminate]. injection C as -> _. lia.
Qed.
Print Assumptions C107_sw842_compress_bound.
Theorem C107_optsw842_compress_bound : forall e iaddr oaddr inp out olen n m,
  is_bytes inp -> lenZ inp mod 8 = 0 -> inp <> [] -> is_bytes out -> 0 <= olen <= lenZ out -> iaddr mod 8 = 0 -> oaddr mod 8 = 0 ->
  optsw842_compress e iaddr oaddr inp out olen = Done (0, n, m) ->
  11 * lenZ inp <= 512 * (8 * n - 37).
Proof.
  intros e iaddr oaddr inp out olen n m Hi HM HN Ho H1 H2 H3 H. destruct (C17_optsw842_compress_contract inp Hi HM HN) as (z & _ & V & _ & _ & C).
  specialize (C e iaddr oaddr out olen Ho H1 H2 H3). rewrite H in C. cbn [observed] in C. apply expansion in V.
  destruct (lenZ z <=? olen); [|discriminate]. injection C as -> _. lia.
Qed.
Print Assumptions C107_optsw842_compress_bound.

(** C107: the factor is the right one: for every k some buffer of at most 11 k + 105 bits is expanded to 512 k + 8 bytes by
    sw842_decompress and by optsw842_decompress. *)
Theorem C107_attained : forall k, 512 * Z.of_nat k + 8 <= UINT_MAX ->
  exists z x, is_bytes z /\ 8 * lenZ z <= 11 * Z.of_nat k + 105 /\ lenZ x = 512 * Z.of_nat k + 8 /\
  (forall e oaddr out olen, is_bytes out -> lenZ x <= olen <= lenZ out -> olen < 2 ^ 63 ->
    observed (sw842_decompress e oaddr z out olen) = Done (0, lenZ x, x)) /\
  (forall e iaddr oaddr out olen, is_bytes out -> lenZ x <= olen <= lenZ out -> olen < 2 ^ 63 -> iaddr mod 8 = 0 -> oaddr mod 8 = 0 ->
    observed (optsw842_decompress e iaddr oaddr z out olen) = Done (0, lenZ x, x)).
Proof.
  intros k HK. destruct (bomb k) as (z & x & Bz & Z8 & V & LX & LZ). exists z, x. repeat (split; [first [assumption|lia]|]). split.
  - intros e oaddr out olen Ho H1 H2. apply C05_sw842_decompress_exact; auto; [unfold lenZ in *; lia|]. repeat split; [|lia|lia].
    destruct V as [rest V]. exists rest. eapply stream_any; [exact V|discriminate].
  - intros e iaddr oaddr out olen Ho H1 H2 H3 H4. apply C20_optsw842_decompress_exact; auto; [unfold lenZ in *; lia|]. split; [|lia].
    rewrite firstn_all2; auto. unfold lenZ in Z8. pose proof (Nat.div_mod (length z) 8 ltac:(lia)).
    assert (length z mod 8 = 0)%nat by (apply Nat2Z.inj; rewrite Nat2Z.inj_mod; exact Z8). lia.
Qed.
Print Assumptions C107_attained.

(** 520 bytes from 8 (the bound for 8 bytes is 1256), and from 520 zero bytes sw842_compress makes these 8 bytes. *)
Example C107_case :
  observed (sw842_decompress LE 0 zeros_520 (room 600) 600) = Done (0, lenZ (List.repeat 0 520), List.repeat 0 520) /\
  observed (optsw842_decompress BE 0 0 zeros_520 (room 600) 600) = Done (0, lenZ (List.repeat 0 520), List.repeat 0 520) /\
  observed (decompress_core LE zeros_520 8 (room 600) 600) = Done (0, lenZ (List.repeat 0 520), List.repeat 0 520) /\
  observed (sw842_compress LE 0 (List.repeat 0 520) (room 100) 100) = Done (0, 8, zeros_520) /\
  observed (optsw842_compress LE 0 0 (List.repeat 0 520) (room 100) 100) = Done (0, 8, zeros_520).
Proof. vm_compute. auto 10. Qed.
