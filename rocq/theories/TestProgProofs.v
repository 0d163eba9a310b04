(** Proofs about the test programs (TestProgModel.v). *)
From Coq Require Import ZArith List Bool Lia.
From Verif Require Import SpecBits SpecCrc Spec842 SpecCalls CBase BitsLemmas CrcModel CrcProofs
  SerialCompModel SerialDecompModel SerialWriter SerialDict SerialIdeal SerialComp SerialValid PureDecoder SerialReader SerialDecomp SerialFacts SerialProps
  OptCompModel OptDecompModel OptWriter OptComp OptDecomp OptProps ImplModel TestProgModel.
Import ListNotations.
Open Scope Z_scope.

Definition software (e : endian) : list impl := [sw_impl e; optsw_impl e].
Definition fits (i : impl) (ia oa : Z) (x : list Z) : Prop :=
  i_name i = OPTSW -> lenZ x mod 8 = 0 /\ (x <> [] \/ ia mod 8 <> 0 \/ oa mod 8 <> 0).

Lemma max_bits_pos n : 0 <= n -> 0 < max_bits n.
Proof.
  intros H. unfold max_bits. assert (0 <= n / 8) by (apply Z.div_pos; lia). pose proof (Z.mod_pos_bound n 8 ltac:(lia)).
  destruct (_ =? _); lia.
Qed.
Lemma words_small n : 0 <= n <= 2 ^ 31 -> words64 (max_bits n) <= UINT_MAX.
Proof.
  intros H. unfold words64, UINT_MAX. unfold max_bits. pose proof (Z.div_mod n 8 ltac:(lia)). pose proof (Z.mod_pos_bound n 8 ltac:(lia)).
  set (B := 69 * (n / 8) + (if n mod 8 =? 0 then 0 else 8 + 8 * (n mod 8)) + 37).
  assert (B <= 69 * (n / 8) + 101) by (unfold B; destruct (_ =? _); lia).
  pose proof (Z.mul_div_le (B + 63) 64 ltac:(lia)). change (2 ^ 32) with 4294967296. change (2 ^ 31) with 2147483648 in *. lia.
Qed.
Lemma words_fit n : 0 <= n -> n <> 3 -> words64 (max_bits n) <= 2 * n + 8.
Proof.
  intros H N3. unfold words64. unfold max_bits. pose proof (Z.div_mod n 8 ltac:(lia)). pose proof (Z.mod_pos_bound n 8 ltac:(lia)).
  assert (0 <= n / 8) by (apply Z.div_pos; lia).
  set (q := n / 8) in *. set (r := n mod 8) in *.
  assert (C : q = 0 \/ 1 <= q) by lia.
  set (k := (69 * q + (if r =? 0 then 0 else 8 + 8 * r) + 37 + 63) / 64).
  assert (U : 64 * k <= 69 * q + (if r =? 0 then 0 else 8 + 8 * r) + 37 + 63) by (apply Z.mul_div_le; lia).
  destruct (Z.eqb_spec r 0).
  - lia.
  - lia.
Qed.
Lemma words_fit8 n : 0 < n -> n mod 8 = 0 -> words64 (max_bits n) <= 2 * n.
Proof.
  intros H M. unfold words64, max_bits. rewrite M. cbn [Z.eqb]. pose proof (Z.div_mod n 8 ltac:(lia)).
  pose proof (Z.mul_div_le (69 * (n / 8) + 0 + 37 + 63) 64 ltac:(lia)). lia.
Qed.
Lemma words_fit4 n : 4 <= n -> words64 (max_bits n) <= n * 4.
Proof.
  intros H. unfold words64. unfold max_bits. pose proof (Z.div_mod n 8 ltac:(lia)). pose proof (Z.mod_pos_bound n 8 ltac:(lia)).
  assert (0 <= n / 8) by (apply Z.div_pos; lia).
  set (q := n / 8) in *. set (r := n mod 8) in *.
  set (k := (69 * q + (if r =? 0 then 0 else 8 + 8 * r) + 37 + 63) / 64).
  assert (U : 64 * k <= 69 * q + (if r =? 0 then 0 else 8 + 8 * r) + 37 + 63) by (apply Z.mul_div_le; lia).
  destruct (Z.eqb_spec r 0); lia.
Qed.

Lemma comp_any e i ia oa x : In i (software e) -> is_bytes x -> lenZ x <= 2 ^ 31 -> fits i ia oa x ->
  exists z, is_bytes z /\ valid_842 true z x /\ (lenZ x mod 8 = 0 -> valid_842 false z x) /\ lenZ z mod 8 = 0 /\ 0 < lenZ z /\
    lenZ z <= words64 (max_bits (lenZ x)) /\
    forall out olen, is_bytes out -> 0 <= olen <= lenZ out ->
      exists m, is_bytes m /\ length m = length out /\
        ((lenZ z <= olen /\ i_compress i ia oa x out olen = Done (0, lenZ z, m) /\ firstn (length z) m = z) \/
         (olen < lenZ z /\ i_compress i ia oa x out olen = Done (- ENOSPC, 0, m))).
Proof.
  intros HI Hx HL HF. pose proof (lenZ_nonneg x) as X0.
  assert (SW : exists z, is_bytes z /\ valid_842 true z x /\ (lenZ x mod 8 = 0 -> valid_842 false z x) /\ lenZ z mod 8 = 0 /\ 0 < lenZ z /\
    lenZ z <= words64 (max_bits (lenZ x)) /\
    forall out olen, is_bytes out -> 0 <= olen <= lenZ out ->
      exists m, is_bytes m /\ length m = length out /\
        ((lenZ z <= olen /\ sw842_compress e ia x out olen = Done (0, lenZ z, m) /\ firstn (length z) m = z) \/
         (olen < lenZ z /\ sw842_compress e ia x out olen = Done (- ENOSPC, 0, m)))).
  { exists (ideal_out x). split; [apply ideal_out_bytes|]. split; [apply ideal_out_valid; auto|].
    split. { intros M. apply ideal_out_valid; auto. right. now apply opt_len8. }
    split. { rewrite ideal_out_length. unfold padded_size. rewrite Z.mul_comm. apply Z.mod_mul. lia. }
    pose proof (ideal_out_bound x) as B. fold (words64 (max_bits (lenZ x))) in B. pose proof (words_small (lenZ x) ltac:(lia)) as U.
    split. { destruct (ideal_out_valid true x Hx ltac:(auto)) as (rest & HS). destruct (ideal_out x) eqn:E; [|unfold lenZ; cbn [length]; lia].
      exfalso. cbn in HS. inversion HS; match goal with H : _ ++ _ = [] |- _ => apply app_eq_nil in H; destruct H as [H _]; discriminate H | _ => idtac end. }
    split; [exact B|]. intros out olen Ho Hc.
    destruct (sw842_compress_out e ia x out olen Hx Ho Hc) as [(A & A' & m & E & F & (M1 & M2 & M3))|(A & m & E & (M1 & M2 & M3))];
      exists m; (split; [auto|]); (split; [auto|]); [left|right]; auto. split; [lia|auto]. }
  destruct HI as [<-|[<-|[]]]; [exact SW|]. cbn [i_compress optsw_impl]. destruct (HF eq_refl) as [M8 NE].
  destruct (al ia oa) eqn:A.
  - apply al_true in A. destruct A as [A1 A2]. assert (N : x <> []) by tauto.
    pose proof (opt_len8 _ M8) as M8'.
    exists (opt_out x). split; [apply opt_out_bytes|]. split; [now apply opt_out_valid|]. split; [intros _; now apply opt_out_valid|].
    split. { rewrite opt_out_length. unfold padded_size. rewrite Z.mul_comm. apply Z.mod_mul. lia. }
    split. { destruct (opt_out_valid true x Hx M8') as (rest & HS). destruct (opt_out x) eqn:E; [|unfold lenZ; cbn [length]; lia].
      exfalso. cbn in HS. inversion HS; match goal with H : _ ++ _ = [] |- _ => apply app_eq_nil in H; destruct H as [H _]; discriminate H | _ => idtac end. }
    split. { rewrite opt_out_length. pose proof (opt_bits_len x Hx M8'). unfold padded_size, words64, max_bits. rewrite M8. cbn [Z.eqb].
      apply Z.mul_le_mono_nonneg_l; [lia|]. apply Z.div_le_mono; lia. }
    intros out olen Ho Hc.
    destruct (optsw842_compress_out e ia oa x out olen Hx Ho Hc A1 A2 M8 N) as [(A & m & E & F & (B1 & B2 & B3))|(A & m & E & (B1 & B2 & B3))];
      exists m; (split; [auto|]); (split; [auto|]); [left|right]; auto.
  - destruct SW as (z & Z1 & Z2 & Z3 & Z4 & Z5 & Z6 & Z7). exists z. do 6 (split; [assumption|]). intros out olen Ho Hc.
    rewrite ocomp_unaligned by auto. destruct (Z.eqb_spec (lenZ x mod 8) 0); [|contradiction]. cbn [negb]. now apply Z7.
Qed.

Definition readable (i : impl) (z x : list Z) : Prop :=
  valid_842 true z x /\ (i_name i = OPTSW -> lenZ z mod 8 = 0 /\ valid_842 false z x).
Lemma decomp_any e i ia oa z x out olen : In i (software e) -> is_bytes z -> readable i z x -> lenZ x <= 2 ^ 31 ->
  is_bytes out -> 0 <= olen <= lenZ out -> olen < 2 ^ 63 ->
  exists m w, is_bytes w /\ lenZ w <= olen /\ m = w ++ skipn (length w) out /\
    ((lenZ x <= olen /\ i_decompress i ia oa z out olen = Done (0, lenZ x, m) /\ firstn (length x) m = x) \/
     (olen < lenZ x /\ i_decompress i ia oa z out olen = Done (- ENOSPC, 0, m))).
Proof.
  intros HI Hz [V VO] HL Ho Hc H63. pose proof (lenZ_nonneg x) as X0.
  assert (U31 : 2 ^ 31 <= UINT_MAX) by (vm_compute; discriminate).
  assert (SW : exists m w, is_bytes w /\ lenZ w <= olen /\ m = w ++ skipn (length w) out /\
    ((lenZ x <= olen /\ sw842_decompress e oa z out olen = Done (0, lenZ x, m) /\ firstn (length x) m = x) \/
     (olen < lenZ x /\ sw842_decompress e oa z out olen = Done (- ENOSPC, 0, m)))).
  { destruct (Z.le_gt_cases (lenZ x) olen) as [L|L].
    - pose proof (proj2 (c05 e oa z out olen x Hz Ho Hc H63) ltac:(split; [exact V|lia])) as E.
      destruct (sw842_decompress e oa z out olen) as [[[r n] m]| |] eqn:D; try discriminate. cbn [observed] in E.
      injection E as -> -> F. destruct (c06_frame _ _ _ _ _ _ _ _ Hz Ho Hc H63 D) as (_ & w & W1 & W2 & W3).
      exists m, w. split; auto. split; auto. split; auto. left. split; auto. split; auto. unfold lenZ in F. now rewrite Nat2Z.id in F.
    - destruct V as (rest & HS). destruct (c15 e oa z out olen x _ Hz Ho Hc H63 HS L) as (m & D).
      destruct (c06_frame _ _ _ _ _ _ _ _ Hz Ho Hc H63 D) as (_ & w & W1 & W2 & W3). exists m, w. auto 6. }
  destruct HI as [<-|[<-|[]]]; [exact SW|]. cbn [i_decompress optsw_impl]. destruct (VO eq_refl) as [M8 VF].
  destruct (al ia oa) eqn:A; [|rewrite odecomp_unaligned by auto; exact SW].
  apply al_true in A. destruct A as [A1 A2].
  destruct (c21 e ia oa z out olen Hz Ho Hc H63 A1 A2) as (r & n & m & D & _ & _ & w & W1 & W2 & W3).
  exists m, w. split; auto. split; auto. split; auto.
  destruct (Z.le_gt_cases (lenZ x) olen) as [L|L].
  - left. pose proof (proj2 (c20 e ia oa z out olen x Hz Ho Hc H63 A1 A2)) as E. fold (whole z) in E. rewrite whole_id in E by auto.
    specialize (E ltac:(auto)). rewrite D in E. cbn [observed] in E. injection E as -> -> F. split; auto. split; auto.
    unfold lenZ in F. now rewrite Nat2Z.id in F.
  - right. split; auto. destruct VF as (rest & HS).
    destruct (c20_small e ia oa z out olen x (bits_of 32 (crc32 x) ++ rest) Hz Ho Hc H63 A1 A2) as (m' & D'); auto.
    { fold (whole z). now rewrite whole_id. } rewrite D in D'. injection D' as -> -> ->. exact D.
Qed.

Lemma same_bytes_firstn x : forall m, firstn (length x) m = x -> same_bytes m x = true.
Proof.
  induction x as [|a x IH]; intros m H; [destruct m; reflexivity|].
  destruct m as [|b m]; [discriminate|]. cbn [length firstn] in H. injection H as -> H. cbn [same_bytes].
  rewrite Z.eqb_refl. now apply IH.
Qed.
Lemma first_bytes_z (z m : list Z) : (length z <= length m)%nat -> firstn (length z) m = z -> first_bytes (lenZ z) m = Done z.
Proof.
  intros L F. unfold first_bytes, lenZ. rewrite Nat2Z.id, F.
  assert ((0 <=? Z.of_nat (length z)) && (Z.of_nat (length z) <=? Z.of_nat (length m)) = true) as -> by lia. reflexivity.
Qed.

(** ** The programs that compress *)
Lemma name_sw e i : In i (software e) -> is_name (i_name i) HW = false /\ is_name (i_name i) CL = false /\ i_required i = 1.
Proof. intros [<-|[<-|[]]]; repeat split; reflexivity. Qed.
Lemma compressed_readable d z x : valid_842 true z x -> (lenZ x mod 8 = 0 -> valid_842 false z x) -> lenZ z mod 8 = 0 ->
  (i_name d = OPTSW -> lenZ x mod 8 = 0) -> readable d z x.
Proof. intros V VF M H. split; auto. Qed.

Lemma t_compress_pattern e e' c d x ia oa za ra out rec :
  In c (software e) -> In d (software e') -> is_bytes x -> lenZ x <= 2 ^ 31 -> lenZ x <> 3 ->
  fits c ia oa x -> (i_name d = OPTSW -> lenZ x mod 8 = 0) ->
  is_bytes out -> lenZ out = lenZ x * 2 + 8 -> is_bytes rec -> lenZ rec = lenZ x + 5 ->
  test_compress_pattern c d x ia (oa, out) za (ra, rec) = Done true.
Proof.
  intros HC HD Hx HL H3 HF HM Ho HO Hr HR. pose proof (lenZ_nonneg x) as X0.
  destruct (comp_any e c ia oa x HC Hx HL HF) as (z & Z1 & Z2 & Z3 & Z4 & Z5 & Z6 & Z7).
  pose proof (words_fit (lenZ x) X0 H3) as W.
  destruct (Z7 out (lenZ x * 2 + 8) Ho ltac:(lia)) as (m & M1 & M2 & [(L & E & F)|(L & _)]); [|lia].
  unfold test_compress_pattern. cbn [fst snd]. rewrite E. cbn [bind]. change (0 =? - EINVAL) with false. change (negb (0 =? 0)) with false. cbn [andb].
  rewrite first_bytes_z; [|unfold lenZ in *; lia|exact F]. cbn [bind].
  destruct (decomp_any e' d za ra z x rec (lenZ x + 5) HD Z1 (compressed_readable d z x Z2 Z3 Z4 HM) HL Hr ltac:(lia) ltac:(change (2 ^ 63) with (2 ^ 31 * 2 ^ 32); lia))
    as (r & w & W1 & W2 & W3 & [(L' & E' & F')|(L' & _)]); [|lia].
  rewrite E'. cbn [bind]. change (negb (0 =? 0)) with false. cbn iota. rewrite Z.eqb_refl, same_bytes_firstn by exact F'. reflexivity.
Qed.
Lemma t_compress_unaligned e i x inb outb recb out rec :
  In i (software e) -> is_bytes x -> lenZ x <= 2 ^ 31 -> lenZ x <> 3 -> (i_name i = OPTSW -> lenZ x mod 8 = 0) -> inb mod 8 = 0 ->
  is_bytes out -> lenZ out = lenZ x * 2 + 8 -> is_bytes rec -> lenZ rec = lenZ x + 5 ->
  test_compress_pattern_unaligned i x inb (outb, out) (recb, rec) = Done true.
Proof.
  intros HI Hx HL H3 HM HA Ho HO Hr HR. unfold test_compress_pattern_unaligned. destruct (name_sw e i HI) as (_ & _ & ->).
  change (negb (1 =? 1)) with false. cbn iota. cbn [fst snd]. eapply t_compress_pattern; eauto.
  intros N. split; auto. right. left. rewrite Z.add_mod, HA by lia. discriminate.
Qed.
Lemma t_compress_small e i x ia oa out :
  In i (software e) -> is_bytes x -> lenZ x <= 2 ^ 31 -> lenZ x <> 3 -> fits i ia oa x -> is_bytes out -> lenZ out = lenZ x * 2 + 8 ->
  test_compress_pattern_small i x ia (oa, out) = Done true.
Proof.
  intros HI Hx HL H3 HF Ho HO. pose proof (lenZ_nonneg x) as X0.
  destruct (comp_any e i ia oa x HI Hx HL HF) as (z & Z1 & Z2 & Z3 & Z4 & Z5 & Z6 & Z7).
  pose proof (words_fit (lenZ x) X0 H3) as W.
  destruct (Z7 out (lenZ x * 2 + 8) Ho ltac:(lia)) as (m & M1 & M2 & [(L & E & F)|(L & _)]); [|lia].
  unfold test_compress_pattern_small. cbn [fst snd]. rewrite E. cbn [bind]. change (0 =? - EINVAL) with false. change (negb (0 =? 0)) with false. cbn [andb].
  assert (U : u64 (lenZ z - 1) = lenZ z - 1).
  { unfold u64. apply Z.mod_small. change (2 ^ 64) with (2 ^ 31 * 2 ^ 33). lia. }
  rewrite U. destruct (Z7 m (lenZ z - 1) M1 ltac:(unfold lenZ in *; lia)) as (m' & _ & _ & [(L' & _)|(L' & E')]); [lia|].
  rewrite E'. reflexivity.
Qed.
(** a pattern of three bytes needs 16 bytes, the programs give 14 *)
Lemma ideal_out3 x : is_bytes x -> lenZ x = 3 -> lenZ (ideal_out x) = 16.
Proof.
  intros Hx L. destruct x as [|a [|b [|c [|d x]]]]; unfold lenZ in L; cbn [length] in L; try lia.
  rewrite ideal_out_length. unfold padded_size. unfold ideal_bits. cbn. reflexivity.
Qed.
Lemma t_sw_three e d x ia oa za rec out : is_bytes x -> lenZ x = 3 -> is_bytes out -> lenZ out = lenZ x * 2 + 8 ->
  test_compress_pattern (sw_impl e) d x ia (oa, out) za rec = Done false /\ test_compress_pattern_small (sw_impl e) x ia (oa, out) = Done false.
Proof.
  intros Hx L Ho HO. unfold test_compress_pattern, test_compress_pattern_small. cbn [i_compress sw_impl fst snd i_name].
  destruct (sw842_compress_out e ia x out (lenZ x * 2 + 8) Hx Ho ltac:(lia)) as [(A & _)|(A & m & -> & _)].
  - rewrite ideal_out3 in A by auto. lia.
  - split; reflexivity.
Qed.
Lemma t_notmultiple e i x ia oa out :
  In i (software e) -> is_bytes x -> lenZ x mod 8 <> 0 -> lenZ x <= 100 -> is_bytes out -> lenZ out = 128 ->
  test_compress_notmultipleof8 i x ia (oa, out) = Done true.
Proof.
  intros HI Hx HM HL Ho HO. unfold test_compress_notmultipleof8. cbn [fst snd]. pose proof (lenZ_nonneg x) as X0. destruct HI as [<-|[<-|[]]].
  - destruct (c04_enough e ia x out 128 Hx Ho ltac:(lia)) as (n & m & E).
    + unfold words64, max_bits. destruct (Z.eqb_spec (lenZ x mod 8) 0); [contradiction|].
      pose proof (Z.div_mod (lenZ x) 8 ltac:(lia)). pose proof (Z.mod_pos_bound (lenZ x) 8 ltac:(lia)).
      pose proof (Z.mul_div_le (69 * (lenZ x / 8) + (8 + 8 * (lenZ x mod 8)) + 37 + 63) 64 ltac:(lia)).
      assert (lenZ x / 8 <= 12) by lia. lia.
    + apply words_small. change (2 ^ 31) with 2147483648. lia.
    + cbn [i_compress sw_impl]. rewrite E. reflexivity.
  - cbn [i_compress optsw_impl]. rewrite ocomp_ragged by auto. reflexivity.
Qed.

(** ** The programs that decompress *)
Lemma t_decompress_pattern e i x z ia oa out :
  In i (software e) -> is_bytes z -> readable i z x -> lenZ x <= 2 ^ 31 -> is_bytes out -> lenZ out = lenZ x + 5 ->
  test_decompress_pattern i x z ia (oa, out) = Done true.
Proof.
  intros HI Hz HR HL Ho HO. pose proof (lenZ_nonneg x) as X0.
  destruct (decomp_any e i ia oa z x out (lenZ x + 5) HI Hz HR HL Ho ltac:(lia) ltac:(change (2 ^ 63) with (2 ^ 31 * 2 ^ 32); lia))
    as (r & w & W1 & W2 & W3 & [(L' & E' & F')|(L' & _)]); [|lia].
  unfold test_decompress_pattern. cbn [fst snd]. rewrite E'. cbn [bind]. change (negb (0 =? 0)) with false. cbn iota.
  rewrite Z.eqb_refl, same_bytes_firstn by exact F'. reflexivity.
Qed.
Lemma t_decompress_unaligned e i x z inb oa out :
  In i (software e) -> is_bytes z -> readable i z x -> lenZ x <= 2 ^ 31 -> is_bytes out -> lenZ out = lenZ x + 5 ->
  test_decompress_pattern_unaligned i x z inb (oa, out) = Done true.
Proof.
  intros. unfold test_decompress_pattern_unaligned. destruct (name_sw e i) as (_ & _ & ->); auto.
  change (negb (1 =? 1)) with false. cbn iota. cbn [fst snd]. eapply t_decompress_pattern; eauto.
Qed.
Lemma t_decompress_half e i x z ia oa out :
  In i (software e) -> is_bytes z -> readable i z x -> 1 < lenZ x <= 2 ^ 31 -> is_bytes out -> lenZ out = lenZ x / 2 ->
  test_decompress_pattern_halfsmall i x z ia (oa, out) = Done true.
Proof.
  intros HI Hz HR HL Ho HO. pose proof (Z.div_mod (lenZ x) 2 ltac:(lia)). pose proof (Z.mod_pos_bound (lenZ x) 2 ltac:(lia)).
  destruct (decomp_any e i ia oa z x out (lenZ x / 2) HI Hz HR ltac:(lia) Ho ltac:(lia) ltac:(change (2 ^ 63) with (2 ^ 31 * 2 ^ 32); lia))
    as (r & w & W1 & W2 & W3 & [(L' & _)|(L' & E')]); [lia|].
  unfold test_decompress_pattern_halfsmall. assert (lenZ x >? 1 = true) as -> by lia. cbn [negb fst snd]. rewrite E'. reflexivity.
Qed.
Lemma t_decompress_barely e i x z ia oa out :
  In i (software e) -> is_bytes z -> readable i z x -> 1 < lenZ x <= 2 ^ 31 -> is_bytes out -> lenZ out = lenZ x - 1 ->
  test_decompress_pattern_barelysmall i x z ia (oa, out) = Done true.
Proof.
  intros HI Hz HR HL Ho HO.
  destruct (decomp_any e i ia oa z x out (lenZ x - 1) HI Hz HR ltac:(lia) Ho ltac:(lia) ltac:(change (2 ^ 63) with (2 ^ 31 * 2 ^ 32); lia))
    as (r & w & W1 & W2 & W3 & [(L' & _)|(L' & E')]); [lia|].
  unfold test_decompress_pattern_barelysmall. assert (lenZ x >? 1 = true) as -> by lia. cbn [negb fst snd]. rewrite E'. reflexivity.
Qed.
Lemma t_crcerror e i x z c rest ia oa out :
  In i (software e) -> is_bytes z -> lenZ z < 2 ^ 62 -> 0 <= c < 2 ^ 32 -> c <> crc32 x -> lenZ x <= lenZ z * 2 ->
  stream true [] (bytes_bits z) x (bits_of 32 c ++ rest) ->
  (i_name i = OPTSW -> lenZ z mod 8 = 0 /\ stream false [] (bytes_bits z) x (bits_of 32 c ++ rest)) ->
  is_bytes out -> lenZ out = lenZ z * 2 ->
  test_decompress_crcerror i z ia (oa, out) = Done true.
Proof.
  intros HI Hz HL Hc NE Hx HS HO' Ho HO. pose proof (lenZ_nonneg z) as Z0.
  assert (H63 : lenZ z * 2 < 2 ^ 63) by (change (2 ^ 63) with (2 ^ 62 * 2); lia).
  unfold test_decompress_crcerror. destruct (name_sw e i HI) as (_ & -> & _). cbn [fst snd].
  assert (E : exists m, i_decompress i ia oa z out (lenZ z * 2) = Done (- EINVAL, 0, m)).
  { assert (SW : exists m, sw842_decompress e oa z out (lenZ z * 2) = Done (- EINVAL, 0, m)) by (eapply c11; eauto; lia).
    destruct HI as [<-|[<-|[]]]; [exact SW|]. cbn [i_decompress optsw_impl]. destruct (HO' eq_refl) as [M8 HF].
    destruct (al ia oa) eqn:A; [|rewrite odecomp_unaligned by auto; exact SW].
    apply al_true in A. destruct A. eapply c20_crc; eauto; try lia. fold (whole z). rewrite whole_id; eauto. }
  destruct E as (m & ->). reflexivity.
Qed.

(** ** A stream that cannot start like this *)
Lemma first_op b bits : 0 <= b < 256 -> exists r, rdb 5 (bits_of 8 b ++ bits) = Some (b / 8, r ++ bits) /\ length r = 3%nat.
Proof.
  intros HB. exists (bits_of 3 b). split; [|reflexivity].
  assert (E : bits_of 8 b = bits_of 5 (b / 8) ++ bits_of 3 b).
  { cbn [bits_of app]. change 8 with (2 ^ 3). rewrite !Z.div_pow2_bits by lia. reflexivity. }
  rewrite E, <- app_assoc. apply rdb_app. change (2 ^ Z.of_nat 5) with 32. split; [apply Z.div_pos; lia|apply Z.div_lt_upper_bound; lia].
Qed.
Lemma bad_start_pd cap f b c l : 0 <= b < 256 -> In (b / 8) [0x1a; 0x1b; 0x1f] -> pd_loop (S f) cap [] (bytes_bits (b :: c :: l)) = Some (PErr (- EINVAL)).
Proof.
  intros HB HI. cbn [pd_loop]. unfold pd_step. change (bytes_bits (b :: c :: l)) with (bits_of 8 b ++ bytes_bits (c :: l)).
  destruct (first_op b (bytes_bits (c :: l)) HB) as (r & -> & LR). destruct HI as [<-|[<-|[<-|[]]]]; try reflexivity.
  change (27 =? 0x1b) with true. cbv iota. unfold rdb. destruct (Nat.leb_spec 6 (length (r ++ bytes_bits (c :: l)))) as [|L]; [reflexivity|].
  exfalso. rewrite app_length, LR, bytes_bits_length in L. cbn [length] in L. lia.
Qed.
Lemma bad_start_qd cap f b bits : 0 <= b < 256 -> In (b / 8) [0x1a; 0x1b; 0x1f] -> qd_loop (S f) cap [] (bits_of 8 b ++ bits) = Some (PErr (- EINVAL)).
Proof.
  intros HB HI. cbn [qd_loop]. unfold qd_step. destruct (first_op b bits HB) as (r & -> & LR). destruct HI as [<-|[<-|[<-|[]]]]; try reflexivity.
  change ((27 <? 26) || (27 =? 0x1c)) with false. cbn [andb]. change (template 27) with (@None (list action)). change (27 =? 0x1b) with true. cbv iota.
  destruct (rdb 6 _) as [[]|]; reflexivity.
Qed.
Lemma t_invalid_start e i b c l ia oa out olen :
  In i (software e) -> is_bytes (b :: c :: l) -> In (b / 8) [0x1a; 0x1b; 0x1f] -> is_bytes out -> 0 <= olen <= lenZ out -> olen < 2 ^ 63 ->
  exists m, i_decompress i ia oa (b :: c :: l) out olen = Done (- EINVAL, 0, m).
Proof.
  intros HI Hz HB Ho HO H63. set (z := b :: c :: l) in *. assert (B0 : 0 <= b < 256) by (apply (Forall_inv Hz)).
  assert (SW : exists m, sw842_decompress e oa z out olen = Done (- EINVAL, 0, m)).
  { pose proof (sw842_decompress_pure e oa z out olen Hz Ho HO H63) as P. unfold pure_run in P. unfold z in P at 1.
    rewrite (bad_start_pd _ _ b c l) in P by auto. destruct P as (_ & m & -> & _). eauto. }
  destruct HI as [<-|[<-|[]]]; [exact SW|]. cbn [i_decompress optsw_impl].
  destruct (al ia oa) eqn:A; [|rewrite odecomp_unaligned by auto; exact SW]. apply al_true in A. destruct A as [A1 A2].
  pose proof (optsw842_decompress_pure e ia oa z out olen Hz Ho HO H63 A1 A2) as P. unfold qrun in P.
  destruct (le_lt_dec 8 (length z)) as [L8|L8].
  - assert (W : exists l', whole z = b :: l').
    { unfold whole. assert (1 <= length z / 8)%nat by (apply Nat.div_le_lower_bound; lia).
      destruct (8 * (length z / 8))%nat eqn:Q; [lia|]. eexists. reflexivity. }
    destruct W as (l' & W). rewrite W in P. change (bytes_bits (b :: l')) with (bits_of 8 b ++ bytes_bits l') in P. rewrite bad_start_qd in P by auto.
    destruct P as (_ & m & -> & _). eauto.
  - assert (W : whole z = []) by (unfold whole; rewrite Nat.div_small by auto; reflexivity).
    rewrite W in P. cbn [qd_loop bytes_bits flat_map] in P. unfold qd_step in P. change (rdb 5 []) with (@None (Z * list bool)) in P. cbv iota in P.
    destruct P as (_ & m & -> & _). eauto.
Qed.
Lemma t_invalid_simple e i b c l ia oa out :
  In i (software e) -> is_bytes (b :: c :: l) -> lenZ (b :: c :: l) < 2 ^ 62 -> In (b / 8) [0x1a; 0x1b; 0x1f] -> is_bytes out -> lenZ out = lenZ (b :: c :: l) * 2 ->
  test_decompress_invalid_simple i (b :: c :: l) ia (oa, out) = Done true.
Proof.
  intros HI Hz HL HB Ho HO. pose proof (lenZ_nonneg (b :: c :: l)).
  assert (H63 : lenZ (b :: c :: l) * 2 < 2 ^ 63) by (change (2 ^ 63) with (2 ^ 62 * 2); lia).
  unfold test_decompress_invalid_simple. cbn [fst snd].
  destruct (t_invalid_start e i b c l ia oa out (lenZ (b :: c :: l) * 2)) as (m & ->); auto. lia.
Qed.

(** ** Bounds check *)
Lemma ramp_bytes n : is_bytes (ramp n).
Proof.
  unfold is_bytes, ramp. apply Forall_forall. intros v H. apply in_map_iff in H. destruct H as (k & <- & _).
  pose proof (Z.mod_pos_bound (Z.of_nat k) 16 ltac:(lia)). unfold is_byte. lia.
Qed.
Lemma ramp_length n : length (ramp n) = n.
Proof. unfold ramp. now rewrite map_length, seq_length. Qed.
Lemma t_bound e i ibound dbound ia oa da out dec :
  In i (software e) -> 4 <= ibound <= 2 ^ 31 -> 0 <= dbound < ibound -> (i_name i = OPTSW -> ibound mod 8 = 0) ->
  is_bytes out -> lenZ out = ibound * 4 -> is_bytes dec -> lenZ dec = ibound ->
  test_bound e i ibound dbound ia (oa, out) (da, dec) = Done true.
Proof.
  intros HI HB HD HM Ho HO Hd HDL. unfold test_bound. cbn [fst snd].
  set (x := ramp (Z.to_nat ibound)). assert (LX : lenZ x = ibound) by (unfold lenZ, x; rewrite ramp_length; lia).
  pose proof (ramp_bytes (Z.to_nat ibound)) as Hx. fold x in Hx.
  set (g := firstn (Z.to_nat dbound) dec ++ List.repeat 255 (Z.to_nat (ibound - dbound))).
  destruct (comp_any e (sw_impl e) ia oa x (or_introl eq_refl) Hx ltac:(lia) ltac:(intros N; discriminate N)) as (z & Z1 & Z2 & Z3 & Z4 & Z5 & Z6 & Z7).
  rewrite LX in Z6. pose proof (words_fit4 ibound ltac:(lia)).
  destruct (Z7 out (ibound * 4) Ho ltac:(lia)) as (m & M1 & M2 & [(L & E & F)|(L & _)]); [|lia].
  rewrite E. cbn [bind]. change (negb (0 =? 0)) with false. cbn iota.
  rewrite first_bytes_z; [|unfold lenZ in *; lia|exact F]. cbn [bind].
  assert (LF : length (firstn (Z.to_nat dbound) dec) = Z.to_nat dbound) by (rewrite firstn_length; unfold lenZ in *; lia).
  assert (Bg : is_bytes g).
  { unfold is_bytes, g. apply Forall_app. split; [now apply is_bytes_firstn|]. apply Forall_forall. intros v V. apply repeat_spec in V. subst v. unfold is_byte. lia. }
  assert (Lg : lenZ g = ibound) by (unfold lenZ, g; rewrite app_length, LF, repeat_length; lia).
  destruct (decomp_any e i oa da z x g dbound HI Z1 (compressed_readable i z x Z2 Z3 Z4 ltac:(now rewrite LX)) ltac:(lia) Bg ltac:(lia) ltac:(change (2 ^ 63) with (2 ^ 31 * 2 ^ 32); lia))
    as (r & w & W1 & W2 & W3 & [(L' & _)|(L' & E')]); [lia|].
  rewrite E'. cbn [bind]. change (negb (- ENOSPC =? - ENOSPC)) with false. cbn iota. f_equal.
  assert (SK : skipn (Z.to_nat dbound) r = List.repeat 255 (Z.to_nat (ibound - dbound))).
  { rewrite W3. rewrite skipn_app. rewrite skipn_all2 by (unfold lenZ in *; lia). cbn [app]. rewrite skipn_add.
    replace (length w + (Z.to_nat dbound - length w))%nat with (Z.to_nat dbound) by (unfold lenZ in *; lia).
    unfold g. rewrite skipn_app, LF, Nat.sub_diag, skipn_all2 by lia. reflexivity. }
  rewrite SK. apply forallb_forall. intros v V. apply In_firstn in V || (rewrite firstn_all2 in V by (rewrite repeat_length; lia)).
  apply repeat_spec in V. subst v. reflexivity.
Qed.
Lemma t_boundscheck e i i1 d1 i2 d2 ia oa1 da1 oa2 da2 out1 dec1 out2 dec2 :
  In i (software e) -> 4 <= i1 <= 2 ^ 31 -> 0 <= d1 < i1 -> (i_name i = OPTSW -> i1 mod 8 = 0) -> 4 <= i2 <= 2 ^ 31 -> 0 <= d2 < i2 ->
  is_bytes out1 -> lenZ out1 = i1 * 4 -> is_bytes dec1 -> lenZ dec1 = i1 ->
  is_bytes out2 -> lenZ out2 = i2 * 4 -> is_bytes dec2 -> lenZ dec2 = i2 ->
  test_decompress_boundscheck e i i1 d1 i2 d2 ia (oa1, out1) (da1, dec1) (oa2, out2) (da2, dec2) = Done true.
Proof.
  intros HI. intros. unfold test_decompress_boundscheck. destruct (name_sw e i HI) as (-> & _ & _).
  rewrite t_bound by auto. cbn [bind negb]. destruct (is_name (i_name i) SW) eqn:N; [|reflexivity].
  apply t_bound; auto. intros Q. rewrite Q in N. discriminate.
Qed.

(** ** Diffusion *)
Lemma u8_byte v : is_byte (u8 v).
Proof. unfold u8, is_byte. change (2 ^ 8) with 256. pose proof (Z.mod_pos_bound v 256 ltac:(lia)). lia. Qed.
Lemma diffuse_length d : length (diffuse d) = length d.
Proof. unfold diffuse. now rewrite map_length, seq_length. Qed.
Lemma diffuse_bytes d : is_bytes (diffuse d).
Proof. unfold is_bytes, diffuse. apply Forall_forall. intros v H. apply in_map_iff in H. destruct H as (k & <- & _). apply u8_byte. Qed.
Lemma random_bytes_ok n : forall s, is_bytes (fst (random_bytes n s)) /\ length (fst (random_bytes n s)) = n.
Proof.
  induction n; intros s; [split; [constructor|reflexivity]|]. cbn [random_bytes].
  specialize (IHn (xorshift_next s)). destruct (random_bytes n (xorshift_next s)) as [l s']. cbn [fst] in *. destruct IHn as [B L].
  split; [constructor; auto; apply u8_byte|]. cbn [length]. now rewrite L.
Qed.
Lemma t_diffuse_loop e i : In i (software e) -> forall its da data ca comp ua uncomp,
  is_bytes data -> 0 < lenZ data <= 2 ^ 31 -> lenZ data mod 8 = 0 -> is_bytes comp -> lenZ comp = 2 * lenZ data -> is_bytes uncomp -> lenZ uncomp = lenZ data ->
  diffuse_loop its i da data (ca, comp) (ua, uncomp) = Done true.
Proof.
  intros HI its. induction its as [|its IH]; intros da data ca comp ua uncomp Hx HL HM Hc HC Hu HU; [reflexivity|].
  cbn [diffuse_loop fst snd]. pose proof (diffuse_bytes data) as Hy. pose proof (diffuse_length data) as LY.
  set (x := diffuse data) in *. assert (LX : lenZ x = lenZ data) by (unfold lenZ; now rewrite LY).
  assert (NE : x <> []) by (intros ->; unfold lenZ in *; cbn [length] in *; lia).
  destruct (comp_any e i da ca x HI Hy ltac:(lia) ltac:(intros _; rewrite LX; auto)) as (z & Z1 & Z2 & Z3 & Z4 & Z5 & Z6 & Z7).
  rewrite LX in Z6. pose proof (words_fit8 (lenZ data) ltac:(lia) HM).
  destruct (Z7 comp (2 * lenZ x) Hc ltac:(lia)) as (m & M1 & M2 & [(L & E & F)|(L & _)]); [|lia].
  rewrite E. cbn [bind]. change (negb (0 =? 0)) with false. cbn iota.
  rewrite first_bytes_z; [|unfold lenZ in *; lia|exact F]. cbn [bind].
  destruct (decomp_any e i ca ua z x uncomp (lenZ x) HI Z1 (compressed_readable i z x Z2 Z3 Z4 ltac:(now rewrite LX)) ltac:(lia) Hu ltac:(lia) ltac:(change (2 ^ 63) with (2 ^ 31 * 2 ^ 32); lia))
    as (r & w & W1 & W2 & W3 & [(L' & E' & F')|(L' & _)]); [|lia].
  rewrite E'. cbn [bind]. change (negb (0 =? 0)) with false. cbn iota. rewrite same_bytes_firstn by exact F'. cbn [negb].
  apply IH; auto; try lia.
  - rewrite LX. exact HM.
  - unfold lenZ in *. lia.
  - rewrite W3. apply Forall_app. split; auto. now apply is_bytes_skipn.
  - rewrite W3. unfold lenZ. rewrite app_length, skipn_length. unfold lenZ in *. lia.
Qed.
Lemma t_diffuse e i size seed its da ca comp ua uncomp :
  In i (software e) -> (0 < size)%nat -> (size mod 8 = 0)%nat -> Z.of_nat size <= 2 ^ 31 ->
  is_bytes comp -> lenZ comp = 2 * Z.of_nat size -> is_bytes uncomp -> lenZ uncomp = Z.of_nat size ->
  test_compress_diffuse i size seed its da (ca, comp) (ua, uncomp) = Done true.
Proof.
  intros HI H0 HM HL Hc HC Hu HU. unfold test_compress_diffuse. destruct (random_bytes_ok size seed) as [B L].
  assert (LL : lenZ (fst (random_bytes size seed)) = Z.of_nat size) by (unfold lenZ; now rewrite L).
  eapply t_diffuse_loop; eauto; rewrite LL; auto; try lia.
  change 8 with (Z.of_nat 8). rewrite <- Nat2Z.inj_mod, HM. reflexivity.
Qed.

(** the largest byte shrinks by a third in each step: 255, 170, 113, 75, 50, 33, 22, 14, 9, 6, 4, 2, 1, 0 *)
Definition below (b : Z) (d : list Z) : Prop := Forall (fun v => 0 <= v <= b) d.
Lemma below_nth b d k : 0 <= b -> below b d -> 0 <= nth k d 0 <= b.
Proof.
  intros B H. unfold below in H. rewrite Forall_forall in H. destruct (Nat.lt_ge_cases k (length d)) as [L|L].
  - apply H. now apply nth_In.
  - rewrite nth_overflow by auto. lia.
Qed.
Lemma diffuse_below b d : 0 <= b <= 255 -> below b d -> below (2 * b / 3) (diffuse d).
Proof.
  intros B H. unfold below, diffuse. apply Forall_forall. intros v V. apply in_map_iff in V. destruct V as (k & <- & _).
  pose proof (below_nth b d ((k + length d - 1) mod length d) ltac:(lia) H). pose proof (below_nth b d ((k + 1) mod length d) ltac:(lia) H).
  set (p := nth _ d 0) in *. set (q := nth ((k + 1) mod length d) d 0) in *.
  assert (S1 : 0 <= (p + q) / 3) by (apply Z.div_pos; lia).
  assert (S2 : (p + q) / 3 <= 2 * b / 3) by (apply Z.div_le_mono; lia).
  assert (S3 : 2 * b / 3 <= 170) by (apply Z.div_le_upper_bound; lia).
  unfold u8. rewrite Z.mod_small by (change (2 ^ 8) with 256; lia). lia.
Qed.
Lemma diffuse13 d : is_bytes d -> Nat.iter 13 diffuse d = List.repeat 0 (length d).
Proof.
  intros H.
  assert (B0 : below 255 d) by (unfold below; eapply Forall_impl; [|exact H]; intros v; unfold is_byte; lia).
  assert (B : below 0 (Nat.iter 13 diffuse d)).
  { cbn [Nat.iter Nat.iter nat_rect].
    do 13 match goal with |- below 0 _ => idtac end.
    change 0 with (2 * (2 * (2 * (2 * (2 * (2 * (2 * (2 * (2 * (2 * (2 * (2 * (2 * 255 / 3) / 3) / 3) / 3) / 3) / 3) / 3) / 3) / 3) / 3) / 3) / 3) / 3).
    repeat (apply diffuse_below; [vm_compute; split; discriminate|]). exact B0. }
  assert (L : forall n, length (Nat.iter n diffuse d) = length d).
  { induction n; [reflexivity|]. change (Nat.iter (S n) diffuse d) with (diffuse (Nat.iter n diffuse d)). now rewrite diffuse_length. }
  specialize (L 13%nat). rewrite <- L. clear L B0 H. generalize dependent (Nat.iter 13 diffuse d). intros l B.
  induction B as [|v l V B IH]; [reflexivity|]. cbn [length List.repeat]. rewrite <- IH. f_equal. lia.
Qed.

(** ** Generated streams *)
Lemma t_generator e insize outsize ia oa : ia mod 8 = 0 -> oa mod 8 = 0 -> 0 <= outsize < 2 ^ 63 -> forall runs seed out, is_bytes out -> lenZ out = outsize ->
  generator_loop runs (optsw_impl e) insize outsize seed ia (oa, out) = Done true.
Proof.
  intros A1 A2 HO runs. induction runs as [|runs IH]; intros seed out Ho HL; [reflexivity|]. cbn [generator_loop fst snd].
  pose proof (random_bytes_ok insize seed) as [B _]. destruct (random_bytes insize seed) as [inp s']. cbn [fst] in B.
  cbn [i_decompress optsw_impl]. destruct (c21 e ia oa inp out outsize B Ho ltac:(lia) ltac:(lia) A1 A2) as (r & n & m & E & _ & _ & w & W1 & W2 & W3).
  rewrite E. cbn [bind]. apply IH.
  - rewrite W3. apply Forall_app. split; auto. now apply is_bytes_skipn.
  - rewrite W3. unfold lenZ. rewrite app_length, skipn_length. unfold lenZ in *. lia.
Qed.

Definition next_seed (insize : nat) (s : Z) : Z := snd (random_bytes insize s).
Definition generated (insize : nat) (seed : Z) (k : nat) : list Z := fst (random_bytes insize (Nat.iter k (next_seed insize) seed)).
Definition misplaced (olen : Z) (inp : list Z) : Prop := exists ds n rest,
  Forall (fun d => is_bytes d /\ (1 <= length d)%nat) ds /\ 0 <= n < 64 /\
  bytes_bits inp = concat (map short_template ds) ++ repeat_template n ++ rest /\
  (1 <= length (concat ds) <= 7)%nat /\ lenZ (concat ds) + 8 * (n + 1) <= olen.
Lemma iter_shift {A} (f : A -> A) n a : Nat.iter n f (f a) = Nat.iter (S n) f a.
Proof. induction n; [reflexivity|]. change (Nat.iter (S n) f (f a)) with (f (Nat.iter n f (f a))). now rewrite IHn. Qed.
Lemma t_generator_sw e insize outsize ia oa : 0 <= outsize < 2 ^ 63 -> forall runs seed out, is_bytes out -> lenZ out = outsize ->
  (generator_loop runs (sw_impl e) insize outsize seed ia (oa, out) = Undef /\ exists k, (k < runs)%nat /\ misplaced outsize (generated insize seed k)) \/
  (generator_loop runs (sw_impl e) insize outsize seed ia (oa, out) = Done true /\ forall k, (k < runs)%nat -> ~ misplaced outsize (generated insize seed k)).
Proof.
  intros HO runs. induction runs as [|runs IH]; intros seed out Ho HL; [right; split; [reflexivity|lia]|]. cbn [generator_loop fst snd].
  pose proof (random_bytes_ok insize seed) as [B _].
  assert (G0 : generated insize seed 0 = fst (random_bytes insize seed)) by reflexivity.
  assert (GS : forall k, generated insize seed (S k) = generated insize (snd (random_bytes insize seed)) k).
  { intros k. unfold generated. f_equal. f_equal. change (snd (random_bytes insize seed)) with (next_seed insize seed). now rewrite iter_shift. }
  destruct (random_bytes insize seed) as [inp s']. cbn [fst snd] in *.
  cbn [i_decompress sw_impl]. pose proof (c06_exact e oa inp out outsize B Ho ltac:(lia) ltac:(lia)) as X. fold (misplaced outsize inp) in X.
  destruct (sw842_decompress e oa inp out outsize) as [[[r n] m]| |] eqn:E.
  - destruct (c06_frame e oa inp out outsize r n m B Ho ltac:(lia) ltac:(lia) E) as (_ & w & W1 & W2 & W3). cbn [bind].
    assert (NX : ~ misplaced outsize inp) by (intros C; apply X in C; discriminate).
    destruct (IH s' m) as [(-> & k & K & M)|(-> & K)].
    + rewrite W3. apply Forall_app. split; auto. now apply is_bytes_skipn.
    + rewrite W3. unfold lenZ. rewrite app_length, skipn_length. unfold lenZ in *. lia.
    + left. split; [reflexivity|]. exists (S k). rewrite GS. split; [lia|auto].
    + right. split; [reflexivity|]. intros [|k] H; [rewrite G0; auto|]. rewrite GS. apply K. lia.
  - left. split; [reflexivity|]. exists O. rewrite G0. split; [lia|]. now apply X.
  - exfalso. destruct (c08 e oa inp out outsize B Ho ltac:(lia) ltac:(lia)) as [C _]. now rewrite E in C.
Qed.
Lemma t_opt_empty e d ia oa za rec out : ia mod 8 = 0 -> oa mod 8 = 0 ->
  test_compress_pattern (optsw_impl e) d [] ia (oa, out) za rec = Undef /\ test_compress_pattern_small (optsw_impl e) [] ia (oa, out) = Undef.
Proof.
  intros A1 A2. assert (A : al ia oa = true) by (unfold al; now rewrite A1, A2).
  unfold test_compress_pattern, test_compress_pattern_small. cbn [i_compress optsw_impl fst snd].
  rewrite ocomp_empty by auto. split; reflexivity.
Qed.
Lemma nth_repeat_lt (b : Z) n k : (k < n)%nat -> nth k (List.repeat b n) 0 = b.
Proof. intros H. rewrite (nth_indep _ 0 b) by (rewrite repeat_length; auto). apply nth_repeat. Qed.
Lemma diffuse_repeat b n : (0 < n)%nat -> 0 <= b <= 255 -> diffuse (List.repeat b n) = List.repeat (2 * b / 3) n.
Proof.
  intros N B. unfold diffuse. rewrite repeat_length.
  assert (G : forall l, Forall (fun k => (k < n)%nat) l ->
    map (fun i => u8 ((nth ((i + n - 1) mod n) (List.repeat b n) 0 + nth ((i + 1) mod n) (List.repeat b n) 0) / 3)) l = List.repeat (2 * b / 3) (length l)).
  { induction l as [|k l IH]; intros F; [reflexivity|]. inversion F; subst. cbn [map length List.repeat]. rewrite IH by auto. f_equal.
    rewrite !nth_repeat_lt by (apply Nat.mod_upper_bound; lia). replace (b + b) with (2 * b) by lia.
    assert (0 <= 2 * b / 3) by (apply Z.div_pos; lia). assert (2 * b / 3 <= 170) by (apply Z.div_le_upper_bound; lia).
    unfold u8. apply Z.mod_small. change (2 ^ 8) with 256. lia. }
  rewrite G, seq_length; [reflexivity|]. apply Forall_forall. intros k K. apply in_seq in K. lia.
Qed.
Lemma diffuse12 n : (0 < n)%nat -> Nat.iter 12 diffuse (List.repeat 255 n) = List.repeat 1 n.
Proof.
  intros N. cbn [Nat.iter nat_rect].
  repeat (rewrite diffuse_repeat; [|exact N|vm_compute; split; discriminate]). reflexivity.
Qed.
Lemma misplaced_of inp out olen : is_bytes inp -> is_bytes out -> 0 <= olen <= lenZ out -> olen < 2 ^ 63 ->
  sw842_decompress LE 0 inp out olen = Undef -> misplaced olen inp.
Proof. intros B Ho Hc H63 E. now apply (c06_exact LE 0 inp out olen B Ho Hc H63). Qed.
Lemma misplaced_mono a b inp : a <= b -> misplaced a inp -> misplaced b inp.
Proof. intros H (ds & n & rest & F & N & E & L & C). exists ds, n, rest. repeat split; auto; lia. Qed.
