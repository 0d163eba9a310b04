(** The bit stream writer of bitstream.cpp emits bits most significant first. *)
From Coq Require Import ZArith List Bool Lia.
From Verif Require Import SpecBits CBase BitsLemmas SerialWriter OptCompModel.
Import ListNotations.
Open Scope Z_scope.

Record bsw (cap : Z) (m0 : list Z) (s : bitstream) (E : list bool) : Prop := mkBsw {
  bsw_m0 : is_bytes m0;
  bsw_cap : 8 * cap <= lenZ m0;
  bsw_end : s_end s = cap;
  bsw_ptr : 0 <= s_ptr s <= cap;
  bsw_nb : 0 <= s_bits s < 64;
  bsw_len : lenZ E = 64 * s_ptr s + s_bits s;
  bsw_mlen : length (s_mem s) = length m0;
  bsw_mem : is_bytes (s_mem s);
  bsw_done : bytes_bits (firstn (Z.to_nat (8 * s_ptr s)) (s_mem s)) = firstn (Z.to_nat (64 * s_ptr s)) E;
  bsw_rest : skipn (Z.to_nat (8 * s_ptr s)) (s_mem s) = skipn (Z.to_nat (8 * s_ptr s)) m0;
  bsw_buf : s_buffer s = val (skipn (Z.to_nat (64 * s_ptr s)) E) * 2 ^ (64 - s_bits s) }.

(** What is known of the memory whatever happens. *)
Definition bmem (cap : Z) (m0 m : list Z) : Prop :=
  is_bytes m /\ length m = length m0 /\ skipn (Z.to_nat (8 * cap)) m = skipn (Z.to_nat (8 * cap)) m0.

Lemma bsw_bmem cap m0 s E : bsw cap m0 s E -> bmem cap m0 (s_mem s).
Proof.
  intros H. destruct H. split; auto. split; auto.
  replace (Z.to_nat (8 * cap)) with (Z.to_nat (8 * s_ptr s) + Z.to_nat (8 * (cap - s_ptr s)))%nat by lia.
  rewrite <- !skipn_add. now f_equal.
Qed.

Lemma bsw_open cap bytes m0 : is_bytes m0 -> 0 <= bytes <= lenZ m0 -> cap = bytes / 8 ->
  bsw cap m0 (stream_open m0 bytes) [].
Proof.
  intros Hm Hb ->. pose proof (Z.mul_div_le bytes 8 ltac:(lia)). pose proof (Z.div_pos bytes 8 ltac:(lia) ltac:(lia)).
  constructor; cbn [stream_open s_mem s_ptr s_end s_buffer s_bits]; rewrite ?lenZ_nil; auto; try lia; reflexivity.
Qed.

Lemma tail_len cap m0 s E : bsw cap m0 s E -> length (skipn (Z.to_nat (64 * s_ptr s)) E) = Z.to_nat (s_bits s).
Proof. intros []. rewrite skipn_length. unfold lenZ in *. lia. Qed.

Lemma shl64_ok v n : 0 <= n <= 63 -> shl64 v n = Done (v * 2 ^ n mod 2 ^ 64).
Proof.
  intros. unfold shl64. destruct (Z.leb_spec 0 n); [|lia]. destruct (Z.leb_spec n 63); [|lia].
  cbn [andb]. unfold u64. now rewrite Z.shiftl_mul_pow2 by lia.
Qed.
Lemma shr64_ok v n : 0 <= n <= 63 -> shr64 v n = Done (v / 2 ^ n).
Proof.
  intros. unfold shr64. destruct (Z.leb_spec 0 n); [|lia]. destruct (Z.leb_spec n 63); [|lia].
  cbn [andb]. now rewrite Z.shiftr_div_pow2 by lia.
Qed.

Section W.
Variable e : endian.
Variables (cap : Z) (m0 : list Z).

(** Writing a full word. *)
Lemma write_word_ok s E T w bits' buf' : bsw cap m0 s E -> T = skipn (Z.to_nat (64 * s_ptr s)) E ->
  forall B, length (T ++ B) = 64%nat -> w = val (T ++ B) ->
  (s_ptr s < cap /\ exists s', stream_write_word e (mkBS (s_mem s) (s_ptr s) (s_end s) buf' bits') w = Done (true, s') /\
     s_ptr s' = s_ptr s + 1 /\ s_bits s' = bits' /\ s_end s' = cap /\
     length (s_mem s') = length m0 /\ is_bytes (s_mem s') /\
     bytes_bits (firstn (Z.to_nat (8 * s_ptr s')) (s_mem s')) = E ++ B /\
     skipn (Z.to_nat (8 * s_ptr s')) (s_mem s') = skipn (Z.to_nat (8 * s_ptr s')) m0) \/
  (s_ptr s = cap /\ stream_write_word e (mkBS (s_mem s) (s_ptr s) (s_end s) buf' bits') w =
     Done (false, mkBS (s_mem s) (s_ptr s) (s_end s) buf' bits')).
Proof.
  intros H HT B HL HW. destruct H as [Hm0 Hcap Hend Hptr Hnb Hlen Hml Hmem Hdone Hrest Hbuf].
  unfold stream_write_word. cbn [s_ptr s_end s_mem]. rewrite Hend.
  destruct (Z.eqb_spec (s_ptr s) cap) as [EQ|NE]; [right; auto|]. left. split; [lia|].
  unfold store64. rewrite native_swap64.
  assert (LB : length (be_bytes 8 w) = 8%nat) by apply be_bytes_length.
  rewrite store_bytes_ok by (unfold lenZ in *; lia).
  rewrite bind_done. eexists. split; [reflexivity|]. cbn [s_ptr s_bits s_end s_mem].
  set (i := Z.to_nat (8 * s_ptr s)).
  assert (I8 : (i + 8 <= length (s_mem s))%nat) by (unfold i, lenZ in *; lia).
  assert (I' : Z.to_nat (8 * (s_ptr s + 1)) = (i + 8)%nat) by (unfold i; lia). rewrite I'.
  split; auto. split; auto. split; auto. split. { rewrite splice_length by lia. auto. }
  split. { apply splice_is_bytes; auto using be_bytes_is_bytes. }
  split.
  - replace (firstn (i + 8) (splice (s_mem s) i (be_bytes 8 w))) with (firstn i (s_mem s) ++ be_bytes 8 w).
    + rewrite bytes_bits_app, bytes_bits_be_bytes. fold i in Hdone. rewrite Hdone, HW.
      change (8 * 8)%nat with 64%nat. rewrite <- HL, bits_of_val, HT, app_assoc. now rewrite firstn_skipn.
    + unfold splice. rewrite app_assoc. symmetry. apply firstn_app_exact. rewrite app_length, firstn_length. lia.
  - rewrite splice_skipn by lia. rewrite <- !(skipn_add 8 i). unfold i. now rewrite Hrest.
Qed.

Lemma stream_write_bits_ok s E v n : bsw cap m0 s E -> 1 <= n <= 64 -> 0 <= v < 2 ^ n ->
  (lenZ E + n < 64 * (cap + 1) /\
     exists s', stream_write_bits e s v n = Done (true, s') /\ bsw cap m0 s' (E ++ bits_of (Z.to_nat n) v)) \/
  (64 * (cap + 1) <= lenZ E + n /\
     exists s', stream_write_bits e s v n = Done (false, s') /\ bmem cap m0 (s_mem s')).
Proof.
  intros H Hn Hv. pose proof H as [Hm0 Hcap Hend Hptr Hnb Hlen Hml Hmem Hdone Hrest Hbuf].
  pose proof (tail_len _ _ _ _ H) as TL. set (T := skipn (Z.to_nat (64 * s_ptr s)) E) in *.
  pose proof (val_bound T) as VT. rewrite TL, Z2Nat.id in VT by lia.
  unfold stream_write_bits. rewrite shl64_ok by lia. rewrite bind_done.
  assert (VV : v * 2 ^ (64 - n) mod 2 ^ 64 = v * 2 ^ (64 - n)).
  { apply Z.mod_small. split; [apply Z.mul_nonneg_nonneg; lia|].
    replace 64 with (n + (64 - n)) at 2 by lia. rewrite Z.pow_add_r by lia. apply Z.mul_lt_mono_pos_r; [apply pow2_pos; lia|lia]. }
  rewrite VV, shr64_ok by lia. rewrite bind_done.
  assert (BB : u8 (s_bits s + n) = s_bits s + n) by (unfold u8; apply Z.mod_small; lia).
  rewrite BB, Z.geb_leb. rewrite Hbuf.
  set (b := s_bits s) in *.
  assert (PB : 0 < 2 ^ b) by (apply pow2_pos; lia). 
  assert (LOWB : 0 <= v * 2 ^ (64 - n) / 2 ^ b < 2 ^ (64 - b)).
  { split; [apply Z.div_pos; [apply Z.mul_nonneg_nonneg; lia|lia]|].
    apply Z.div_lt_upper_bound; [lia|]. rewrite <- Z.pow_add_r by lia. replace (b + (64 - b)) with (n + (64 - n)) by lia.
    rewrite Z.pow_add_r by lia. apply Z.mul_lt_mono_pos_r; [apply pow2_pos; lia|lia]. }
  rewrite lor_disjoint by lia.
  destruct (Z.leb_spec 64 (b + n)) as [GE|LT].
  - set (r := b + n - 64).
    rewrite shl64_ok by lia. rewrite bind_done.
    assert (LOW : v * 2 ^ (64 - n) / 2 ^ b = v / 2 ^ r).
    { replace b with ((64 - n) + r) by (unfold r; lia). rewrite Z.pow_add_r by (unfold r; lia).
      rewrite <- Z.div_div by (apply Z.pow_nonzero || apply pow2_pos; unfold r; lia). f_equal. apply Z.div_mul. apply Z.pow_nonzero; lia. }
    rewrite LOW in *.
    set (B := bits_of (Z.to_nat (n - r)) (v / 2 ^ r)).
    assert (LB : length B = Z.to_nat (n - r)) by apply bits_of_length.
    assert (SPL : bits_of (Z.to_nat n) v = B ++ bits_of (Z.to_nat r) v).
    { unfold B. replace (Z.to_nat n) with (Z.to_nat (n - r) + Z.to_nat r)%nat by (unfold r; lia).
      rewrite bits_of_app, Z2Nat.id by (unfold r; lia). reflexivity. }
    assert (WV : val T * 2 ^ (64 - b) + v / 2 ^ r = val (T ++ B)).
    { rewrite val_app, LB, Z2Nat.id by (unfold r; lia). replace (n - r) with (64 - b) by (unfold r; lia). f_equal.
      unfold B. rewrite val_bits_of, Z2Nat.id by (unfold r; lia). symmetry. apply Z.mod_small.
      replace (n - r) with (64 - b) by (unfold r; lia). exact LOWB. }
    rewrite WV.
    destruct (write_word_ok s E T (val (T ++ B)) r (val (T ++ B)) H eq_refl B) as [(PL & s' & EQ & P1 & P2 & P3 & P4 & P5 & P6 & P7)|(PE & EQ)]; auto.
    { rewrite app_length, TL, LB. unfold r. lia. }
    + left. split; [lia|]. unfold andthen. rewrite EQ. cbn [bind].
      rewrite shl64_ok by (unfold r; lia). rewrite bind_done. eexists. split; [reflexivity|].
      assert (LE : length (E ++ B) = Z.to_nat (64 * (s_ptr s + 1))).
      { rewrite app_length, LB. unfold lenZ in Hlen. unfold r. lia. }
      rewrite SPL, app_assoc.
      constructor; cbn [s_mem s_ptr s_end s_buffer s_bits]; auto; rewrite ?P1, ?P2; try lia.
      * rewrite lenZ_app. unfold lenZ. rewrite bits_of_length, LE. lia.
      * rewrite P1 in P6. rewrite P6. symmetry. apply firstn_app_exact. auto.
      * rewrite skipn_app_exact by auto. rewrite val_bits_of, Z2Nat.id by lia.
        rewrite Z.mul_mod_idemp_l by lia. rewrite <- !Z.mul_assoc, <- !Z.pow_add_r by lia.
        replace (64 - n + (1 + (n - 1 - r))) with (64 - r) by lia.
        replace (2 ^ 64) with (2 ^ r * 2 ^ (64 - r)) by (rewrite <- Z.pow_add_r by lia; f_equal; lia).
        rewrite Z.mul_mod_distr_r; [reflexivity|apply Z.pow_nonzero; lia|apply Z.pow_nonzero; lia].
    + right. split; [lia|]. unfold andthen. rewrite EQ. cbn [bind]. eexists. split; [reflexivity|].
      cbn [s_mem]. eapply bsw_bmem; eauto.
  - left. split; [lia|]. eexists. split; [reflexivity|].
    assert (LE : (Z.to_nat (64 * s_ptr s) <= length E)%nat) by (unfold lenZ in Hlen; lia).
    constructor; cbn [s_mem s_ptr s_end s_buffer s_bits]; auto; try lia.
    + rewrite lenZ_app. unfold lenZ at 2. rewrite bits_of_length. lia.
    + rewrite firstn_app. replace (Z.to_nat (64 * s_ptr s) - length E)%nat with 0%nat by lia. cbn [firstn]. now rewrite app_nil_r.
    + rewrite skipn_app. replace (Z.to_nat (64 * s_ptr s) - length E)%nat with 0%nat by lia. cbn [skipn]. fold T.
      rewrite val_app, bits_of_length, val_bits_of, Z2Nat.id by lia. rewrite (Z.mod_small v) by lia.
      rewrite Z.mul_add_distr_r, <- Z.mul_assoc, <- Z.pow_add_r by lia.
      replace (n + (64 - (b + n))) with (64 - b) by lia. f_equal.
      replace (64 - n) with ((64 - (b + n)) + b) by lia. rewrite Z.pow_add_r, Z.mul_assoc by lia.
      now rewrite Z.div_mul by lia.
Qed.

(** Flushing pads with zero bits to a multiple of 64. *)
Lemma stream_flush_ok s E : bsw cap m0 s E ->
  let k := Z.to_nat ((64 - lenZ E mod 64) mod 64) in
  (lenZ E + Z.of_nat k <= 64 * cap /\
     exists s', stream_flush e s = Done (true, s') /\ bsw cap m0 s' (E ++ repeat false k) /\ s_bits s' = 0) \/
  (64 * cap < lenZ E + Z.of_nat k /\
     exists s', stream_flush e s = Done (false, s') /\ bmem cap m0 (s_mem s')).
Proof.
  intros H k. pose proof H as [Hm0 Hcap Hend Hptr Hnb Hlen Hml Hmem Hdone Hrest Hbuf].
  pose proof (tail_len _ _ _ _ H) as TL. set (T := skipn (Z.to_nat (64 * s_ptr s)) E) in *.
  assert (MM : lenZ E mod 64 = s_bits s).
  { rewrite Hlen, Z.mul_comm, Z.add_comm, Z.mod_add by lia. apply Z.mod_small. lia. }
  unfold stream_flush. unfold k. rewrite MM. set (b := s_bits s) in *.
  destruct (Z.eqb_spec ((64 - b) mod 64) 0) as [E0|N0].
  - assert (B0 : b = 0) by (destruct (Z.eq_dec b 0); auto; rewrite Z.mod_small in E0 by lia; lia).
    rewrite E0. left. split; [change (Z.of_nat (Z.to_nat 0)) with 0; lia|]. exists s. split; auto. cbn [Z.to_nat repeat]. rewrite app_nil_r. auto.
  - assert (MS : (64 - b) mod 64 = 64 - b).
    { apply Z.mod_small. destruct (Z.eq_dec b 0) as [B0|]; [|lia]. rewrite B0 in N0. now cbn in N0. }
    assert (BP : 0 < b). { destruct (Z.eq_dec b 0) as [B0|]; [|lia]. rewrite B0 in N0. now cbn in N0. }
    rewrite MS. set (B := repeat false (Z.to_nat (64 - b))).
    assert (LB : length B = Z.to_nat (64 - b)) by apply repeat_length.
    assert (WV : s_buffer s = val (T ++ B)).
    { rewrite val_app, LB, Z2Nat.id by lia. rewrite Hbuf. unfold B. rewrite <- bits_of_0, val_bits_of, Z.mod_0_l, Z.add_0_r; auto.
      apply Z.pow_nonzero; lia. }
    rewrite WV.
    destruct (write_word_ok s E T (val (T ++ B)) (b + (64 - b)) (val (T ++ B)) H eq_refl B) as [(PL & s' & EQ & P1 & P2 & P3 & P4 & P5 & P6 & P7)|(PE & EQ)]; auto.
    { rewrite app_length, TL, LB. lia. }
    + left. split; [lia|]. unfold andthen. rewrite EQ. cbn [bind]. eexists. split; [reflexivity|].
      assert (LE : length (E ++ B) = Z.to_nat (64 * (s_ptr s + 1))).
      { rewrite app_length, LB. unfold lenZ in Hlen. lia. }
      split; [|cbn [s_bits]; lia].
      constructor; cbn [s_mem s_ptr s_end s_buffer s_bits]; auto; rewrite ?P1, ?P2; try lia.
      * unfold lenZ. rewrite LE. lia.
      * rewrite P1 in P6. rewrite P6. rewrite firstn_all2; auto. lia.
      * rewrite skipn_all2 by lia. reflexivity.
    + right. split; [lia|]. unfold andthen. rewrite EQ. cbn [bind]. eexists. split; [reflexivity|].
      cbn [s_mem]. eapply bsw_bmem; eauto.
Qed.
End W.
