(** The bit writer of the serial compressor: add_bits appends exactly the bits
    it is given, or reports ENOSPC when they do not fit. *)
From Coq Require Import ZArith List Bool Lia.
From Verif Require Import SpecBits CBase BitsLemmas CrcProofs SerialCompModel.
Import ListNotations.
Open Scope Z_scope.

Lemma lor_ones y k : 0 <= k -> Z.lor y (2 ^ k - 1) = y / 2 ^ k * 2 ^ k + (2 ^ k - 1).
Proof.
  intros. pose proof (pow2_pos k). rewrite <- lor_disjoint by lia.
  apply Z.bits_inj'. intros i Hi. rewrite !Z.lor_spec.
  replace (2 ^ k - 1) with (Z.ones k) by (rewrite Z.ones_equiv; lia).
  destruct (Z.lt_ge_cases i k).
  - rewrite Z.ones_spec_low by lia. now rewrite !orb_true_r.
  - rewrite Z.ones_spec_high by lia. rewrite !orb_false_r.
    rewrite <- Z.shiftl_mul_pow2, <- Z.shiftr_div_pow2 by lia.
    rewrite Z.shiftl_spec, Z.shiftr_spec by lia. f_equal. lia.
Qed.
Lemma round_up_8 x : round_up x 8 = 8 * ((x + 7) / 8).
Proof.
  unfold round_up. change (8 - 1) with (2 ^ 3 - 1). rewrite lor_ones by lia. change (2 ^ 3) with 8.
  replace (x + 7) with (x - 1 + 1 * 8) by lia. rewrite Z.div_add by lia. lia.
Qed.

(** [wr cap m0 w E]: the writer [w], started on memory [m0] with capacity [cap],
    has emitted exactly the bits [E]. *)
Record wr (cap : Z) (m0 : list Z) (w : writer) (E : list bool) : Prop := mkWr {
  wr_len : length (w_mem w) = length m0;
  wr_bytes : is_bytes (w_mem w);
  wr_pos : 0 <= w_pos w;
  wr_bit : 0 <= w_bit w < 8;
  wr_olen : w_pos w + w_olen w = cap;
  wr_cap : cap <= lenZ m0;
  wr_bitlen : lenZ E = 8 * w_pos w + w_bit w;
  wr_fit : lenZ E <= 8 * cap;
  wr_bits : firstn (length E + Z.to_nat ((8 - w_bit w) mod 8)) (bytes_bits (w_mem w))
            = E ++ repeat false (Z.to_nat ((8 - w_bit w) mod 8));
  wr_frame : skipn (Z.to_nat cap) (w_mem w) = skipn (Z.to_nat cap) m0 }.

Lemma wr_firstn cap m0 w E : wr cap m0 w E -> firstn (length E) (bytes_bits (w_mem w)) = E.
Proof.
  intros H. rewrite <- (firstn_firstn_le _ (length E + Z.to_nat ((8 - w_bit w) mod 8))) by lia.
  rewrite (wr_bits _ _ _ _ H). now apply firstn_app_exact.
Qed.

Lemma wr_init cap m0 : is_bytes m0 -> 0 <= cap <= lenZ m0 -> wr cap m0 (mkWriter m0 0 cap 0) [].
Proof. intros. constructor; cbn [w_mem w_pos w_bit w_olen]; rewrite ?lenZ_nil; auto; lia. Qed.

(** The value written by one store: [b] old bits, [n] new bits, zeros. *)
Lemma store_value k b n byte d : 0 < k -> 0 <= b < 8 -> 1 <= n -> b + n <= 8 * k ->
  is_byte byte -> 0 <= d < 2 ^ n ->
  let o := Z.land byte (nth (Z.to_nat b) bmask 0) in
  let V := Z.lor (o * 2 ^ (8 * k - 8)) (d * 2 ^ (8 * k - (b + n))) in
  0 <= V < 2 ^ (8 * k) /\
  bits_of (Z.to_nat (8 * k)) V =
    firstn (Z.to_nat b) (bits_of 8 byte) ++ bits_of (Z.to_nat n) d
    ++ repeat false (Z.to_nat (8 * k - (b + n))).
Proof.
  intros Hk Hb Hn Hbn Hbyte Hd o V.
  assert (Ho : o = byte / 2 ^ (8 - b) * 2 ^ (8 - b)).
  { unfold o.
    assert (M : nth (Z.to_nat b) bmask 0 = Z.shiftl (2 ^ b - 1) (8 - b)).
    { assert (C : b = 0 \/ b = 1 \/ b = 2 \/ b = 3 \/ b = 4 \/ b = 5 \/ b = 6 \/ b = 7) by lia.
      destruct C as [-> | [-> | [-> | [-> | [-> | [-> | [-> | ->]]]]]]]; reflexivity. }
    rewrite M, land_shifted_mask by lia. f_equal. apply Z.mod_small.
    unfold is_byte in Hbyte. split. { apply Z.div_pos; [lia|apply pow2_pos; lia]. }
    apply Z.div_lt_upper_bound; [apply pow2_pos; lia|]. rewrite <- Z.pow_add_r by lia.
    replace (8 - b + b) with 8 by lia. lia. }
  set (t := byte / 2 ^ (8 - b)) in *.
  assert (Ht : 0 <= t < 2 ^ b).
  { unfold t, is_byte in *. split. { apply Z.div_pos; [lia|apply pow2_pos; lia]. }
    apply Z.div_lt_upper_bound; [apply pow2_pos; lia|]. rewrite <- Z.pow_add_r by lia.
    replace (8 - b + b) with 8 by lia. lia. }
  assert (HV : V = (t * 2 ^ n + d) * 2 ^ (8 * k - (b + n))).
  { unfold V. rewrite Ho.
    replace (t * 2 ^ (8 - b) * 2 ^ (8 * k - 8)) with (t * 2 ^ (8 * k - b)).
    2:{ rewrite <- Z.mul_assoc, <- Z.pow_add_r by lia. do 2 f_equal. lia. }
    replace (2 ^ (8 * k - b)) with (2 ^ n * 2 ^ (8 * k - (b + n))).
    2:{ rewrite <- Z.pow_add_r by lia. f_equal. lia. }
    rewrite (Z.mul_assoc t).
    rewrite <- !Z.shiftl_mul_pow2 with (n := 8 * k - (b + n)) by lia.
    rewrite <- Z.shiftl_lor. f_equal. now apply lor_disjoint; [lia|]. }
  assert (B1 : 0 <= t * 2 ^ n + d < 2 ^ (b + n)).
  { rewrite Z.pow_add_r by lia. pose proof (pow2_pos n). nia. }
  split.
  - rewrite HV. pose proof (pow2_pos (8 * k - (b + n))).
    replace (2 ^ (8 * k)) with (2 ^ (b + n) * 2 ^ (8 * k - (b + n))).
    2:{ rewrite <- Z.pow_add_r by lia. f_equal. lia. }
    split. { apply Z.mul_nonneg_nonneg; lia. } apply Z.mul_lt_mono_pos_r; lia.
  - rewrite HV.
    replace (Z.to_nat (8 * k)) with ((Z.to_nat b + Z.to_nat n) + Z.to_nat (8 * k - (b + n)))%nat by lia.
    replace (8 * k - (b + n)) with (Z.of_nat (Z.to_nat (8 * k - (b + n)))) at 2 by lia.
    rewrite <- (Z.add_0_r ((t * 2 ^ n + d) * _)).
    rewrite bits_of_concat by (pose proof (pow2_nat_pos (Z.to_nat (8 * k - (b + n)))); lia).
    rewrite bits_of_0.
    replace (2 ^ n) with (2 ^ Z.of_nat (Z.to_nat n)) by (f_equal; lia).
    rewrite bits_of_concat by (rewrite Z2Nat.id by lia; lia).
    rewrite <- app_assoc. f_equal.
    replace 8%nat with (Z.to_nat b + Z.to_nat (8 - b))%nat by lia.
    rewrite bits_of_app. rewrite firstn_app_exact by now rewrite bits_of_length.
    f_equal. unfold t. do 2 f_equal. lia.
Qed.

(** Effect of splicing [bs] on the bits of the memory. *)
Lemma splice_bits m i bs : (i + length bs <= length m)%nat ->
  firstn (8 * i + 8 * length bs) (bytes_bits (splice m i bs)) = firstn (8 * i) (bytes_bits m) ++ bytes_bits bs.
Proof.
  intros. replace (8 * i + 8 * length bs)%nat with (8 * (i + length bs))%nat by lia.
  rewrite <- bytes_bits_firstn, splice_written by auto.
  now rewrite bytes_bits_app, bytes_bits_firstn.
Qed.

Section Endian.
Variable e : endian.

(** A store of [k] bytes performing the append. *)
Lemma wr_store cap m0 w E k d n V :
  wr cap m0 w E -> 1 <= n -> 0 < k -> k <= w_olen w ->
  w_bit w + n <= 8 * k ->
  bits_of (Z.to_nat (8 * k)) V =
    firstn (Z.to_nat (w_bit w)) (bits_of 8 (nth (Z.to_nat (w_pos w)) (w_mem w) 0)) ++ bits_of (Z.to_nat n) d
    ++ repeat false (Z.to_nat (8 * k - (w_bit w + n))) ->
  let m := splice (w_mem w) (Z.to_nat (w_pos w)) (be_bytes (Z.to_nat k) V) in
  let bit' := w_bit w + n in
  wr cap m0 (mkWriter m (w_pos w + bit' / 8) (w_olen w - bit' / 8) (bit' mod 8)) (E ++ bits_of (Z.to_nat n) d).
Proof.
  intros H Hn Hk Hko Hbk HV m bit'.
  destruct H as [HL HB HP Hb HO HC HBL HF HBits HFr].
  assert (Hlen : (Z.to_nat (w_pos w) + length (be_bytes (Z.to_nat k) V) <= length (w_mem w))%nat).
  { rewrite be_bytes_length. unfold lenZ in *. lia. }
  pose proof (Z.div_mod bit' 8) as DM. pose proof (Z.mod_pos_bound bit' 8) as MB.
  assert (0 <= bit' / 8) by (apply Z.div_pos; unfold bit'; lia).
  assert (LE : lenZ (E ++ bits_of (Z.to_nat n) d) = lenZ E + n).
  { rewrite lenZ_app. unfold lenZ at 2. rewrite bits_of_length. lia. }
  constructor; cbn [w_mem w_pos w_bit w_olen]; auto; try lia.
  - unfold m. now rewrite splice_length.
  - apply splice_is_bytes; auto. apply be_bytes_is_bytes.
  - set (pd := Z.to_nat ((8 - bit' mod 8) mod 8)).
    assert (PD : Z.of_nat pd = (8 - bit' mod 8) mod 8).
    { unfold pd. pose proof (Z.mod_pos_bound (8 - bit' mod 8) 8). lia. }
    assert (PD2 : bit' + Z.of_nat pd <= 8 * k).
    { rewrite PD. destruct (Z.eq_dec (bit' mod 8) 0) as [E0|NE].
      - rewrite E0. change ((8 - 0) mod 8) with 0. unfold bit'; lia.
      - rewrite Z.mod_small by lia. unfold bit' in *. lia. }
    pose proof (splice_bits (w_mem w) (Z.to_nat (w_pos w)) (be_bytes (Z.to_nat k) V) Hlen) as SB.
    fold m in SB. rewrite be_bytes_length, bytes_bits_be_bytes in SB.
    replace (8 * Z.to_nat k)%nat with (Z.to_nat (8 * k)) in SB by lia. rewrite HV in SB.
    assert (EE : firstn (8 * Z.to_nat (w_pos w)) (bytes_bits (w_mem w)) ++
                 firstn (Z.to_nat (w_bit w)) (bits_of 8 (nth (Z.to_nat (w_pos w)) (w_mem w) 0)) = E).
    { assert (FE : firstn (length E) (bytes_bits (w_mem w)) = E).
      { rewrite <- (firstn_firstn_le _ (length E + Z.to_nat ((8 - w_bit w) mod 8))) by lia.
        rewrite HBits. now apply firstn_app_exact. }
      rewrite <- FE.
      replace (length E) with (8 * Z.to_nat (w_pos w) + Z.to_nat (w_bit w))%nat by (unfold lenZ in *; lia).
      rewrite firstn_slice. f_equal. unfold slice.
      rewrite <- bytes_bits_skipn.
      assert (IX : skipn (Z.to_nat (w_pos w)) (w_mem w)
               = nth (Z.to_nat (w_pos w)) (w_mem w) 0 :: skipn (S (Z.to_nat (w_pos w))) (w_mem w)).
      { assert (LL : (Z.to_nat (w_pos w) < length (w_mem w))%nat) by (unfold lenZ in *; lia).
        clear -LL. revert LL. generalize (Z.to_nat (w_pos w)) as i. generalize (w_mem w) as l.
        induction l; intros i Hi. { cbn in Hi; lia. } destruct i; auto. cbn [skipn nth]. rewrite IHl; auto.
        cbn in Hi; lia. }
      rewrite IX, bytes_bits_cons, firstn_app, bits_of_length.
      replace (Z.to_nat (w_bit w) - 8)%nat with 0%nat by lia. cbn [firstn]. now rewrite app_nil_r. }
    rewrite !app_assoc, EE in SB.
    assert (SPL : Z.to_nat (8 * k - (w_bit w + n)) = (pd + (Z.to_nat (8 * k - (w_bit w + n)) - pd))%nat)
      by (unfold bit' in *; lia).
    rewrite SPL, repeat_app, app_assoc in SB.
    apply (f_equal (firstn (length (E ++ bits_of (Z.to_nat n) d) + pd))) in SB.
    rewrite firstn_firstn_le in SB.
    2:{ unfold lenZ in *. lia. }
    rewrite SB. apply firstn_app_exact. rewrite !app_length, repeat_length. reflexivity.
  - unfold m. rewrite splice_skipn; auto. rewrite be_bytes_length. lia.
Qed.

Lemma add_bits_store_ok cap m0 w E d n :
  wr cap m0 w E -> 1 <= n -> 0 <= d < 2 ^ n ->
  let bits := w_bit w + n in
  bits <= 64 -> (bits + 7) / 8 <= w_olen w ->
  ~ (w_olen w < 8 /\ 32 < bits <= 56) -> ~ (w_olen w < 4 /\ 16 < bits <= 24) ->
  exists m, add_bits_store e (w_mem w) (w_pos w) (w_bit w) bits (round_up bits 8 - bits) d = Done m /\
    wr cap m0 (mkWriter m (w_pos w + bits / 8) (w_olen w - bits / 8) (bits mod 8)) (E ++ bits_of (Z.to_nat n) d).
Proof.
  intros H Hn Hd bits Hbits HO N1 N2.
  assert (Hw := H). destruct H as [HL HB HP Hb HOl HC HBL HF HBits HFr].
  unfold add_bits_store. rewrite round_up_8.
  assert (Q : bits = 8 * ((bits + 7) / 8) - (8 * ((bits + 7) / 8) - bits)) by lia.
  assert (D7 : 0 <= 8 * ((bits + 7) / 8) - bits < 8).
  { pose proof (Z.div_mod (bits + 7) 8). pose proof (Z.mod_pos_bound (bits + 7) 8). lia. }
  set (q := (bits + 7) / 8) in *. clearbody q.
  assert (Hq : 1 <= q) by (unfold bits in *; lia).
  assert (LM : lenZ (w_mem w) = lenZ m0) by (unfold lenZ; congruence).
  rewrite load8_ok by lia. rewrite bind_done.
  assert (PM : (Z.to_nat (w_pos w) < length (w_mem w))%nat) by (unfold lenZ in *; lia).
  rewrite (slice_1 _ _ 0) by auto.
  set (byte := nth (Z.to_nat (w_pos w)) (w_mem w) 0) in *.
  change (be_val [byte]) with byte.
  assert (Hbyte : is_byte byte) by (apply nth_is_byte; auto).
  rewrite aget_ok by (change (lenZ bmask) with 8; lia). rewrite bind_done.
  set (o := Z.land byte (nth (Z.to_nat (w_bit w)) bmask 0)).
  assert (Du : u64 (Z.shiftl d (8 * q - bits)) = d * 2 ^ (8 * q - bits)).
  { rewrite Z.shiftl_mul_pow2 by lia. unfold u64. apply Z.mod_small.
    split. { apply Z.mul_nonneg_nonneg; lia. }
    apply Z.lt_le_trans with (2 ^ n * 2 ^ (8 * q - bits)).
    { apply Z.mul_lt_mono_pos_r; [apply pow2_pos|]; lia. }
    rewrite <- Z.pow_add_r by lia. apply Z.pow_le_mono_r; unfold bits in *; lia. }
  rewrite Du.
  assert (FIN : forall k, 0 < k -> k <= w_olen w -> bits <= 8 * k ->
    let V := Z.lor (o * 2 ^ (8 * k - 8)) (d * 2 ^ (8 * k - bits)) in
    0 <= V < 2 ^ (8 * k) /\
    store_bytes (w_mem w) (w_pos w) (be_bytes (Z.to_nat k) V)
      = Done (splice (w_mem w) (Z.to_nat (w_pos w)) (be_bytes (Z.to_nat k) V)) /\
    wr cap m0 (mkWriter (splice (w_mem w) (Z.to_nat (w_pos w)) (be_bytes (Z.to_nat k) V))
                 (w_pos w + bits / 8) (w_olen w - bits / 8) (bits mod 8)) (E ++ bits_of (Z.to_nat n) d)).
  { intros k Hk Hko Hbk V.
    destruct (store_value k (w_bit w) n byte d) as [VB VV]; auto.
    split; [exact VB|split].
    - apply store_bytes_ok; auto. unfold lenZ at 1. rewrite be_bytes_length. unfold lenZ in *; lia.
    - apply wr_store; auto. }
  destruct (Z.leb_spec bits 8).
  { destruct (FIN 1) as (VB & ST & W); try lia.
    replace (u8 (Z.lor o (d * 2 ^ (8 * q - bits)))) with (Z.lor (o * 2 ^ (8 * 1 - 8)) (d * 2 ^ (8 * 1 - bits))).
    2:{ unfold u8. symmetry. replace q with 1 by lia.
        assert (X : Z.lor o (d * 2 ^ (8 * 1 - bits)) = Z.lor (o * 2 ^ (8 * 1 - 8)) (d * 2 ^ (8 * 1 - bits))).
        { f_equal. change (2 ^ (8 * 1 - 8)) with 1. lia. }
        rewrite X. apply Z.mod_small. exact VB. }
    unfold store8. set (V := Z.lor _ _) in *.
    assert (EV : [V] = be_bytes (Z.to_nat 1) V).
    { change (Z.to_nat 1) with 1%nat. cbn [be_bytes]. change (256 ^ Z.of_nat 0) with 1.
      rewrite Z.div_1_r, Z.mod_small by exact VB. reflexivity. }
    rewrite EV, ST. eauto. }
  destruct (Z.leb_spec bits 16).
  { destruct (FIN 2) as (VB & ST & W); try lia.
    unfold store16. rewrite native_swap16.
    replace (u16 (Z.lor (Z.shiftl o 8) (d * 2 ^ (8 * q - bits)))) with (Z.lor (o * 2 ^ (8 * 2 - 8)) (d * 2 ^ (8 * 2 - bits))).
    2:{ unfold u16. symmetry. replace q with 2 by lia. rewrite Z.shiftl_mul_pow2 by lia.
        apply Z.mod_small. exact VB. }
    change 2%nat with (Z.to_nat 2). rewrite ST. eauto. }
  destruct (Z.leb_spec bits 24).
  { destruct (FIN 4) as (VB & ST & W); try lia.
    unfold store32. rewrite native_swap32.
    replace (u32 (Z.lor (Z.shiftl o 24) (u64 (Z.shiftl (d * 2 ^ (8 * q - bits)) 8))))
       with (Z.lor (o * 2 ^ (8 * 4 - 8)) (d * 2 ^ (8 * 4 - bits))).
    2:{ unfold u32. symmetry. replace q with 3 by lia. rewrite !Z.shiftl_mul_pow2 by lia.
        assert (E1 : u64 (d * 2 ^ (8 * 3 - bits) * 2 ^ 8) = d * 2 ^ (8 * 4 - bits)).
        { rewrite <- Z.mul_assoc, <- Z.pow_add_r by lia. replace (8 * 3 - bits + 8) with (8 * 4 - bits) by lia.
          unfold u64. apply Z.mod_small. split. { apply Z.mul_nonneg_nonneg; lia. }
          apply Z.lt_le_trans with (2 ^ n * 2 ^ (8 * 4 - bits)).
          { apply Z.mul_lt_mono_pos_r; [apply pow2_pos|]; lia. }
          rewrite <- Z.pow_add_r by lia. apply Z.pow_le_mono_r; unfold bits in *; lia. }
        rewrite E1. apply Z.mod_small. exact VB. }
    change 4%nat with (Z.to_nat 4). rewrite ST. eauto. }
  destruct (Z.leb_spec bits 32).
  { destruct (FIN 4) as (VB & ST & W); try lia.
    unfold store32. rewrite native_swap32.
    replace (u32 (Z.lor (Z.shiftl o 24) (d * 2 ^ (8 * q - bits))))
       with (Z.lor (o * 2 ^ (8 * 4 - 8)) (d * 2 ^ (8 * 4 - bits))).
    2:{ unfold u32. symmetry. replace q with 4 by lia. rewrite Z.shiftl_mul_pow2 by lia.
        apply Z.mod_small. exact VB. }
    change 4%nat with (Z.to_nat 4). rewrite ST. eauto. }
  assert (FIN8 : forall c, 0 <= c -> 8 * q - bits + c = 8 * 8 - bits -> 8 <= w_olen w ->
    exists m, store64 e (w_mem w) (w_pos w) (swap_native_to_be64 e (u64 (Z.lor (Z.shiftl o 56) (Z.shiftl (d * 2 ^ (8 * q - bits)) c)))) = Done m /\
    wr cap m0 (mkWriter m (w_pos w + bits / 8) (w_olen w - bits / 8) (bits mod 8)) (E ++ bits_of (Z.to_nat n) d)).
  { intros c Hc Ec H8. destruct (FIN 8) as (VB & ST & W); try lia.
    unfold store64. rewrite native_swap64.
    replace (u64 (Z.lor (Z.shiftl o 56) (Z.shiftl (d * 2 ^ (8 * q - bits)) c)))
       with (Z.lor (o * 2 ^ (8 * 8 - 8)) (d * 2 ^ (8 * 8 - bits))).
    2:{ unfold u64. symmetry. rewrite !Z.shiftl_mul_pow2 by lia.
        rewrite <- Z.mul_assoc, <- Z.pow_add_r by lia. rewrite Ec. apply Z.mod_small. exact VB. }
    change 8%nat with (Z.to_nat 8) at 1. rewrite ST. eauto. }
  destruct (Z.leb_spec bits 40). { apply FIN8; lia. }
  destruct (Z.leb_spec bits 48). { apply FIN8; lia. }
  destruct (Z.leb_spec bits 56). { apply FIN8; lia. }
  destruct (FIN8 0) as (m & ST & W); try lia. rewrite Z.shiftl_0_r in ST. eauto.
Qed.

Definition add_ok (cap : Z) (m0 : list Z) (E : list bool) (d n : Z) (r : outcome (Z * writer)) : Prop :=
  (lenZ E + n <= 8 * cap /\ exists w', r = Done (0, w') /\ wr cap m0 w' (E ++ bits_of (Z.to_nat n) d)) \/
  (8 * cap < lenZ E + n /\ exists w' E', r = Done (- ENOSPC, w') /\ wr cap m0 w' E' /\
     lenZ E <= lenZ E' /\ 8 * cap < lenZ E' + n).

Definition fuel_bound (f : nat) : Z :=
  match f with 0%nat => 0 | 1%nat => 8 | 2%nat => 16 | 3%nat => 24 | 4%nat => 40 | 5%nat => 56 | _ => 64 end.

Lemma add_bits_f_ok f : forall cap m0 w E d n,
  wr cap m0 w E -> 1 <= n <= fuel_bound f -> 0 <= d < 2 ^ n ->
  add_ok cap m0 E d n (add_bits_f e f w d n).
Proof.
  induction f as [|f IH]; intros cap m0 w E d n Hw Hn Hd. { cbn in Hn; lia. }
  cbn [add_bits_f].
  assert (Hn64 : n <= 64) by (destruct f as [|[|[|[|[|[|f]]]]]]; cbn [fuel_bound] in Hn; lia).
  assert (Hb := wr_bit _ _ _ _ Hw).
  assert (SPLIT : forall s, 1 <= s < n -> s <= fuel_bound f -> n - s <= fuel_bound f ->
    add_ok cap m0 E d n
     (if n <=? s then Done (- EINVAL, w)
      else ' (ret, w1) <- add_bits_f e f w (Z.shiftr d s) (n - s);;
           (if negb (ret =? 0) then Done (ret, w1)
            else add_bits_f e f w1 (Z.land d (genmask_ull (s - 1) 0)) s))).
  { intros s Hs Hsf Hnsf. destruct (Z.leb_spec n s); [lia|].
    pose proof (pow2_pos s) as Ps.
    assert (H1 : 0 <= Z.shiftr d s < 2 ^ (n - s)).
    { rewrite Z.shiftr_div_pow2 by lia. split. { apply Z.div_pos; lia. }
      apply Z.div_lt_upper_bound; [lia|]. rewrite <- Z.pow_add_r by lia.
      replace (s + (n - s)) with n by lia. lia. }
    rewrite genmask_low, land_ones_mod by lia.
    assert (H2 : 0 <= d mod 2 ^ s < 2 ^ s) by (apply Z.mod_pos_bound; lia).
    assert (EB : bits_of (Z.to_nat n) d = bits_of (Z.to_nat (n - s)) (Z.shiftr d s) ++ bits_of (Z.to_nat s) (d mod 2 ^ s)).
    { replace (Z.to_nat n) with (Z.to_nat (n - s) + Z.to_nat s)%nat by lia.
      rewrite bits_of_app. rewrite bits_of_mod by lia. rewrite Z.shiftr_div_pow2 by lia.
      rewrite Z2Nat.id by lia. reflexivity. }
    destruct (IH cap m0 w E (Z.shiftr d s) (n - s) Hw ltac:(lia) H1)
      as [(F1 & w1 & -> & W1)|(F1 & w1 & E1 & -> & W1 & LE1 & R1)]; rewrite bind_done.
    - cbn [Z.eqb negb].
      assert (L1 : lenZ (E ++ bits_of (Z.to_nat (n - s)) (Z.shiftr d s)) = lenZ E + (n - s)).
      { rewrite lenZ_app. unfold lenZ at 2. rewrite bits_of_length. lia. }
      destruct (IH cap m0 w1 _ (d mod 2 ^ s) s W1 ltac:(lia) H2)
        as [(F2 & w2 & -> & W2)|(F2 & w2 & E2 & -> & W2 & LE2 & R2)].
      + left. split; [lia|]. exists w2. split; auto. now rewrite EB, app_assoc.
      + right. split; [lia|]. exists w2, E2. split; auto. split; auto. lia.
    - change (negb (- ENOSPC =? 0)) with true. cbv iota.
      right. split; [lia|]. exists w1, E1. split; auto. split; auto. lia. }
  assert (FINAL : w_bit w + n <= 64 -> ~ (w_olen w < 8 /\ 32 < w_bit w + n <= 56) ->
    ~ (w_olen w < 4 /\ 16 < w_bit w + n <= 24) ->
    add_ok cap m0 E d n
     (if div_round_up (w_bit w + n) 8 >? w_olen w then Done (- ENOSPC, w)
      else
        m <- add_bits_store e (w_mem w) (w_pos w) (w_bit w) (w_bit w + n) (round_up (w_bit w + n) 8 - (w_bit w + n)) d ;;
        (if w_bit w + n >? 7
         then Done (0, mkWriter m (w_pos w + (w_bit w + n) / 8) (w_olen w - (w_bit w + n) / 8) ((w_bit w + n) mod 8))
         else Done (0, mkWriter m (w_pos w) (w_olen w) (w_bit w + n))))).
  { intros C1 C2 C3. unfold div_round_up. replace (w_bit w + n + 8 - 1) with (w_bit w + n + 7) by lia.
    pose proof (wr_bitlen _ _ _ _ Hw) as BL. pose proof (wr_olen _ _ _ _ Hw) as OL.
    pose proof (Z.div_mod (w_bit w + n + 7) 8) as DM. pose proof (Z.mod_pos_bound (w_bit w + n + 7) 8) as MB.
    destruct (Z.gtb_spec ((w_bit w + n + 7) / 8) (w_olen w)) as [GT|LE'].
    - right; split; [lia|]. exists w, E. split; [reflexivity|]. split; [exact Hw|lia].
    - left. split; [lia|].
      destruct (add_bits_store_ok cap m0 w E d n Hw) as (m & -> & W); [lia|lia|lia|lia|lia|lia|].
      rewrite bind_done. destruct (Z.gtb_spec (w_bit w + n) 7) as [G7|L7].
      + eexists; split; [reflexivity|exact W].
      + assert (E1 : (w_bit w + n) / 8 = 0) by (apply Z.div_small; lia).
        assert (E2 : (w_bit w + n) mod 8 = w_bit w + n) by (apply Z.mod_small; lia).
        rewrite E1, E2, Z.add_0_r, Z.sub_0_r in W.
        eexists; split; [reflexivity|exact W]. }
  destruct (Z.gtb_spec n 64); [lia|].
  destruct (Z.gtb_spec (w_bit w + n) 64).
  { apply SPLIT; destruct f as [|[|[|[|[|[|f]]]]]]; cbn [fuel_bound] in *; lia. }
  destruct ((w_olen w <? 8) && (w_bit w + n >? 32) && (w_bit w + n <=? 56)) eqn:C1.
  { rewrite !andb_true_iff in C1. destruct C1 as [[C1 C2] C3]. apply Z.ltb_lt in C1. apply Z.gtb_lt in C2. apply Z.leb_le in C3.
    apply SPLIT; destruct f as [|[|[|[|[|[|f]]]]]]; cbn [fuel_bound] in *; lia. }
  destruct ((w_olen w <? 4) && (w_bit w + n >? 16) && (w_bit w + n <=? 24)) eqn:C2.
  { rewrite !andb_true_iff in C2. destruct C2 as [[C2 C3] C4]. apply Z.ltb_lt in C2. apply Z.gtb_lt in C3. apply Z.leb_le in C4.
    apply SPLIT; destruct f as [|[|[|[|[|[|f]]]]]]; cbn [fuel_bound] in *; lia. }
  apply FINAL; [lia| |]; intros X;
    [ assert (T : (w_olen w <? 8) && (w_bit w + n >? 32) && (w_bit w + n <=? 56) = true)
    | assert (T : (w_olen w <? 4) && (w_bit w + n >? 16) && (w_bit w + n <=? 24) = true) ];
    try congruence; rewrite !andb_true_iff, Z.ltb_lt, Z.gtb_lt, Z.leb_le; lia.
Qed.

Lemma add_bits_ok cap m0 w E d n :
  wr cap m0 w E -> 1 <= n <= 64 -> 0 <= d < 2 ^ n -> add_ok cap m0 E d n (add_bits e w d n).
Proof. intros. apply add_bits_f_ok; auto. Qed.
End Endian.
