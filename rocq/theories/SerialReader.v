(** next_bits reads exactly the next bits of the input. *)
From Coq Require Import ZArith List Bool Lia.
From Verif Require Import SpecBits SpecCrc Spec842 CBase BitsLemmas CrcModel CrcProofs
  SerialCompModel SerialDecompModel SerialWriter SerialDict SerialIdeal SerialValid PureDecoder.
Import ListNotations.
Open Scope Z_scope.

Record rd (inp : list Z) (r : reader) (bits : list bool) : Prop := mkRd {
  rd_pos : 0 <= r_pos r;
  rd_bit : 0 <= r_bit r < 8;
  rd_len : r_pos r + r_ilen r = lenZ inp;
  rd_fit : 8 * r_pos r + r_bit r <= 8 * lenZ inp;
  rd_bits : bits = skipn (Z.to_nat (8 * r_pos r + r_bit r)) (bytes_bits inp) }.

Lemma rd_init inp : rd inp (mkReader 0 0 (lenZ inp)) (bytes_bits inp).
Proof. pose proof (lenZ_nonneg inp). constructor; cbn [r_pos r_bit r_ilen]; try lia. reflexivity. Qed.
Lemma rd_length inp r bits : rd inp r bits -> lenZ bits = 8 * lenZ inp - (8 * r_pos r + r_bit r).
Proof.
  intros []. subst bits. unfold lenZ in *. rewrite skipn_length, bytes_bits_length. lia.
Qed.

(** Extracting [n] bits after [b] from a big-endian value of [k] bytes. *)
Lemma extract s b n : is_bytes s -> (b + n <= 8 * length s)%nat ->
  Z.shiftr (be_val s) (Z.of_nat (8 * length s - (b + n))) mod 2 ^ Z.of_nat n = val (slice b n (bytes_bits s)).
Proof.
  intros Hs Hb. rewrite be_val_val by auto. rewrite Z.shiftr_div_pow2 by lia.
  pose proof (bytes_bits_length s) as BL. set (l := bytes_bits s) in *.
  assert (E : l = firstn b l ++ slice b n l ++ skipn (b + n) l).
  { unfold slice. rewrite <- skipn_add. rewrite firstn_skipn. now rewrite firstn_skipn. }
  rewrite E at 1. rewrite !val_app.
  assert (LS : length (slice b n l) = n) by (apply slice_length; lia).
  rewrite app_length, LS, skipn_length. replace (8 * length s - (b + n))%nat with (length l - (b + n))%nat by lia.
  rewrite pow2_add, Z.mul_assoc, Z.add_assoc, <- Z.mul_add_distr_r.
  pose proof (val_bound (skipn (b + n) l)) as VB. rewrite skipn_length in VB.
  rewrite Z.div_add_l by (pose proof (pow2_nat_pos (length l - (b + n))); lia).
  rewrite (Z.div_small (val (skipn (b + n) l))) by lia. rewrite Z.add_0_r.
  rewrite Z.add_comm, Z.mod_add by (pose proof (pow2_nat_pos n); lia).
  apply Z.mod_small. pose proof (val_bound (slice b n l)) as V. now rewrite LS in V.
Qed.

Lemma slice_skipn {A} p n q (l : list A) : slice p n (skipn q l) = slice (q + p) n l.
Proof. unfold slice. now rewrite skipn_add. Qed.
Lemma bytes_bits_slice p n l : bytes_bits (slice p n l) = slice (8 * p) (8 * n) (bytes_bits l).
Proof. unfold slice. now rewrite bytes_bits_firstn, bytes_bits_skipn. Qed.
Lemma slice_slice' {A} p n q m (l : list A) : (q + m <= n)%nat -> slice q m (slice p n l) = slice (p + q) m l.
Proof.
  intros. unfold slice. rewrite skipn_firstn_comm, firstn_firstn_le by lia. now rewrite skipn_add.
Qed.

Section Endian.
Variable e : endian.
Variable inp : list Z.
Hypothesis Hinp : is_bytes inp.

Lemma next_bits_load_ok r bits n : rd inp r bits -> 1 <= n <= 64 -> r_bit r + n <= 64 ->
  (r_bit r + n + 7) / 8 <= r_ilen r -> ~ (r_ilen r < 8 /\ 32 < r_bit r + n <= 56) -> ~ (r_ilen r < 4 /\ 16 < r_bit r + n <= 24) ->
  next_bits_load e inp (r_pos r) (r_bit r + n) n = Done (val (firstn (Z.to_nat n) bits)).
Proof.
  intros Hr Hn Hb Hl C1 C2. destruct Hr as [P B L F E]. unfold next_bits_load.
  pose proof (Z.div_mod (r_bit r + n + 7) 8 ltac:(lia)) as DM. pose proof (Z.mod_pos_bound (r_bit r + n + 7) 8 ltac:(lia)) as MB.
  assert (G : forall k : nat, (0 < k)%nat -> r_bit r + n <= 8 * Z.of_nat k -> r_pos r + Z.of_nat k <= lenZ inp ->
     Z.land (Z.shiftr (be_val (slice (Z.to_nat (r_pos r)) k inp)) (8 * Z.of_nat k - (r_bit r + n))) (genmask_ull (n - 1) 0)
       = val (firstn (Z.to_nat n) bits)).
  { intros k Hk Hkb Hkl. rewrite genmask_low, land_ones_mod by lia.
    assert (LS : length (slice (Z.to_nat (r_pos r)) k inp) = k) by (apply slice_length; unfold lenZ in *; lia).
    pose proof (extract (slice (Z.to_nat (r_pos r)) k inp) (Z.to_nat (r_bit r)) (Z.to_nat n)) as X.
    rewrite LS in X. specialize (X (is_bytes_slice _ _ _ Hinp) ltac:(lia)).
    rewrite Z2Nat.id in X by lia.
    replace (Z.of_nat (8 * k - (Z.to_nat (r_bit r) + Z.to_nat n))) with (8 * Z.of_nat k - (r_bit r + n)) in X by lia.
    rewrite X. f_equal. rewrite bytes_bits_slice, slice_slice' by lia. subst bits. unfold slice. do 2 f_equal. lia. }
  destruct (Z.leb_spec (r_bit r + n) 8).
  { rewrite load8_ok by lia. rewrite !bind_done. now rewrite <- (G 1%nat) by lia. }
  destruct (Z.leb_spec (r_bit r + n) 16).
  { rewrite load16_ok by lia. rewrite !bind_done. rewrite swap_native16; [|apply slice_length; unfold lenZ in *; lia|now apply is_bytes_slice].
    now rewrite <- (G 2%nat) by lia. }
  destruct (Z.leb_spec (r_bit r + n) 32).
  { rewrite load32_ok by lia. rewrite !bind_done. rewrite swap_native32; [|apply slice_length; unfold lenZ in *; lia|now apply is_bytes_slice].
    now rewrite <- (G 4%nat) by lia. }
  rewrite load64_ok by lia. rewrite !bind_done. rewrite swap_native64; [|apply slice_length; unfold lenZ in *; lia|now apply is_bytes_slice].
  now rewrite <- (G 8%nat) by lia.
Qed.

Definition rd_res (bits : list bool) (n : Z) (res : outcome (Z * Z * reader)) : Prop :=
  match rdb (Z.to_nat n) bits with
  | Some (v, rest) => exists r', res = Done (0, v, r') /\ rd inp r' rest
  | None => exists r', res = Done (- EOVERFLOW, 0, r')
  end.

Lemma next_bits_f_ok f : forall r bits n, rd inp r bits -> 1 <= n <= fuel_bound f ->
  rd_res bits n (next_bits_f e f inp r n).
Proof.
  induction f as [|f IH]; intros r bits n Hr Hn. { cbn in Hn; lia. }
  cbn [next_bits_f].
  assert (Hn64 : n <= 64) by (destruct f as [|[|[|[|[|[|f]]]]]]; cbn [fuel_bound] in Hn; lia).
  pose proof (rd_bit _ _ _ Hr) as Hb. pose proof (rd_length _ _ _ Hr) as RL. pose proof (rd_len _ _ _ Hr) as Hl.
  assert (SPLIT : forall s, 1 <= s < n -> s <= fuel_bound f -> n - s <= fuel_bound f ->
    rd_res bits n
      (if n <=? s then Done (- EINVAL, 0, r)
       else '(ret, tmp, r1) <- next_bits_f e f inp r (n - s) ;;
        if negb (ret =? 0) then Done (ret, 0, r1)
        else '(ret, d, r2) <- next_bits_f e f inp r1 s ;;
          if negb (ret =? 0) then Done (ret, 0, r2)
          else Done (0, Z.lor d (u64 (Z.shiftl tmp s)), r2))).
  { intros s Hs Hsf Hnsf. destruct (Z.leb_spec n s); [lia|].
    pose proof (IH r bits (n - s) Hr ltac:(lia)) as I1. unfold rd_res in *.
    destruct (rdb (Z.to_nat (n - s)) bits) as [[t b1]|] eqn:R1.
    - destruct I1 as (r1 & -> & Hr1). rewrite bind_done. change (negb (0 =? 0)) with false. cbv iota.
      pose proof (IH r1 b1 s Hr1 ltac:(lia)) as I2.
      pose proof (rdb_len _ _ _ _ R1) as LB. apply rdb_some in R1. destruct R1 as [-> T].
      destruct (rdb (Z.to_nat s) b1) as [[d b2]|] eqn:R2.
      + destruct I2 as (r2 & -> & Hr2). rewrite bind_done. change (negb (0 =? 0)) with false. cbv iota.
        apply rdb_some in R2. destruct R2 as [-> DR]. rewrite Z2Nat.id in T, DR by lia.
        assert (PN : 2 ^ n = 2 ^ (n - s) * 2 ^ s) by (rewrite <- Z.pow_add_r by lia; f_equal; lia).
        pose proof (pow2_pos s ltac:(lia)) as PS.
        assert (E : Z.lor d (u64 (Z.shiftl t s)) = t * 2 ^ s + d).
        { rewrite Z.shiftl_mul_pow2 by lia. unfold u64. rewrite Z.mod_small.
          - rewrite Z.lor_comm. apply lor_disjoint; lia.
          - split; [nia|]. apply Z.lt_le_trans with (2 ^ n).
            + rewrite PN. nia.
            + apply Z.pow_le_mono_r; lia. }
        rewrite E. rewrite app_assoc.
        replace (bits_of (Z.to_nat (n - s)) t ++ bits_of (Z.to_nat s) d) with (bits_of (Z.to_nat n) (t * 2 ^ s + d)).
        2: { replace (Z.to_nat n) with (Z.to_nat (n - s) + Z.to_nat s)%nat by lia.
             replace (2 ^ s) with (2 ^ Z.of_nat (Z.to_nat s)) by (f_equal; lia).
             apply bits_of_concat. rewrite Z2Nat.id by lia. lia. }
        rewrite rdb_app. { eauto. }
        rewrite Z2Nat.id by lia. split; [nia|]. rewrite PN. nia.
      + destruct I2 as (r2 & ->). rewrite bind_done. change (negb (- EOVERFLOW =? 0)) with true. cbv iota.
        rewrite rdb_short. { eauto. }
        unfold rdb in R2. destruct (Nat.leb_spec (Z.to_nat s) (length b1)); [discriminate|]. lia.
    - destruct I1 as (r1 & ->). rewrite bind_done. change (negb (- EOVERFLOW =? 0)) with true. cbv iota.
      rewrite rdb_short. { eauto. }
      unfold rdb in R1. destruct (Nat.leb_spec (Z.to_nat (n - s)) (length bits)); [discriminate|]. lia. }
  assert (U : u8 (r_bit r + n) = r_bit r + n) by (unfold u8; apply Z.mod_small; lia). rewrite U.
  destruct (Z.gtb_spec n 64); [lia|].
  destruct (Z.gtb_spec (r_bit r + n) 64).
  { destruct f as [|[|[|[|[|[|f]]]]]]; cbn [fuel_bound] in *; try lia; apply SPLIT; lia. }
  destruct ((r_ilen r <? 8) && (r_bit r + n >? 32) && (r_bit r + n <=? 56)) eqn:Q2.
  { rewrite !andb_true_iff in Q2. destruct Q2 as [[Q1 Q2] Q3]. apply Z.ltb_lt in Q1. apply Z.gtb_lt in Q2. apply Z.leb_le in Q3.
    destruct f as [|[|[|[|[|[|f]]]]]]; cbn [fuel_bound] in *; try lia; apply SPLIT; lia. }
  destruct ((r_ilen r <? 4) && (r_bit r + n >? 16) && (r_bit r + n <=? 24)) eqn:Q3.
  { rewrite !andb_true_iff in Q3. destruct Q3 as [[R1 R2] R3]. apply Z.ltb_lt in R1. apply Z.gtb_lt in R2. apply Z.leb_le in R3.
    destruct f as [|[|[|[|[|[|f]]]]]]; cbn [fuel_bound] in *; try lia; apply SPLIT; lia. }
  assert (C2 : ~ (r_ilen r < 8 /\ 32 < r_bit r + n <= 56)).
  { intros [A1 A2]. apply Bool.not_true_iff_false in Q2. apply Q2. rewrite !andb_true_iff, Z.ltb_lt, Z.gtb_ltb, Z.ltb_lt, Z.leb_le. lia. }
  assert (C3 : ~ (r_ilen r < 4 /\ 16 < r_bit r + n <= 24)).
  { intros [A1 A2]. apply Bool.not_true_iff_false in Q3. apply Q3. rewrite !andb_true_iff, Z.ltb_lt, Z.gtb_ltb, Z.ltb_lt, Z.leb_le. lia. }
  unfold div_round_up. replace (r_bit r + n + 8 - 1) with (r_bit r + n + 7) by lia.
  pose proof (Z.div_mod (r_bit r + n + 7) 8 ltac:(lia)) as DM. pose proof (Z.mod_pos_bound (r_bit r + n + 7) 8 ltac:(lia)) as MB.
  unfold rd_res. destruct (Z.gtb_spec ((r_bit r + n + 7) / 8) (r_ilen r)) as [GT|LE].
  - rewrite rdb_short. { eauto. } unfold lenZ in RL at 1. lia.
  - rewrite (next_bits_load_ok r bits n Hr) by (auto; lia). rewrite bind_done.
    unfold rdb. destruct (Nat.leb_spec (Z.to_nat n) (length bits)) as [LL|LL]. 2: { unfold lenZ in RL at 1. lia. }
    pose proof (Z.div_mod (r_bit r + n) 8 ltac:(lia)) as DM2. pose proof (Z.mod_pos_bound (r_bit r + n) 8 ltac:(lia)) as MB2.
    destruct Hr as [P B L F E].
    assert (F' : 8 * r_pos r + r_bit r + n <= 8 * lenZ inp) by (unfold lenZ in RL at 1; lia).
    destruct (Z.gtb_spec (r_bit r + n) 7) as [G|G].
    + eexists. split; [reflexivity|]. constructor; cbn [r_pos r_bit r_ilen]; try lia.
      subst bits. rewrite skipn_add. f_equal. lia.
    + eexists. split; [reflexivity|]. constructor; cbn [r_pos r_bit r_ilen]; try lia.
      subst bits. rewrite skipn_add. f_equal. lia.
Qed.

Lemma next_bits_ok r bits n : rd inp r bits -> 1 <= n <= 64 -> rd_res bits n (next_bits e inp r n).
Proof. intros. now apply next_bits_f_ok. Qed.
End Endian.
