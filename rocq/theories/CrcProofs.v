(** Proofs about the CRC: algebra of the bit-serial CRC, correctness of the
    tables and of the sliced implementation. *)
From Coq Require Import ZArith List Bool Lia.
From Verif Require Import SpecBits SpecCrc CBase CrcTable CrcModel BitsLemmas.
Import ListNotations.
Open Scope Z_scope.

(** * Xor of bounded numbers *)
Lemma lxor_bound n a b : 0 <= n -> 0 <= a < 2 ^ n -> 0 <= b < 2 ^ n -> 0 <= Z.lxor a b < 2 ^ n.
Proof.
  intros Hn Ha Hb.
  assert (P : 0 <= Z.lxor a b) by (apply Z.lxor_nonneg; lia).
  split; auto.
  destruct (Z.eq_dec (Z.lxor a b) 0) as [->|NZ]. { apply pow2_pos; lia. }
  apply Z.log2_lt_pow2; [lia|].
  pose proof (Z.log2_lxor a b) as L.
  assert (forall x, 0 <= x < 2 ^ n -> Z.log2 x < n \/ x = 0).
  { intros x Hx. destruct (Z.eq_dec x 0); auto. left. apply Z.log2_lt_pow2; lia. }
  destruct (Z.eq_dec n 0) as [->|].
  { change (2 ^ 0) with 1 in *. assert (a = 0) by lia. assert (b = 0) by lia. subst. easy. }
  destruct (H a Ha) as [|E1], (H b Hb) as [|E2]; try lia.
  - subst b. change (Z.log2 0) with 0 in *. lia.
  - subst a. change (Z.log2 0) with 0 in *. lia.
  - subst. easy.
Qed.

Lemma lxor_mod a b n : 0 <= n -> Z.lxor a b mod 2 ^ n = Z.lxor (a mod 2 ^ n) (b mod 2 ^ n).
Proof.
  intros. apply Z.bits_inj'. intros i Hi. rewrite Z.lxor_spec.
  destruct (Z.lt_ge_cases i n).
  - rewrite !Z.mod_pow2_bits_low by lia. apply Z.lxor_spec.
  - rewrite !Z.mod_pow2_bits_high by lia. reflexivity.
Qed.

Lemma lxor_mul_pow2 a b n : 0 <= n -> Z.lxor (a * 2 ^ n) (b * 2 ^ n) = Z.lxor a b * 2 ^ n.
Proof. intros. rewrite <- !Z.shiftl_mul_pow2 by lia. symmetry. apply Z.shiftl_lxor. Qed.

(** Disjoint xor is addition. *)
Lemma lxor_disjoint a b k : 0 <= k -> 0 <= b < 2 ^ k -> Z.lxor (a * 2 ^ k) b = a * 2 ^ k + b.
Proof.
  intros Hk Hb. rewrite <- lor_disjoint by auto.
  apply Z.bits_inj'. intros i Hi. rewrite Z.lxor_spec, Z.lor_spec.
  rewrite <- Z.shiftl_mul_pow2, Z.shiftl_spec by lia.
  destruct (Z.lt_ge_cases i k).
  - rewrite Z.testbit_neg_r by lia. now destruct (Z.testbit b i).
  - assert (E : Z.testbit b i = false).
    { rewrite <- (Z.mod_small b (2 ^ k)) by lia. apply Z.mod_pow2_bits_high. lia. }
    rewrite E. now destruct (Z.testbit a (i - k)).
Qed.

(** * The shift register *)
Definition R (c : Z) : Prop := 0 <= c < 2 ^ 32.
Definition shift1 (c : Z) : Z := crc_step c false.
Fixpoint shiftn (n : nat) (c : Z) : Z := match n with O => c | S k => shiftn k (shift1 c) end.

Lemma shift1_eq c : shift1 c = Z.lxor ((2 * c) mod 2 ^ 32) (if Z.testbit c 31 then crc_poly else 0).
Proof.
  unfold shift1, crc_step. rewrite xorb_false_r. destruct (Z.testbit c 31); auto. now rewrite Z.lxor_0_r.
Qed.
Lemma crc_step_R c b : R (crc_step c b).
Proof.
  unfold R, crc_step. destruct (xorb _ _).
  - apply lxor_bound; try lia. apply Z.mod_pos_bound; lia. unfold crc_poly; lia.
  - apply Z.mod_pos_bound; lia.
Qed.
Lemma shift1_R c : R (shift1 c).
Proof. apply crc_step_R. Qed.
Lemma shiftn_R n c : R c -> R (shiftn n c).
Proof. revert c; induction n; cbn; auto. intros. apply IHn, shift1_R. Qed.

Lemma shift1_lxor a b : shift1 (Z.lxor a b) = Z.lxor (shift1 a) (shift1 b).
Proof.
  rewrite !shift1_eq, Z.lxor_spec.
  replace (2 * Z.lxor a b) with (Z.lxor (2 * a) (2 * b)).
  2:{ rewrite !(Z.mul_comm 2). change 2 with (2 ^ 1). now apply lxor_mul_pow2. }
  rewrite lxor_mod by lia.
  set (u := (2 * a) mod 2 ^ 32). set (v := (2 * b) mod 2 ^ 32).
  destruct (Z.testbit a 31), (Z.testbit b 31); cbn [xorb]; rewrite ?Z.lxor_0_r; auto.
  - rewrite (Z.lxor_assoc u crc_poly), (Z.lxor_comm crc_poly), !Z.lxor_assoc, Z.lxor_nilpotent, Z.lxor_0_r. auto.
  - now rewrite !Z.lxor_assoc, (Z.lxor_comm crc_poly).
  - now rewrite Z.lxor_assoc.
Qed.
Lemma shiftn_lxor n a b : shiftn n (Z.lxor a b) = Z.lxor (shiftn n a) (shiftn n b).
Proof. revert a b; induction n; cbn; auto. intros. now rewrite shift1_lxor, IHn. Qed.
Lemma shiftn_add n m c : shiftn (n + m) c = shiftn m (shiftn n c).
Proof. revert c; induction n; cbn; auto. Qed.

Lemma shift1_small c : 0 <= c < 2 ^ 31 -> shift1 c = 2 * c.
Proof.
  intros. rewrite shift1_eq.
  assert (Z.testbit c 31 = false).
  { rewrite <- (Z.mod_small c (2 ^ 31)) by lia. apply Z.mod_pow2_bits_high. lia. }
  rewrite H0, Z.lxor_0_r. apply Z.mod_small. lia.
Qed.
Lemma shiftn_small n c : (n <= 32)%nat -> 0 <= c < 2 ^ (32 - Z.of_nat n) -> shiftn n c = c * 2 ^ Z.of_nat n.
Proof.
  revert c. induction n; intros c Hn Hc.
  - cbn. lia.
  - cbn [shiftn]. assert (2 ^ (32 - Z.of_nat (S n)) <= 2 ^ 31) by (apply Z.pow_le_mono_r; lia).
    rewrite shift1_small by lia. rewrite IHn, pow2_S; [lia|lia|].
    replace (32 - Z.of_nat n) with (1 + (32 - Z.of_nat (S n))) by lia.
    rewrite Z.pow_add_r by lia. lia.
Qed.

(** Feeding a message bit is shifting after xoring it into the top bit. *)
Lemma crc_step_shift c b : R c -> crc_step c b = shift1 (Z.lxor c (Z.b2z b * 2 ^ 31)).
Proof.
  intros Hc. destruct b; cbn [Z.b2z].
  - unfold shift1, crc_step. rewrite xorb_true_r, xorb_false_r.
    rewrite Z.lxor_spec. change (Z.testbit (1 * 2 ^ 31) 31) with true. rewrite xorb_true_r.
    replace ((2 * Z.lxor c (1 * 2 ^ 31)) mod 2 ^ 32) with ((2 * c) mod 2 ^ 32). auto.
    replace (2 * Z.lxor c (1 * 2 ^ 31)) with (Z.lxor (c * 2 ^ 1) (1 * 2 ^ 31 * 2 ^ 1)).
    2:{ rewrite lxor_mul_pow2 by lia. lia. }
    rewrite lxor_mod by lia. change ((1 * 2 ^ 31 * 2 ^ 1) mod 2 ^ 32) with 0. rewrite Z.lxor_0_r.
    f_equal. lia.
  - rewrite Z.mul_0_l, Z.lxor_0_r. reflexivity.
Qed.

Lemma crc_bits_app c a b : crc_bits c (a ++ b) = crc_bits (crc_bits c a) b.
Proof. apply fold_left_app. Qed.
Lemma crc_bits_R c m : R c -> R (crc_bits c m).
Proof.
  revert c. induction m; cbn; auto. intros. apply IHm. apply crc_step_R.
Qed.

Lemma crc_bits_word n c v : (n <= 32)%nat -> R c -> 0 <= v < 2 ^ Z.of_nat n ->
  crc_bits c (bits_of n v) = shiftn n (Z.lxor c (v * 2 ^ (32 - Z.of_nat n))).
Proof.
  revert c v. induction n; intros c v Hn Hc Hv.
  - cbn in Hv. assert (v = 0) by lia. subst. cbn. now rewrite Z.lxor_0_r.
  - cbn [bits_of crc_bits fold_left shiftn]. fold (crc_bits (crc_step c (Z.testbit v (Z.of_nat n))) (bits_of n v)).
    pose proof (pow2_nat_pos n) as P. rewrite pow2_S in Hv.
    set (t := Z.testbit v (Z.of_nat n)). set (v' := v mod 2 ^ Z.of_nat n).
    assert (Hv' : 0 <= v' < 2 ^ Z.of_nat n) by (apply Z.mod_pos_bound; lia).
    assert (Ev : v = Z.b2z t * 2 ^ Z.of_nat n + v').
    { unfold t, v'. rewrite Z.testbit_spec' by lia.
      rewrite (Z.mod_small (v / _)).
      - rewrite (Z.div_mod v (2 ^ Z.of_nat n)) at 1 by lia. lia.
      - split. apply Z.div_pos; lia. apply Z.div_lt_upper_bound; lia. }
    rewrite <- (bits_of_mod n (Z.of_nat n) v) by lia. fold v'.
    rewrite IHn by (auto using crc_step_R; lia).
    rewrite crc_step_shift by auto. f_equal.
    replace (v * 2 ^ (32 - Z.of_nat (S n))) with (Z.lxor (Z.b2z t * 2 ^ 31) (v' * 2 ^ (32 - Z.of_nat (S n)))).
    + rewrite <- Z.lxor_assoc, (shift1_lxor (Z.lxor c _) (v' * _)). f_equal.
      assert (E32 : 2 ^ (32 - Z.of_nat n) = 2 * 2 ^ (32 - Z.of_nat (S n))).
      { replace (32 - Z.of_nat n) with (1 + (32 - Z.of_nat (S n))) by lia. rewrite Z.pow_add_r by lia. lia. }
      rewrite shift1_small, E32. lia.
      split. { apply Z.mul_nonneg_nonneg; try lia. }
      replace (2 ^ 31) with (2 ^ Z.of_nat n * 2 ^ (32 - Z.of_nat (S n))).
      2:{ rewrite <- Z.pow_add_r by lia. f_equal. lia. }
      apply Z.mul_lt_mono_pos_r; [apply pow2_pos; lia|lia].
    + replace (2 ^ 31) with (2 ^ Z.of_nat n * 2 ^ (32 - Z.of_nat (S n))).
      2:{ rewrite <- Z.pow_add_r by lia. f_equal. lia. }
      rewrite Z.mul_assoc, lxor_mul_pow2 by lia.
      rewrite lxor_disjoint by lia. now rewrite <- Ev.
Qed.

(** * Linearity over messages, used for error detection *)
Fixpoint xorl (a b : list bool) : list bool :=
  match a, b with
  | x :: a', y :: b' => xorb x y :: xorl a' b'
  | _, _ => []
  end.
Lemma crc_bits_lxor m n c d : length m = length n -> R c -> R d ->
  crc_bits (Z.lxor c d) (xorl m n) = Z.lxor (crc_bits c m) (crc_bits d n).
Proof.
  revert n c d. induction m as [|x m IH]; intros [|y n] c d HL Hc Hd; try discriminate; auto.
  cbn [xorl crc_bits fold_left].
  fold (crc_bits (crc_step (Z.lxor c d) (xorb x y)) (xorl m n)).
  fold (crc_bits (crc_step c x) m). fold (crc_bits (crc_step d y) n).
  rewrite <- IH by (auto using crc_step_R). f_equal.
  rewrite !crc_step_shift by (auto; apply lxor_bound; auto; lia).
  rewrite <- shift1_lxor. f_equal.
  replace (Z.b2z (xorb x y) * 2 ^ 31) with (Z.lxor (Z.b2z x * 2 ^ 31) (Z.b2z y * 2 ^ 31))
    by (destruct x, y; reflexivity).
  rewrite !Z.lxor_assoc. f_equal. rewrite <- !Z.lxor_assoc. f_equal. apply Z.lxor_comm.
Qed.

Lemma shift1_inj0 c : R c -> shift1 c = 0 -> c = 0.
Proof.
  intros Hc H. rewrite shift1_eq in H.
  destruct (Z.testbit c 31) eqn:T.
  - apply (f_equal (fun z => Z.testbit z 0)) in H. rewrite Z.lxor_spec, Z.bits_0 in H.
    rewrite Z.mod_pow2_bits_low in H by lia. rewrite Z.testbit_even_0 in H. discriminate.
  - rewrite Z.lxor_0_r in H.
    assert (c < 2 ^ 31).
    { destruct (Z.lt_ge_cases c (2 ^ 31)); auto. exfalso.
      assert (c / 2 ^ 31 = 1) by (symmetry; apply Z.div_unique with (r := c - 2 ^ 31); unfold R in Hc; lia).
      assert (Z.b2z (Z.testbit c 31) = 1) by (rewrite Z.testbit_spec' by lia; rewrite H1; reflexivity).
      rewrite T in H2. discriminate. }
    unfold R in Hc. rewrite Z.mod_small in H by lia. lia.
Qed.
Lemma shiftn_inj0 n c : R c -> shiftn n c = 0 -> c = 0.
Proof.
  revert c. induction n; cbn; auto. intros. apply shift1_inj0; auto. apply IHn; auto. apply shift1_R.
Qed.
Lemma crc_bits_zeros n c : R c -> crc_bits c (repeat false n) = shiftn n c.
Proof.
  revert c. induction n; cbn; auto. intros. now apply IHn, shift1_R.
Qed.
Lemma shiftn_0 n : shiftn n 0 = 0.
Proof. induction n; cbn; auto. Qed.

Lemma crc_burst_nonzero p b q : (length b <= 32)%nat -> In true b ->
  crc_bits 0 (repeat false p ++ b ++ repeat false q) <> 0.
Proof.
  intros HL HIn H.
  assert (R0 : R 0) by (unfold R; lia).
  rewrite !crc_bits_app, (crc_bits_zeros p), shiftn_0 in H by auto.
  rewrite crc_bits_zeros in H by now apply crc_bits_R.
  apply shiftn_inj0 in H; [|now apply crc_bits_R].
  rewrite <- (bits_of_val b) in H. pose proof (val_bound b) as VB.
  rewrite crc_bits_word in H by auto.
  rewrite Z.lxor_0_l in H.
  apply shiftn_inj0 in H.
  - apply Z.mul_eq_0_l in H; [|pose proof (pow2_pos (32 - Z.of_nat (length b))); lia].
    assert (b = repeat false (length b)).
    { apply val_inj. now rewrite repeat_length. rewrite H.
      rewrite <- bits_of_0, val_bits_of. now rewrite Z.mod_0_l by (pose proof (pow2_nat_pos (length b)); lia). }
    rewrite H0 in HIn. apply repeat_spec in HIn. discriminate.
  - unfold R. split. { apply Z.mul_nonneg_nonneg; [lia|]. apply Z.pow_nonneg; lia. }
    replace (2 ^ 32) with (2 ^ Z.of_nat (length b) * 2 ^ (32 - Z.of_nat (length b))).
    2:{ rewrite <- Z.pow_add_r by lia. f_equal. lia. }
    apply Z.mul_lt_mono_pos_r; [apply pow2_pos; lia|lia].
Qed.

(** * The tables *)
Definition tab (k : nat) (j : Z) : Z := nth (Z.to_nat j) (nth k crc32table_literal []) 0.

Definition bytes256 : list Z := map Z.of_nat (seq 0 256).
Lemma bytes256_in j : 0 <= j < 256 -> In j bytes256.
Proof.
  intros. unfold bytes256. apply in_map_iff. exists (Z.to_nat j). split. lia. apply in_seq. lia.
Qed.

Lemma tables_check_ok :
  forallb (fun k => forallb (fun j => tab k j =? shiftn (8 + 8 * k) (j * 2 ^ 24)) bytes256) (seq 0 8) = true.
Proof. vm_compute. reflexivity. Qed.

Lemma tab_spec k j : (k < 8)%nat -> 0 <= j < 256 -> tab k j = shiftn (8 + 8 * k) (j * 2 ^ 24).
Proof.
  intros Hk Hj. apply Z.eqb_eq.
  assert (I : In k (seq 0 8)) by (apply in_seq; lia).
  exact (proj1 (forallb_forall _ _) (proj1 (forallb_forall _ _) tables_check_ok k I) j (bytes256_in j Hj)).
Qed.

(** [tab k j] is also the shift by [8*(k+1+m)] of [j] placed [m] bytes lower. *)
Lemma tab_lower k m j : (k < 8)%nat -> (m <= 3)%nat -> 0 <= j < 256 ->
  tab k j = shiftn (8 + 8 * k + 8 * m) (j * 2 ^ (24 - 8 * Z.of_nat m)).
Proof.
  intros. rewrite tab_spec by auto.
  replace (8 + 8 * k + 8 * m)%nat with (8 * m + (8 + 8 * k))%nat by lia.
  rewrite (shiftn_add (8 * m)). apply (f_equal (shiftn (8 + 8 * k))).
  assert (P24 : 2 ^ 24 = 2 ^ (24 - 8 * Z.of_nat m) * 2 ^ Z.of_nat (8 * m)).
  { rewrite <- Z.pow_add_r by lia. f_equal. lia. }
  pose proof (pow2_pos (24 - 8 * Z.of_nat m) ltac:(lia)) as PP.
  rewrite shiftn_small; [rewrite P24; lia|lia|].
  split. { apply Z.mul_nonneg_nonneg; lia. }
  replace (32 - Z.of_nat (8 * m)) with (8 + (24 - 8 * Z.of_nat m)) by lia.
  rewrite Z.pow_add_r by lia. apply Z.mul_lt_mono_pos_r; lia.
Qed.

Lemma tab_R k j : (k < 8)%nat -> 0 <= j < 256 -> R (tab k j).
Proof. intros. rewrite tab_spec by auto. apply shiftn_R. unfold R. lia. Qed.

(** One word: a 32-bit value as four bytes. *)
Lemma word_bytes q : R q -> exists a b c d,
  is_byte a /\ is_byte b /\ is_byte c /\ is_byte d /\
  q = a * 2 ^ 24 + b * 2 ^ 16 + c * 2 ^ 8 + d.
Proof.
  unfold R. intros. exists (q / 2 ^ 24), ((q / 2 ^ 16) mod 2 ^ 8), ((q / 2 ^ 8) mod 2 ^ 8), (q mod 2 ^ 8).
  unfold is_byte. repeat split; try (apply Z.mod_pos_bound; lia); try (apply Z.div_pos; lia);
    try (apply Z.div_lt_upper_bound; lia).
  change (2 ^ 24) with (2 ^ 16 * 2 ^ 8). rewrite <- Z.div_div by lia.
  replace (q / 2 ^ 16) with (q / 2 ^ 8 / 2 ^ 8) by (rewrite Z.div_div by lia; reflexivity).
  pose proof (Z.div_mod q (2 ^ 8)). pose proof (Z.div_mod (q / 2 ^ 8) (2 ^ 8)).
  pose proof (Z.div_mod (q / 2 ^ 8 / 2 ^ 8) (2 ^ 8)). lia.
Qed.

Definition w4 (a b c d : Z) : Z := a * 2 ^ 24 + b * 2 ^ 16 + c * 2 ^ 8 + d.
Lemma w4_xor a b c d : is_byte a -> is_byte b -> is_byte c -> is_byte d ->
  w4 a b c d = Z.lxor (Z.lxor (Z.lxor (a * 2 ^ 24) (b * 2 ^ 16)) (c * 2 ^ 8)) d.
Proof.
  unfold is_byte, w4. intros.
  rewrite (lxor_disjoint a) by lia.
  replace (a * 2 ^ 24 + b * 2 ^ 16) with ((a * 2 ^ 8 + b) * 2 ^ 16) by lia.
  rewrite lxor_disjoint by lia.
  replace ((a * 2 ^ 8 + b) * 2 ^ 16 + c * 2 ^ 8) with ((a * 2 ^ 16 + b * 2 ^ 8 + c) * 2 ^ 8) by lia.
  rewrite lxor_disjoint by lia. lia.
Qed.
Lemma w4_R a b c d : is_byte a -> is_byte b -> is_byte c -> is_byte d -> R (w4 a b c d).
Proof. unfold is_byte, w4, R. lia. Qed.

(** Slicing: 32 and 64 shifts of a word are table lookups of its bytes. *)
Lemma shift32_tab a b c d : is_byte a -> is_byte b -> is_byte c -> is_byte d ->
  shiftn 32 (w4 a b c d) = Z.lxor (Z.lxor (Z.lxor (tab 3 a) (tab 2 b)) (tab 1 c)) (tab 0 d).
Proof.
  intros Ha Hb Hc Hd. rewrite w4_xor by auto. rewrite !shiftn_lxor.
  rewrite (tab_lower 3 0 a), (tab_lower 2 1 b), (tab_lower 1 2 c), (tab_lower 0 3 d) by (auto; lia).
  change (24 - 8 * Z.of_nat 0) with 24. change (24 - 8 * Z.of_nat 1) with 16.
  change (24 - 8 * Z.of_nat 2) with 8. change (24 - 8 * Z.of_nat 3) with 0.
  rewrite Z.pow_0_r, Z.mul_1_r. reflexivity.
Qed.
Lemma shift64_tab a b c d : is_byte a -> is_byte b -> is_byte c -> is_byte d ->
  shiftn 64 (w4 a b c d) = Z.lxor (Z.lxor (Z.lxor (tab 7 a) (tab 6 b)) (tab 5 c)) (tab 4 d).
Proof.
  intros Ha Hb Hc Hd. rewrite w4_xor by auto. rewrite !shiftn_lxor.
  rewrite (tab_lower 7 0 a), (tab_lower 6 1 b), (tab_lower 5 2 c), (tab_lower 4 3 d) by (auto; lia).
  change (24 - 8 * Z.of_nat 0) with 24. change (24 - 8 * Z.of_nat 1) with 16.
  change (24 - 8 * Z.of_nat 2) with 8. change (24 - 8 * Z.of_nat 3) with 0.
  rewrite Z.pow_0_r, Z.mul_1_r. reflexivity.
Qed.

(** * Byte swapping of words *)
Lemma swap32_w4 a b c d : is_byte a -> is_byte b -> is_byte c -> is_byte d ->
  swap_endianness32 (w4 a b c d) = w4 d c b a.
Proof.
  intros. rewrite swap32_spec.
  assert (E : w4 a b c d = be_val [a; b; c; d]).
  { rewrite !be_val_cons. unfold lenZ, w4. cbn [be_val fold_left length].
    change (256 ^ Z.of_nat 0) with 1. change (256 ^ Z.of_nat 1) with (2 ^ 8).
    change (256 ^ Z.of_nat 2) with (2 ^ 16). change (256 ^ Z.of_nat 3) with (2 ^ 24). lia. }
  rewrite E. change 4%nat with (length [a; b; c; d]). rewrite be_bytes_be_val.
  2:{ repeat (apply Forall_cons; [assumption|]); apply Forall_nil. }
  cbn [rev app]. rewrite !be_val_cons. unfold lenZ, w4. cbn [be_val fold_left length].
  change (256 ^ Z.of_nat 0) with 1. change (256 ^ Z.of_nat 1) with (2 ^ 8).
  change (256 ^ Z.of_nat 2) with (2 ^ 16). change (256 ^ Z.of_nat 3) with (2 ^ 24). lia.
Qed.
Lemma swap32_R x : R x -> R (swap_endianness32 x).
Proof.
  intros H. destruct (word_bytes x H) as (a & b & c & d & Ha & Hb & Hc & Hd & ->).
  fold (w4 a b c d). rewrite swap32_w4 by auto. now apply w4_R.
Qed.
Lemma w4_lxor a b c d a' b' c' d' : is_byte a -> is_byte b -> is_byte c -> is_byte d ->
  is_byte a' -> is_byte b' -> is_byte c' -> is_byte d' ->
  Z.lxor (w4 a b c d) (w4 a' b' c' d') = w4 (Z.lxor a a') (Z.lxor b b') (Z.lxor c c') (Z.lxor d d').
Proof.
  intros. assert (forall x y, is_byte x -> is_byte y -> is_byte (Z.lxor x y))
    by (intros; apply (lxor_bound 8); auto; lia).
  rewrite !w4_xor by auto. rewrite <- !lxor_mul_pow2 by lia.
  apply Z.bits_inj'. intros i Hi. rewrite !Z.lxor_spec.
  repeat match goal with |- context [Z.testbit ?x i] => destruct (Z.testbit x i) end; reflexivity.
Qed.
Lemma swap32_lxor x y : R x -> R y ->
  swap_endianness32 (Z.lxor x y) = Z.lxor (swap_endianness32 x) (swap_endianness32 y).
Proof.
  intros Hx Hy.
  destruct (word_bytes x Hx) as (a & b & c & d & Ha & Hb & Hc & Hd & ->).
  destruct (word_bytes y Hy) as (a' & b' & c' & d' & Ha' & Hb' & Hc' & Hd' & ->).
  fold (w4 a b c d). fold (w4 a' b' c' d').
  rewrite w4_lxor by auto.
  assert (X : forall x y, is_byte x -> is_byte y -> is_byte (Z.lxor x y))
    by (intros; apply (lxor_bound 8); auto; lia).
  rewrite !swap32_w4 by auto. now rewrite w4_lxor.
Qed.

(** The register as the code keeps it: byte-swapped on little-endian hosts. *)
Definition reg (e : endian) (c : Z) : Z := swap_be_to_native32 e c.
Lemma reg_R e c : R c -> R (reg e c).
Proof. destruct e; cbn; auto. apply swap32_R. Qed.
Lemma reg_lxor e x y : R x -> R y -> reg e (Z.lxor x y) = Z.lxor (reg e x) (reg e y).
Proof. destruct e; cbn; auto. apply swap32_lxor. Qed.
Lemma reg_invol e x : R x -> swap_be_to_native32 e (reg e x) = x.
Proof.
  destruct e; cbn; auto. intros H.
  destruct (word_bytes x H) as (a & b & c & d & Ha & Hb & Hc & Hd & ->). fold (w4 a b c d).
  now rewrite !swap32_w4.
Qed.
Lemma tobe_reg e x : tobe e x = reg e x.
Proof. destruct e; reflexivity. Qed.

Lemma crc_tab_spec e k j i : is_byte j -> Z.land i 255 = j -> crc_tab e k i = reg e (tab k j).
Proof. intros Hj E. unfold crc_tab. rewrite E, tobe_reg. reflexivity. Qed.

Lemma land255 x : Z.land x 255 = x mod 2 ^ 8.
Proof. change 255 with (2 ^ 8 - 1). apply land_ones_mod. lia. Qed.

Lemma w4_land a b c d : is_byte d -> Z.land (w4 a b c d) 255 = d.
Proof.
  intros. rewrite land255. unfold w4, is_byte in *.
  replace (a * 2 ^ 24 + b * 2 ^ 16 + c * 2 ^ 8 + d) with (d + (a * 2 ^ 16 + b * 2 ^ 8 + c) * 2 ^ 8) by lia.
  rewrite Z.mod_add by lia. apply Z.mod_small. lia.
Qed.
Lemma w4_shiftr8 a b c d : is_byte d -> Z.shiftr (w4 a b c d) 8 = w4 0 a b c.
Proof.
  intros. rewrite Z.shiftr_div_pow2 by lia. unfold w4, is_byte in *.
  replace (a * 2 ^ 24 + b * 2 ^ 16 + c * 2 ^ 8 + d) with ((a * 2 ^ 16 + b * 2 ^ 8 + c) * 2 ^ 8 + d) by lia.
  rewrite Z.div_add_l, Z.div_small by lia. lia.
Qed.
Lemma w4_shiftr16 a b c d : is_byte c -> is_byte d -> Z.shiftr (w4 a b c d) 16 = w4 0 0 a b.
Proof.
  intros. replace 16 with (8 + 8) by lia. rewrite <- Z.shiftr_shiftr by lia. now rewrite !w4_shiftr8.
Qed.
Lemma w4_shiftr24 a b c d : is_byte b -> is_byte c -> is_byte d -> Z.shiftr (w4 a b c d) 24 = w4 0 0 0 a.
Proof.
  intros. replace 24 with (16 + 8) by lia. rewrite <- Z.shiftr_shiftr by lia.
  rewrite w4_shiftr16, w4_shiftr8 by auto. reflexivity.
Qed.

(** * The steps of the code *)
Lemma do_crc_spec e C b : R C -> is_byte b ->
  do_crc e (reg e C) b = reg e (crc_bits C (bits_of 8 b)).
Proof.
  intros HC Hb.
  destruct (word_bytes C HC) as (a & b1 & c & d & Ha & Hb1 & Hc & Hd & ->). fold (w4 a b1 c d) in *.
  assert (X : is_byte (Z.lxor a b)) by (apply (lxor_bound 8); auto; lia).
  assert (Z0 : is_byte 0) by (unfold is_byte; lia).
  assert (E : crc_bits (w4 a b1 c d) (bits_of 8 b) = Z.lxor (tab 0 (Z.lxor a b)) (w4 b1 c d 0)).
  { rewrite crc_bits_word by (auto; lia). change (32 - Z.of_nat 8) with 24.
    replace (b * 2 ^ 24) with (w4 b 0 0 0) by (unfold w4; lia).
    rewrite w4_lxor by auto. rewrite !Z.lxor_0_r.
    replace (w4 (Z.lxor a b) b1 c d) with (Z.lxor (Z.lxor a b * 2 ^ 24) (w4 0 b1 c d)).
    2:{ rewrite lxor_disjoint by (unfold w4, is_byte in *; lia). unfold w4; lia. }
    rewrite shiftn_lxor. rewrite (tab_spec 0) by (auto; lia). f_equal.
    rewrite shiftn_small. unfold w4; change (Z.of_nat 8) with 8; lia. lia. unfold w4, is_byte in *; change (Z.of_nat 8) with 8; lia. }
  rewrite E. rewrite reg_lxor by (try apply tab_R; auto using w4_R; lia).
  destruct e; cbn [do_crc reg swap_be_to_native32].
  - rewrite !swap32_w4 by auto. rewrite w4_shiftr8 by auto.
    rewrite (crc_tab_spec LE 0 (Z.lxor a b)); auto.
    rewrite land255, lxor_mod by lia. rewrite <- land255, w4_land by auto.
    rewrite Z.mod_small; auto.
  - rewrite w4_shiftr24 by auto.
    rewrite (crc_tab_spec BE 0 (Z.lxor a b)); auto.
    + cbn [reg swap_be_to_native32]. f_equal. rewrite Z.shiftl_mul_pow2 by lia. unfold u32, w4, is_byte in *.
      replace ((a * 2 ^ 24 + b1 * 2 ^ 16 + c * 2 ^ 8 + d) * 2 ^ 8)
        with (b1 * 2 ^ 24 + c * 2 ^ 16 + d * 2 ^ 8 + 0 + a * 2 ^ 32) by lia.
      rewrite Z.mod_add by lia. apply Z.mod_small. lia.
    + rewrite land255, lxor_mod by lia. rewrite <- land255, w4_land by auto.
      rewrite Z.mod_small; auto.
Qed.

Lemma do_crc4_spec e q : R q -> do_crc4 e (reg e q) = reg e (shiftn 32 q).
Proof.
  intros HC.
  destruct (word_bytes q HC) as (a & b & c & d & Ha & Hb & Hc & Hd & ->). fold (w4 a b c d) in *.
  rewrite shift32_tab by auto.
  assert (T : forall k j, (k < 8)%nat -> is_byte j -> R (tab k j)) by (intros; apply tab_R; auto).
  assert (L : forall x y, R x -> R y -> R (Z.lxor x y)) by (intros; apply lxor_bound; auto; lia).
  rewrite !reg_lxor by (repeat apply L; apply T; auto; lia).
  destruct e; cbn [do_crc4 reg swap_be_to_native32].
  - rewrite swap32_w4 by auto. rewrite w4_shiftr8, w4_shiftr16, w4_shiftr24 by auto.
    rewrite (crc_tab_spec LE 3 a), (crc_tab_spec LE 2 b), (crc_tab_spec LE 1 c), (crc_tab_spec LE 0 d)
      by (auto using w4_land). reflexivity.
  - rewrite w4_shiftr8, w4_shiftr16, w4_shiftr24 by auto.
    rewrite (crc_tab_spec BE 3 a), (crc_tab_spec BE 2 b), (crc_tab_spec BE 1 c), (crc_tab_spec BE 0 d)
      by (auto using w4_land). cbn [reg swap_be_to_native32].
    apply Z.bits_inj'. intros i Hi. rewrite !Z.lxor_spec.
    repeat match goal with |- context [Z.testbit ?x i] => destruct (Z.testbit x i) end; reflexivity.
Qed.
Lemma do_crc8_spec e q : R q -> do_crc8 e (reg e q) = reg e (shiftn 64 q).
Proof.
  intros HC.
  destruct (word_bytes q HC) as (a & b & c & d & Ha & Hb & Hc & Hd & ->). fold (w4 a b c d) in *.
  rewrite shift64_tab by auto.
  assert (T : forall k j, (k < 8)%nat -> is_byte j -> R (tab k j)) by (intros; apply tab_R; auto).
  assert (L : forall x y, R x -> R y -> R (Z.lxor x y)) by (intros; apply lxor_bound; auto; lia).
  rewrite !reg_lxor by (repeat apply L; apply T; auto; lia).
  destruct e; cbn [do_crc8 reg swap_be_to_native32].
  - rewrite swap32_w4 by auto. rewrite w4_shiftr8, w4_shiftr16, w4_shiftr24 by auto.
    rewrite (crc_tab_spec LE 7 a), (crc_tab_spec LE 6 b), (crc_tab_spec LE 5 c), (crc_tab_spec LE 4 d)
      by (auto using w4_land). reflexivity.
  - rewrite w4_shiftr8, w4_shiftr16, w4_shiftr24 by auto.
    rewrite (crc_tab_spec BE 7 a), (crc_tab_spec BE 6 b), (crc_tab_spec BE 5 c), (crc_tab_spec BE 4 d)
      by (auto using w4_land). cbn [reg swap_be_to_native32].
    apply Z.bits_inj'. intros i Hi. rewrite !Z.lxor_spec.
    repeat match goal with |- context [Z.testbit ?x i] => destruct (Z.testbit x i) end; reflexivity.
Qed.

(** * The whole function *)
Lemma slice_S {A} p n (l : list A) d : (p + n < length l)%nat -> slice p (S n) l = slice p n l ++ [nth (p + n) l d].
Proof.
  intros. unfold slice. rewrite <- (nth_skipn_gen p n).
  assert (n < length (skipn p l))%nat by (rewrite skipn_length; lia).
  generalize dependent (skipn p l). clear. intros l. revert n. induction l; intros n Hn. { cbn in Hn; lia. }
  destruct n; auto. cbn [firstn]. cbn [app nth]. f_equal. apply IHl. cbn in Hn. lia.
Qed.
Lemma slice_plus {A} p n m (l : list A) : slice p (n + m) l = slice p n l ++ slice (p + n) m l.
Proof.
  unfold slice. rewrite <- skipn_add. generalize (skipn p l). clear. intros l.
  revert l. induction n; intros; auto. destruct l. { cbn. now rewrite firstn_nil. }
  cbn [plus firstn skipn app]. f_equal. apply IHn.
Qed.
Lemma slice_1 {A} p (l : list A) d : (p < length l)%nat -> slice p 1 l = [nth p l d].
Proof. intros. rewrite (slice_S p 0 l d) by lia. cbn. now rewrite Nat.add_0_r. Qed.
Lemma nth_is_byte l i : is_bytes l -> (i < length l)%nat -> is_byte (nth i l 0).
Proof. intros H Hi. unfold is_bytes in H. rewrite Forall_forall in H. apply H, nth_In, Hi. Qed.
Lemma firstn_slice {A} n m (l : list A) : firstn (n + m) l = firstn n l ++ slice n m l.
Proof. change (firstn (n + m) l) with (slice 0 (n + m) l). rewrite slice_plus. reflexivity. Qed.

Definition crc_pre (buf : list Z) (i : Z) : Z := crc32 (firstn (Z.to_nat i) buf).
Lemma crc_pre_R buf i : R (crc_pre buf i).
Proof. apply crc_bits_R. unfold R; lia. Qed.
Lemma crc_pre_step buf i k : 0 <= i -> 0 <= k ->
  crc_pre buf (i + k) = crc_bits (crc_pre buf i) (bytes_bits (slice (Z.to_nat i) (Z.to_nat k) buf)).
Proof.
  intros. unfold crc_pre, crc32. rewrite Z2Nat.inj_add, firstn_slice, bytes_bits_app, crc_bits_app by lia.
  reflexivity.
Qed.

Opaque shiftn crc_bits.
Section Crc.
Variables (e : endian) (buf : list Z).
Hypothesis Hbuf : is_bytes buf.

Lemma crc_byte_step i : 0 <= i < lenZ buf ->
  load8 buf i = Done (nth (Z.to_nat i) buf 0) /\
  do_crc e (reg e (crc_pre buf i)) (nth (Z.to_nat i) buf 0) = reg e (crc_pre buf (i + 1)).
Proof.
  intros Hi. unfold lenZ in Hi.
  split.
  - rewrite load8_ok by (unfold lenZ; lia). rewrite (slice_1 _ _ 0) by lia. reflexivity.
  - rewrite do_crc_spec. 2: apply crc_pre_R. 2: apply nth_is_byte; auto; lia.
    rewrite crc_pre_step by lia. change (Z.to_nat 1) with 1%nat. rewrite (slice_1 _ _ 0) by lia.
    cbn [bytes_bits flat_map]. now rewrite app_nil_r.
Qed.

Lemma crc_tail_spec k i : 0 <= i -> i + Z.of_nat k <= lenZ buf ->
  crc_tail k e buf (reg e (crc_pre buf i)) i = Done (reg e (crc_pre buf (i + Z.of_nat k))).
Proof.
  revert i. induction k; intros i H0 H1.
  - cbn. do 3 f_equal. lia.
  - cbn [crc_tail]. destruct (crc_byte_step i) as [-> E]; [lia|]. rewrite bind_done, E, IHk by lia.
    do 3 f_equal. lia.
Qed.

Lemma crc_prologue_spec addr k i len : 0 <= i -> 0 <= len -> i + len <= lenZ buf ->
  Z.of_nat k >= (- (addr + i)) mod 4 ->
  exists i' len', crc_prologue k e addr buf (reg e (crc_pre buf i)) i len
    = Done (reg e (crc_pre buf i'), i', len') /\ 0 <= i' /\ 0 <= len' /\ i' + len' = i + len.
Proof.
  revert i len. induction k; intros i len Hi Hl Hb Hk.
  - cbn [crc_prologue].
    assert ((addr + i) mod 4 = 0) by (pose proof (Z.mod_pos_bound (-(addr + i)) 4); pose proof (Z.div_mod (-(addr+i)) 4);
      pose proof (Z.mod_pos_bound (addr + i) 4); pose proof (Z.div_mod (addr+i) 4); lia).
    change 3 with (2 ^ 2 - 1). rewrite land_ones_mod by lia. change (2 ^ 2) with 4. rewrite H.
    cbn [Z.eqb negb andb]. eauto 10.
  - cbn [crc_prologue]. change 3 with (2 ^ 2 - 1). rewrite land_ones_mod by lia. change (2 ^ 2) with 4.
    destruct (Z.eqb_spec ((addr + i) mod 4) 0) as [E|NE]; cbn [negb andb]. { eauto 10. }
    destruct (Z.eqb_spec len 0); cbn [negb]. { eauto 10. }
    destruct (crc_byte_step i) as [-> E]; [lia|]. rewrite bind_done, E.
    destruct (IHk (i + 1) (len - 1)) as (i' & len' & -> & ?); try lia.
    + pose proof (Z.mod_pos_bound (-(addr + i)) 4). pose proof (Z.div_mod (-(addr+i)) 4).
      pose proof (Z.mod_pos_bound (addr + i) 4). pose proof (Z.div_mod (addr+i) 4).
      pose proof (Z.mod_pos_bound (-(addr + (i+1))) 4). pose proof (Z.div_mod (-(addr+(i+1))) 4). lia.
    + exists i', len'. split; auto. lia.
Qed.

Lemma load32_reg i : 0 <= i -> i + 4 <= lenZ buf ->
  exists w, load32 e buf i = Done (reg e w) /\ R w /\ bytes_bits (slice (Z.to_nat i) 4 buf) = bits_of 32 w.
Proof.
  intros. rewrite load32_ok by lia.
  assert (L : length (slice (Z.to_nat i) 4 buf) = 4%nat) by (apply slice_length; unfold lenZ in *; lia).
  assert (B : is_bytes (slice (Z.to_nat i) 4 buf)) by now apply is_bytes_slice.
  exists (be_val (slice (Z.to_nat i) 4 buf)).
  assert (RR : R (be_val (slice (Z.to_nat i) 4 buf))).
  { unfold R. pose proof (be_val_bound _ B) as BB. unfold lenZ in BB. rewrite L in BB. exact BB. }
  split; [|split]; auto.
  - f_equal. destruct e; cbn [native_val reg swap_be_to_native32]; auto.
    rewrite swap32_spec. pose proof (be_bytes_be_val _ B) as X. rewrite L in X. now rewrite X.
  - rewrite <- bits_of_be_val by auto. now rewrite L.
Qed.

Lemma crc_body_spec k i : 0 <= i -> i + 8 * Z.of_nat k <= lenZ buf ->
  crc_body k e buf (reg e (crc_pre buf i)) i
  = Done (reg e (crc_pre buf (i + 8 * Z.of_nat k)), i + 8 * Z.of_nat k).
Proof.
  revert i. induction k; intros i H0 H1.
  - cbn [crc_body]. replace (i + 8 * Z.of_nat 0) with i by lia. reflexivity.
  - cbn [crc_body].
    destruct (load32_reg i) as (w1 & -> & R1 & B1); [lia|lia|]. rewrite bind_done.
    destruct (load32_reg (i + 4)) as (w2 & -> & R2 & B2); [lia|lia|]. rewrite bind_done.
    assert (RP := crc_pre_R buf i).
    rewrite <- reg_lxor by auto.
    assert (RX : R (Z.lxor (crc_pre buf i) w1)) by (apply lxor_bound; auto; lia).
    rewrite do_crc8_spec, do_crc4_spec by auto.
    rewrite <- reg_lxor by (apply shiftn_R; auto).
    assert (E : Z.lxor (shiftn 64 (Z.lxor (crc_pre buf i) w1)) (shiftn 32 w2) = crc_pre buf (i + 8)).
    { replace (i + 8) with ((i + 4) + 4) by lia. rewrite crc_pre_step by lia.
      rewrite (crc_pre_step buf i 4) by lia. change (Z.to_nat 4) with 4%nat. rewrite B1, B2.
      rewrite (crc_bits_word 32 (crc_pre buf i)) by (auto; lia).
      change (32 - Z.of_nat 32) with 0. rewrite Z.pow_0_r, Z.mul_1_r.
      assert (RS := shiftn_R 32 _ RX).
      rewrite (crc_bits_word 32 (shiftn 32 (Z.lxor (crc_pre buf i) w1)) w2 ltac:(lia) RS R2).
      change (32 - Z.of_nat 32) with 0. rewrite Z.pow_0_r, Z.mul_1_r.
      rewrite (shiftn_lxor 32 (shiftn 32 _) w2).
      rewrite <- (shiftn_add 32 32). reflexivity. }
    rewrite E. rewrite IHk by lia.
    replace (i + 8 + 8 * Z.of_nat k) with (i + 8 * Z.of_nat (S k)) by lia. reflexivity.
Qed.

Lemma crc32_be_spec addr len : 0 <= len <= lenZ buf ->
  crc32_be e addr 0 buf len = Done (crc32 (firstn (Z.to_nat len) buf)).
Proof.
  intros Hlen. unfold crc32_be.
  assert (E0 : 0 = reg e (crc_pre buf 0)) by (destruct e; reflexivity).
  rewrite E0 at 1.
  destruct (crc_prologue_spec addr 4 0 len) as (i & l & -> & Hi & Hl & HS); try lia.
  { pose proof (Z.mod_pos_bound (-(addr + 0)) 4). lia. }
  rewrite bind_done.
  rewrite Z.shiftr_div_pow2 by lia. change (2 ^ 3) with 8.
  change 7 with (2 ^ 3 - 1). rewrite land_ones_mod by lia. change (2 ^ 3) with 8.
  pose proof (Z.div_mod l 8). pose proof (Z.mod_pos_bound l 8).
  assert (0 <= l / 8) by (apply Z.div_pos; lia).
  rewrite crc_body_spec by lia. rewrite bind_done.
  rewrite crc_tail_spec by lia. rewrite bind_done.
  f_equal. rewrite reg_invol by apply crc_pre_R.
  unfold crc_pre. do 2 f_equal. lia.
Qed.
End Crc.

Lemma crc32_R l : R (crc32 l).
Proof. apply crc_bits_R. unfold R; lia. Qed.
