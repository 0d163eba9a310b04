(** Lemmas about bit strings, byte strings and the C base operations. *)
From Coq Require Import ZArith List Bool Lia.
From Verif Require Import SpecBits CBase.
Import ListNotations.
Open Scope Z_scope.

(** * Arithmetic *)
Lemma pow2_pos n : 0 <= n -> 0 < 2 ^ n.
Proof. intros; apply Z.pow_pos_nonneg; lia. Qed.
Lemma pow2_nat_pos (n : nat) : 0 < 2 ^ Z.of_nat n.
Proof. apply pow2_pos; lia. Qed.
Lemma pow2_S (n : nat) : 2 ^ Z.of_nat (S n) = 2 * 2 ^ Z.of_nat n.
Proof. rewrite Nat2Z.inj_succ, Z.pow_succ_r by lia; reflexivity. Qed.
Lemma pow2_add (a b : nat) : 2 ^ Z.of_nat (a + b) = 2 ^ Z.of_nat a * 2 ^ Z.of_nat b.
Proof. rewrite Nat2Z.inj_add, Z.pow_add_r by lia; reflexivity. Qed.

Lemma lor_disjoint a b k : 0 <= k -> 0 <= b < 2 ^ k -> Z.lor (a * 2 ^ k) b = a * 2 ^ k + b.
Proof.
  intros Hk Hb. rewrite <- Z.lxor_lor, Z.add_nocarry_lxor; auto.
  all: rewrite <- Z.shiftl_mul_pow2 by lia; apply Z.bits_inj'; intros i Hi;
    rewrite Z.land_spec, Z.bits_0, Z.shiftl_spec by lia;
    (destruct (Z.lt_ge_cases i k);
     [ rewrite Z.testbit_neg_r by lia; reflexivity | ]);
    apply andb_false_iff; right;
    (destruct (Z.eq_dec b 0) as [->|]; [apply Z.bits_0|]);
    apply Z.bits_above_log2; try lia;
    apply Z.log2_lt_pow2; try lia;
    apply Z.lt_le_trans with (2 ^ k); try lia; apply Z.pow_le_mono_r; lia.
Qed.

Lemma land_ones_mod a k : 0 <= k -> Z.land a (2 ^ k - 1) = a mod 2 ^ k.
Proof.
  intros. rewrite <- Z.land_ones by lia. f_equal.
  rewrite Z.ones_equiv. unfold Z.pred. lia.
Qed.

Lemma land_shifted_mask a k w : 0 <= k -> 0 <= w ->
  Z.land a (Z.shiftl (2 ^ w - 1) k) = ((a / 2 ^ k) mod 2 ^ w) * 2 ^ k.
Proof.
  intros. rewrite <- Z.shiftl_mul_pow2, <- land_ones_mod, <- Z.shiftr_div_pow2 by lia.
  apply Z.bits_inj'. intros i Hi.
  rewrite Z.land_spec, !Z.shiftl_spec by lia.
  destruct (Z.lt_ge_cases i k).
  - rewrite (Z.testbit_neg_r _ (i - k)) by lia. rewrite (Z.testbit_neg_r _ (i - k)) by lia.
    apply andb_false_r.
  - rewrite Z.land_spec, Z.shiftr_spec by lia. f_equal. f_equal. lia.
Qed.

Lemma genmask_low s : 1 <= s <= 64 -> genmask_ull (s - 1) 0 = 2 ^ s - 1.
Proof.
  intros. unfold genmask_ull.
  rewrite Z.shiftl_0_r. unfold u64. rewrite Z.mod_small by lia.
  rewrite Z.shiftr_div_pow2 by lia.
  replace (63 - (s - 1)) with (64 - s) by lia.
  assert (E : (2 ^ 64 - 1) / 2 ^ (64 - s) = 2 ^ s - 1).
  { replace (2 ^ 64) with (2 ^ s * 2 ^ (64 - s)).
    2:{ rewrite <- Z.pow_add_r by lia. f_equal; lia. }
    pose proof (pow2_pos (64 - s)).
    symmetry. apply Z.div_unique with (r := 2 ^ (64 - s) - 1). lia.
    ring. }
  rewrite E. rewrite Z.land_comm. rewrite land_ones_mod by lia.
  pose proof (pow2_pos s). 
  assert (2 ^ s <= 2 ^ 64) by (apply Z.pow_le_mono_r; lia).
  rewrite <- (Z.mod_unique (2 ^ s - 1) (2 ^ 64) 0 (2 ^ s - 1)); lia.
Qed.

(** * Lists *)
Lemma lenZ_app {A} (a b : list A) : lenZ (a ++ b) = lenZ a + lenZ b.
Proof. unfold lenZ. rewrite app_length. lia. Qed.
Lemma lenZ_nonneg {A} (a : list A) : 0 <= lenZ a.
Proof. unfold lenZ. lia. Qed.
Lemma lenZ_nil {A} : lenZ (@nil A) = 0.
Proof. reflexivity. Qed.
Lemma lenZ_cons {A} (x : A) l : lenZ (x :: l) = 1 + lenZ l.
Proof. unfold lenZ. cbn [length]. lia. Qed.

Lemma firstn_firstn_le {A} (n m : nat) (l : list A) : (n <= m)%nat -> firstn n (firstn m l) = firstn n l.
Proof. intros. rewrite firstn_firstn. f_equal. lia. Qed.
Lemma skipn_add {A} (n m : nat) (l : list A) : skipn n (skipn m l) = skipn (m + n) l.
Proof.
  revert l. induction m; intros; cbn [skipn plus]; auto.
  destruct l; auto. now rewrite !skipn_nil.
Qed.
Lemma firstn_app_exact {A} (a b : list A) n : n = length a -> firstn n (a ++ b) = a.
Proof. intros ->. rewrite firstn_app, firstn_all, Nat.sub_diag, firstn_O. apply app_nil_r. Qed.
Lemma skipn_app_exact {A} (a b : list A) n : n = length a -> skipn n (a ++ b) = b.
Proof. intros ->. rewrite skipn_app, skipn_all, Nat.sub_diag. reflexivity. Qed.

(** * Bits *)
Lemma bits_of_length n v : length (bits_of n v) = n.
Proof. induction n; cbn; congruence. Qed.

Lemma bits_of_ext n u v : (forall i, 0 <= i < Z.of_nat n -> Z.testbit u i = Z.testbit v i) ->
  bits_of n u = bits_of n v.
Proof.
  induction n; intros H; auto. cbn [bits_of]. f_equal.
  - apply H. lia.
  - apply IHn. intros; apply H; lia.
Qed.

Lemma bits_of_mod n m v : Z.of_nat n <= m -> bits_of n (v mod 2 ^ m) = bits_of n v.
Proof. intros. apply bits_of_ext. intros. apply Z.mod_pow2_bits_low. lia. Qed.

Lemma bits_of_app m k v : bits_of (m + k) v = bits_of m (v / 2 ^ Z.of_nat k) ++ bits_of k v.
Proof.
  induction m; [reflexivity|].
  cbn [bits_of plus app]. f_equal; auto.
  rewrite Z.div_pow2_bits by lia. f_equal. lia.
Qed.

Lemma bits_of_concat m k a b : 0 <= b < 2 ^ Z.of_nat k ->
  bits_of (m + k) (a * 2 ^ Z.of_nat k + b) = bits_of m a ++ bits_of k b.
Proof.
  intros. rewrite bits_of_app. f_equal.
  - f_equal. rewrite Z.div_add_l, Z.div_small by lia. lia.
  - rewrite <- (bits_of_mod k (Z.of_nat k)) by lia.
    rewrite Z.add_comm, Z.mod_add, Z.mod_small by lia. reflexivity.
Qed.

Lemma bits_of_0 n : bits_of n 0 = repeat false n.
Proof. induction n; cbn; auto. rewrite IHn. now rewrite Z.bits_0. Qed.

Lemma val_acc l a : fold_left (fun a (b : bool) => 2 * a + (if b then 1 else 0)) l a
  = a * 2 ^ Z.of_nat (length l) + val l.
Proof.
  unfold val. revert a. induction l as [|b l IH]; intros.
  - cbn [fold_left length]. change (2 ^ Z.of_nat 0) with 1. lia.
  - cbn [fold_left length]. rewrite pow2_S.
    rewrite IH. rewrite (IH (2 * 0 + (if b then 1 else 0))). destruct b; lia.
Qed.

Lemma val_nil : val [] = 0.
Proof. reflexivity. Qed.
Lemma val_cons b l : val (b :: l) = (if b then 1 else 0) * 2 ^ Z.of_nat (length l) + val l.
Proof. unfold val at 1. cbn [fold_left]. rewrite val_acc. destruct b; lia. Qed.
Lemma val_app a b : val (a ++ b) = val a * 2 ^ Z.of_nat (length b) + val b.
Proof. unfold val at 1. rewrite fold_left_app. rewrite val_acc. reflexivity. Qed.
Lemma val_bound l : 0 <= val l < 2 ^ Z.of_nat (length l).
Proof.
  induction l as [|b l IH]. { rewrite val_nil. cbn. lia. }
  rewrite val_cons. cbn [length]. rewrite pow2_S. destruct b; lia.
Qed.

Lemma val_bits_of n v : val (bits_of n v) = v mod 2 ^ Z.of_nat n.
Proof.
  induction n. { cbn. now rewrite Z.mod_1_r. }
  cbn [bits_of]. rewrite val_cons, bits_of_length, IHn, pow2_S.
  pose proof (pow2_nat_pos n).
  rewrite (Z.mul_comm 2). rewrite Z.rem_mul_r by lia.
  rewrite Z.add_comm. f_equal. rewrite Z.mul_comm. f_equal.
  rewrite <- Z.testbit_spec' by lia. destruct (Z.testbit v (Z.of_nat n)); reflexivity.
Qed.

Lemma bits_of_val l : bits_of (length l) (val l) = l.
Proof.
  induction l as [|b l IH]; auto.
  cbn [bits_of length]. rewrite val_cons.
  pose proof (val_bound l) as VB. f_equal.
  - assert (E : Z.b2z (Z.testbit ((if b then 1 else 0) * 2 ^ Z.of_nat (length l) + val l) (Z.of_nat (length l)))
             = Z.b2z b).
    { rewrite Z.testbit_spec' by lia. rewrite Z.div_add_l, Z.div_small by lia. destruct b; reflexivity. }
    apply Z.b2z_inj in E. exact E.
  - rewrite <- (bits_of_mod _ (Z.of_nat (length l)) ((if b then 1 else 0) * _ + _)) by lia.
    rewrite Z.add_comm, Z.mod_add, Z.mod_small by lia. exact IH.
Qed.

Lemma val_inj a b : length a = length b -> val a = val b -> a = b.
Proof. intros H E. rewrite <- (bits_of_val a), <- (bits_of_val b), H, E. reflexivity. Qed.

Lemma bits_of_inj n u v : 0 <= u < 2 ^ Z.of_nat n -> 0 <= v < 2 ^ Z.of_nat n ->
  bits_of n u = bits_of n v -> u = v.
Proof.
  intros Hu Hv E. apply (f_equal val) in E. rewrite !val_bits_of, !Z.mod_small in E by lia. exact E.
Qed.

(** * Bytes *)
Lemma bytes_bits_app a b : bytes_bits (a ++ b) = bytes_bits a ++ bytes_bits b.
Proof. apply flat_map_app. Qed.
Lemma bytes_bits_length l : length (bytes_bits l) = (8 * length l)%nat.
Proof.
  induction l; auto. cbn [bytes_bits flat_map]. rewrite app_length, bits_of_length.
  fold (bytes_bits l). rewrite IHl. cbn [length]. lia.
Qed.
Lemma bytes_bits_cons a l : bytes_bits (a :: l) = bits_of 8 a ++ bytes_bits l.
Proof. reflexivity. Qed.
Lemma bytes_bits_zeros n : bytes_bits (repeat 0 n) = repeat false (8 * n).
Proof.
  induction n; auto. cbn [repeat]. rewrite bytes_bits_cons, IHn, bits_of_0, <- repeat_app.
  f_equal. lia.
Qed.
Lemma bytes_bits_firstn n l : bytes_bits (firstn n l) = firstn (8 * n) (bytes_bits l).
Proof.
  revert l. induction n; intros.
  - reflexivity.
  - destruct l as [|z l]. { cbn [firstn]. now rewrite firstn_nil. }
    cbn [firstn]. rewrite !bytes_bits_cons, IHn.
    rewrite firstn_app, bits_of_length.
    rewrite (firstn_all2 (bits_of 8 z)) by (rewrite bits_of_length; lia). f_equal. f_equal. lia.
Qed.
Lemma bytes_bits_skipn n l : bytes_bits (skipn n l) = skipn (8 * n) (bytes_bits l).
Proof.
  revert l. induction n; intros.
  - reflexivity.
  - destruct l as [|z l]. { cbn [skipn]. now rewrite skipn_nil. }
    cbn [skipn]. rewrite bytes_bits_cons, IHn.
    rewrite skipn_app, bits_of_length.
    rewrite (skipn_all2 (bits_of 8 z)) by (rewrite bits_of_length; lia). cbn [app]. f_equal. lia.
Qed.
Lemma bytes_bits_inj a b : is_bytes a -> is_bytes b -> bytes_bits a = bytes_bits b -> a = b.
Proof.
  intros Ha. revert b. induction Ha as [|x a Hx Ha IH]; intros b Hb E.
  - destruct b; auto. apply (f_equal (@length bool)) in E. rewrite bytes_bits_length in E. cbn in E.
    rewrite bytes_bits_length in E. cbn in E. lia.
  - destruct Hb as [|y b Hy Hb].
    { apply (f_equal (@length bool)) in E. rewrite bytes_bits_length in E. cbn in E. lia. }
    rewrite !bytes_bits_cons in E.
    assert (E1 := f_equal (firstn 8) E). assert (E2 := f_equal (skipn 8) E).
    rewrite !firstn_app_exact in E1 by now rewrite bits_of_length.
    rewrite !skipn_app_exact in E2 by now rewrite bits_of_length.
    f_equal. { apply (bits_of_inj 8); auto. } apply IH; auto.
Qed.

Lemma is_bytes_app a b : is_bytes (a ++ b) <-> is_bytes a /\ is_bytes b.
Proof. apply Forall_app. Qed.
Lemma is_bytes_firstn n l : is_bytes l -> is_bytes (firstn n l).
Proof. intros H. rewrite <- (firstn_skipn n l) in H. apply is_bytes_app in H. tauto. Qed.
Lemma is_bytes_skipn n l : is_bytes l -> is_bytes (skipn n l).
Proof. intros H. rewrite <- (firstn_skipn n l) in H. apply is_bytes_app in H. tauto. Qed.
Lemma is_bytes_rev l : is_bytes l -> is_bytes (rev l).
Proof. apply Forall_rev. Qed.
Lemma is_bytes_repeat n b : is_byte b -> is_bytes (repeat b n).
Proof. intros. apply Forall_forall. intros x Hx. apply repeat_spec in Hx. congruence. Qed.
Lemma is_bytes_slice p n l : is_bytes l -> is_bytes (slice p n l).
Proof. intros. now apply is_bytes_firstn, is_bytes_skipn. Qed.
Lemma is_bytes_copies n l : is_bytes l -> is_bytes (copies n l).
Proof.
  intros. unfold copies. induction n; cbn; [constructor|]. apply is_bytes_app; auto.
Qed.

(** * Big-endian values *)
Lemma be_val_acc l a : fold_left (fun a b => 256 * a + b) l a = a * 256 ^ lenZ l + be_val l.
Proof.
  unfold be_val. revert a. induction l as [|b l IH]; intros; cbn [fold_left].
  - rewrite lenZ_nil. lia.
  - rewrite lenZ_cons, Z.pow_add_r by (pose proof (lenZ_nonneg l); lia).
    rewrite IH. rewrite (IH (256 * 0 + b)). lia.
Qed.
Lemma be_val_cons b l : be_val (b :: l) = b * 256 ^ lenZ l + be_val l.
Proof. unfold be_val at 1. cbn [fold_left]. rewrite be_val_acc. lia. Qed.
Lemma be_val_app a b : be_val (a ++ b) = be_val a * 256 ^ lenZ b + be_val b.
Proof. unfold be_val at 1. rewrite fold_left_app. rewrite be_val_acc. reflexivity. Qed.
Lemma pow256 n : 0 <= n -> 256 ^ n = 2 ^ (8 * n).
Proof. intros. rewrite Z.pow_mul_r by lia. reflexivity. Qed.

Lemma be_val_val l : is_bytes l -> be_val l = val (bytes_bits l).
Proof.
  induction 1 as [|b l Hb Hl IH]; auto.
  rewrite be_val_cons, bytes_bits_cons, val_app, val_bits_of, IH, bytes_bits_length.
  change (2 ^ Z.of_nat 8) with 256. rewrite Z.mod_small by exact Hb.
  rewrite pow256 by apply lenZ_nonneg. unfold lenZ. do 3 f_equal. lia.
Qed.
Lemma be_val_bound l : is_bytes l -> 0 <= be_val l < 2 ^ (8 * lenZ l).
Proof.
  intros. rewrite be_val_val by auto.
  pose proof (val_bound (bytes_bits l)) as B. rewrite bytes_bits_length in B.
  unfold lenZ. replace (8 * Z.of_nat (length l)) with (Z.of_nat (8 * length l)) by lia. exact B.
Qed.
Lemma be_bytes_length n v : length (be_bytes n v) = n.
Proof. induction n; cbn; congruence. Qed.
Lemma be_bytes_is_bytes n v : is_bytes (be_bytes n v).
Proof.
  induction n; cbn [be_bytes]; constructor; auto. unfold is_byte. apply Z.mod_pos_bound. lia.
Qed.
Lemma bytes_bits_be_bytes n v : bytes_bits (be_bytes n v) = bits_of (8 * n) v.
Proof.
  induction n; auto.
  cbn [be_bytes]. rewrite bytes_bits_cons, IHn.
  replace (8 * S n)%nat with (8 + 8 * n)%nat by lia.
  rewrite bits_of_app. f_equal.
  change 256 with (2 ^ 8) at 2. rewrite bits_of_mod by lia.
  f_equal. f_equal. rewrite pow256 by lia. f_equal. lia.
Qed.
Lemma be_bytes_be_val l : is_bytes l -> be_bytes (length l) (be_val l) = l.
Proof.
  intros. apply bytes_bits_inj; auto. apply be_bytes_is_bytes.
  rewrite bytes_bits_be_bytes, be_val_val by auto.
  rewrite <- bytes_bits_length. apply bits_of_val.
Qed.
Lemma be_val_be_bytes n v : 0 <= v < 2 ^ Z.of_nat (8 * n) -> be_val (be_bytes n v) = v.
Proof.
  intros. rewrite be_val_val by apply be_bytes_is_bytes.
  rewrite bytes_bits_be_bytes, val_bits_of, Z.mod_small; auto.
Qed.
Lemma bits_of_be_val l : is_bytes l -> bits_of (8 * length l) (be_val l) = bytes_bits l.
Proof. intros. rewrite be_val_val by auto. rewrite <- bytes_bits_length. apply bits_of_val. Qed.

(** * Byte swapping *)
Ltac swap_masks :=
  repeat match goal with
  | |- context [Z.land ?a 0x00ff000000000000] => change (Z.land a 0x00ff000000000000) with (Z.land a (Z.shiftl (2 ^ 8 - 1) 48))
  | |- context [Z.land ?a 0xff00000000000000] => change (Z.land a 0xff00000000000000) with (Z.land a (Z.shiftl (2 ^ 8 - 1) 56))
  | |- context [Z.land ?a 0x0000ff0000000000] => change (Z.land a 0x0000ff0000000000) with (Z.land a (Z.shiftl (2 ^ 8 - 1) 40))
  | |- context [Z.land ?a 0x000000ff00000000] => change (Z.land a 0x000000ff00000000) with (Z.land a (Z.shiftl (2 ^ 8 - 1) 32))
  | |- context [Z.land ?a 0x00000000ff000000] => change (Z.land a 0x00000000ff000000) with (Z.land a (Z.shiftl (2 ^ 8 - 1) 24))
  | |- context [Z.land ?a 0x0000000000ff0000] => change (Z.land a 0x0000000000ff0000) with (Z.land a (Z.shiftl (2 ^ 8 - 1) 16))
  | |- context [Z.land ?a 0x000000000000ff00] => change (Z.land a 0x000000000000ff00) with (Z.land a (Z.shiftl (2 ^ 8 - 1) 8))
  | |- context [Z.land ?a 0x00000000000000ff] => change (Z.land a 0x00000000000000ff) with (Z.land a (Z.shiftl (2 ^ 8 - 1) 0))
  end;
  rewrite ?land_shifted_mask by lia.

Lemma swap16_spec x : swap_endianness16 x = be_val (rev (be_bytes 2 x)).
Proof.
  unfold swap_endianness16. swap_masks.
  cbn [be_bytes rev app].
  change (256 ^ Z.of_nat 0) with 1. change (256 ^ Z.of_nat 1) with (2 ^ 8).
  change 256 with (2 ^ 8). change (2 ^ 0) with 1. rewrite !Z.div_1_r, !Z.mul_1_r.
  pose proof (Z.mod_pos_bound x (2 ^ 8)). pose proof (Z.mod_pos_bound (x / 2 ^ 8) (2 ^ 8)).
  generalize dependent (x mod 2 ^ 8). generalize dependent ((x / 2 ^ 8) mod 2 ^ 8). intros b Hb a Ha.
  rewrite !be_val_cons. cbn [be_val fold_left]. change (lenZ [b]) with 1. change (lenZ (@nil Z)) with 0.
  rewrite Z.shiftl_mul_pow2, Z.shiftr_div_pow2 by lia.
  rewrite Z.div_mul by lia.
  rewrite lor_disjoint by lia. unfold u16. rewrite Z.mod_small by lia. lia.
Qed.

Lemma swap32_spec x : swap_endianness32 x = be_val (rev (be_bytes 4 x)).
Proof.
  unfold swap_endianness32. swap_masks.
  cbn [be_bytes rev app].
  change (256 ^ Z.of_nat 0) with 1. change (256 ^ Z.of_nat 1) with (2 ^ 8).
  change (256 ^ Z.of_nat 2) with (2 ^ 16). change (256 ^ Z.of_nat 3) with (2 ^ 24).
  change 256 with (2 ^ 8). change (2 ^ 0) with 1. rewrite !Z.div_1_r, !Z.mul_1_r.
  pose proof (Z.mod_pos_bound x (2 ^ 8)). pose proof (Z.mod_pos_bound (x / 2 ^ 8) (2 ^ 8)).
  pose proof (Z.mod_pos_bound (x / 2 ^ 16) (2 ^ 8)). pose proof (Z.mod_pos_bound (x / 2 ^ 24) (2 ^ 8)).
  generalize dependent (x mod 2 ^ 8). generalize dependent ((x / 2 ^ 8) mod 2 ^ 8).
  generalize dependent ((x / 2 ^ 16) mod 2 ^ 8). generalize dependent ((x / 2 ^ 24) mod 2 ^ 8).
  intros d ? c ? b ? a ?.
  rewrite !be_val_cons. unfold lenZ. cbn [be_val fold_left length].
  rewrite !Z.shiftl_mul_pow2, !Z.shiftr_div_pow2 by lia.
  unfold u32. rewrite !Z.mod_small by lia.
  replace (b * 2 ^ 8 * 2 ^ 8) with (b * 2 ^ 16) by lia.
  replace (c * 2 ^ 16 / 2 ^ 8) with (c * 2 ^ 8)
    by (change (2 ^ 16) with (2 ^ 8 * 2 ^ 8); rewrite Z.mul_assoc, Z.div_mul; lia).
  rewrite Z.div_mul by lia.
  rewrite lor_disjoint by lia.
  replace (a * 2 ^ 24 + b * 2 ^ 16) with ((a * 2 ^ 8 + b) * 2 ^ 16) by lia.
  rewrite lor_disjoint by lia.
  replace ((a * 2 ^ 8 + b) * 2 ^ 16 + c * 2 ^ 8) with (((a * 2 ^ 8 + b) * 2 ^ 8 + c) * 2 ^ 8) by lia.
  rewrite lor_disjoint by lia. lia.
Qed.

Lemma swap64_spec x : swap_endianness64 x = be_val (rev (be_bytes 8 x)).
Proof.
  unfold swap_endianness64. swap_masks.
  cbn [be_bytes rev app].
  change (256 ^ Z.of_nat 0) with 1. change (256 ^ Z.of_nat 1) with (2 ^ 8).
  change (256 ^ Z.of_nat 2) with (2 ^ 16). change (256 ^ Z.of_nat 3) with (2 ^ 24).
  change (256 ^ Z.of_nat 4) with (2 ^ 32). change (256 ^ Z.of_nat 5) with (2 ^ 40).
  change (256 ^ Z.of_nat 6) with (2 ^ 48). change (256 ^ Z.of_nat 7) with (2 ^ 56).
  change 256 with (2 ^ 8). change (2 ^ 0) with 1. rewrite !Z.div_1_r, !Z.mul_1_r.
  pose proof (Z.mod_pos_bound x (2 ^ 8)). pose proof (Z.mod_pos_bound (x / 2 ^ 8) (2 ^ 8)).
  pose proof (Z.mod_pos_bound (x / 2 ^ 16) (2 ^ 8)). pose proof (Z.mod_pos_bound (x / 2 ^ 24) (2 ^ 8)).
  pose proof (Z.mod_pos_bound (x / 2 ^ 32) (2 ^ 8)). pose proof (Z.mod_pos_bound (x / 2 ^ 40) (2 ^ 8)).
  pose proof (Z.mod_pos_bound (x / 2 ^ 48) (2 ^ 8)). pose proof (Z.mod_pos_bound (x / 2 ^ 56) (2 ^ 8)).
  generalize dependent (x mod 2 ^ 8). generalize dependent ((x / 2 ^ 8) mod 2 ^ 8).
  generalize dependent ((x / 2 ^ 16) mod 2 ^ 8). generalize dependent ((x / 2 ^ 24) mod 2 ^ 8).
  generalize dependent ((x / 2 ^ 32) mod 2 ^ 8). generalize dependent ((x / 2 ^ 40) mod 2 ^ 8).
  generalize dependent ((x / 2 ^ 48) mod 2 ^ 8). generalize dependent ((x / 2 ^ 56) mod 2 ^ 8).
  clear x. intros h ? g ? f ? e ? d ? c ? b ? a ?.
  rewrite !be_val_cons. unfold lenZ. cbn [be_val fold_left length].
  rewrite !Z.shiftl_mul_pow2, !Z.shiftr_div_pow2 by lia.
  unfold u64. rewrite !Z.mod_small by lia.
  replace (b * 2 ^ 8 * 2 ^ 40) with (b * 2 ^ 48) by lia.
  replace (c * 2 ^ 16 * 2 ^ 24) with (c * 2 ^ 40) by lia.
  replace (d * 2 ^ 24 * 2 ^ 8) with (d * 2 ^ 32) by lia.
  replace (e * 2 ^ 32 / 2 ^ 8) with (e * 2 ^ 24)
    by (change (2 ^ 32) with (2 ^ 24 * 2 ^ 8); rewrite Z.mul_assoc, Z.div_mul; lia).
  replace (f * 2 ^ 40 / 2 ^ 24) with (f * 2 ^ 16)
    by (change (2 ^ 40) with (2 ^ 16 * 2 ^ 24); rewrite Z.mul_assoc, Z.div_mul; lia).
  replace (g * 2 ^ 48 / 2 ^ 40) with (g * 2 ^ 8)
    by (change (2 ^ 48) with (2 ^ 8 * 2 ^ 40); rewrite Z.mul_assoc, Z.div_mul; lia).
  rewrite Z.div_mul by lia.
  rewrite lor_disjoint by lia.
  replace (a * 2 ^ 56 + b * 2 ^ 48) with ((a * 2 ^ 8 + b) * 2 ^ 48) by lia.
  rewrite lor_disjoint by lia.
  replace ((a * 2 ^ 8 + b) * 2 ^ 48 + c * 2 ^ 40) with ((a * 2 ^ 16 + b * 2 ^ 8 + c) * 2 ^ 40) by lia.
  rewrite lor_disjoint by lia.
  replace ((a * 2 ^ 16 + b * 2 ^ 8 + c) * 2 ^ 40 + d * 2 ^ 32) with ((a * 2 ^ 24 + b * 2 ^ 16 + c * 2 ^ 8 + d) * 2 ^ 32) by lia.
  rewrite lor_disjoint by lia.
  replace ((a * 2 ^ 24 + b * 2 ^ 16 + c * 2 ^ 8 + d) * 2 ^ 32 + e * 2 ^ 24)
    with ((a * 2 ^ 32 + b * 2 ^ 24 + c * 2 ^ 16 + d * 2 ^ 8 + e) * 2 ^ 24) by lia.
  rewrite lor_disjoint by lia.
  replace ((a * 2 ^ 32 + b * 2 ^ 24 + c * 2 ^ 16 + d * 2 ^ 8 + e) * 2 ^ 24 + f * 2 ^ 16)
    with ((a * 2 ^ 40 + b * 2 ^ 32 + c * 2 ^ 24 + d * 2 ^ 16 + e * 2 ^ 8 + f) * 2 ^ 16) by lia.
  rewrite lor_disjoint by lia.
  replace ((a * 2 ^ 40 + b * 2 ^ 32 + c * 2 ^ 24 + d * 2 ^ 16 + e * 2 ^ 8 + f) * 2 ^ 16 + g * 2 ^ 8)
    with ((a * 2 ^ 48 + b * 2 ^ 40 + c * 2 ^ 32 + d * 2 ^ 24 + e * 2 ^ 16 + f * 2 ^ 8 + g) * 2 ^ 8) by lia.
  rewrite lor_disjoint by lia. lia.
Qed.

(** Reading in native order and converting from big endian gives the
    big-endian value on every host. *)
Lemma swap_load_gen swap n l : (forall x, swap x = be_val (rev (be_bytes n x))) ->
  length l = n -> is_bytes l -> swap (be_val (rev l)) = be_val l.
Proof.
  intros Hs Hl Hb. rewrite Hs. rewrite <- Hl, <- (rev_length l).
  rewrite be_bytes_be_val by now apply is_bytes_rev. now rewrite rev_involutive.
Qed.
Lemma swap_native16 e l : length l = 2%nat -> is_bytes l -> swap_be_to_native16 e (native_val e l) = be_val l.
Proof. destruct e; cbn [swap_be_to_native16 native_val]; auto. apply swap_load_gen, swap16_spec. Qed.
Lemma swap_native32 e l : length l = 4%nat -> is_bytes l -> swap_be_to_native32 e (native_val e l) = be_val l.
Proof. destruct e; cbn [swap_be_to_native32 native_val]; auto. apply swap_load_gen, swap32_spec. Qed.
Lemma swap_native64 e l : length l = 8%nat -> is_bytes l -> swap_be_to_native64 e (native_val e l) = be_val l.
Proof. destruct e; cbn [swap_be_to_native64 native_val]; auto. apply swap_load_gen, swap64_spec. Qed.

(** Converting to big endian and storing in native order stores the big-endian
    bytes on every host. *)
Lemma swap_store_gen swap n v : (forall x, swap x = be_val (rev (be_bytes n x))) ->
  rev (be_bytes n (swap v)) = be_bytes n v.
Proof.
  intros Hs. rewrite Hs.
  assert (L : length (rev (be_bytes n v)) = n) by now rewrite rev_length, be_bytes_length.
  rewrite <- L at 1. rewrite be_bytes_be_val. apply rev_involutive.
  apply is_bytes_rev, be_bytes_is_bytes.
Qed.
Lemma native_swap16 e v : native_bytes e 2 (swap_native_to_be16 e v) = be_bytes 2 v.
Proof. destruct e; cbn [swap_native_to_be16 native_bytes]; auto. apply swap_store_gen, swap16_spec. Qed.
Lemma native_swap32 e v : native_bytes e 4 (swap_native_to_be32 e v) = be_bytes 4 v.
Proof. destruct e; cbn [swap_native_to_be32 native_bytes]; auto. apply swap_store_gen, swap32_spec. Qed.
Lemma native_swap64 e v : native_bytes e 8 (swap_native_to_be64 e v) = be_bytes 8 v.
Proof. destruct e; cbn [swap_native_to_be64 native_bytes]; auto. apply swap_store_gen, swap64_spec. Qed.

Lemma native_val_inj e a b : length a = length b -> is_bytes a -> is_bytes b ->
  native_val e a = native_val e b -> a = b.
Proof.
  intros L Ha Hb. destruct e; cbn [native_val]; intros E.
  - rewrite <- (rev_involutive a), <- (rev_involutive b). f_equal.
    rewrite <- (be_bytes_be_val (rev a)) by now apply is_bytes_rev.
    rewrite <- (be_bytes_be_val (rev b)) by now apply is_bytes_rev.
    now rewrite E, !rev_length, L.
  - rewrite <- (be_bytes_be_val a), <- (be_bytes_be_val b) by auto. now rewrite E, L.
Qed.

(** * Loads and stores *)
Lemma load_bytes_ok m i k : 0 <= i -> 0 <= k -> i + k <= lenZ m ->
  load_bytes m i k = Done (slice (Z.to_nat i) (Z.to_nat k) m).
Proof.
  intros. unfold load_bytes.
  destruct (Z.leb_spec 0 i); [|lia]. destruct (Z.leb_spec (i + k) (lenZ m)); [|lia]. reflexivity.
Qed.
Lemma slice_length {A} p n (l : list A) : (p + n <= length l)%nat -> length (slice p n l) = n.
Proof. intros. unfold slice. rewrite firstn_length, skipn_length. lia. Qed.

(** Splice [bs] into [m] at [i]. *)
Definition splice (m : list Z) (i : nat) (bs : list Z) : list Z :=
  firstn i m ++ bs ++ skipn (i + length bs) m.
Lemma store_bytes_ok m i bs : 0 <= i -> i + lenZ bs <= lenZ m ->
  store_bytes m i bs = Done (splice m (Z.to_nat i) bs).
Proof.
  intros. unfold store_bytes, splice.
  destruct (Z.leb_spec 0 i); [|lia]. destruct (Z.leb_spec (i + lenZ bs) (lenZ m)); [|lia]. reflexivity.
Qed.
Lemma splice_length m i bs : (i + length bs <= length m)%nat -> length (splice m i bs) = length m.
Proof. intros. unfold splice. rewrite !app_length, firstn_length, skipn_length. lia. Qed.
Lemma splice_firstn m i bs n : (n <= i)%nat -> (i + length bs <= length m)%nat -> firstn n (splice m i bs) = firstn n m.
Proof.
  intros. unfold splice. rewrite firstn_app, firstn_firstn_le by lia.
  rewrite firstn_length. replace (n - Nat.min i (length m))%nat with 0%nat by lia.
  rewrite firstn_O. apply app_nil_r.
Qed.
Lemma splice_skipn m i bs n : (i + length bs <= n)%nat -> (i + length bs <= length m)%nat ->
  skipn n (splice m i bs) = skipn n m.
Proof.
  intros. unfold splice. rewrite skipn_app, (skipn_all2 (firstn i m)) by (rewrite firstn_length; lia).
  cbn [app]. rewrite firstn_length, skipn_app. rewrite (skipn_all2 bs) by lia. cbn [app].
  rewrite skipn_add. f_equal. lia.
Qed.
Lemma splice_written m i bs : (i + length bs <= length m)%nat ->
  firstn (i + length bs) (splice m i bs) = firstn i m ++ bs.
Proof.
  intros. unfold splice. rewrite app_assoc. apply firstn_app_exact.
  rewrite app_length, firstn_length. lia.
Qed.
Lemma splice_is_bytes m i bs : is_bytes m -> is_bytes bs -> is_bytes (splice m i bs).
Proof.
  intros. unfold splice. rewrite !is_bytes_app.
  auto using is_bytes_firstn, is_bytes_skipn.
Qed.

Lemma aget_ok a i : 0 <= i < lenZ a -> aget a i = Done (nth (Z.to_nat i) a 0).
Proof.
  intros. unfold aget. destruct (Z.leb_spec 0 i); [|lia]. destruct (Z.ltb_spec i (lenZ a)); [|lia]. reflexivity.
Qed.
Lemma aset_ok a i v : 0 <= i < lenZ a ->
  aset a i v = Done (firstn (Z.to_nat i) a ++ v :: skipn (S (Z.to_nat i)) a).
Proof.
  intros. unfold aset. destruct (Z.leb_spec 0 i); [|lia]. destruct (Z.ltb_spec i (lenZ a)); [|lia]. reflexivity.
Qed.
Lemma upd_length {A} (a : list A) i v : (i < length a)%nat -> length (firstn i a ++ v :: skipn (S i) a) = length a.
Proof. intros. rewrite app_length, firstn_length. cbn [length]. rewrite skipn_length. lia. Qed.
Lemma nth_upd_same {A} (a : list A) i v d : (i < length a)%nat -> nth i (firstn i a ++ v :: skipn (S i) a) d = v.
Proof.
  intros. rewrite app_nth2; rewrite firstn_length; [|lia].
  replace (i - Nat.min i (length a))%nat with 0%nat by lia. reflexivity.
Qed.
Lemma nth_skipn_gen {A} (n i : nat) (l : list A) d : nth i (skipn n l) d = nth (n + i) l d.
Proof.
  revert l. induction n; intros; auto. destruct l; cbn [skipn plus nth]; auto. destruct i; reflexivity.
Qed.
Lemma nth_firstn_gen {A} (n i : nat) (l : list A) d : (i < n)%nat -> nth i (firstn n l) d = nth i l d.
Proof.
  revert i l. induction n; intros; [lia|]. destruct l; auto. destruct i; cbn; auto. apply IHn. lia.
Qed.
Lemma nth_upd_other {A} (a : list A) i j v d : (i < length a)%nat -> i <> j ->
  nth j (firstn i a ++ v :: skipn (S i) a) d = nth j a d.
Proof.
  intros. destruct (Nat.lt_ge_cases j i).
  - rewrite app_nth1 by (rewrite firstn_length; lia). now apply nth_firstn_gen.
  - rewrite app_nth2; rewrite firstn_length; [|lia].
    replace (j - Nat.min i (length a))%nat with (S (j - i - 1)) by lia. cbn [nth].
    rewrite nth_skipn_gen. f_equal. lia.
Qed.

(** Loads of bytes, in terms of the big-endian value of a slice. *)
Section Loads.
Variables (e : endian) (m : list Z).
Hypothesis Hm : is_bytes m.
Lemma load8_ok i : 0 <= i -> i + 1 <= lenZ m -> load8 m i = Done (be_val (slice (Z.to_nat i) 1 m)).
Proof. intros. unfold load8. rewrite load_bytes_ok by lia. reflexivity. Qed.
Lemma load16_ok i : 0 <= i -> i + 2 <= lenZ m -> load16 e m i = Done (native_val e (slice (Z.to_nat i) 2 m)).
Proof. intros. unfold load16. rewrite load_bytes_ok by lia. reflexivity. Qed.
Lemma load32_ok i : 0 <= i -> i + 4 <= lenZ m -> load32 e m i = Done (native_val e (slice (Z.to_nat i) 4 m)).
Proof. intros. unfold load32. rewrite load_bytes_ok by lia. reflexivity. Qed.
Lemma load64_ok i : 0 <= i -> i + 8 <= lenZ m -> load64 e m i = Done (native_val e (slice (Z.to_nat i) 8 m)).
Proof. intros. unfold load64. rewrite load_bytes_ok by lia. reflexivity. Qed.
End Loads.

Lemma bind_done {A B} (a : A) (f : A -> outcome B) : bind (Done a) f = f a.
Proof. reflexivity. Qed.
