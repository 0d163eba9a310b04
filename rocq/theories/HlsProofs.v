(** The FPGA tokenizer: lemmas behind PropHls.v. *)
From Coq Require Import ZArith List Bool Lia.
From Verif Require Import SpecBits SpecCrc Spec842 SpecOptimal SpecTokens CBase BitsLemmas PureDecoder HlsModel.
Import ListNotations.
Open Scope Z_scope.

(** * Ranges *)
Lemma tb_join k a b i : 0 <= k -> 0 <= b < 2 ^ k -> 0 <= i ->
  Z.testbit (a * 2 ^ k + b) i = if i <? k then Z.testbit b i else Z.testbit a (i - k).
Proof.
  intros K B J. rewrite <- lor_disjoint by auto. rewrite Z.lor_spec, Z.mul_pow2_bits by auto.
  destruct (Z.ltb_spec i k) as [L|L].
  - now rewrite Z.testbit_neg_r by lia.
  - replace (Z.testbit b i) with false. now rewrite orb_false_r.
    symmetry. rewrite <- (Z.mod_small b (2 ^ k)) by lia. apply Z.mod_pow2_bits_high; lia.
Qed.
Lemma range_get_ok w v hi lo : 0 <= lo <= hi -> hi < w -> range_get w v hi lo = Done (v / 2 ^ lo mod 2 ^ (hi - lo + 1)).
Proof.
  intros H H'. unfold range_get, range_ok. rewrite (proj2 (Z.leb_le 0 lo)), (proj2 (Z.leb_le lo hi)), (proj2 (Z.ltb_lt hi w)) by lia.
  cbn [andb]. now rewrite Z.shiftr_div_pow2 by lia.
Qed.
Lemma range_set_ok w hi lo n a m b x : 0 <= lo <= hi -> hi < w -> n = hi - lo + 1 ->
  0 <= b < 2 ^ lo -> 0 <= m < 2 ^ n -> 0 <= x < 2 ^ n ->
  range_set w ((a * 2 ^ n + m) * 2 ^ lo + b) hi lo x = Done ((a * 2 ^ n + x) * 2 ^ lo + b).
Proof.
  intros H H' N B M X. unfold range_set, range_ok.
  rewrite (proj2 (Z.leb_le 0 lo)), (proj2 (Z.leb_le lo hi)), (proj2 (Z.ltb_lt hi w)) by lia.
  cbn [andb]. f_equal. rewrite <- N, (Z.mod_small x) by lia.
  apply Z.bits_inj'. intros i Hi. rewrite Z.lor_spec, Z.ldiff_spec, !Z.shiftl_spec by lia.
  rewrite (tb_join lo (a * 2 ^ n + m) b i), (tb_join lo (a * 2 ^ n + x) b i) by lia.
  destruct (Z.ltb_spec i lo) as [L|L].
  - rewrite !(Z.testbit_neg_r _ (i - lo)) by lia. now rewrite orb_false_r, andb_true_r.
  - rewrite (tb_join n a m), (tb_join n a x) by lia. destruct (Z.ltb_spec (i - lo) n) as [L'|L'].
    + rewrite Z.ones_spec_low by lia. cbn [negb]. now rewrite andb_false_r.
    + rewrite Z.ones_spec_high by lia. cbn [negb]. rewrite andb_true_r.
      replace (Z.testbit x (i - lo)) with false. apply orb_false_r.
      symmetry. rewrite <- (Z.mod_small x (2 ^ n)) by lia. apply Z.mod_pow2_bits_high; lia.
Qed.

(** * Byte order *)
Lemma swap_loop_step k l input output : 0 <= k < 16 -> 0 <= output < 2 ^ (8 * k) ->
  swap_loop ((8 * k + 7, 8 * k, 127 - 8 * k, 120 - 8 * k) :: l) input output =
  swap_loop l input ((input / 2 ^ (120 - 8 * k)) mod 256 * 2 ^ (8 * k) + output).
Proof.
  intros K O. cbn [swap_loop]. unfold INPUT_STREAM_WIDTH. rewrite range_get_ok by lia. cbn [bind].
  replace (127 - 8 * k - (120 - 8 * k) + 1) with 8 by lia. change (2 ^ 8) with 256.
  pose proof (Z.mod_pos_bound (input / 2 ^ (120 - 8 * k)) 256 ltac:(lia)) as B.
  pose proof (range_set_ok 128 (8 * k + 7) (8 * k) 8 0 0 output ((input / 2 ^ (120 - 8 * k)) mod 256) ltac:(lia) ltac:(lia) ltac:(lia) O ltac:(lia) ltac:(lia)) as R.
  replace ((0 * 2 ^ 8 + 0) * 2 ^ (8 * k) + output) with output in R by ring. rewrite R. cbn [bind]. f_equal; ring.
Qed.
Definition swapped (input : Z) (n : nat) : Z :=
  fold_left (fun o k => (input / 2 ^ (120 - 8 * Z.of_nat k)) mod 256 * 2 ^ (8 * Z.of_nat k) + o) (seq 0 n) 0.
Lemma swapped_S input n : swapped input (S n) = (input / 2 ^ (120 - 8 * Z.of_nat n)) mod 256 * 2 ^ (8 * Z.of_nat n) + swapped input n.
Proof. unfold swapped. rewrite seq_S, fold_left_app. reflexivity. Qed.
Lemma swapped_bound input n : 0 <= swapped input n < 2 ^ (8 * Z.of_nat n).
Proof.
  induction n as [|n IH]. { unfold swapped. cbn. lia. }
  rewrite swapped_S. pose proof (Z.mod_pos_bound (input / 2 ^ (120 - 8 * Z.of_nat n)) 256 ltac:(lia)) as B.
  replace (8 * Z.of_nat (S n)) with (8 + 8 * Z.of_nat n) by lia. rewrite Z.pow_add_r by lia. change (2 ^ 8) with 256. nia.
Qed.
Definition swap_row (k : nat) : Z * Z * Z * Z := let k := Z.of_nat k in (8 * k + 7, 8 * k, 127 - 8 * k, 120 - 8 * k).
Lemma swap_rows n input : forall k, (k + n = 16)%nat -> swap_loop (map swap_row (seq k n)) input (swapped input k) = Done (swapped input 16).
Proof.
  induction n as [|n IH]; intros k H. { replace k with 16%nat by lia. reflexivity. }
  cbn [seq map]. unfold swap_row at 1. rewrite swap_loop_step; [|lia|apply swapped_bound].
  rewrite <- swapped_S. apply IH. lia.
Qed.
Lemma swap_input input : swap_endianness_input input = Done (swapped input 16).
Proof.
  unfold swap_endianness_input. change swap_ranges with (map swap_row (seq 0 16)).
  exact (swap_rows 16 input 0 eq_refl).
Qed.
Lemma le_byte b : forall j, is_bytes b -> (j < length b)%nat -> (be_val (rev b) / 2 ^ (8 * Z.of_nat j)) mod 256 = nth j b 0.
Proof.
  induction b as [|x b IH]; intros j B L; cbn [length] in L; [lia|]. inversion B as [|? ? Bx Bb]; subst. unfold is_byte in Bx.
  cbn [rev]. rewrite be_val_app. change (be_val [x]) with (256 * 0 + x). change (256 ^ lenZ [x]) with 256.
  destruct j as [|j].
  - change (2 ^ (8 * Z.of_nat 0)) with 1. rewrite Z.div_1_r. cbn [nth]. replace (be_val (rev b) * 256 + (256 * 0 + x)) with (x + be_val (rev b) * 256) by ring.
    rewrite Z.mod_add by lia. now apply Z.mod_small.
  - cbn [nth]. rewrite <- (IH j Bb) by lia. f_equal. replace (8 * Z.of_nat (S j)) with (8 + 8 * Z.of_nat j) by lia.
    rewrite Z.pow_add_r by lia. change (2 ^ 8) with 256. rewrite <- Z.div_div by (try apply Z.pow_pos_nonneg; lia). f_equal.
    replace (be_val (rev b) * 256 + (256 * 0 + x)) with (x + be_val (rev b) * 256) by ring.
    rewrite Z.div_add by lia. rewrite (Z.div_small x) by lia. reflexivity.
Qed.
Lemma skipn_nth {A} (l : list A) n d : (n < length l)%nat -> skipn n l = nth n l d :: skipn (S n) l.
Proof. revert n. induction l as [|x l IH]; intros [|n] H; cbn [length] in H; try lia; [reflexivity|]. apply IH. lia. Qed.
Lemma swapped_be b n : is_bytes b -> length b = 16%nat -> (n <= 16)%nat -> swapped (be_val (rev b)) n = be_val (skipn (16 - n) b).
Proof.
  intros B L. induction n as [|n IH]; intros H. { rewrite skipn_all2 by lia. reflexivity. }
  rewrite swapped_S, IH by lia. rewrite (skipn_nth b (16 - S n) 0) by lia. rewrite be_val_cons.
  replace (S (16 - S n)) with (16 - n)%nat by lia. f_equal.
  rewrite <- (le_byte b (16 - S n)) by (auto; lia). replace (8 * Z.of_nat (16 - S n)) with (120 - 8 * Z.of_nat n) by lia.
  f_equal. unfold lenZ. rewrite skipn_length, L. replace (16 - (16 - n))%nat with n by lia.
  rewrite pow256 by lia. reflexivity.
Qed.
Lemma swap_element b : is_bytes b -> length b = 16%nat -> swap_endianness_input (element b) = Done (val (bytes_bits b)).
Proof.
  intros B L. rewrite swap_input. unfold element. rewrite <- be_val_val by now apply is_bytes_rev.
  rewrite swapped_be by (auto; lia). cbn [Nat.sub skipn]. now rewrite be_val_val.
Qed.

(** * Opcodes *)
Definition op_ok (k : nat) : bool :=
  (get_parameter_length (Z.of_nat k) =? Z.of_nat (args_bits (Z.of_nat k))) && (args_bits (Z.of_nat k) <=? 64)%nat.
Lemma ops_ok : forallb op_ok (seq 0 32) = true.
Proof. vm_compute. reflexivity. Qed.
Lemma parameter_length op : 0 <= op < 32 -> get_parameter_length op = Z.of_nat (args_bits op) /\ (args_bits op <= 64)%nat.
Proof.
  intros H. pose proof ops_ok as C. rewrite forallb_forall in C. specialize (C (Z.to_nat op)). unfold op_ok in C.
  rewrite Z2Nat.id in C by lia. rewrite andb_true_iff, Z.eqb_eq, Nat.leb_le in C. apply C. apply in_seq. lia.
Qed.

(** * The buffer *)
(** [buf] holds the bits [bs] on the left and zeros behind them *)
Definition holds (buf : Z) (bs : list bool) : Prop := (length bs <= 266)%nat /\ buf = val bs * 2 ^ (266 - Z.of_nat (length bs)).
Lemma holds_head buf a b : holds buf (a ++ b) -> (1 <= length a)%nat ->
  range_get 266 buf 265 (266 - Z.of_nat (length a)) = Done (val a).
Proof.
  intros [L ->] A. rewrite app_length in *. rewrite range_get_ok by lia. f_equal. rewrite val_app.
  pose proof (val_bound a) as Ba. pose proof (val_bound b) as Bb.
  replace (266 - Z.of_nat (length a)) with (Z.of_nat (length b) + (266 - Z.of_nat (length a + length b))) at 1 by lia.
  rewrite Z.pow_add_r, Z.div_mul_cancel_r by (try apply Z.pow_nonzero; lia).
  rewrite Z.div_add_l by (apply Z.pow_nonzero; lia). rewrite (Z.div_small (val b)) by lia.
  replace (265 - (266 - Z.of_nat (length a)) + 1) with (Z.of_nat (length a)) by lia. rewrite Z.add_0_r. now apply Z.mod_small.
Qed.
Lemma holds_shift buf a b : holds buf (a ++ b) -> holds (Z.shiftl buf (Z.of_nat (length a)) mod 2 ^ 266) b.
Proof.
  intros [L ->]. rewrite app_length in *. split; [lia|]. rewrite Z.shiftl_mul_pow2, val_app by lia.
  pose proof (val_bound b) as Bb.
  replace ((val a * 2 ^ Z.of_nat (length b) + val b) * 2 ^ (266 - Z.of_nat (length a + length b)) * 2 ^ Z.of_nat (length a))
    with (val b * 2 ^ (266 - Z.of_nat (length b)) + val a * 2 ^ 266).
  - rewrite Z.mod_add by (apply Z.pow_nonzero; lia). apply Z.mod_small. split; [apply Z.mul_nonneg_nonneg; [lia|apply Z.pow_nonneg; lia]|].
    replace 266 with (Z.of_nat (length b) + (266 - Z.of_nat (length b))) at 2 by lia. rewrite Z.pow_add_r by lia.
    apply Z.mul_lt_mono_pos_r; [apply Z.pow_pos_nonneg; lia|lia].
  - replace (2 ^ 266) with (2 ^ Z.of_nat (length b) * 2 ^ (266 - Z.of_nat (length a + length b)) * 2 ^ Z.of_nat (length a))
      by (rewrite <- !Z.pow_add_r by lia; f_equal; lia).
    replace (2 ^ (266 - Z.of_nat (length b))) with (2 ^ (266 - Z.of_nat (length a + length b)) * 2 ^ Z.of_nat (length a))
      by (rewrite <- !Z.pow_add_r by lia; f_equal; lia). ring.
Qed.
Lemma holds_append buf bs c : holds buf bs -> (1 <= length c)%nat -> (length bs + length c <= 266)%nat ->
  exists buf', range_set 266 buf (266 - Z.of_nat (length bs) - 1) (266 - Z.of_nat (length c) - Z.of_nat (length bs)) (val c) = Done buf' /\
    holds buf' (bs ++ c).
Proof.
  intros [L ->] C LC. pose proof (val_bound c) as Bc. eexists. split.
  - pose proof (range_set_ok 266 (266 - Z.of_nat (length bs) - 1) (266 - Z.of_nat (length c) - Z.of_nat (length bs)) (Z.of_nat (length c)) (val bs) 0 0 (val c)) as R.
    specialize (R ltac:(lia) ltac:(lia) ltac:(lia)).
    assert (P1 : 0 < 2 ^ (266 - Z.of_nat (length c) - Z.of_nat (length bs))) by (apply Z.pow_pos_nonneg; lia).
    assert (P2 : 0 < 2 ^ Z.of_nat (length c)) by (apply Z.pow_pos_nonneg; lia).
    specialize (R (conj (Z.le_refl 0) P1) (conj (Z.le_refl 0) P2) Bc).
    rewrite <- R. f_equal. rewrite !Z.add_0_r, <- Z.mul_assoc, <- Z.pow_add_r by lia. do 2 f_equal. lia.
  - split; rewrite app_length; [lia|]. rewrite Z.add_0_r, val_app. f_equal. f_equal. lia.
Qed.
(** overwriting the opcode *)
Lemma end_set v : 0 <= v < 2 ^ 266 ->
  exists v', range_set 266 v 265 261 0x1e = Done v' /\ range_get 266 v' 265 261 = Done 0x1e /\ 0 <= v' < 2 ^ 266.
Proof.
  intros V. assert (P : 0 < 2 ^ 261) by (apply Z.pow_pos_nonneg; lia). pose proof (Z.mod_pos_bound v _ P) as M.
  exists ((0 * 2 ^ 5 + 0x1e) * 2 ^ 261 + v mod 2 ^ 261). split; [|split].
  - pose proof (range_set_ok 266 265 261 5 0 (v / 2 ^ 261) (v mod 2 ^ 261) 0x1e ltac:(lia) ltac:(lia) ltac:(lia)) as R.
    specialize (R M). assert (V' : 0 <= v / 2 ^ 261 < 2 ^ 5).
    { split; [apply Z.div_pos; lia|]. apply Z.div_lt_upper_bound; [lia|]. rewrite <- Z.pow_add_r by lia. exact (proj2 V). }
    specialize (R V' ltac:(lia)). rewrite <- R. f_equal.
    rewrite Z.mul_0_l, Z.add_0_l, Z.mul_comm. apply Z.div_mod. lia.
  - rewrite range_get_ok by lia. f_equal. rewrite Z.div_add_l by lia. rewrite (Z.div_small (v mod 2 ^ 261)) by exact M. reflexivity.
  - change 266 with (5 + 261). rewrite Z.pow_add_r by lia. change (2 ^ 5) with 32. lia.
Qed.
Lemma holds_bound buf bs : holds buf bs -> 0 <= buf < 2 ^ 266.
Proof.
  intros [L ->]. pose proof (val_bound bs) as B. split; [apply Z.mul_nonneg_nonneg; [lia|apply Z.pow_nonneg; lia]|].
  replace 266 with (Z.of_nat (length bs) + (266 - Z.of_nat (length bs))) at 2 by lia. rewrite Z.pow_add_r by lia.
  apply Z.mul_lt_mono_pos_r; [apply Z.pow_pos_nonneg; lia|lia].
Qed.

(** * One iteration *)
Definition block_ok (b : list Z) : Prop := length b = 16%nat /\ is_bytes b.
Definition block_bits (bl : list (list Z)) : list bool := bytes_bits (concat bl).
Definition is_nil {A} (l : list A) : bool := match l with [] => true | _ => false end.
Record inv (follow : list (Z * bool)) (s : tstate) (bs : list bool) (bl : list (list Z)) : Prop := INV {
  i_buf : holds (t_buf s) bs;
  i_bits : t_bits s = Z.of_nat (length bs);
  i_last : t_last s = is_nil bl;
  i_in : t_in s = transfer bl ++ follow;
  i_bl : Forall block_ok bl;
  i_max : (length bs <= 265)%nat;
  i_min : bl <> [] -> (69 <= length bs)%nat }.

Definition tail_if (c : bool) {A} (l : list A) : list A := if c then tl l else l.
(** how much is read in an iteration *)
Definition reads (bs : list bool) (bl : list (list Z)) : bool := negb (is_nil bl) && (length bs <? 138)%nat.

Lemma fill_ok follow s bs bl buf : inv follow s bs bl -> buf = t_buf s ->
  exists bs', (if negb (t_last s) && (t_bits s <? 2 * TOKEN_WIDTH)
   then r <- in_read (t_in s) ;;
        let '((data, last), rest) := r in
        x <- swap_endianness_input data ;;
        buf <- range_set BUFFER_WIDTH buf (BUFFER_WIDTH - t_bits s - 1) (BUFFER_WIDTH - INPUT_STREAM_WIDTH - t_bits s) x ;;
        Done (TS rest last buf ((t_bits s + INPUT_STREAM_WIDTH) mod 2 ^ 9))
   else Done (TS (t_in s) (t_last s) buf (t_bits s))) = Done bs' /\
  exists cs, inv follow bs' cs (tail_if (reads bs bl) bl) /\ cs ++ block_bits (tail_if (reads bs bl) bl) = bs ++ block_bits bl /\
    (length bs <= length cs)%nat /\ (tail_if (reads bs bl) bl <> [] -> (138 <= length cs)%nat).
Proof.
  intros [H1 H2 H3 H4 H5 H6 H7] ->. rewrite H2, H3. unfold TOKEN_WIDTH. change (2 * 69) with 138. unfold reads.
  assert (EL : (Z.of_nat (length bs) <? 138) = (length bs <? 138)%nat).
  { destruct (Z.ltb_spec (Z.of_nat (length bs)) 138), (Nat.ltb_spec (length bs) 138); auto; lia. }
  rewrite EL. destruct bl as [|b bl]; cbn [is_nil negb andb tail_if].
  - eexists. split; [reflexivity|]. exists bs. split; [constructor; auto|]. split; [reflexivity|]. split; [lia|congruence].
  - destruct (Nat.ltb_spec (length bs) 138) as [L|L].
    2: { eexists. split; [reflexivity|]. exists bs. split; [constructor; auto|]. split; [reflexivity|]. split; [lia|]. auto. }
    rewrite H4. cbn [transfer app in_read bind]. inversion H5 as [|? ? [Lb Bb] Fb]; subst. rewrite swap_element by auto. cbn [bind].
    pose proof (bytes_bits_length b) as LB. rewrite Lb in LB. change (8 * 16)%nat with 128%nat in LB.
    destruct (holds_append (t_buf s) bs (bytes_bits b) H1 ltac:(lia) ltac:(lia)) as (buf' & E & Hb). rewrite LB in E.
    unfold BUFFER_WIDTH, INPUT_STREAM_WIDTH. change (Z.of_nat 128) with 128 in E. rewrite E. cbn [bind].
    eexists. split; [reflexivity|]. exists (bs ++ bytes_bits b). cbn [tail_if tl].
    assert (LL : length (bs ++ bytes_bits b) = (length bs + 128)%nat) by (rewrite app_length; lia).
    specialize (H7 ltac:(congruence)).
    split; [|split; [|split]].
    + constructor; cbn [t_buf t_bits t_last t_in]; auto; try lia.
      rewrite LL. change (2 ^ 9) with 512. rewrite Z.mod_small by lia. lia.
    + unfold block_bits. cbn [concat]. now rewrite bytes_bits_app, <- app_assoc.
    + lia.
    + intros _. lia.
Qed.

Lemma on_wire_set x (a : list bool) : x = val a -> (5 <= length a <= 69)%nat ->
  range_set 69 0 68 (69 - Z.of_nat (length a)) x = Done (val (a ++ List.repeat false (69 - length a))).
Proof.
  intros -> L. pose proof (val_bound a) as B.
  pose proof (range_set_ok 69 68 (69 - Z.of_nat (length a)) (Z.of_nat (length a)) 0 0 0 (val a) ltac:(lia) ltac:(lia) ltac:(lia)) as R.
  assert (P : 0 < 2 ^ (69 - Z.of_nat (length a))) by (apply Z.pow_pos_nonneg; lia).
  specialize (R (conj (Z.le_refl 0) P)). specialize (R ltac:(lia) B).
  rewrite !Z.mul_0_l, !Z.add_0_l, !Z.add_0_r in R. rewrite R. f_equal. rewrite val_app, repeat_length.
  assert (Z0 : val (List.repeat false (69 - length a)) = 0).
  { rewrite <- (bits_of_0 (69 - length a)), val_bits_of. apply Z.mod_0_l. apply Z.pow_nonzero; lia. }
  rewrite Z0, Z.add_0_r. f_equal. f_equal. lia.
Qed.

Lemma step_token follow s bs bl op pay rest : inv follow s bs bl -> bs ++ block_bits bl = bits_of 5 op ++ pay ++ rest ->
  0 <= op < 32 -> length pay = args_bits op ->
  exists s' bs', tok_step s = Done ((on_wire (op, pay), op =? 0x1e), s') /\ inv follow s' bs' (tail_if (reads bs bl) bl) /\
    bs' ++ block_bits (tail_if (reads bs bl) bl) = rest /\
    (tail_if (reads bs bl) bl <> [] -> (133 <= length bs' + length pay)%nat) /\ (length bs' + length pay <= 260)%nat.
Proof.
  intros V E O P. destruct (parameter_length op O) as [PL PM].
  pose proof V as [H1 H2 H3 H4 H5 H6 H7].
  assert (A5 : (bl = [] -> length bs = 5 + length pay + length rest)%nat).
  { intros ->. unfold block_bits in E. cbn [concat bytes_bits flat_map] in E. rewrite app_nil_r in E. rewrite E, !app_length, bits_of_length. lia. }
  assert (L5 : (5 <= length bs)%nat). { destruct bl; [rewrite (A5 eq_refl); lia|specialize (H7 ltac:(congruence)); lia]. }
  unfold tok_step. rewrite H2.
  assert (C1 : t_last s && (Z.of_nat (length bs) <? OP_BITS) = false).
  { unfold OP_BITS. destruct (Z.ltb_spec (Z.of_nat (length bs)) 5); [lia|]. apply andb_false_r. }
  rewrite C1. cbn [bind].
  assert (EH : exists b2, bs = bits_of 5 op ++ b2).
  { exists (skipn 5 bs). rewrite <- (firstn_skipn 5 bs) at 1. f_equal.
    transitivity (firstn 5 (bs ++ block_bits bl)). { rewrite firstn_app. replace (5 - length bs)%nat with 0%nat by lia. now rewrite firstn_O, app_nil_r. }
    rewrite E. apply firstn_app_exact. now rewrite bits_of_length. }
  destruct EH as (b2 & EB).
  assert (G : range_get BUFFER_WIDTH (t_buf s) (BUFFER_WIDTH - 1) (BUFFER_WIDTH - OP_BITS) = Done op).
  { pose proof (holds_head (t_buf s) (bits_of 5 op) b2) as G. rewrite bits_of_length, val_bits_of in G. unfold BUFFER_WIDTH, OP_BITS.
    change (266 - 1) with 265. change (266 - Z.of_nat 5) with (266 - 5) in G. rewrite G by (rewrite <- ?EB; auto; lia).
    f_equal. apply Z.mod_small. exact O. }
  rewrite G. cbn [bind]. rewrite PL.
  assert (C2 : t_last s && (Z.of_nat (length bs) <? OP_BITS + Z.of_nat (args_bits op)) = false).
  { unfold OP_BITS. rewrite H3. destruct bl; [|reflexivity]. cbn [is_nil andb]. apply Z.ltb_ge. rewrite (A5 eq_refl). lia. }
  rewrite C2. cbn [bind].
  destruct (fill_ok follow s bs bl (t_buf s) V eq_refl) as (f & EF & cs & VC & EC & LC & MC). rewrite H2 in EF. rewrite EF. cbn [bind].
  set (bl' := tail_if (reads bs bl) bl) in *.
  assert (LT : (5 + length pay <= length cs)%nat).
  { destruct bl; [specialize (A5 eq_refl); lia|]. specialize (H7 ltac:(congruence)). lia. }
  assert (ES : exists c2, cs = (bits_of 5 op ++ pay) ++ c2).
  { exists (skipn (5 + length pay) cs). rewrite <- (firstn_skipn (5 + length pay) cs) at 1. f_equal.
    transitivity (firstn (5 + length pay) (cs ++ block_bits bl')).
    { rewrite firstn_app. replace (5 + length pay - length cs)%nat with 0%nat by lia. now rewrite firstn_O, app_nil_r. }
    rewrite EC, E, app_assoc. apply firstn_app_exact. now rewrite app_length, bits_of_length. }
  destruct ES as (c2 & ES). subst cs.
  destruct VC as [G1 G2 G3 G4 G5 G6 G7].
  assert (LA : length (bits_of 5 op ++ pay) = (5 + args_bits op)%nat) by (rewrite app_length, bits_of_length; lia).
  pose proof (holds_head _ _ _ G1 ltac:(rewrite LA; lia)) as X. rewrite LA in X.
  assert (X' : range_get BUFFER_WIDTH (t_buf f) (BUFFER_WIDTH - 1) (BUFFER_WIDTH - OP_BITS - Z.of_nat (args_bits op)) = Done (val (bits_of 5 op ++ pay))).
  { rewrite <- X. unfold BUFFER_WIDTH, OP_BITS. f_equal. lia. }
  rewrite X'. cbn [bind].
  pose proof (on_wire_set _ _ (eq_refl (val (bits_of 5 op ++ pay))) ltac:(rewrite LA; lia)) as W.
  assert (W' : range_set TOKEN_WIDTH 0 (TOKEN_WIDTH - 1) (TOKEN_WIDTH - OP_BITS - Z.of_nat (args_bits op)) (val (bits_of 5 op ++ pay))
     = Done (on_wire (op, pay))).
  { unfold on_wire, token_bits. cbn [fst snd]. rewrite <- W. unfold TOKEN_WIDTH, OP_BITS. f_equal. rewrite LA. lia. }
  rewrite W'. cbn [bind]. eexists. exists c2. split; [reflexivity|].
  assert (LX : length ((bits_of 5 op ++ pay) ++ c2) = (5 + args_bits op + length c2)%nat) by (rewrite app_length, LA; lia).
  rewrite LX in G2, G6, LC, LT, MC.
  split; [|split; [|split]].
  - constructor; cbn [t_buf t_bits t_last t_in]; auto; try lia.
    + pose proof (holds_shift _ _ _ G1) as Sh. rewrite LA in Sh. unfold OP_BITS, BUFFER_WIDTH.
      replace (5 + Z.of_nat (args_bits op)) with (Z.of_nat (5 + args_bits op)) by lia. exact Sh.
    + rewrite G2. unfold OP_BITS. change (2 ^ 9) with 512. rewrite Z.mod_small by lia. lia.
    + intros N. specialize (MC N). lia.
  - rewrite E in EC. rewrite !app_assoc in EC. rewrite <- app_assoc in EC. apply app_inv_head in EC. exact EC.
  - intros N. specialize (MC N). lia.
  - lia.
Qed.

Lemma step_cut follow s bs op pay : inv follow s bs [] ->
  (length bs < 5)%nat \/ (bs = bits_of 5 op ++ pay /\ 0 <= op < 32 /\ (length pay < args_bits op)%nat) ->
  exists s', tok_step s = Done ((on_wire (0x1e, []), true), s') /\ t_in s' = follow.
Proof.
  intros [H1 H2 H3 H4 H5 H6 H7] C. unfold tok_step. rewrite H2, H3, H4. cbn [is_nil andb transfer app negb].
  destruct (end_set _ (holds_bound _ _ H1)) as (buf' & E1 & E2 & V1). destruct (end_set _ V1) as (buf'' & E3 & E4 & V2).
  assert (W : forall x, x = 0x1e -> range_set TOKEN_WIDTH 0 (TOKEN_WIDTH - 1) (TOKEN_WIDTH - 5 - 0) x = Done (on_wire (0x1e, []))).
  { intros x ->. vm_compute. reflexivity. }
  unfold BUFFER_WIDTH, OP_BITS, OP_END. change (266 - 1) with 265. change (266 - 5) with 261. change (261 - 0) with 261.
  destruct (Z.ltb_spec (Z.of_nat (length bs)) 5) as [L|L].
  - rewrite E1. cbn [bind]. rewrite E2. cbn [bind]. change (get_parameter_length 30) with 0. change (5 + 0) with 5.
    rewrite (proj2 (Z.ltb_lt _ 5) L).
    rewrite E3. cbn [bind t_buf]. change (261 - 0) with 261. rewrite E4. cbn [bind]. rewrite (W 30 eq_refl). cbn [bind]. eexists. split; reflexivity.
  - destruct C as [C|(EB & O & P)]; [lia|].
    assert (G : range_get 266 (t_buf s) 265 261 = Done op).
    { rewrite EB in H1. pose proof (holds_head _ _ _ H1) as G. rewrite bits_of_length, val_bits_of in G.
      change (266 - Z.of_nat 5) with 261 in G. rewrite G by lia. f_equal. apply Z.mod_small. exact O. }
    cbn [bind]. rewrite G. cbn [bind]. destruct (parameter_length op O) as [PL PM]. rewrite PL.
    assert (C2 : Z.of_nat (length bs) <? 5 + Z.of_nat (args_bits op) = true).
    { apply Z.ltb_lt. rewrite EB, app_length, bits_of_length. lia. }
    rewrite C2, E1. cbn [bind t_buf]. change (261 - 0) with 261. rewrite E2. cbn [bind]. rewrite (W 30 eq_refl). cbn [bind]. eexists. split; reflexivity.
Qed.

(** * The loop *)
Lemma tokens_nonempty bits ts : tokens bits ts -> ts <> [].
Proof. intros H; inversion H; congruence. Qed.
Lemma wired_cons t ts : ts <> [] -> wired (t :: ts) = (on_wire t, false) :: wired ts.
Proof. intros H. destruct ts; [congruence|reflexivity]. Qed.


Lemma tail_if_skipn {A} c (l : list A) : exists k, tail_if c l = skipn k l.
Proof. destruct c; [exists 1%nat; destruct l; reflexivity|exists 0%nat; reflexivity]. Qed.
Lemma block_bits_length bl : Forall block_ok bl -> length (block_bits bl) = (128 * length bl)%nat.
Proof.
  intros F. unfold block_bits. rewrite bytes_bits_length. induction F as [|b bl [L _] F IH]; [reflexivity|].
  cbn [concat length]. rewrite app_length. lia.
Qed.
Lemma short_blocks bs bl n : Forall block_ok bl -> (bl <> [] -> (69 <= length bs)%nat) -> (length (bs ++ block_bits bl) < n)%nat -> (n <= 69)%nat -> bl = [].
Proof.
  intros F M L N. destruct bl; [reflexivity|]. specialize (M ltac:(congruence)). rewrite app_length in L. lia.
Qed.

Lemma bits5_inj op op' a b : 0 <= op < 32 -> 0 <= op' < 32 -> bits_of 5 op ++ a = bits_of 5 op' ++ b -> op = op' /\ a = b.
Proof.
  intros O O' E. assert (E5 : bits_of 5 op = bits_of 5 op').
  { rewrite <- (firstn_app_exact (bits_of 5 op) a 5), E by now rewrite bits_of_length. apply firstn_app_exact. now rewrite bits_of_length. }
  rewrite E5 in E. apply app_inv_head in E. split; [|exact E]. now apply (bits_of_inj 5).
Qed.

Lemma loop_tokens bits ts : tokens bits ts -> forall follow s bs bl fuel, inv follow s bs bl -> bs ++ block_bits bl = bits ->
  (length ts <= fuel)%nat ->
  exists bl' k, tok_loop fuel s = Done (wired ts, transfer bl' ++ follow) /\ bl' = skipn k bl /\
    (bl' = [] \/ exists r, bits = tokens_bits ts ++ r /\ (261 <= length r)%nat) /\
    (forall r, bits = tokens_bits ts ++ r -> length bl' = ((length r - 133) / 128)%nat).
Proof.
  induction 1 as [rest|op pay rest ts O N P T IH|bits L|op pay O N P]; intros follow s bs bl fuel V E F;
    (destruct fuel as [|fuel]; [cbn [length] in F; lia|]); cbn [tok_loop].
  - destruct (step_token follow s bs bl 0x1e [] rest V E ltac:(lia) eq_refl) as (s' & bs' & -> & V' & E' & M & M2). cbn [bind snd].
    rewrite Z.eqb_refl. destruct (tail_if_skipn (reads bs bl) bl) as [k K]. exists (tail_if (reads bs bl) bl), k.
    rewrite (i_in _ _ _ _ V'). split; [reflexivity|]. split; [exact K|].
    assert (LR : length rest = (length bs' + 128 * length (tail_if (reads bs bl) bl))%nat)
      by (rewrite <- E', app_length, block_bits_length by apply (i_bl _ _ _ _ V'); reflexivity).
    split.
    + destruct (tail_if (reads bs bl) bl) as [|b bl'] eqn:EB; [left; reflexivity|]. right. exists rest.
      split; [reflexivity|]. specialize (M ltac:(congruence)). cbn [length] in *. lia.
    + intros r ER. unfold tokens_bits in ER. cbn [flat_map] in ER. unfold token_bits in ER. cbn [fst snd] in ER. rewrite !app_nil_r in ER.
      apply app_inv_head in ER. subst r. cbn [length] in M, M2. rewrite LR. destruct (tail_if (reads bs bl) bl) as [|b bl'] eqn:EB.
      * cbn [length]. symmetry. apply Nat.div_small. lia.
      * specialize (M ltac:(congruence)). cbn [length] in *. apply Nat.div_unique with (r := (length bs' - 133)%nat); lia.
  - destruct (step_token follow s bs bl op pay rest V E O P) as (s' & bs' & -> & V' & E' & M & _). cbn [bind snd].
    rewrite (proj2 (Z.eqb_neq op 0x1e) N).
    destruct (IH follow s' bs' _ fuel V' E') as (bl' & k & EL & K & R & R2). { cbn [length] in F. lia. }
    rewrite EL. cbn [bind]. exists bl'. destruct (tail_if_skipn (reads bs bl) bl) as [k' K']. exists (k' + k)%nat.
    rewrite wired_cons by (eapply tokens_nonempty; eauto). split; [reflexivity|]. split.
    { rewrite K, K'. apply skipn_add. }
    split.
    + destruct R as [R|(r & -> & LR)]; [left; exact R|right]. exists r. split; [|exact LR].
      unfold tokens_bits. cbn [flat_map]. unfold token_bits at 2. cbn [fst snd]. now rewrite <- !app_assoc.
    + intros r ER. apply R2. unfold tokens_bits in ER. cbn [flat_map] in ER. unfold token_bits at 1 in ER. cbn [fst snd] in ER.
      rewrite <- !app_assoc in ER. apply app_inv_head in ER. now apply app_inv_head in ER.
  - assert (bl = []). { apply (short_blocks bs bl 5); [apply V|apply V|rewrite E; lia|lia]. } subst bl.
    assert (L' : (length bs < 5)%nat). { rewrite <- E, app_length in L. lia. }
    destruct (step_cut follow s bs 0 [] V (or_introl L')) as (s' & -> & I'). cbn [bind snd]. rewrite I'.
    exists [], 0%nat. split; [reflexivity|]. split; [reflexivity|]. split; [now left|].
    intros r ER. rewrite ER in L. unfold tokens_bits in L. cbn [flat_map] in L. unfold token_bits in L. cbn [fst snd] in L. rewrite !app_length, bits_of_length in L. lia.
  - assert (bl = []). { destruct (parameter_length op O) as [_ PM]. apply (short_blocks bs bl 69); [apply V|apply V| |lia].
      rewrite E, app_length, bits_of_length. lia. }
    subst bl. unfold block_bits in E. cbn [concat bytes_bits flat_map] in E. rewrite app_nil_r in E.
    destruct (step_cut follow s bs op pay V) as (s' & -> & I'). { right. auto. }
    cbn [bind snd]. rewrite I'. exists [], 0%nat. split; [reflexivity|]. split; [reflexivity|]. split; [now left|].
    intros r ER. unfold tokens_bits in ER. cbn [flat_map] in ER. unfold token_bits in ER. cbn [fst snd] in ER. rewrite !app_nil_r in ER.
    destruct (bits5_inj op 0x1e pay r O ltac:(lia) ER). contradiction.
Qed.

(** * Tokens exist, are unique and few *)
Lemma head_op bits : (5 <= length bits)%nat -> exists op rest, bits = bits_of 5 op ++ rest /\ 0 <= op < 32.
Proof.
  intros L. exists (val (firstn 5 bits)), (skipn 5 bits).
  assert (L5 : length (firstn 5 bits) = 5%nat) by (rewrite firstn_length; lia). split.
  - rewrite <- (firstn_skipn 5 bits) at 1. f_equal. rewrite <- (bits_of_val (firstn 5 bits)) at 1. now rewrite L5.
  - pose proof (val_bound (firstn 5 bits)) as B. rewrite L5 in B. exact B.
Qed.
Lemma tokens_exist n : forall bits, (length bits <= 5 * n)%nat -> exists ts, tokens bits ts /\ (length ts <= S n)%nat.
Proof.
  induction n as [|n IH]; intros bits L.
  - exists [(0x1e, [])]. split; [apply tk_short; lia|cbn [length]; lia].
  - destruct (le_lt_dec 5 (length bits)) as [L5|L5].
    2: { exists [(0x1e, [])]. split; [now apply tk_short|cbn [length]; lia]. }
    destruct (head_op bits L5) as (op & rest & -> & O). rewrite app_length, bits_of_length in L.
    destruct (Z.eq_dec op 0x1e) as [->|N]. { exists [(0x1e, [])]. split; [apply tk_end|cbn [length]; lia]. }
    destruct (le_lt_dec (args_bits op) (length rest)) as [LA|LA].
    2: { exists [(0x1e, [])]. split; [now apply tk_cut|cbn [length]; lia]. }
    destruct (IH (skipn (args_bits op) rest)) as (ts & T & LT). { rewrite skipn_length. lia. }
    exists ((op, firstn (args_bits op) rest) :: ts). split; [|cbn [length]; lia].
    rewrite <- (firstn_skipn (args_bits op) rest) at 1. apply tk_op; auto. rewrite firstn_length. lia.
Qed.
Lemma tokens_unique bits ts : tokens bits ts -> forall ts', tokens bits ts' -> ts = ts'.
Proof.
  induction 1 as [rest|op pay rest ts O N P T IH|bits L|op pay O N P]; intros ts' H';
    match type of H' with tokens ?b _ => remember b as B eqn:E in H' end;
    destruct H' as [r|op' pay' r t O' N' P' T'|bb L'|op' pay' O' N' P']; try reflexivity;
    try (subst; rewrite ?app_length, ?bits_of_length in *; lia);
    try (apply bits5_inj in E; [|lia|lia]; destruct E as [EO E]; try congruence; subst op').
  - assert (pay' = pay). { rewrite <- (firstn_app_exact pay' r (length pay') eq_refl), E. apply firstn_app_exact. lia. }
    subst. apply app_inv_head in E. subst. f_equal. now apply IH.
  - subst pay'. rewrite app_length in P'. lia.
  - subst pay. rewrite app_length in P. lia.
Qed.

(** * opcode_tokenizer *)
Lemma tokenizer_ok bl follow ts : bl <> [] -> Forall block_ok bl -> tokens (block_bits bl) ts ->
  exists k, opcode_tokenizer (transfer bl ++ follow) = Done (wired ts, transfer (skipn k bl) ++ follow) /\
    (skipn k bl = [] \/ exists r, block_bits bl = tokens_bits ts ++ r /\ (261 <= length r)%nat) /\
    (forall r, block_bits bl = tokens_bits ts ++ r -> length (skipn k bl) = ((length r - 133) / 128)%nat).
Proof.
  intros NE F T. destruct bl as [|b bl]; [congruence|]. inversion F as [|? ? [Lb Bb] Fb]; subst.
  unfold opcode_tokenizer. cbn [transfer app in_read bind]. rewrite swap_element by auto. cbn [bind].
  assert (H0 : holds 0 []) by (split; [cbn [length]; lia|reflexivity]).
  pose proof (bytes_bits_length b) as LB. rewrite Lb in LB. change (8 * 16)%nat with 128%nat in LB.
  destruct (holds_append 0 [] (bytes_bits b) H0 ltac:(lia) ltac:(cbn [length]; lia)) as (buf & E & HB).
  rewrite LB in E. cbn [length app] in E, HB. change (266 - Z.of_nat 0 - 1) with (266 - 1) in E. change (266 - Z.of_nat 128 - Z.of_nat 0) with (266 - 128) in E.
  unfold BUFFER_WIDTH, INPUT_STREAM_WIDTH. rewrite E. cbn [bind].
  assert (V : inv follow (TS (transfer bl ++ follow) (match bl with [] => true | _ => false end) buf 128) (bytes_bits b) bl).
  { constructor; cbn [t_buf t_bits t_last t_in]; auto; try (rewrite LB; lia). }
  assert (EB : bytes_bits b ++ block_bits bl = block_bits (b :: bl)) by (unfold block_bits; cbn [concat]; now rewrite bytes_bits_app).
  destruct (tokens_exist (26 * length (b :: bl)) (block_bits (b :: bl))) as (ts' & T' & LT).
  { rewrite block_bits_length by auto. lia. }
  assert (ts = ts') by (eapply tokens_unique; eauto). subst ts'.
  destruct (loop_tokens _ _ T follow _ _ bl (S (26 * length ((element b, match bl with [] => true | _ => false end) :: transfer bl ++ follow))) V EB) as (bl' & k & EL & K & R).
  { etransitivity; [exact LT|]. cbn [length]. rewrite app_length.
    assert (LTR : length (transfer bl) = length bl) by (clear; induction bl as [|x l IH]; [reflexivity|cbn [transfer length]; now rewrite IH]). lia. }
  rewrite EL. exists (S k). cbn [skipn]. subst bl'. split; [reflexivity|]. exact R.
Qed.

(** * Streams *)
Lemma args_size out acts bits x rest : args out acts bits x rest -> length bits = (acts_size acts + length rest)%nat.
Proof.
  induction 1 as [|out n d acts bs out' rest L B A IH|out n i p acts bs out' rest L R A IH]; cbn [acts_size]; auto.
  - rewrite app_length, IH, bytes_bits_length, L. lia.
  - rewrite app_length, IH, bits_of_length. lia.
Qed.
Lemma tokens_bits_cons op pay ts : tokens_bits ((op, pay) :: ts) = bits_of 5 op ++ pay ++ tokens_bits ts.
Proof. unfold tokens_bits. cbn [flat_map]. unfold token_bits at 1. cbn [fst snd]. now rewrite <- app_assoc. Qed.
Lemma stream_tokens out bits x rest : stream false out bits x rest ->
  exists ts, tokens bits ts /\ bits = tokens_bits ts ++ rest /\ stream false out (tokens_bits ts) x [].
Proof.
  induction 1 as [out rest|out bs out' rest S IH|out n bs out' rest N L S IH|out d bs out' rest F|out op acts bs out1 bs1 out' rest O T A S IH].
  - exists [(0x1e, [])]. split; [apply tk_end|]. split; [reflexivity|]. exact (st_end false out []).
  - destruct IH as (ts & T & E & S'). exists ((0x1c, []) :: ts). split; [|split].
    + exact (tk_op 0x1c [] bs ts ltac:(lia) ltac:(lia) eq_refl T).
    + rewrite E. rewrite tokens_bits_cons. now rewrite <- !app_assoc.
    + rewrite tokens_bits_cons. now apply st_zeros.
  - destruct IH as (ts & T & E & S'). exists ((0x1b, bits_of 6 n) :: ts). split; [|split].
    + exact (tk_op 0x1b (bits_of 6 n) bs ts ltac:(lia) ltac:(lia) eq_refl T).
    + rewrite E. rewrite tokens_bits_cons. now rewrite <- !app_assoc.
    + rewrite tokens_bits_cons. now apply st_repeat.
  - discriminate.
  - destruct IH as (ts & T' & E & S'). destruct (args_prefix _ _ _ _ _ A) as (c & EC & AC).
    pose proof (args_size _ _ _ _ _ A) as LA. rewrite EC, app_length in LA.
    assert (LC : length c = args_bits op) by (unfold args_bits; rewrite T; lia).
    assert (N : op <> 0x1e) by (intros ->; discriminate).
    exists ((op, c) :: ts). rewrite EC. split; [|split].
    + exact (tk_op op c bs1 ts O N LC T').
    + rewrite E. rewrite tokens_bits_cons. now rewrite <- !app_assoc.
    + rewrite tokens_bits_cons. eapply st_template; eauto.
Qed.

(** * The properties *)
Lemma hls_tokens bl follow : bl <> [] -> Forall (fun b => length b = 16%nat /\ is_bytes b) bl ->
  exists ts k, tokens (bytes_bits (concat bl)) ts /\
    opcode_tokenizer (transfer bl ++ follow) = Done (wired ts, transfer (skipn k bl) ++ follow).
Proof.
  intros NE F. destruct (tokens_exist (length (block_bits bl)) (block_bits bl)) as (ts & T & _); [lia|].
  destruct (tokenizer_ok bl follow ts NE F T) as (k & E & _). exists ts, k. auto.
Qed.
Lemma hls_stream bl follow x rest : bl <> [] -> Forall (fun b => length b = 16%nat /\ is_bytes b) bl ->
  stream false [] (bytes_bits (concat bl)) x rest ->
  exists ts k, stream false [] (tokens_bits ts) x [] /\
    opcode_tokenizer (transfer bl ++ follow) = Done (wired ts, transfer (skipn k bl) ++ follow).
Proof.
  intros NE F H. destruct (stream_tokens _ _ _ _ H) as (ts & T & _ & S').
  destruct (tokenizer_ok bl follow ts NE F T) as (k & E & _). exists ts, k. auto.
Qed.
Lemma hls_consumed bl follow x pad : bl <> [] -> Forall (fun b => length b = 16%nat /\ is_bytes b) bl ->
  stream false [] (bytes_bits (concat bl)) x (bits_of 32 (crc32 x) ++ pad) -> (length pad < 128)%nat ->
  exists ts, stream false [] (tokens_bits ts) x [] /\ opcode_tokenizer (transfer bl ++ follow) = Done (wired ts, follow).
Proof.
  intros NE F H LP. destruct (stream_tokens _ _ _ _ H) as (ts & T & ET & S').
  destruct (tokenizer_ok bl follow ts NE F T) as (k & E & [EK|(r & ER & LR)] & _).
  - rewrite EK in E. exists ts. auto.
  - unfold block_bits in ER. rewrite ET in ER. apply app_inv_head in ER. subst r. rewrite app_length, bits_of_length in LR. lia.
Qed.

Lemma hls_unread bl follow x rest : bl <> [] -> Forall (fun b => length b = 16%nat /\ is_bytes b) bl ->
  stream false [] (bytes_bits (concat bl)) x rest ->
  exists ts k, stream false [] (tokens_bits ts) x [] /\
    opcode_tokenizer (transfer bl ++ follow) = Done (wired ts, transfer (skipn k bl) ++ follow) /\ length (skipn k bl) = ((length rest - 133) / 128)%nat.
Proof.
  intros NE F H. destruct (stream_tokens _ _ _ _ H) as (ts & T & ET & S').
  destruct (tokenizer_ok bl follow ts NE F T) as (k & E & _ & U). exists ts, k. split; [exact S'|]. split; [exact E|]. exact (U rest ET).
Qed.
