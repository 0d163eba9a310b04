(** sw842_decompress refines the pure decoder. *)
From Coq Require Import ZArith List Bool Lia.
From Verif Require Import SpecBits SpecCrc Spec842 CBase BitsLemmas CrcModel CrcProofs
  SerialCompModel SerialDecompModel SerialWriter SerialDict SerialIdeal SerialValid PureDecoder SerialReader.
Import ListNotations.
Open Scope Z_scope.

(** The sink after producing [out] from the initial memory [m0] with capacity [cap]. *)
Record sk (cap : Z) (m0 : list Z) (o : sink) (out : list Z) : Prop := mkSk {
  sk_mem : o_mem o = out ++ skipn (length out) m0;
  sk_obytes : is_bytes out;
  sk_pos : o_pos o = lenZ out;
  sk_olen : o_pos o + o_olen o = cap;
  sk_fit : lenZ out <= cap;
  sk_cap : cap <= lenZ m0;
  sk_m0 : is_bytes m0 }.
(** Memory after writing some bytes, within the capacity, at the front. *)
Definition kept (cap : Z) (m0 m : list Z) : Prop :=
  exists w, is_bytes w /\ lenZ w <= cap /\ m = w ++ skipn (length w) m0.
Lemma sk_kept cap m0 o out : sk cap m0 o out -> kept cap m0 (o_mem o).
Proof. intros []. exists out. auto. Qed.
Lemma sk_mlen cap m0 o out : sk cap m0 o out -> length (o_mem o) = length m0.
Proof. intros [M _ _ _ F C _]. rewrite M, app_length, skipn_length. unfold lenZ in *. lia. Qed.
Lemma sk_bytes cap m0 o out : sk cap m0 o out -> is_bytes (o_mem o).
Proof. intros [M B _ _ F C M0]. rewrite M. apply is_bytes_app. split; auto. now apply is_bytes_skipn. Qed.
Lemma sk_out cap m0 o out : sk cap m0 o out -> firstn (length out) (o_mem o) = out.
Proof. intros [M _ _ _ _ _ _]. rewrite M. now apply firstn_app_exact. Qed.
Lemma sk_init cap m0 : is_bytes m0 -> 0 <= cap <= lenZ m0 -> sk cap m0 (mkSink m0 0 cap) [].
Proof. intros. constructor; cbn [o_mem o_pos o_olen]; rewrite ?lenZ_nil; auto; try constructor; lia. Qed.

Lemma skipn_skipn {A} a b (l : list A) : skipn a (skipn b l) = skipn (b + a) l.
Proof. revert l. induction b; intros l; [reflexivity|]. destruct l; [now rewrite !skipn_nil|]. apply IHb. Qed.
(** Appending bytes to the output. *)
Lemma sk_store cap m0 o out bs : sk cap m0 o out -> is_bytes bs -> lenZ out + lenZ bs <= cap ->
  exists m, store_bytes (o_mem o) (o_pos o) bs = Done m /\
    sk cap m0 (mkSink m (o_pos o + lenZ bs) (o_olen o - lenZ bs)) (out ++ bs).
Proof.
  intros Ho Hbs Hfit. pose proof (sk_mlen _ _ _ _ Ho) as ML. destruct Ho as [MM OB PO OL FT CP M0].
  exists (splice (o_mem o) (length out) bs).
  assert (LM : (length out + length bs <= length (o_mem o))%nat) by (rewrite ML; unfold lenZ in *; lia).
  rewrite store_bytes_ok. 2: { rewrite PO. apply lenZ_nonneg. } 2: { unfold lenZ in *. lia. }
  split. { rewrite PO. unfold lenZ. now rewrite Nat2Z.id. }
  constructor; cbn [o_mem o_pos o_olen]; auto.
  - unfold splice. rewrite MM. rewrite firstn_app_exact by auto. rewrite <- app_assoc. do 2 f_equal.
    rewrite skipn_app. rewrite skipn_all2 by lia. rewrite skipn_skipn, app_length. cbn [app]. f_equal. lia.
  - apply is_bytes_app. auto.
  - rewrite lenZ_app. lia.
  - lia.
  - rewrite lenZ_app. lia.
Qed.
Lemma sk_load cap m0 o out p n : sk cap m0 o out -> (p + n <= length out)%nat ->
  load_bytes (o_mem o) (Z.of_nat p) (Z.of_nat n) = Done (slice p n out).
Proof.
  intros Ho Hp. pose proof (sk_mlen _ _ _ _ Ho) as ML. pose proof (sk_out _ _ _ _ Ho) as OU. destruct Ho as [MM OB PO OL FT CP M0].
  rewrite load_bytes_ok by (unfold lenZ in *; lia). rewrite !Nat2Z.id.
  f_equal. unfold slice. rewrite <- OU at 1. rewrite skipn_firstn_comm. rewrite firstn_firstn_le by lia. reflexivity.
Qed.
Lemma load_undef m i k : i < 0 -> load_bytes m i k = Undef.
Proof. intros. unfold load_bytes. destruct (Z.leb_spec 0 i); [lia|reflexivity]. Qed.

Section Dec.
Variable e : endian.
Variables (inp m0 : list Z) (cap : Z).
Hypothesis Hinp : is_bytes inp.
Hypothesis Hcap : cap < 2 ^ 63.

(** The model's result [r] agrees with the pure result [p]. *)
Definition agrees (p : pres) (r : outcome (Z * dstate)) : Prop :=
  match p with
  | POk out bits => exists r' o', r = Done (0, (r', o')) /\ rd inp r' bits /\ sk cap m0 o' out
  | PErr c => c < 0 /\ exists r' o' out', r = Done (c, (r', o')) /\ sk cap m0 o' out'
  | PUndef => r = Undef
  end.

Lemma do_data_ok r o out bits n : rd inp r bits -> sk cap m0 o out -> (n = 2 \/ n = 4 \/ n = 8)%nat ->
  agrees (pd_data cap n out bits) (do_data e inp (r, o) (Z.of_nat n)).
Proof.
  intros Hr Ho Hn. unfold do_data, pd_data. pose proof (sk_olen _ _ _ _ Ho) as OL. pose proof (sk_pos _ _ _ _ Ho) as PO.
  rewrite !Z.gtb_ltb. destruct (Z.ltb_spec (o_olen o) (Z.of_nat n)) as [C|C]; destruct (Z.ltb_spec cap (lenZ out + Z.of_nat n)) as [C'|C']; try lia.
  { cbn [agrees]. split; [unfold ENOSPC; lia|]. do 3 eexists. split; [reflexivity|]. exact Ho. }
  assert (U : u8 (Z.of_nat n * 8) = Z.of_nat (8 * n)) by (unfold u8; rewrite Z.mod_small; lia). rewrite U.
  pose proof (next_bits_ok e inp Hinp r bits (Z.of_nat (8 * n)) Hr ltac:(lia)) as NB. unfold rd_res in NB. rewrite Nat2Z.id in NB.
  destruct (rdb (8 * n) bits) as [[v rest]|] eqn:R.
  2: { destruct NB as (r' & ->). rewrite bind_done. change (negb (- EOVERFLOW =? 0)) with true. cbv iota.
       split; [unfold EOVERFLOW; lia|]. do 3 eexists. split; [reflexivity|]. exact Ho. }
  destruct NB as (r' & -> & Hr'). rewrite bind_done. change (negb (0 =? 0)) with false. cbv iota.
  apply rdb_some in R. destruct R as [-> V].
  destruct (sk_store cap m0 o out (be_bytes n v) Ho (be_bytes_is_bytes n v)) as (m & E & S).
  { unfold lenZ at 2. rewrite be_bytes_length. lia. }
  unfold lenZ in S. rewrite be_bytes_length in S. cbn [agrees].
  destruct Hn as [->|[->| ->]].
  - change (Z.of_nat 2 =? 2) with true. cbv iota. unfold store16. rewrite native_swap16.
    replace (u16 v) with v by (unfold u16; rewrite Z.mod_small; auto). rewrite E, bind_done. eauto 10.
  - change (Z.of_nat 4 =? 2) with false. change (Z.of_nat 4 =? 4) with true. cbv iota. unfold store32. rewrite native_swap32.
    replace (u32 v) with v by (unfold u32; rewrite Z.mod_small; auto). rewrite E, bind_done. eauto 10.
  - change (Z.of_nat 8 =? 2) with false. change (Z.of_nat 8 =? 4) with false. change (Z.of_nat 8 =? 8) with true. cbv iota.
    unfold store64. rewrite native_swap64. rewrite E, bind_done. eauto 10.
Qed.

Lemma round_down_pow x k : 0 <= x -> 0 <= k -> round_down x (2 ^ k) = x / 2 ^ k * 2 ^ k.
Proof.
  intros. unfold round_down. apply Z.bits_inj'. intros i Hi.
  rewrite Z.land_spec, Z.lnot_spec by lia. rewrite <- Z.shiftl_mul_pow2, <- Z.shiftr_div_pow2 by lia.
  replace (2 ^ k - 1) with (Z.ones k) by (rewrite Z.ones_equiv; lia).
  destruct (Z.lt_ge_cases i k).
  - rewrite Z.ones_spec_low by lia. rewrite Z.shiftl_spec_low by lia. apply andb_false_r.
  - rewrite Z.ones_spec_high by lia. rewrite Z.shiftl_spec by lia. rewrite Z.shiftr_spec by lia.
    replace (i - k + k) with i by lia. apply andb_true_r.
Qed.

Lemma index_offset_ok written n i : (n = 2 \/ n = 4 \/ n = 8)%nat -> 0 <= i < 2 ^ Z.of_nat (index_bits n) ->
  Z.of_nat written < 2 ^ 63 ->
  index_offset (Z.of_nat written) (Z.of_nat n) (window n) i = (poff written n i, ptotal written) /\
  u64 (poff written n i + Z.of_nat n) = poff written n i + Z.of_nat n.
Proof.
  intros Hn Hi Hw. pose proof (poff_spec written n i Hn Hi) as (P0 & P1 & _).
  assert (T : ptotal written <= Z.of_nat written).
  { unfold ptotal. pose proof (Z.mul_div_le (Z.of_nat written) 8 ltac:(lia)). lia. }
  assert (W : window n <= 2048) by (destruct Hn as [->|[->| ->]]; cbn; lia).
  assert (W0 : 0 < window n) by (destruct Hn as [->|[->| ->]]; cbn; lia).
  assert (WP : exists k, window n = 2 ^ k /\ 0 <= k).
  { destruct Hn as [->|[->| ->]]; [exists 9|exists 11|exists 11]; split; try lia; reflexivity. }
  split. 2: { unfold u64. apply Z.mod_small. lia. }
  unfold index_offset.
  assert (RT : round_down (Z.of_nat written) 8 = ptotal written).
  { change 8 with (2 ^ 3) at 1. rewrite round_down_pow by lia. unfold ptotal. change (2 ^ 3) with 8. lia. }
  rewrite RT. destruct WP as (k & WE & K0).
  assert (T0 : 0 <= ptotal written) by (unfold ptotal; pose proof (Z.div_pos (Z.of_nat written) 8 ltac:(lia) ltac:(lia)); lia).
  assert (OB : 0 <= i * Z.of_nat n <= 2048).
  { destruct Hn as [->|[->| ->]]; cbn [index_bits] in Hi; change (2 ^ Z.of_nat 8) with 256 in Hi; change (2 ^ Z.of_nat 9) with 512 in Hi; lia. }
  assert (UO : u64 (i * Z.of_nat n) = i * Z.of_nat n) by (unfold u64; apply Z.mod_small; lia). rewrite UO.
  unfold poff. rewrite !Z.gtb_ltb. destruct (Z.ltb_spec (window n) (ptotal written)) as [G|G]; [|reflexivity].
  assert (RD : round_down (ptotal written) (window n) = ptotal written / window n * window n).
  { rewrite WE. rewrite round_down_pow by lia. reflexivity. }
  rewrite RD.
  assert (SW : window n <= ptotal written / window n * window n).
  { assert (1 <= ptotal written / window n) by (apply Z.div_le_lower_bound; lia). nia. }
  pose proof (Z.mul_div_le (ptotal written) (window n) ltac:(lia)) as ML.
  assert (US : u64 (ptotal written / window n * window n - window n) = ptotal written / window n * window n - window n)
    by (unfold u64; apply Z.mod_small; lia).
  rewrite US.
  destruct (i * Z.of_nat n >=? ptotal written - ptotal written / window n * window n); f_equal; unfold u64; apply Z.mod_small; lia.
Qed.

Lemma do_index_ok r o out bits n : rd inp r bits -> sk cap m0 o out -> (n = 2 \/ n = 4 \/ n = 8)%nat ->
  agrees (pd_index cap n out bits) (do_index e inp (r, o) (Z.of_nat n)).
Proof.
  intros Hr Ho Hn.
  assert (E : do_index e inp (r, o) (Z.of_nat n) = do_index_ e inp (r, o) (Z.of_nat n) (Z.of_nat (index_bits n)) (window n)).
  { destruct Hn as [->|[->| ->]]; reflexivity. }
  rewrite E. unfold do_index_, pd_index. pose proof (sk_olen _ _ _ _ Ho) as OL. pose proof (sk_pos _ _ _ _ Ho) as PO.
  pose proof (sk_fit _ _ _ _ Ho) as FT.
  pose proof (next_bits_ok e inp Hinp r bits (Z.of_nat (index_bits n)) Hr) as NB. unfold rd_res in NB. rewrite Nat2Z.id in NB.
  specialize (NB ltac:(destruct Hn as [->|[->| ->]]; cbn; lia)).
  destruct (rdb (index_bits n) bits) as [[i rest]|] eqn:R.
  2: { destruct NB as (r' & ->). rewrite bind_done. change (negb (- EOVERFLOW =? 0)) with true. cbv iota.
       split; [unfold EOVERFLOW; lia|]. do 3 eexists. split; [reflexivity|]. exact Ho. }
  destruct NB as (r' & -> & Hr'). rewrite bind_done. change (negb (0 =? 0)) with false. cbv iota.
  apply rdb_some in R. destruct R as [-> V].
  rewrite PO. change (index_offset (lenZ out)) with (index_offset (Z.of_nat (length out))).
  destruct (index_offset_ok (length out) n i Hn V ltac:(unfold lenZ in *; lia)) as [-> U]. rewrite U.
  rewrite !Z.gtb_ltb. destruct (Z.ltb_spec (ptotal (length out)) (poff (length out) n i + Z.of_nat n)) as [C|C].
  { split; [unfold EINVAL; lia|]. do 3 eexists. split; [reflexivity|]. exact Ho. }
  destruct (Z.ltb_spec (o_olen o) (Z.of_nat n)) as [C1|C1]; destruct (Z.ltb_spec cap (lenZ out + Z.of_nat n)) as [C2|C2]; try lia.
  { split; [unfold ENOSPC; lia|]. do 3 eexists. split; [reflexivity|]. exact Ho. }
  destruct (poff_spec (length out) n i Hn V) as (P0 & _).
  assert (PB : (Z.to_nat (poff (length out) n i) + n <= length out)%nat).
  { unfold ptotal in C. pose proof (Z.mul_div_le (Z.of_nat (length out)) 8 ltac:(lia)). lia. }
  pose proof (sk_load cap m0 o out _ n Ho PB) as LD. rewrite Z2Nat.id in LD by lia. rewrite LD, bind_done.
  destruct (sk_store cap m0 o out (slice (Z.to_nat (poff (length out) n i)) n out) Ho) as (m & ES & S).
  { rewrite <- (sk_out _ _ _ _ Ho). apply is_bytes_slice, is_bytes_firstn, (sk_bytes _ _ _ _ Ho). }
  { unfold lenZ at 2. rewrite slice_length by auto. lia. }
  unfold lenZ in S at 1 2. rewrite slice_length in S by auto.
  rewrite <- PO, ES, bind_done. cbn [agrees]. eauto 10.
Qed.

(** Columns of decomp_ops against the actions of the format. *)
Definition op_cols (o : Z) : list Z := nth (Z.to_nat o) decomp_ops [].
Definition cols_ok (o : Z) : bool :=
  match template o with Some a => acts_eqb a (flat_map col_acts (op_cols o)) | None => false end
  && forallb (fun t => existsb (Z.eqb t) [D2; D4; D8; I2; I4; I8; N0]) (op_cols o).
Lemma cols_check : forallb (fun k => cols_ok (Z.of_nat k)) (seq 0 26) = true.
Proof. vm_compute. reflexivity. Qed.

Lemma do_ops_ok ts : Forall (fun t => existsb (Z.eqb t) [D2; D4; D8; I2; I4; I8; N0] = true) ts ->
  forall r o out bits, rd inp r bits -> sk cap m0 o out ->
  agrees (pd_acts cap (flat_map col_acts ts) out bits) (do_ops e inp (r, o) ts).
Proof.
  induction 1 as [|t ts Ht HT IH]; intros r o out bits Hr Ho; cbn [flat_map do_ops].
  { cbn. eauto 10. }
  assert (STEP : forall a R, agrees (pd_act cap a out bits) R -> col_acts t = [a] ->
    agrees (pd_acts cap (col_acts t ++ flat_map col_acts ts) out bits)
     ('(ret, st1) <- R ;; if negb (ret =? 0) then Done (ret, st1) else do_ops e inp st1 ts)).
  { intros a R HA HC. rewrite HC. cbn [app pd_acts]. destruct (pd_act cap a out bits) as [o1 b1|c|]; cbn [agrees] in HA.
    - destruct HA as (r' & o' & -> & Hr' & Ho'). rewrite bind_done. change (negb (0 =? 0)) with false. cbv iota. now apply IH.
    - destruct HA as (Hc & r' & o' & out' & -> & Ho'). rewrite bind_done. cbn [agrees].
      destruct (Z.eqb_spec c 0); [lia|]. cbn [negb]. split; auto. eauto.
    - subst R. reflexivity. }
  cbn [existsb] in Ht. rewrite !orb_true_iff, !Z.eqb_eq in Ht.
  destruct Ht as [->|[->|[->|[->|[->|[->|[->|]]]]]]]; [..|discriminate].
  - apply (STEP (D 2)); auto. apply (do_data_ok r o out bits 2); auto.
  - apply (STEP (D 4)); auto. apply (do_data_ok r o out bits 4); auto.
  - apply (STEP (D 8)); auto. apply (do_data_ok r o out bits 8); auto.
  - apply (STEP (I 2)); auto. apply (do_index_ok r o out bits 2); auto.
  - apply (STEP (I 4)); auto. apply (do_index_ok r o out bits 4); auto.
  - apply (STEP (I 8)); auto. apply (do_index_ok r o out bits 8); auto.
  - change (col_acts N0) with (@nil action). cbn [app]. now apply IH.
Qed.

Lemma do_op_ok op r o out bits : 0 <= op < 32 -> rd inp r bits -> sk cap m0 o out ->
  agrees (match template op with None => PErr (- EINVAL) | Some acts => pd_acts cap acts out bits end)
         (do_op e inp (r, o) op).
Proof.
  intros Hop Hr Ho. unfold do_op, OPS_MAX. rewrite Z.geb_leb. destruct (Z.leb_spec 26 op) as [G|G].
  - assert (T : template op = None).
    { assert (C : op = 26 \/ op = 27 \/ op = 28 \/ op = 29 \/ op = 30 \/ op = 31) by lia.
      destruct C as [->|[->|[->|[->|[->| ->]]]]]; reflexivity. }
    rewrite T. split; [unfold EINVAL; lia|]. eauto 10.
  - pose proof cols_check as CC. rewrite forallb_forall in CC. specialize (CC (Z.to_nat op)). rewrite in_seq in CC.
    specialize (CC ltac:(lia)). rewrite Z2Nat.id in CC by lia. unfold cols_ok in CC. apply andb_true_iff in CC. destruct CC as [C1 C2].
    destruct (template op) as [acts|]; [|discriminate]. apply acts_eqb_eq in C1. subst acts. fold (op_cols op).
    apply do_ops_ok; auto. apply Forall_forall. rewrite forallb_forall in C2. exact C2.
Qed.

Lemma repeat_copy_ok k : forall o out, sk cap m0 o out -> (8 <= length out)%nat -> lenZ out + 8 * Z.of_nat k <= cap ->
  exists o', repeat_copy k o = Done o' /\ sk cap m0 o' (out ++ copies k (last8 out)).
Proof.
  induction k; intros o out Ho L8 Hfit; cbn [repeat_copy].
  - exists o. split; auto. change (copies 0 (last8 out)) with (@nil Z). now rewrite app_nil_r.
  - assert (LL := last8_length out L8).
    pose proof (sk_load cap m0 o out (length out - 8) 8 Ho ltac:(lia)) as LD.
    rewrite (sk_pos _ _ _ _ Ho). replace (lenZ out - 8) with (Z.of_nat (length out - 8)) by (unfold lenZ; lia).
    change 8 with (Z.of_nat 8) at 1. rewrite LD, bind_done.
    assert (E8 : slice (length out - 8) 8 out = last8 out).
    { unfold slice, last8. apply firstn_all2. rewrite skipn_length. lia. }
    rewrite E8. rewrite <- (sk_pos _ _ _ _ Ho).
    destruct (sk_store cap m0 o out (last8 out) Ho) as (m & ES & S).
    { rewrite <- (sk_out _ _ _ _ Ho). apply is_bytes_skipn, is_bytes_firstn, (sk_bytes _ _ _ _ Ho). }
    { unfold lenZ at 2. rewrite LL. lia. }
    rewrite ES, bind_done. unfold lenZ in S. rewrite LL in S. change (Z.of_nat 8) with 8 in S.
    destruct (IHk _ _ S) as (o' & -> & S').
    { rewrite app_length. lia. } { rewrite lenZ_app. unfold lenZ at 2. rewrite LL. lia. }
    exists o'. split; auto. rewrite last8_app in S' by auto. rewrite <- app_assoc in S'. exact S'.
Qed.

Lemma short_copy_ok k : forall r o out bits, rd inp r bits -> sk cap m0 o out -> lenZ out + Z.of_nat k <= cap ->
  agrees (match rdb (8 * k) bits with
          | None => PErr (- EOVERFLOW)
          | Some (v, b3) => POk (out ++ be_bytes k v) b3
          end) (short_copy e k inp (r, o)).
Proof.
  induction k; intros r o out bits Hr Ho Hfit; cbn [short_copy].
  - change (8 * 0)%nat with 0%nat. cbn [rdb Nat.leb firstn skipn be_bytes agrees]. rewrite app_nil_r. eauto 10.
  - pose proof (next_bits_ok e inp Hinp r bits 8 Hr ltac:(lia)) as NB. unfold rd_res in NB. change (Z.to_nat 8) with 8%nat in NB.
    destruct (rdb 8 bits) as [[v b1]|] eqn:R.
    + destruct NB as (r' & -> & Hr'). rewrite bind_done. change (negb (0 =? 0)) with false. cbv iota.
      pose proof (rdb_len _ _ _ _ R) as LB. apply rdb_some in R. destruct R as [-> V]. change (2 ^ Z.of_nat 8) with 256 in V.
      assert (u8 v = v) as -> by (unfold u8; apply Z.mod_small; auto).
      destruct (sk_store cap m0 o out [v] Ho) as (m & ES & SK).
      { constructor; auto. } { change (lenZ [v]) with 1. lia. }
      change (lenZ [v]) with 1 in SK. unfold store8. rewrite ES, bind_done.
      specialize (IHk r' _ (out ++ [v]) b1 Hr' SK). rewrite lenZ_app in IHk. change (lenZ [v]) with 1 in IHk.
      specialize (IHk ltac:(lia)).
      destruct (rdb (8 * k) b1) as [[v2 b2]|] eqn:R2.
      * apply rdb_some in R2. destruct R2 as [-> V2].
        assert (EB : be_bytes (S k) (v * 2 ^ Z.of_nat (8 * k) + v2) = v :: be_bytes k v2).
        { apply bytes_bits_inj; auto using be_bytes_is_bytes. { constructor; auto. apply be_bytes_is_bytes. }
          rewrite bytes_bits_cons, !bytes_bits_be_bytes. replace (8 * S k)%nat with (8 + 8 * k)%nat by lia.
          apply bits_of_concat. auto. }
        rewrite app_assoc. rewrite <- (bits_of_concat 8 (8 * k)) by auto.
        replace (8 * S k)%nat with (8 + 8 * k)%nat by lia. rewrite rdb_app.
        -- rewrite EB. rewrite <- app_assoc in IHk. exact IHk.
        -- rewrite pow2_add. change (2 ^ Z.of_nat 8) with 256. pose proof (pow2_nat_pos (8 * k)). nia.
      * rewrite rdb_short. { exact IHk. }
        unfold rdb in R2. destruct (Nat.leb_spec (8 * k) (length b1)); [discriminate|]. lia.
    + destruct NB as (r' & ->). rewrite bind_done. change (negb (- EOVERFLOW =? 0)) with true. cbv iota.
      rewrite rdb_short. { split; [unfold EOVERFLOW; lia|]. eauto 10. }
      unfold rdb in R. destruct (Nat.leb_spec 8 (length bits)); [discriminate|]. lia.
Qed.

(** One iteration. *)
Definition agrees_step (p : bool * pres) (r : outcome (Z * bool * dstate)) : Prop :=
  match p with
  | (fin, POk out bits) => exists r' o', r = Done (0, fin, (r', o')) /\ rd inp r' bits /\ sk cap m0 o' out
  | (_, PErr c) => c < 0 /\ exists fin r' o' out', r = Done (c, fin, (r', o')) /\ sk cap m0 o' out'
  | (_, PUndef) => r = Undef
  end.
Lemma agrees_lift p r : agrees p r -> agrees_step (false, p) ('(ret, st') <- r ;; Done (ret, false, st')).
Proof.
  destruct p as [o b|c|]; cbn [agrees agrees_step].
  - intros (r' & o' & -> & A & B). rewrite bind_done. eauto 10.
  - intros (C & r' & o' & out' & -> & A). rewrite bind_done. split; auto. eauto 10.
  - intros ->. reflexivity.
Qed.

Lemma decomp_step_ok r o out bits : rd inp r bits -> sk cap m0 o out ->
  agrees_step (pd_step cap out bits) (decomp_step e inp (r, o)).
Proof.
  intros Hr Ho. unfold decomp_step, pd_step. pose proof (sk_olen _ _ _ _ Ho) as OL. pose proof (sk_pos _ _ _ _ Ho) as PO.
  assert (ERR : forall c r' fin, c < 0 -> agrees_step (false, PErr c) (Done (c, fin, (r', o)))).
  { intros. split; auto. eauto 10. }
  assert (NEG : - EOVERFLOW < 0 /\ - EINVAL < 0 /\ - ENOSPC < 0) by (unfold EOVERFLOW, EINVAL, ENOSPC; lia). destruct NEG as (NO & NI & NN).
  pose proof (next_bits_ok e inp Hinp r bits OP_BITS Hr ltac:(unfold OP_BITS; lia)) as NB. unfold rd_res in NB. change (Z.to_nat OP_BITS) with 5%nat in NB.
  destruct (rdb 5 bits) as [[op b1]|] eqn:R.
  2: { destruct NB as (r' & ->). rewrite bind_done. change (negb (- EOVERFLOW =? 0)) with true. cbv iota. auto. }
  destruct NB as (r1 & -> & Hr1). rewrite bind_done. change (negb (0 =? 0)) with false. cbv iota.
  apply rdb_some in R. destruct R as [-> OPR]. change (2 ^ Z.of_nat 5) with 32 in OPR.
  change OP_REPEAT with 0x1b. change OP_ZEROS with 0x1c. change OP_SHORT_DATA with 0x1d. change OP_END with 0x1e.
  destruct (Z.eqb_spec op 0x1b) as [->|N1].
  { pose proof (next_bits_ok e inp Hinp r1 b1 REPEAT_BITS Hr1 ltac:(unfold REPEAT_BITS; lia)) as NB. unfold rd_res in NB. change (Z.to_nat REPEAT_BITS) with 6%nat in NB.
    destruct (rdb 6 b1) as [[rep b2]|] eqn:R.
    2: { destruct NB as (r' & ->). rewrite bind_done. change (negb (- EOVERFLOW =? 0)) with true. cbv iota. auto. }
    destruct NB as (r2 & -> & Hr2). rewrite bind_done. change (negb (0 =? 0)) with false. cbv iota.
    apply rdb_some in R. destruct R as [-> RP].
    rewrite PO. destruct (Z.eqb_spec (lenZ out) 0) as [E0|E0]; destruct (Nat.eqb_spec (length out) 0) as [E1|E1]; try (unfold lenZ in E0; lia).
    { auto. }
    cbv zeta. rewrite !Z.gtb_ltb. destruct (Z.ltb_spec (o_olen o) ((rep + 1) * 8)) as [C|C]; destruct (Z.ltb_spec cap (lenZ out + (rep + 1) * 8)) as [C'|C']; try lia.
    { auto. }
    destruct (Nat.ltb_spec (length out) 8) as [L8|L8].
    - assert (exists k, Z.to_nat (rep + 1) = S k) as [k ->] by (exists (Z.to_nat rep); lia).
      cbn [repeat_copy]. rewrite load_undef by (unfold lenZ in *; lia). reflexivity.
    - destruct (repeat_copy_ok (Z.to_nat (rep + 1)) o out Ho L8 ltac:(lia)) as (o' & -> & S'). rewrite bind_done. cbn. eauto 10. }
  destruct (Z.eqb_spec op 0x1c) as [->|N2].
  { rewrite !Z.gtb_ltb. destruct (Z.ltb_spec (o_olen o) 8) as [C|C]; destruct (Z.ltb_spec cap (lenZ out + 8)) as [C'|C']; try lia.
    { auto. }
    destruct (sk_store cap m0 o out (List.repeat 0 8) Ho) as (m & ES & S).
    { apply is_bytes_repeat. unfold is_byte; lia. } { change (lenZ (List.repeat 0 8)) with 8. lia. }
    change (lenZ (List.repeat 0 8)) with 8 in S. rewrite ES, bind_done. cbn [agrees_step]. eauto 10. }
  destruct (Z.eqb_spec op 0x1d) as [->|N3].
  { pose proof (next_bits_ok e inp Hinp r1 b1 SHORT_DATA_BITS Hr1 ltac:(unfold SHORT_DATA_BITS; lia)) as NB. unfold rd_res in NB. change (Z.to_nat SHORT_DATA_BITS) with 3%nat in NB.
    destruct (rdb 3 b1) as [[k b2]|] eqn:R.
    2: { destruct NB as (r' & ->). rewrite bind_done. change (negb (- EOVERFLOW =? 0)) with true. cbv iota. auto. }
    destruct NB as (r2 & -> & Hr2). rewrite bind_done. change (negb (0 =? 0)) with false. cbv iota.
    apply rdb_some in R. destruct R as [-> K]. change (2 ^ Z.of_nat 3) with 8 in K.
    change SHORT_DATA_BITS_MAX with 7.
    destruct (Z.eqb_spec k 0) as [K0|K0]; cbn [orb]; [auto|].
    rewrite !Z.gtb_ltb. destruct (Z.ltb_spec 7 k); [lia|].
    destruct (Z.ltb_spec (o_olen o) k) as [C|C]; destruct (Z.ltb_spec cap (lenZ out + k)) as [C'|C']; try lia.
    { auto. }
    apply agrees_lift. apply short_copy_ok; auto. lia. }
  destruct (Z.eqb_spec op 0x1e) as [->|N4]. { cbn. eauto 10. }
  pose proof (do_op_ok op r1 o out b1 OPR Hr1 Ho) as A. apply agrees_lift in A.
  destruct (template op); exact A.
Qed.

Lemma decomp_loop_ok f : forall r o out bits, rd inp r bits -> sk cap m0 o out ->
  match pd_loop f cap out bits with
  | Some p => agrees p (decomp_loop e f inp (r, o))
  | None => decomp_loop e f inp (r, o) = NoFuel
  end.
Proof.
  induction f as [|f IH]; intros r o out bits Hr Ho; cbn [pd_loop decomp_loop]; auto.
  pose proof (decomp_step_ok r o out bits Hr Ho) as A.
  destruct (pd_step cap out bits) as [fin [o1 b1|c|]]; cbn [agrees_step] in A.
  - destruct A as (r' & o' & -> & Hr' & Ho'). rewrite bind_done. change (negb (0 =? 0)) with false. cbv iota.
    destruct fin; [cbn [agrees]; eauto 10|]. now apply IH.
  - destruct A as (C & fin' & r' & o' & out' & -> & Ho'). rewrite bind_done. destruct (Z.eqb_spec c 0); [lia|]. cbn [negb].
    destruct fin; cbn [agrees]; split; auto; eauto 10.
  - rewrite A. destruct fin; reflexivity.
Qed.
End Dec.

(** * The whole function *)
(** Pure result of decoding [inp] with capacity [cap]. *)
Definition pure_run (inp : list Z) (cap : Z) : option pres :=
  pd_loop (S (length (bytes_bits inp))) cap [] (bytes_bits inp).

Theorem sw842_decompress_pure e oaddr inp out olen :
  is_bytes inp -> is_bytes out -> 0 <= olen <= lenZ out -> olen < 2 ^ 63 ->
  match pure_run inp olen with
  | None => False
  | Some PUndef => sw842_decompress e oaddr inp out olen = Undef
  | Some (PErr c) => c < 0 /\ exists m, sw842_decompress e oaddr inp out olen = Done (c, 0, m) /\ kept olen out m
  | Some (POk x rest) =>
    exists m, m = x ++ skipn (length x) out /\ is_bytes x /\ lenZ x <= olen /\
    sw842_decompress e oaddr inp out olen =
      match rdb 32 rest with
      | None => Done (- EOVERFLOW, 0, m)
      | Some (crc, _) => if negb (crc =? crc32 x) then Done (- EINVAL, 0, m)
                         else if lenZ x >? UINT_MAX then Done (- ENOSPC, 0, m)
                         else Done (0, lenZ x, m)
      end
  end.
Proof.
  intros Hinp Hout Hcap H63. unfold sw842_decompress, pure_run.
  pose proof (decomp_loop_ok e inp out olen Hinp H63 (S (length (bytes_bits inp))) (mkReader 0 0 (lenZ inp)) (mkSink out 0 olen) []
    (bytes_bits inp) (rd_init inp) (sk_init olen out Hout Hcap)) as L.
  replace (S (Z.to_nat (8 * lenZ inp))) with (S (length (bytes_bits inp))) by (rewrite bytes_bits_length; unfold lenZ; lia).
  pose proof (pd_loop_fuel (S (length (bytes_bits inp))) olen [] (bytes_bits inp) ltac:(lia)) as NF.
  destruct (pd_loop (S (length (bytes_bits inp))) olen [] (bytes_bits inp)) as [[x rest|c|]|]; [| | |congruence]; cbn [agrees] in L.
  - destruct L as (r & o & -> & Hr & Ho). rewrite bind_done. change (negb (0 =? 0)) with false. cbv iota.
    exists (o_mem o). split; [apply (sk_mem _ _ _ _ Ho)|]. split; [apply (sk_obytes _ _ _ _ Ho)|]. split; [apply (sk_fit _ _ _ _ Ho)|].
    pose proof (next_bits_ok e inp Hinp r rest CRC_BITS Hr ltac:(unfold CRC_BITS; lia)) as NB. unfold rd_res in NB.
    change (Z.to_nat CRC_BITS) with 32%nat in NB.
    destruct (rdb 32 rest) as [[crc b]|].
    + destruct NB as (r' & -> & _). rewrite bind_done. change (negb (0 =? 0)) with false. cbv iota.
      pose proof (sk_olen _ _ _ _ Ho) as OL. pose proof (sk_pos _ _ _ _ Ho) as PO. pose proof (sk_fit _ _ _ _ Ho) as FT.
      pose proof (sk_mlen _ _ _ _ Ho) as ML.
      replace (olen - o_olen o) with (lenZ x) by lia.
      rewrite crc32_be_spec. 2: apply (sk_bytes _ _ _ _ Ho). 2: { pose proof (lenZ_nonneg x). unfold lenZ in *. lia. }
      rewrite bind_done. unfold lenZ at 1. rewrite Nat2Z.id, (sk_out _ _ _ _ Ho). reflexivity.
    + destruct NB as (r' & ->). reflexivity.
  - destruct L as (C & r & o & out' & -> & Ho). rewrite bind_done. destruct (Z.eqb_spec c 0); [lia|]. cbn [negb].
    split; auto. eexists. split; [reflexivity|]. eapply sk_kept; eauto.
  - rewrite L. reflexivity.
Qed.
