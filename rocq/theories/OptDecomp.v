(** optsw842_decompress refines a pure decoder for the hardware format. *)
From Coq Require Import ZArith List Bool Lia.
From Verif Require Import SpecBits SpecCrc Spec842 CBase BitsLemmas CrcModel CrcProofs OpcodesTable
  SerialCompModel SerialDecompModel SerialWriter SerialDict SerialIdeal SerialComp SerialValid PureDecoder SerialReader SerialDecomp SerialFacts
  OptCompModel OptDecompModel OptWriter.
Import ListNotations.
Open Scope Z_scope.

(** * The pure decoder *)
Definition qd_step (cap : Z) (out : list Z) (bits : list bool) : bool * pres :=
  match rdb 5 bits with
  | None => (false, PErr (- EINVAL))
  | Some (op, b1) =>
    if ((op <? 26) || (op =? 0x1c)) && (lenZ out + 8 >? cap) then (false, PErr (- ENOSPC))
    else match template op with
    | Some acts => (false, match pd_acts cap acts out b1 with POk o b => POk o b | _ => PErr (- EINVAL) end)
    | None =>
      if op =? 0x1b then
        (false, match rdb 6 b1 with
        | None => PErr (- EINVAL)
        | Some (rep, b2) =>
          if (length out =? 0)%nat then PErr (- EINVAL)
          else if lenZ out + (rep + 1) * 8 >? cap then PErr (- ENOSPC)
          else POk (out ++ copies (Z.to_nat (rep + 1)) (last8 out)) b2
        end)
      else if op =? 0x1c then (false, POk (out ++ List.repeat 0 8) b1)
      else if op =? 0x1e then (true, POk out b1)
      else (false, PErr (- EINVAL))
    end
  end.
Fixpoint qd_loop (fuel : nat) (cap : Z) (out : list Z) (bits : list bool) : option pres :=
  match fuel with
  | O => None
  | S f =>
    match qd_step cap out bits with
    | (true, r) => Some r
    | (false, POk o b) => qd_loop f cap o b
    | (false, r) => Some r
    end
  end.
Definition al8 (out : list Z) : Prop := (length out mod 8 = 0)%nat.
Definition qgood (p : pres) : Prop := match p with PErr c => c = - EINVAL \/ c = - ENOSPC | PUndef => False | POk _ _ => True end.

Lemma al8_app out n l : al8 out -> (length l = 8 * n)%nat -> al8 (out ++ l).
Proof.
  unfold al8. intros H L. rewrite app_length, L. replace (length out + 8 * n)%nat with (length out + n * 8)%nat by lia.
  now rewrite Nat.mod_add by lia.
Qed.
Lemma al8_ge8 out : al8 out -> (length out <> 0)%nat -> (8 <= length out)%nat.
Proof. unfold al8. intros H N. pose proof (Nat.div_mod (length out) 8 ltac:(lia)). nia. Qed.

Lemma qd_step_sound cap out bits out' bits' fin : al8 out -> qd_step cap out bits = (fin, POk out' bits') ->
  (if fin then out' = out /\ stream false out bits out' bits'
   else forall x rest, stream false out' bits' x rest -> stream false out bits x rest) /\
  al8 out' /\ (is_bytes out -> is_bytes out') /\ (lenZ out <= cap -> lenZ out' <= cap) /\
  (length bits' + 5 <= length bits)%nat /\ (length out <= length out')%nat.
Proof.
  intros HA. unfold qd_step. destruct (rdb 5 bits) as [[op b1]|] eqn:R; [|discriminate].
  pose proof (rdb_len _ _ _ _ R) as L1. apply rdb_some in R. destruct R as [-> OP].
  destruct (((op <? 26) || (op =? 0x1c)) && (lenZ out + 8 >? cap)) eqn:CC; [discriminate|].
  destruct (template op) as [acts|] eqn:T.
  { destruct (pd_acts cap acts out b1) as [o b| |] eqn:E; try discriminate. intros X. injection X as <- <- <-.
    destruct (template_sizes _ _ T) as (TS & TL & TR).
    destruct (pd_acts_sound cap acts TS _ _ _ _ E) as (S1 & S2 & S3 & S4).
    split; [|split; [|split; [|split; [|split]]]]; auto.
    - intros x rest HS. eapply st_template; eauto.
    - unfold al8 in *. rewrite S3, TL. replace (length out + 8)%nat with (length out + 1 * 8)%nat by lia. now rewrite Nat.mod_add by lia.
    - assert (AL : forall acts o b o' b', args o acts b o' b' -> (length b' <= length b)%nat).
      { clear. induction 1; auto; rewrite app_length; lia. }
      apply AL in S1. lia.
    - lia. }
  destruct (Z.eqb_spec op 0x1b) as [->|N1].
  { destruct (rdb 6 b1) as [[rep b2]|] eqn:R2; [|discriminate].
    pose proof (rdb_len _ _ _ _ R2) as L2. apply rdb_some in R2. destruct R2 as [-> RP].
    destruct (Nat.eqb_spec (length out) 0) as [|NZ]; [discriminate|]. pose proof (al8_ge8 _ HA NZ) as G8.
    destruct (lenZ out + (rep + 1) * 8 >? cap) eqn:C; [discriminate|].
    intros E. apply pair_inj in E. destruct E as [<- E].
    assert (LC : length (copies (Z.to_nat (rep + 1)) (last8 out)) = (8 * Z.to_nat (rep + 1))%nat)
      by (rewrite copies_length, last8_length; auto; lia).
    assert (EO : out' = out ++ copies (Z.to_nat (rep + 1)) (last8 out) /\ bits' = b2) by (split; congruence).
    destruct EO as [-> ->]. clear E.
    split; [|split; [|split; [|split; [|split]]]].
    - intros x rest HS. apply st_repeat; [exact RP|auto|].
      replace (Z.to_nat rep + 1)%nat with (Z.to_nat (rep + 1)) by lia. exact HS.
    - eapply al8_app; eauto.
    - intros. apply is_bytes_app. split; auto. apply is_bytes_copies. unfold last8. now apply is_bytes_skipn.
    - intros. rewrite lenZ_app. unfold lenZ at 2. rewrite LC. rewrite Z.gtb_ltb in C. apply Z.ltb_ge in C. lia.
    - lia.
    - rewrite app_length. lia. }
  destruct (Z.eqb_spec op 0x1c) as [->|N2].
  { change (28 <? 26) with false in CC. cbn [orb andb] in CC. 
    assert (Z8 : length (List.repeat 0 8) = (8 * 1)%nat /\ is_bytes (List.repeat 0 8) /\
      forall x rest, stream false (out ++ List.repeat 0 8) b1 x rest -> stream false out (bits_of 5 0x1c ++ b1) x rest).
    { split; auto. split. { apply is_bytes_repeat. unfold is_byte; lia. } intros. now apply st_zeros. }
    generalize dependent (List.repeat 0 8). intros z8 (ZL & ZB & ZS) E. injection E as <- <- <-.
    split; [|split; [|split; [|split; [|split]]]].
    - exact ZS.
    - eapply al8_app; eauto.
    - intros. apply is_bytes_app. auto.
    - intros. rewrite lenZ_app. unfold lenZ at 2. rewrite ZL. rewrite Z.gtb_ltb in CC. apply Z.ltb_ge in CC. lia.
    - lia.
    - rewrite app_length. lia. }
  destruct (Z.eqb_spec op 0x1e) as [->|N4]; [|discriminate].
  intros E. injection E as <- <- <-. split; [split; auto; apply st_end|repeat split; auto; lia].
Qed.
Lemma qd_step_good cap out bits : qgood (snd (qd_step cap out bits)).
Proof.
  unfold qd_step, qgood. destruct (rdb 5 bits) as [[op b1]|]; [|cbn; auto].
  destruct (_ && _); [cbn; auto|]. destruct (template op); [cbn [snd]; destruct (pd_acts _ _ _ _); auto|].
  destruct (op =? 0x1b).
  { cbn [snd]. destruct (rdb 6 b1) as [[rep b2]|]; auto. destruct (_ =? _)%nat; auto. destruct (_ >? _); auto. }
  destruct (op =? 0x1c); [cbn; auto|]. destruct (op =? 0x1e); cbn; auto.
Qed.
Lemma qd_loop_sound fuel cap : forall out bits x rest, al8 out -> is_bytes out -> lenZ out <= cap ->
  qd_loop fuel cap out bits = Some (POk x rest) -> stream false out bits x rest /\ is_bytes x /\ lenZ x <= cap /\ al8 x.
Proof.
  induction fuel as [|f IH]; intros out bits x rest HA Ho Hc H; [discriminate|]. cbn [qd_loop] in H.
  destruct (qd_step cap out bits) as [[] r] eqn:E.
  - injection H as ->. destruct (qd_step_sound _ _ _ _ _ _ HA E) as ([<- S1] & S2 & S3 & _). auto.
  - destruct r as [o b| |]; try discriminate.
    destruct (qd_step_sound _ _ _ _ _ _ HA E) as (S1 & S2 & S3 & S4 & _).
    destruct (IH o b x rest) as (T1 & T2 & T3 & T4); auto.
Qed.
Lemma qd_loop_good fuel cap : forall out bits p, qd_loop fuel cap out bits = Some p -> qgood p.
Proof.
  induction fuel as [|f IH]; intros out bits p H; [discriminate|]. cbn [qd_loop] in H.
  pose proof (qd_step_good cap out bits) as G. destruct (qd_step cap out bits) as [[] q]; cbn [snd] in G.
  - now injection H as <-.
  - destruct q; try (injection H as <-; exact G). eapply IH; eauto.
Qed.
Lemma qd_loop_fuel fuel cap : forall out bits, al8 out -> (length bits < fuel)%nat -> qd_loop fuel cap out bits <> None.
Proof.
  induction fuel as [|f IH]; intros out bits HA Hf; [lia|]. cbn [qd_loop].
  destruct (qd_step cap out bits) as [[] r] eqn:E; [discriminate|].
  destruct r as [o b| |]; try discriminate.
  destruct (qd_step_sound _ _ _ _ _ _ HA E) as (_ & S2 & _ & _ & S4 & _). apply IH; auto. lia.
Qed.
Lemma qd_loop_more fuel cap : forall out bits r fuel', qd_loop fuel cap out bits = Some r -> (fuel <= fuel')%nat ->
  qd_loop fuel' cap out bits = Some r.
Proof.
  induction fuel as [|f IH]; intros out bits r fuel' H HL; [discriminate|]. destruct fuel' as [|f']; [lia|].
  cbn [qd_loop] in *. destruct (qd_step cap out bits) as [[] x]; auto. destruct x; auto. apply IH; auto. lia.
Qed.
Lemma qd_stream_complete cap out bits x rest : stream false out bits x rest ->
  (lenZ x <= cap -> exists f, qd_loop f cap out bits = Some (POk x rest)) /\
  (lenZ out <= cap < lenZ x -> exists f, qd_loop f cap out bits = Some (PErr (- ENOSPC))).
Proof.
  induction 1.
  - split; [|lia]. intros _. exists 1%nat. cbn [qd_loop]. unfold qd_step. now rewrite rdb_app by (cbn; lia).
  - pose proof (stream_grows _ _ _ _ _ H) as G. rewrite app_length, repeat_length in G.
    destruct IHstream as [I1 I2]. rewrite lenZ_app in I2. unfold lenZ in I2 at 2. rewrite repeat_length in I2.
    assert (E : qd_step cap out (bits_of 5 0x1c ++ bs) =
      (false, if lenZ out + 8 >? cap then PErr (- ENOSPC) else POk (out ++ List.repeat 0 8) bs)).
    { unfold qd_step. rewrite rdb_app by (cbn; lia). change ((28 <? 26) || (28 =? 28)) with true. cbn [andb]. destruct (_ >? _); reflexivity. }
    rewrite Z.gtb_ltb in E.
    destruct (Z.ltb_spec cap (lenZ out + 8)) as [C|C].
    + split; intros. { unfold lenZ in *; lia. } exists 1%nat. cbn [qd_loop]. now rewrite E.
    + split; intros Hc.
      * destruct (I1 Hc) as [f Hf]. exists (S f). cbn [qd_loop]. now rewrite E.
      * destruct I2 as [f Hf]; [lia|]. exists (S f). cbn [qd_loop]. now rewrite E.
  - pose proof (stream_grows _ _ _ _ _ H1) as G.
    assert (LC : length (copies (Z.to_nat n + 1) (last8 out)) = ((Z.to_nat n + 1) * 8)%nat)
      by (rewrite copies_length, last8_length; auto).
    rewrite app_length, LC in G.
    destruct IHstream as [I1 I2]. rewrite lenZ_app in I2. unfold lenZ in I2 at 2. rewrite LC in I2.
    assert (E : qd_step cap out (bits_of 5 0x1b ++ bits_of 6 n ++ bs) =
      (false, if lenZ out + (n + 1) * 8 >? cap then PErr (- ENOSPC) else POk (out ++ copies (Z.to_nat n + 1) (last8 out)) bs)).
    { unfold qd_step. rewrite rdb_app by (cbn; lia). change ((27 <? 26) || (27 =? 28)) with false. cbn [andb].
      change (template 27) with (@None (list action)). change (0x1b =? 0x1b) with true. cbv iota.
      rewrite rdb_app by (cbn; lia). destruct (Nat.eqb_spec (length out) 0); [lia|].
      replace (Z.to_nat (n + 1)) with (Z.to_nat n + 1)%nat by lia. reflexivity. }
    rewrite Z.gtb_ltb in E.
    destruct (Z.ltb_spec cap (lenZ out + (n + 1) * 8)) as [C|C].
    + split; intros. { unfold lenZ in *; lia. } exists 1%nat. cbn [qd_loop]. now rewrite E.
    + split; intros Hc.
      * destruct (I1 Hc) as [f Hf]. exists (S f). cbn [qd_loop]. now rewrite E.
      * destruct I2 as [f Hf]; [lia|]. exists (S f). cbn [qd_loop]. now rewrite E.
  - discriminate.
  - pose proof (stream_grows _ _ _ _ _ H2) as G.
    destruct (template_sizes _ _ H0) as (TS & TL & TR). pose proof (args_len _ _ _ _ _ H1 TS) as AL.
    destruct (pd_acts_complete cap _ _ _ _ _ H1 TS) as [A1 A2].
    destruct IHstream as [I1 I2].
    assert (E : qd_step cap out (bits_of 5 op ++ bs) = (false, if lenZ out + 8 >? cap then PErr (- ENOSPC) else
       match pd_acts cap acts out bs with POk o b => POk o b | _ => PErr (- EINVAL) end)).
    { unfold qd_step. rewrite rdb_app by (cbn; lia). destruct (Z.ltb_spec op 26); [|lia]. cbn [orb andb].
      destruct (_ >? _); [reflexivity|]. now rewrite H0. }
    rewrite Z.gtb_ltb in E. destruct (Z.ltb_spec cap (lenZ out + 8)) as [C|C].
    + split; intros. { unfold lenZ in *; lia. } exists 1%nat. cbn [qd_loop]. now rewrite E.
    + rewrite A1 in E by (unfold lenZ in *; lia). split; intros Hc.
      * destruct (I1 Hc) as [f Hf]. exists (S f). cbn [qd_loop]. now rewrite E.
      * destruct I2 as [f Hf]; [unfold lenZ in *; lia|]. exists (S f). cbn [qd_loop]. now rewrite E.
Qed.

(** * The bit reader *)
Definition whole (inp : list Z) : list Z := firstn (8 * (length inp / 8)) inp.
Record rdo (inp : list Z) (p : pstate) (bits : list bool) : Prop := mkRdo {
  ro_in : 0 <= q_in p <= lenZ inp / 8;
  ro_nb : 0 <= q_bits p < 64;
  ro_bits : exists T, length T = Z.to_nat (q_bits p) /\ q_buffer p = val T * 2 ^ (64 - q_bits p) /\
    bits = T ++ bytes_bits (skipn (Z.to_nat (8 * q_in p)) (whole inp)) }.

Lemma whole_length inp : length (whole inp) = (8 * (length inp / 8))%nat.
Proof. unfold whole. rewrite firstn_length. pose proof (Nat.mul_div_le (length inp) 8 ltac:(lia)). lia. Qed.
Lemma whole_bytes inp : is_bytes inp -> is_bytes (whole inp).
Proof. intros. now apply is_bytes_firstn. Qed.
Lemma lenZ_div8 (inp : list Z) : lenZ inp / 8 = Z.of_nat (length inp / 8).
Proof. unfold lenZ. rewrite Nat2Z.inj_div. reflexivity. Qed.
Lemma rdo_init inp m : rdo inp (mkP 0 0 0 0 m 0) (bytes_bits (whole inp)).
Proof.
  constructor; cbn [q_in q_bits q_buffer]. { rewrite lenZ_div8. lia. } { lia. } exists []. repeat split.
Qed.
Lemma rdo_same inp p p' bits : q_in p' = q_in p -> q_bits p' = q_bits p -> q_buffer p' = q_buffer p -> rdo inp p bits -> rdo inp p' bits.
Proof. intros E1 E2 E3 []. constructor; rewrite ?E1, ?E2, ?E3; auto. Qed.

Section R.
Variable e : endian.
Variable inp : list Z.
Hypothesis Hinp : is_bytes inp.

Lemma read_bits_ok p bits n : rdo inp p bits -> 1 <= n <= 64 ->
  match rdb (Z.to_nat n) bits with
  | Some (v, rest) => exists p', read_bits e inp p n = Done (v, p') /\ rdo inp p' rest /\ 0 <= v < 2 ^ n /\
      q_err p' = q_err p /\ q_mem p' = q_mem p /\ q_pos p' = q_pos p
  | None => exists v p', read_bits e inp p n = Done (v, p') /\
      q_err p' = (if q_err p =? 0 then - EINVAL else q_err p) /\ q_mem p' = q_mem p /\ q_pos p' = q_pos p
  end.
Proof.
  intros [HI HB (T & LT & BUF & EB)] Hn. pose proof (val_bound T) as VT. rewrite LT, Z2Nat.id in VT by lia.
  set (b := q_bits p) in *. rewrite lenZ_div8 in HI.
  assert (LW : length (whole inp) = (8 * (length inp / 8))%nat) by apply whole_length.
  unfold read_bits. fold b. rewrite shr64_ok by lia. rewrite bind_done.
  destruct (Z.ltb_spec b n) as [LTn|GEn].
  - assert (V1 : q_buffer p / 2 ^ (64 - n) = val T * 2 ^ (n - b)).
    { rewrite BUF. replace (64 - b) with ((n - b) + (64 - n)) by lia. rewrite Z.pow_add_r by lia.
      rewrite Z.mul_assoc. apply Z.div_mul. apply Z.pow_nonzero; lia. }
    rewrite V1. unfold read_word. rewrite Z.gtb_ltb.
    destruct (Z.ltb_spec (lenZ inp) ((q_in p + 1) * 8)) as [F|F].
    + assert (QE : q_in p = Z.of_nat (length inp / 8)).
      { pose proof (Z.div_mod (lenZ inp) 8 ltac:(lia)). pose proof (Z.mod_pos_bound (lenZ inp) 8 ltac:(lia)). rewrite <- lenZ_div8 in *. lia. }
      assert (SK : skipn (Z.to_nat (8 * q_in p)) (whole inp) = []) by (apply skipn_all2; lia).
      rewrite SK in EB. cbn [bytes_bits concat map] in EB. unfold bytes_bits in EB. cbn in EB. rewrite app_nil_r in EB.
      rewrite rdb_short by (subst bits; lia). rewrite bind_done.
      rewrite shr64_ok by lia. rewrite bind_done, shl64_ok by lia. rewrite bind_done, shl64_ok by lia. rewrite bind_done.
      unfold raise_einval. destruct (Z.eqb_spec (q_err p) 0); do 2 eexists; (split; [reflexivity|]); cbn [q_err q_mem q_pos]; auto.
    + set (q := Z.to_nat (q_in p)).
      assert (QL : (8 * q + 8 <= length inp)%nat) by (unfold q, lenZ in *; lia).
      assert (QW : (8 * q + 8 <= length (whole inp))%nat).
      { rewrite LW. pose proof (Nat.div_mod (length inp) 8 ltac:(lia)). pose proof (Nat.mod_upper_bound (length inp) 8 ltac:(lia)). lia. }
      rewrite load64_ok by (unfold lenZ in *; lia). rewrite !bind_done.
      replace (Z.to_nat (8 * q_in p)) with (8 * q)%nat in * by (unfold q; lia).
      set (w8 := slice (8 * q) 8 inp).
      assert (L8 : length w8 = 8%nat) by (apply slice_length; lia).
      assert (B8 : is_bytes w8) by now apply is_bytes_slice.
      rewrite swap_native64 by auto. 
      assert (EW : skipn (8 * q) (whole inp) = w8 ++ skipn (8 * (q + 1)) (whole inp)).
      { replace (8 * (q + 1))%nat with (8 * q + 8)%nat by lia. rewrite <- skipn_add. 
        assert (E8 : w8 = firstn 8 (skipn (8 * q) (whole inp))).
        { unfold w8, slice, whole. rewrite skipn_firstn_comm, firstn_firstn_le; auto. rewrite LW in QW. lia. }
        rewrite E8. symmetry. apply firstn_skipn. }
      rewrite EW, bytes_bits_app in EB. set (R := bytes_bits (skipn (8 * (q + 1)) (whole inp))) in *.
      set (W := bytes_bits w8) in *. assert (LWW : length W = 64%nat) by (unfold W; rewrite bytes_bits_length; lia).
      rewrite (be_val_val w8 B8). fold W. pose proof (val_bound W) as VW. rewrite LWW in VW. change (Z.of_nat 64) with 64 in VW.
      rewrite shr64_ok by lia. rewrite bind_done.
      set (k := n - b) in *.
      (* split the word *)
      set (W1 := firstn (Z.to_nat k) W). set (W2 := skipn (Z.to_nat k) W).
      assert (L1 : length W1 = Z.to_nat k) by (unfold W1; rewrite firstn_length; lia).
      assert (L2 : length W2 = Z.to_nat (64 - k)) by (unfold W2; rewrite skipn_length; lia).
      assert (W12 : W = W1 ++ W2) by (symmetry; apply firstn_skipn).
      assert (VW12 : val W = val W1 * 2 ^ (64 - k) + val W2) by (rewrite W12, val_app, L2, Z2Nat.id by lia; reflexivity).
      pose proof (val_bound W1) as B1. rewrite L1, Z2Nat.id in B1 by lia.
      pose proof (val_bound W2) as B2. rewrite L2, Z2Nat.id in B2 by lia.
      assert (LO : val W / 2 ^ (64 - k) = val W1).
      { rewrite VW12, Z.div_add_l, Z.div_small by (try lia; apply Z.pow_nonzero; lia). lia. }
      rewrite LO, lor_disjoint by lia.
      rewrite shl64_ok by lia. rewrite bind_done, shl64_ok by lia. rewrite bind_done.
      assert (U : u8 (b + (64 - n)) = 64 - k) by (unfold u8, k; rewrite Z.mod_small; lia). rewrite U.
      assert (RD : rdb (Z.to_nat n) bits = Some (val T * 2 ^ k + val W1, W2 ++ R)).
      { assert (EQ : bits = bits_of (Z.to_nat n) (val T * 2 ^ k + val W1) ++ W2 ++ R).
        { rewrite EB, W12. rewrite <- app_assoc. rewrite (app_assoc T W1). f_equal.
          replace (Z.to_nat n) with (length T + length W1)%nat by (rewrite LT, L1; lia).
          replace (2 ^ k) with (2 ^ Z.of_nat (length W1)) by (rewrite L1, Z2Nat.id by lia; reflexivity).
          rewrite bits_of_concat by (rewrite L1, Z2Nat.id by lia; lia). now rewrite !bits_of_val. }
        rewrite EQ. apply rdb_app. rewrite Z2Nat.id by lia. replace n with (b + k) by lia. rewrite Z.pow_add_r by lia.
        assert (0 < 2 ^ k) by (apply pow2_pos; lia). nia. }
      rewrite RD.
      assert (NB : val W * 2 ^ (k - 1) mod 2 ^ 64 * 2 ^ 1 mod 2 ^ 64 = val W2 * 2 ^ k mod 2 ^ 64).
      { rewrite Z.mul_mod_idemp_l by lia. rewrite <- Z.mul_assoc, <- Z.pow_add_r by lia. replace (k - 1 + 1) with k by lia.
        rewrite VW12, Z.mul_add_distr_r, <- Z.mul_assoc, <- Z.pow_add_r by lia. replace (64 - k + k) with 64 by lia.
        rewrite Z.add_comm, Z.mod_add by lia. reflexivity. }
      rewrite NB.
      assert (M2 : val W2 * 2 ^ k mod 2 ^ 64 = val W2 * 2 ^ k).
      { apply Z.mod_small. split; [apply Z.mul_nonneg_nonneg; lia|]. replace (2 ^ 64) with (2 ^ (64 - k) * 2 ^ k) by (rewrite <- Z.pow_add_r by lia; f_equal; lia).
        apply Z.mul_lt_mono_pos_r; [apply pow2_pos; lia|lia]. }
      rewrite M2.
      eexists. split; [reflexivity|]. cbn [q_err q_mem q_pos]. split; [|split; [|auto]].
      * constructor; cbn [q_in q_bits q_buffer].
        -- rewrite lenZ_div8. rewrite LW in QW. lia.
        -- lia.
        -- exists W2. split; [auto|]. split.
           ++ replace (64 - (64 - k)) with k by lia. rewrite Z.gtb_ltb. destruct (Z.ltb_spec 0 (64 - k)) as [|Z0]; [lia|].
              assert (k = 64) by lia. subst k. replace (n - b) with 64 in * by lia. destruct W2; [reflexivity|cbn in L2; lia].
           ++ replace (Z.to_nat (8 * (q_in p + 1))) with (8 * (q + 1))%nat by (unfold q; lia). reflexivity.
      * replace n with (b + k) by lia. rewrite Z.pow_add_r by lia. assert (0 < 2 ^ k) by (apply pow2_pos; lia). nia.
  - rewrite shl64_ok by lia. rewrite bind_done.
    set (T1 := firstn (Z.to_nat n) T). set (T2 := skipn (Z.to_nat n) T).
    assert (L1 : length T1 = Z.to_nat n) by (unfold T1; rewrite firstn_length; lia).
    assert (L2 : length T2 = Z.to_nat (b - n)) by (unfold T2; rewrite skipn_length; lia).
    assert (T12 : T = T1 ++ T2) by (symmetry; apply firstn_skipn).
    pose proof (val_bound T1) as B1. rewrite L1, Z2Nat.id in B1 by lia.
    pose proof (val_bound T2) as B2. rewrite L2, Z2Nat.id in B2 by lia.
    assert (VT12 : val T = val T1 * 2 ^ (b - n) + val T2) by (rewrite T12, val_app, L2, Z2Nat.id by lia; reflexivity).
    assert (V1 : q_buffer p / 2 ^ (64 - n) = val T1).
    { rewrite BUF. replace (64 - n) with ((64 - b) + (b - n)) by lia. rewrite (Z.pow_add_r 2 (64 - b)) by lia.
      rewrite <- Z.div_div by (try apply pow2_pos; try apply Z.pow_nonzero; lia). rewrite Z.div_mul by (apply Z.pow_nonzero; lia).
      rewrite VT12, Z.div_add_l, Z.div_small by (try lia; apply Z.pow_nonzero; lia). lia. }
    assert (RD : rdb (Z.to_nat n) bits = Some (val T1, T2 ++ bytes_bits (skipn (Z.to_nat (8 * q_in p)) (whole inp)))).
    { rewrite EB, T12, <- app_assoc. rewrite <- (bits_of_val T1) at 1. rewrite L1. apply rdb_app. rewrite Z2Nat.id by lia. lia. }
    rewrite RD, V1. eexists. split; [reflexivity|]. cbn [q_err q_mem q_pos]. split; [|split; [lia|auto]].
    constructor; cbn [q_in q_bits q_buffer]; [rewrite lenZ_div8; lia|lia|].
    exists T2. split; [auto|]. split; [|reflexivity].
    rewrite BUF, VT12, Z.mul_add_distr_r, Z.mul_add_distr_r, <- !Z.mul_assoc, <- !Z.pow_add_r by lia.
    replace (b - n + (64 - b + n)) with 64 by lia. rewrite Z.add_comm, Z.mod_add by lia.
    replace (64 - b + n) with (64 - (b - n)) by lia. apply Z.mod_small.
    split; [apply Z.mul_nonneg_nonneg; lia|]. replace (2 ^ 64) with (2 ^ (b - n) * 2 ^ (64 - (b - n))) by (rewrite <- Z.pow_add_r by lia; f_equal; lia).
    apply Z.mul_lt_mono_pos_r; [apply pow2_pos; lia|lia].
Qed.
End R.

(** * The output *)
Definition sko (cap : Z) (m0 : list Z) (p : pstate) (out : list Z) : Prop :=
  sk cap m0 (mkSink (q_mem p) (q_pos p) (cap - q_pos p)) out.

Section Dec.
Variable e : endian.
Variables (inp m0 : list Z) (cap : Z).
Hypothesis Hinp : is_bytes inp.
Hypothesis Hcap : cap < 2 ^ 63.

Lemma sko_store p out bs : sko cap m0 p out -> is_bytes bs -> lenZ out + lenZ bs <= cap ->
  exists m, store_bytes (q_mem p) (q_pos p) bs = Done m /\
    forall qi qb qu qe, sko cap m0 (mkP qi qb qu qe m (q_pos p + lenZ bs)) (out ++ bs).
Proof.
  intros H Hb Hf. destruct (sk_store cap m0 _ out bs H Hb Hf) as (m & E & S). exists m. split; [exact E|].
  intros. unfold sko. cbn [q_mem q_pos o_pos o_olen] in *.
  replace (cap - (q_pos p + lenZ bs)) with (cap - q_pos p - lenZ bs) by lia. exact S.
Qed.

(** Statement of the switch that implements an action. *)
Definition act_stmt (a : action) (sh : Z) : stmt :=
  match a with
  | D n => SD (Z.of_nat n) sh
  | I n => match n with 2%nat => SI2 sh | 4%nat => SI4 sh | _ => SI8 sh end
  end.
Fixpoint act_stmts (acts : list action) : list stmt :=
  match acts with [] => [] | a :: r => act_stmt a (acts_width r) :: act_stmts r end.
Definition stmt_eqb (a b : stmt) : bool :=
  match a, b with
  | SD n s, SD n' s' => (n =? n') && (s =? s')
  | SI2 s, SI2 s' | SI4 s, SI4 s' | SI8 s, SI8 s' => s =? s'
  | _, _ => false
  end.
Fixpoint stmts_eqb (a b : list stmt) : bool :=
  match a, b with [], [] => true | x :: a, y :: b => stmt_eqb x y && stmts_eqb a b | _, _ => false end.
Lemma stmts_eqb_eq a : forall b, stmts_eqb a b = true -> a = b.
Proof using.
  clear. induction a as [|x a IH]; intros [|y b] H; try discriminate; auto. cbn [stmts_eqb] in H.
  apply andb_true_iff in H. destruct H as [H1 H2]. rewrite (IH b H2). f_equal.
  destruct x, y; cbn in H1; try discriminate; rewrite ?andb_true_iff, ?Z.eqb_eq in H1; first [rewrite H1 | destruct H1 as [-> ->]]; reflexivity.
Qed.
Definition case_check (op : Z) : bool :=
  match template op, opt_case op with
  | Some acts, Some (n, l) => (n =? acts_width acts) && (1 <=? n) && (n <=? 64) && stmts_eqb l (act_stmts acts)
  | None, None => true
  | _, _ => false
  end.
Lemma case_checks : forallb (fun k => case_check (Z.of_nat k)) (seq 0 32) = true.
Proof using. vm_compute. reflexivity. Qed.
Lemma case_ok op : 0 <= op < 32 ->
  match template op with
  | Some acts => opt_case op = Some (acts_width acts, act_stmts acts) /\ 1 <= acts_width acts <= 64
  | None => opt_case op = None
  end.
Proof using.
  clear. intros Ho. pose proof case_checks as C. rewrite forallb_forall in C. specialize (C (Z.to_nat op) ltac:(apply in_seq; lia)).
  cbv beta in C. rewrite Z2Nat.id in C by lia. unfold case_check in C.
  destruct (template op) as [acts|], (opt_case op) as [[n l]|]; try discriminate; auto.
  rewrite !andb_true_iff, !Z.leb_le, Z.eqb_eq in C. destruct C as [[[-> C1] C2] C3]. apply stmts_eqb_eq in C3. subst l. auto.
Qed.

Lemma field_val rep sh w : 0 <= sh -> 0 <= w -> field rep sh w = rep / 2 ^ sh mod 2 ^ w.
Proof using.
  clear. intros. unfold field. rewrite Z.shiftl_1_l, land_ones_mod by lia. now rewrite Z.shiftr_div_pow2 by lia.
Qed.

(** One statement against one action reading from the parameter bits. *)
Lemma run_stmt_ok a p out rep sh : sko cap m0 p out -> act_size_ok a = true -> lenZ out + Z.of_nat (act_len a) <= cap -> 0 <= sh ->
  exists p' out', run_stmt e p rep (act_stmt a sh) = Done p' /\ sko cap m0 p' out' /\ lenZ out' <= lenZ out + Z.of_nat (act_len a) /\
    q_in p' = q_in p /\ q_bits p' = q_bits p /\ q_buffer p' = q_buffer p /\
    (q_err p <> 0 -> q_err p' = q_err p) /\
    (q_err p = 0 -> forall rest, 
       match pd_act cap a out (bits_of (Z.to_nat (act_width a)) (rep / 2 ^ sh) ++ rest) with
       | POk o b => o = out' /\ b = rest /\ q_err p' = 0
       | PErr _ => q_err p' = - EINVAL
       | PUndef => False
       end).
Proof.
  intros Hs Ha Hfit Hsh. apply size_cases in Ha.
  pose proof (sk_pos _ _ _ _ Hs) as PO. cbn [o_pos] in PO. pose proof (sk_fit _ _ _ _ Hs) as FT.
  destruct a as [n|n]; cbn [act_len act_stmt act_width] in *.
  - set (v := rep / 2 ^ sh mod 2 ^ (8 * Z.of_nat n)).
    assert (V : 0 <= v < 2 ^ (8 * Z.of_nat n)) by (apply Z.mod_pos_bound, pow2_pos; lia).
    cbn [run_stmt]. rewrite field_val by lia. fold v.
    destruct (sko_store p out (be_bytes n v) Hs (be_bytes_is_bytes n v)) as (m & E & S).
    { unfold lenZ at 2. rewrite be_bytes_length. lia. }
    exists (mkP (q_in p) (q_bits p) (q_buffer p) (q_err p) m (q_pos p + Z.of_nat n)), (out ++ be_bytes n v).
    assert (LB : lenZ (be_bytes n v) = Z.of_nat n) by (unfold lenZ; now rewrite be_bytes_length). rewrite LB in S.
    assert (RUN : odo_data e p (Z.of_nat n) v = Done (mkP (q_in p) (q_bits p) (q_buffer p) (q_err p) m (q_pos p + Z.of_nat n))).
    { unfold odo_data. destruct Ha as [->|[->| ->]].
      - change (Z.of_nat 2 =? 2) with true. cbv iota. unfold store16.
        replace (swap_be_to_native16 e (u16 v)) with (swap_native_to_be16 e (u16 v)) by reflexivity.
        rewrite native_swap16. replace (u16 v) with v by (unfold u16; rewrite Z.mod_small; auto). rewrite E. reflexivity.
      - change (Z.of_nat 4 =? 2) with false. change (Z.of_nat 4 =? 4) with true. cbv iota. unfold store32.
        replace (swap_be_to_native32 e (u32 v)) with (swap_native_to_be32 e (u32 v)) by reflexivity.
        rewrite native_swap32. replace (u32 v) with v by (unfold u32; rewrite Z.mod_small; auto). rewrite E. reflexivity.
      - change (Z.of_nat 8 =? 2) with false. change (Z.of_nat 8 =? 4) with false. cbv iota. unfold store64.
        replace (swap_be_to_native64 e v) with (swap_native_to_be64 e v) by reflexivity.
        rewrite native_swap64, E. reflexivity. }
    split; [exact RUN|]. split; [apply S|]. split; [rewrite lenZ_app; lia|]. cbn [q_in q_bits q_buffer q_err].
    split; auto. split; auto. split; auto. split; auto.
    intros E0 rest. cbn [pd_act]. unfold pd_data. rewrite Z.gtb_ltb. destruct (Z.ltb_spec cap (lenZ out + Z.of_nat n)); [lia|].
    replace (Z.to_nat (8 * Z.of_nat n)) with (8 * n)%nat by lia.
    rewrite <- (bits_of_mod (8 * n) (8 * Z.of_nat n)) by lia. fold v.
    rewrite rdb_app by (rewrite Nat2Z.inj_mul; exact V). auto.
  - set (w := index_bits n). set (i := rep / 2 ^ sh mod 2 ^ Z.of_nat w).
    assert (V : 0 <= i < 2 ^ Z.of_nat w) by (apply Z.mod_pos_bound, pow2_nat_pos).
    assert (RUN : run_stmt e p rep (match n with 2%nat => SI2 sh | 4%nat => SI4 sh | _ => SI8 sh end) = odo_index p (Z.of_nat n) i (window n)).
    { unfold i, w. destruct Ha as [->|[->| ->]]; cbn [run_stmt]; rewrite field_val by (unfold I2_BITS, I4_BITS, I8_BITS; lia); reflexivity. }
    rewrite RUN. unfold odo_index. rewrite PO. 
    change (oindex_offset (lenZ out) (Z.of_nat n) (window n) i) with (index_offset (Z.of_nat (length out)) (Z.of_nat n) (window n) i).
    destruct (index_offset_ok (length out) n i Ha V ltac:(unfold lenZ in *; lia)) as [-> U]. rewrite U.
    assert (RB : forall rest, rdb w (bits_of (Z.to_nat (Z.of_nat w)) (rep / 2 ^ sh) ++ rest) = Some (i, rest)).
    { intros. rewrite Nat2Z.id. rewrite <- (bits_of_mod w (Z.of_nat w)) by lia. fold i. now apply rdb_app. }
    rewrite Z.gtb_ltb. destruct (Z.ltb_spec (ptotal (length out)) (poff (length out) n i + Z.of_nat n)) as [C|C].
    + exists (raise_einval p), out. split; [reflexivity|].
      assert (RE : q_in (raise_einval p) = q_in p /\ q_bits (raise_einval p) = q_bits p /\ q_buffer (raise_einval p) = q_buffer p /\
        q_mem (raise_einval p) = q_mem p /\ q_pos (raise_einval p) = q_pos p) by (unfold raise_einval; destruct (_ =? _); auto).
      destruct RE as (R1 & R2 & R3 & R4 & R5).
      split. { unfold sko. rewrite R4, R5. exact Hs. } split; [lia|]. split; auto. split; auto. split; auto.
      split. { intros NE. unfold raise_einval. destruct (Z.eqb_spec (q_err p) 0); [contradiction|auto]. }
      intros E0 rest. cbn [pd_act]. unfold pd_index. fold w. rewrite RB. rewrite Z.gtb_ltb.
      destruct (Z.ltb_spec (ptotal (length out)) (poff (length out) n i + Z.of_nat n)); [|lia].
      unfold raise_einval. now rewrite E0.
    + destruct (poff_spec (length out) n i Ha V) as (P0 & _).
      assert (PB : (Z.to_nat (poff (length out) n i) + n <= length out)%nat).
      { unfold ptotal in C. pose proof (Z.mul_div_le (Z.of_nat (length out)) 8 ltac:(lia)). lia. }
      pose proof (sk_load cap m0 _ out _ n Hs PB) as LD. cbn [o_mem] in LD. rewrite Z2Nat.id in LD by lia. rewrite LD, bind_done.
      set (bs := slice (Z.to_nat (poff (length out) n i)) n out) in *.
      assert (LBS : lenZ bs = Z.of_nat n) by (unfold lenZ, bs; now rewrite slice_length).
      destruct (sko_store p out bs Hs) as (m & ES & S).
      { apply is_bytes_slice. apply (sk_obytes _ _ _ _ Hs). } { lia. }
      rewrite <- PO, ES, bind_done. rewrite LBS in S. rewrite PO in *.
      exists (mkP (q_in p) (q_bits p) (q_buffer p) (q_err p) m (lenZ out + Z.of_nat n)), (out ++ bs).
      split; [reflexivity|]. split; [apply S|]. split; [rewrite lenZ_app; lia|]. cbn [q_in q_bits q_buffer q_err].
      split; auto. split; auto. split; auto. split; auto.
      intros E0 rest. cbn [pd_act]. unfold pd_index. fold w. rewrite RB. rewrite !Z.gtb_ltb.
      destruct (Z.ltb_spec (ptotal (length out)) (poff (length out) n i + Z.of_nat n)); [lia|].
      destruct (Z.ltb_spec cap (lenZ out + Z.of_nat n)); [lia|]. auto.
Qed.

Lemma acts_width_nonneg acts : 0 <= acts_width acts.
Proof using. clear. induction acts as [|a r IH]; cbn; [lia|]. fold (acts_width r). destruct a; cbn [act_width]; lia. Qed.
Lemma run_stmts_ok acts : Forall (fun a => act_size_ok a = true) acts -> forall p out rep,
  sko cap m0 p out -> lenZ out + Z.of_nat (acts_len acts) <= cap ->
  exists p' out', run_stmts e p rep (act_stmts acts) = Done p' /\ sko cap m0 p' out' /\ lenZ out' <= lenZ out + Z.of_nat (acts_len acts) /\
    q_in p' = q_in p /\ q_bits p' = q_bits p /\ q_buffer p' = q_buffer p /\
    (q_err p <> 0 -> q_err p' = q_err p) /\
    (q_err p = 0 -> forall rest,
       match pd_acts cap acts out (bits_of (Z.to_nat (acts_width acts)) rep ++ rest) with
       | POk o b => o = out' /\ b = rest /\ q_err p' = 0
       | PErr _ => q_err p' = - EINVAL
       | PUndef => False
       end).
Proof.
  induction 1 as [|a acts Ha HA IH]; intros p out rep Hs Hfit; cbn [act_stmts run_stmts].
  - exists p, out. cbn [acts_len fold_right] in *. split; [reflexivity|]. split; auto. split; [lia|].
    split; auto. split; auto. split; auto. split; auto. intros E0 rest. cbn. auto.
  - cbn [acts_len fold_right] in *. fold (acts_len acts) in *.
    pose proof (acts_width_nonneg acts) as W0. 
    destruct (run_stmt_ok a p out rep (acts_width acts) Hs Ha ltac:(lia) W0) as (p1 & o1 & -> & S1 & L1 & A1 & A2 & A3 & A4 & A5).
    rewrite bind_done.
    destruct (IH p1 o1 rep S1 ltac:(lia)) as (p2 & o2 & -> & S2 & L2 & B1 & B2 & B3 & B4 & B5).
    exists p2, o2. split; [reflexivity|]. split; auto. split; [lia|]. split; [congruence|]. split; [congruence|]. split; [congruence|].
    split. { intros NE. rewrite B4 by (rewrite A4; auto). auto. }
    intros E0 rest. change (acts_width (a :: acts)) with (act_width a + acts_width acts).
    assert (AW : 0 <= act_width a) by (destruct a; cbn [act_width]; lia).
    rewrite Z2Nat.inj_add, bits_of_app, Z2Nat.id by lia. rewrite <- app_assoc. cbn [pd_acts].
    specialize (A5 E0 (bits_of (Z.to_nat (acts_width acts)) rep ++ rest)).
    destruct (pd_act cap a out _) as [o b|c|].
    + destruct A5 as (-> & -> & E1). now apply B5.
    + rewrite B4; [auto|]. rewrite A5. unfold EINVAL. lia.
    + exact A5.
Qed.

Lemma orepeat_copy_ok k : forall p out, sko cap m0 p out -> (8 <= length out)%nat -> lenZ out + 8 * Z.of_nat k <= cap ->
  exists p', orepeat_copy k p = Done p' /\ sko cap m0 p' (out ++ copies k (last8 out)) /\
    q_in p' = q_in p /\ q_bits p' = q_bits p /\ q_buffer p' = q_buffer p /\ q_err p' = q_err p.
Proof.
  induction k; intros p out Ho L8 Hfit; cbn [orepeat_copy].
  - exists p. split; auto. change (copies 0 (last8 out)) with (@nil Z). rewrite app_nil_r. auto.
  - assert (LL := last8_length out L8). pose proof (sk_pos _ _ _ _ Ho) as PO. cbn [o_pos] in PO.
    pose proof (sk_load cap m0 _ out (length out - 8) 8 Ho ltac:(lia)) as LD. cbn [o_mem] in LD.
    rewrite PO. replace (lenZ out - 8) with (Z.of_nat (length out - 8)) by (unfold lenZ; lia).
    change 8 with (Z.of_nat 8) at 1. rewrite LD, bind_done.
    assert (E8 : slice (length out - 8) 8 out = last8 out).
    { unfold slice, last8. apply firstn_all2. rewrite skipn_length. lia. }
    rewrite E8. rewrite <- PO.
    destruct (sko_store p out (last8 out) Ho) as (m & ES & S).
    { apply is_bytes_skipn. apply (sk_obytes _ _ _ _ Ho). }
    { unfold lenZ at 2. rewrite LL. lia. }
    rewrite ES, bind_done. unfold lenZ in S. rewrite LL in S. change (Z.of_nat 8) with 8 in S.
    destruct (IHk _ _ (S (q_in p) (q_bits p) (q_buffer p) (q_err p))) as (o' & -> & S' & R).
    { rewrite app_length. lia. } { rewrite lenZ_app. unfold lenZ at 2. rewrite LL. lia. }
    exists o'. split; auto. rewrite last8_app in S' by auto. rewrite <- app_assoc in S'. split; [exact S'|exact R].
Qed.

Definition qagrees (fin : bool) (q : pres) (r : outcome ((Z + bool) * pstate)) : Prop :=
  match q with
  | POk out bits => exists p', r = Done (inr fin, p') /\ rdo inp p' bits /\ sko cap m0 p' out /\ q_err p' = 0
  | PErr c => c < 0 /\ exists p' out', r = Done (inl c, p') /\ sko cap m0 p' out'
  | PUndef => False
  end.

Lemma odecomp_step_ok p out bits : rdo inp p bits -> sko cap m0 p out -> q_err p = 0 -> al8 out ->
  let '(fin, q) := qd_step cap out bits in qagrees fin q (odecomp_step e inp cap p).
Proof.
  intros Hr Hs H0 HA. unfold odecomp_step, qd_step.
  assert (NEG : - EINVAL < 0 /\ - ENOSPC < 0) by (unfold EINVAL, ENOSPC; lia). destruct NEG as (NI & NN).
  assert (NE0 : negb (- EINVAL =? 0) = true) by reflexivity.
  pose proof (read_bits_ok e inp Hinp p bits OP_BITS Hr ltac:(unfold OP_BITS; lia)) as RB. change (Z.to_nat OP_BITS) with 5%nat in RB.
  destruct (rdb 5 bits) as [[op b1]|] eqn:R.
  2: { destruct RB as (v & p1 & -> & E1 & M1 & P1). rewrite bind_done, E1, H0. change (0 =? 0) with true. cbv iota. rewrite NE0.
       split; auto. exists p1, out. split; [reflexivity|]. unfold sko. rewrite M1, P1. exact Hs. }
  destruct RB as (p1 & -> & Hr1 & V & E1 & M1 & P1). rewrite bind_done. rewrite H0 in E1. rewrite E1.
  change (negb (0 =? 0)) with false. cbv iota. change (2 ^ OP_BITS) with 32 in V.
  assert (Hs1 : sko cap m0 p1 out) by (unfold sko; rewrite M1, P1; exact Hs).
  pose proof (sk_pos _ _ _ _ Hs1) as PO. cbn [o_pos] in PO. rewrite PO.
  change OPS_MAX with 26. change OP_ZEROS with 0x1c. change OP_REPEAT with 0x1b. change OP_END with 0x1e.
  destruct (((op <? 26) || (op =? 28)) && (lenZ out + 8 >? cap)) eqn:CC.
  { split; auto. eauto. }
  pose proof (case_ok op V) as CO.
  destruct (template op) as [acts|] eqn:T.
  { destruct CO as [-> W]. destruct (template_sizes _ _ T) as (TS & TL & TR).
    assert (FIT : lenZ out + 8 <= cap).
    { destruct (Z.ltb_spec op 26); [|lia]. cbn [orb andb] in CC. rewrite Z.gtb_ltb in CC. apply Z.ltb_ge in CC. lia. }
    pose proof (read_bits_ok e inp Hinp p1 b1 (acts_width acts) Hr1 W) as RB.
    destruct (rdb (Z.to_nat (acts_width acts)) b1) as [[rep b2]|] eqn:R2.
    - destruct RB as (p2 & -> & Hr2 & V2 & E2 & M2 & P2). rewrite bind_done.
      assert (Hs2 : sko cap m0 p2 out) by (unfold sko; rewrite M2, P2; exact Hs1).
      destruct (run_stmts_ok acts TS p2 out rep Hs2 ltac:(lia)) as (p3 & o3 & -> & S3 & L3 & A1 & A2 & A3 & A4 & A5).
      rewrite !bind_done. apply rdb_some in R2. destruct R2 as [-> _]. specialize (A5 ltac:(congruence) b2).
      destruct (pd_acts cap acts out _) as [o b|c|].
      + destruct A5 as (-> & -> & E3). rewrite E3. change (negb (0 =? 0)) with false. cbv iota.
        exists p3. split; [reflexivity|]. split; [eapply rdo_same; eauto|]. split; auto.
      + rewrite A5, NE0. split; auto. eauto.
      + contradiction.
    - destruct RB as (v & p2 & -> & E2 & M2 & P2). rewrite bind_done. rewrite E1 in E2. change (0 =? 0) with true in E2. cbv iota in E2.
      assert (Hs2 : sko cap m0 p2 out) by (unfold sko; rewrite M2, P2; exact Hs1).
      destruct (run_stmts_ok acts TS p2 out v Hs2 ltac:(lia)) as (p3 & o3 & -> & S3 & L3 & A1 & A2 & A3 & A4 & A5).
      rewrite !bind_done. rewrite A4 by (rewrite E2; lia). rewrite E2, NE0.
      assert (PF : forall o b, pd_acts cap acts out b1 <> POk o b).
      { intros o b PE. destruct (pd_acts_sound cap acts TS _ _ _ _ PE) as (S1 & _).
        assert (AL : forall acts o b o' b', args o acts b o' b' -> lenZ b = acts_width acts + lenZ b').
        { clear. induction 1; cbn [acts_width fold_right]; try fold (acts_width acts); rewrite ?lenZ_app; auto.
          - rewrite IHargs. cbn [act_width]. unfold lenZ at 1. rewrite bytes_bits_length. lia.
          - rewrite IHargs. cbn [act_width]. unfold lenZ at 1. rewrite bits_of_length. lia. }
        apply AL in S1. unfold rdb in R2. destruct (Nat.leb_spec (Z.to_nat (acts_width acts)) (length b1)); [discriminate|].
        pose proof (lenZ_nonneg b). unfold lenZ in *. lia. }
      destruct (pd_acts cap acts out b1) as [o b|c|]; [exfalso; eapply PF; eauto| |]; (split; [auto|]; eauto). }
  rewrite CO.
  destruct (Z.eqb_spec op 0x1b) as [->|N1].
  { pose proof (read_bits_ok e inp Hinp p1 b1 REPEAT_BITS Hr1 ltac:(unfold REPEAT_BITS; lia)) as RB. change (Z.to_nat REPEAT_BITS) with 6%nat in RB.
    destruct (rdb 6 b1) as [[rep b2]|] eqn:R2.
    2: { destruct RB as (v & p2 & -> & E2 & M2 & P2). rewrite bind_done. rewrite E1 in E2. change (0 =? 0) with true in E2. cbv iota in E2. rewrite E2, NE0, bind_done.
         split; auto. exists p2, out. split; [reflexivity|]. unfold sko. rewrite M2, P2. exact Hs1. }
    destruct RB as (p2 & -> & Hr2 & V2 & E2 & M2 & P2). rewrite bind_done. rewrite E1 in E2. rewrite E2. change (negb (0 =? 0)) with false. cbv iota.
    change (2 ^ REPEAT_BITS) with 64 in V2.
    assert (Hs2 : sko cap m0 p2 out) by (unfold sko; rewrite M2, P2; exact Hs1). rewrite P2, PO.
    destruct (Z.eqb_spec (lenZ out) 0) as [Z0|Z0]; destruct (Nat.eqb_spec (length out) 0) as [Z1|Z1]; try (unfold lenZ in Z0; lia).
    { rewrite bind_done. split; auto. eauto. }
    cbv zeta. rewrite Z.gtb_ltb. destruct (Z.ltb_spec cap (lenZ out + (rep + 1) * 8)) as [C|C].
    { rewrite bind_done. split; auto. eauto. }
    pose proof (al8_ge8 _ HA Z1) as G8.
    destruct (orepeat_copy_ok (Z.to_nat (rep + 1)) p2 out Hs2 G8 ltac:(lia)) as (p3 & -> & S3 & A1 & A2 & A3 & A4).
    rewrite !bind_done, A4, E2. change (negb (0 =? 0)) with false. cbv iota. cbn [qagrees].
    exists p3. split; [reflexivity|]. split; [eapply rdo_same; eauto|]. split; [auto|congruence]. }
  destruct (Z.eqb_spec op 0x1c) as [->|N2].
  { change (28 <? 26) with false in CC. cbn [orb andb] in CC. rewrite Z.gtb_ltb in CC. apply Z.ltb_ge in CC.
    destruct (sko_store p1 out (List.repeat 0 8) Hs1) as (m & ES & S).
    { apply is_bytes_repeat. unfold is_byte; lia. } { change (lenZ (List.repeat 0 8)) with 8. lia. }
    change (lenZ (List.repeat 0 8)) with 8 in S. rewrite <- PO, ES, !bind_done. cbn [q_err]. change (negb (0 =? 0)) with false. cbv iota.
    cbn [qagrees]. eexists. split; [reflexivity|]. split; [eapply rdo_same; [| | |exact Hr1]; reflexivity|]. split; [apply S|reflexivity]. }
  destruct (Z.eqb_spec op 0x1e) as [->|N3].
  { rewrite bind_done, E1. change (negb (0 =? 0)) with false. cbv iota. cbn [qagrees]. eauto. }
  rewrite bind_done. split; auto. eauto.
Qed.

Lemma odecomp_loop_ok f : forall p out bits, rdo inp p bits -> sko cap m0 p out -> q_err p = 0 -> al8 out ->
  match qd_loop f cap out bits with
  | Some (POk x rest) => exists p', odecomp_loop e f inp cap p = Done (0, p') /\ rdo inp p' rest /\ sko cap m0 p' x /\ q_err p' = 0
  | Some (PErr c) => c < 0 /\ exists p' out', odecomp_loop e f inp cap p = Done (c, p') /\ sko cap m0 p' out'
  | Some PUndef => False
  | None => odecomp_loop e f inp cap p = NoFuel
  end.
Proof.
  induction f as [|f IH]; intros p out bits Hr Hs H0 HA; cbn [qd_loop odecomp_loop]; auto.
  pose proof (odecomp_step_ok p out bits Hr Hs H0 HA) as A.
  destruct (qd_step cap out bits) as [fin [o1 b1|c|]] eqn:Q; cbn [qagrees] in A.
  - destruct A as (p' & -> & Hr' & Hs' & E'). rewrite bind_done. destruct fin; [eauto|].
    apply IH; auto. eapply qd_step_sound; eauto.
  - destruct A as (C & p' & out' & -> & S'). rewrite bind_done. destruct fin; split; eauto.
  - contradiction.
Qed.
End Dec.

Definition qrun (inp : list Z) (cap : Z) : option pres :=
  qd_loop (S (Z.to_nat (8 * lenZ inp))) cap [] (bytes_bits (whole inp)).

Theorem optsw842_decompress_pure e iaddr oaddr inp out olen :
  is_bytes inp -> is_bytes out -> 0 <= olen <= lenZ out -> olen < 2 ^ 63 -> iaddr mod 8 = 0 -> oaddr mod 8 = 0 ->
  match qrun inp olen with
  | None | Some PUndef => False
  | Some (PErr c) => (c = - EINVAL \/ c = - ENOSPC) /\ exists m, optsw842_decompress e iaddr oaddr inp out olen = Done (c, 0, m) /\ kept olen out m
  | Some (POk x rest) =>
    exists m, m = x ++ skipn (length x) out /\ is_bytes x /\ lenZ x <= olen /\
    optsw842_decompress e iaddr oaddr inp out olen =
      match rdb 32 rest with
      | None => Done (- EINVAL, 0, m)
      | Some (crc, _) => if negb (crc =? crc32 x) then Done (- EINVAL, 0, m) else Done (0, lenZ x, m)
      end
  end.
Proof.
  intros Hinp Hout Hcap H63 HI HO. unfold optsw842_decompress, qrun. rewrite HI, HO. change (negb (0 =? 0)) with false. cbn [orb]. cbv iota.
  assert (S0 : sko olen out (mkP 0 0 0 0 out 0) []).
  { unfold sko. cbn [q_mem q_pos]. rewrite Z.sub_0_r. now apply sk_init. }
  pose proof (odecomp_loop_ok e inp out olen Hinp H63 (S (Z.to_nat (8 * lenZ inp))) (mkP 0 0 0 0 out 0) []
    (bytes_bits (whole inp)) (rdo_init inp out) S0 eq_refl eq_refl) as L.
  assert (FU : (length (bytes_bits (whole inp)) < S (Z.to_nat (8 * lenZ inp)))%nat).
  { rewrite bytes_bits_length, whole_length. pose proof (Nat.mul_div_le (length inp) 8 ltac:(lia)). unfold lenZ. lia. }
  pose proof (qd_loop_fuel _ olen [] (bytes_bits (whole inp)) eq_refl FU) as NF.
  destruct (qd_loop (S (Z.to_nat (8 * lenZ inp))) olen [] (bytes_bits (whole inp))) as [[x rest|c|]|] eqn:Q; [| | |congruence].
  - destruct L as (p & -> & Hr & Hs & E0). rewrite bind_done. change (negb (0 =? 0)) with false. cbv iota.
    exists (q_mem p). split; [apply (sk_mem _ _ _ _ Hs)|]. split; [apply (sk_obytes _ _ _ _ Hs)|]. split; [apply (sk_fit _ _ _ _ Hs)|].
    pose proof (read_bits_ok e inp Hinp p rest CRC_BITS Hr ltac:(unfold CRC_BITS; lia)) as RB. change (Z.to_nat CRC_BITS) with 32%nat in RB.
    destruct (rdb 32 rest) as [[crc b]|].
    + destruct RB as (p1 & -> & _ & _ & E1 & M1 & P1). rewrite bind_done, E1, E0. change (negb (0 =? 0)) with false. cbv iota.
      pose proof (sk_pos _ _ _ _ Hs) as PO. pose proof (sk_fit _ _ _ _ Hs) as FT. cbn [o_pos] in PO.
      pose proof (sk_mlen _ _ _ _ Hs) as ML. pose proof (sk_bytes _ _ _ _ Hs) as BS. pose proof (sk_out _ _ _ _ Hs) as OU. cbn [o_mem] in ML, BS, OU.
      rewrite M1, P1, PO. rewrite crc32_be_spec; auto. 2: { pose proof (lenZ_nonneg x). unfold lenZ in *. lia. }
      rewrite bind_done. unfold lenZ at 1. rewrite Nat2Z.id, OU. reflexivity.
    + destruct RB as (v & p1 & -> & E1 & M1 & P1). rewrite bind_done, E1, E0, M1. reflexivity.
  - destruct L as (C & p & out' & -> & Hs). rewrite bind_done. destruct (Z.eqb_spec c 0); [lia|]. cbn [negb].
    apply qd_loop_good in Q. split; auto. eexists. split; [reflexivity|]. apply sk_kept in Hs. exact Hs.
  - exact L.
Qed.
