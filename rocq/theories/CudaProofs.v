(** The CUDA kernel decodes every well-formed hardware stream that fits. *)
From Coq Require Import ZArith List Bool Lia Permutation.
From Verif Require Import SpecBits SpecCrc Spec842 CBase BitsLemmas CrcProofs
  SerialCompModel SerialDecompModel SerialIdeal SerialValid PureDecoder SerialDecomp SerialFacts
  OptCompModel OptDecompModel OptWriter OptDecomp OclModel OclPure OclProofs OclItems SpecOcl SerialProps OptProps CudaModel.
Import ListNotations.
Open Scope Z_scope.

Lemma gshr_ok x n : 0 <= n < 64 -> gshr x n = x / 2 ^ n.
Proof. intros. unfold gshr. destruct (Z.ltb_spec n 64); [auto|lia]. Qed.
Lemma gshl_ok x n : 0 <= n < 64 -> gshl x n = x * 2 ^ n mod 2 ^ 64.
Proof. intros. unfold gshl. destruct (Z.ltb_spec n 64); [auto|lia]. Qed.

(** * The bit reader *)
Definition rdc (inp : list Z) (p : cstate) (bits : list bool) : Prop :=
  rdo inp (mkP (c_in p) (c_bits p) (c_buffer p) 0 [] 0) bits.
Section Dec.
Variables (inp : list Z) (m0 : list Z).
Hypothesis Hinp : is_bytes inp.
Hypothesis Hcap : lenZ m0 < 2 ^ 63.

Lemma cread_bits_ok k bits n v rest : rdc inp k bits -> 1 <= n <= 64 -> rdb (Z.to_nat n) bits = Some (v, rest) ->
  exists k', cread_bits inp k n = Done (v, k') /\ rdc inp k' rest /\ 0 <= v < 2 ^ n /\ c_mem k' = c_mem k /\ c_out k' = c_out k.
Proof.
  intros HR Hn HV. pose proof (read_bits_ok LE inp Hinp _ bits n HR Hn) as RB. rewrite HV in RB.
  pose proof HR as [HI HB (T & LT & _ & EB)]. cbn [q_in q_bits] in HI, HB, LT, EB.
  unfold read_bits, read_word in RB. cbn [q_in q_bits q_buffer q_err q_mem q_pos] in RB.
  unfold cread_bits. destruct (Z.leb_spec n 0) as [|_]; [lia|]. rewrite gshr_ok by lia. rewrite shr64_ok in RB by lia. rewrite bind_done in RB.
  destruct RB as (p' & E & R' & V & _).
  destruct (Z.ltb_spec (c_bits k) n) as [LTn|GEn].
  - rewrite Z.gtb_ltb in E. destruct (Z.ltb_spec (lenZ inp) ((c_in k + 1) * 8)) as [F|F].
    { exfalso. assert (SH : rdb (Z.to_nat n) bits = None).
      { apply rdb_short. rewrite EB, app_length, bytes_bits_length, skipn_length, whole_length.
        rewrite lenZ_div8 in HI. pose proof (Nat.div_mod (length inp) 8 ltac:(lia)). pose proof (Nat.mod_upper_bound (length inp) 8 ltac:(lia)).
        unfold lenZ in *. lia. }
      rewrite SH in HV. discriminate. }
    rewrite load64_ok in * by lia. rewrite !bind_done in *. fold (bswap64 (native_val LE (slice (Z.to_nat (8 * c_in k)) 8 inp))) in E.
    set (w := bswap64 _) in *. rewrite shr64_ok, bind_done, shl64_ok, bind_done, shl64_ok, bind_done in E by lia.
    rewrite gshr_ok by lia.
    replace (u8 (c_bits k + (64 - n))) with (c_bits k + (64 - n)) in E by (unfold u8; rewrite Z.mod_small; lia).
    replace (u32 (c_bits k + (64 - n))) with (c_bits k + (64 - n)) by (unfold u32; rewrite Z.mod_small; lia).
    pose proof (f_equal (fun o => match o with Done x => fst x | _ => v end) E) as EV.
    pose proof (f_equal (fun o => match o with Done x => snd x | _ => p' end) E) as EP. cbn beta iota in EV, EP. cbn [fst snd q_in q_bits q_buffer q_err q_mem q_pos] in EV, EP.
    rewrite EV. eexists. split; [reflexivity|]. cbn [c_mem c_out]. split; [|auto].
    unfold rdc. cbn [c_in c_bits c_buffer].
    assert (NB : gshl w (n - c_bits k) * (if c_bits k + (64 - n) >? 0 then 1 else 0) =
      w * 2 ^ (n - c_bits k - 1) mod 2 ^ 64 * 2 ^ 1 mod 2 ^ 64 * (if c_bits k + (64 - n) >? 0 then 1 else 0)).
    { destruct (Z.gtb_spec (c_bits k + (64 - n)) 0) as [G|G]; [|lia]. f_equal. rewrite gshl_ok by lia.
      rewrite Z.mul_mod_idemp_l by lia. rewrite <- Z.mul_assoc, <- Z.pow_add_r by lia. do 3 f_equal. lia. }
    rewrite NB. rewrite Z.gtb_ltb in EP |- *. revert EP. clear NB.
    destruct (0 <? c_bits k + (64 - n)); intros EP; rewrite ?Z.mul_1_r, ?Z.mul_0_r in *; rewrite EP; exact R'.
  - rewrite shl64_ok, bind_done in E by lia.
    pose proof (f_equal (fun o => match o with Done x => fst x | _ => v end) E) as EV.
    pose proof (f_equal (fun o => match o with Done x => snd x | _ => p' end) E) as EP. cbn beta iota in EV, EP. cbn [fst snd q_in q_bits q_buffer q_err q_mem q_pos] in EV, EP.
    rewrite EV. eexists. split; [reflexivity|]. cbn [c_mem c_out]. split; [|auto].
    unfold rdc. cbn [c_in c_bits c_buffer]. rewrite gshl_ok by lia. rewrite EP. exact R'.
Qed.
Lemma cread_zero k bits : rdc inp k bits -> exists k', cread_bits inp k 0 = Done (0, k') /\ rdc inp k' bits /\ c_mem k' = c_mem k /\ c_out k' = c_out k.
Proof.
  intros HR. pose proof HR as [HI HB (T & LT & BU & EB)]. cbn [q_in q_bits q_buffer] in HI, HB, LT, BU, EB.
  unfold cread_bits. change (0 <=? 0) with true. cbv iota. destruct (Z.ltb_spec (c_bits k) 0); [lia|].
  eexists. split; [reflexivity|]. cbn [c_mem c_out]. split; [|auto]. unfold rdc. cbn [c_in c_bits c_buffer].
  assert (GB : gshl (c_buffer k) 0 = c_buffer k).
  { rewrite gshl_ok by lia. rewrite Z.mul_1_r. apply Z.mod_small. rewrite BU. pose proof (val_bound T) as VB. rewrite LT, Z2Nat.id in VB by lia.
    split; [apply Z.mul_nonneg_nonneg; lia|]. replace (2 ^ 64) with (2 ^ c_bits k * 2 ^ (64 - c_bits k)) by (rewrite <- Z.pow_add_r by lia; f_equal; lia).
    apply Z.mul_lt_mono_pos_r; [apply pow2_pos; lia|lia]. }
  rewrite GB, Z.sub_0_r. exact HR.
Qed.

(** * The output *)
Definition skc (k : cstate) (out : list Z) : Prop := skk m0 (lenZ m0) (mkK 0 0 0 [] 0 (c_mem k) (c_out k)) out.
Lemma skc_same k k' out : c_mem k' = c_mem k -> c_out k' = c_out k -> skc k out -> skc k' out.
Proof. unfold skc. intros -> ->. auto. Qed.
Lemma skc_store k out bs : skc k out -> is_bytes bs -> length bs = 8%nat -> lenZ out + 8 <= lenZ m0 ->
  exists m, store_bytes (c_mem k) (8 * c_out k) bs = Done m /\
    forall ci cb cu, skc (mkC ci cb cu m (c_out k + 1)) (out ++ bs).
Proof.
  intros HS B L F. destruct (skk_store m0 (lenZ m0) _ out bs HS B L F) as (m & E & S). exists m. split; [exact E|].
  intros. apply S.
Qed.
Lemma crepeat_ok n : forall k out, skc k out -> (8 <= length out)%nat -> lenZ out + 8 * Z.of_nat n <= lenZ m0 ->
  exists k', crepeat n k = Done k' /\ skc k' (out ++ copies n (last8 out)) /\
    c_in k' = c_in k /\ c_bits k' = c_bits k /\ c_buffer k' = c_buffer k.
Proof.
  induction n; intros k out Ho L8 Hfit; cbn [crepeat].
  - exists k. split; auto. change (copies 0 (last8 out)) with (@nil Z). rewrite app_nil_r. repeat split; auto; apply Ho.
  - assert (LL := last8_length out L8). pose proof (skk_pos _ _ _ _ Ho) as PO. pose proof Ho as [S A].
    cbn [k_out k_mem] in PO, S.
    pose proof (sk_load (lenZ m0) m0 _ out (length out - 8) 8 S ltac:(lia)) as LD. cbn [o_mem] in LD.
    replace (8 * (c_out k - 1)) with (Z.of_nat (length out - 8)) by (unfold lenZ in *; lia).
    unfold load64. change 8 with (Z.of_nat 8) at 1. rewrite LD, !bind_done.
    assert (E8 : slice (length out - 8) 8 out = last8 out).
    { unfold slice, last8. apply firstn_all2. rewrite skipn_length. lia. }
    rewrite E8.
    assert (B8 : is_bytes (last8 out)) by (apply is_bytes_skipn; apply (sk_obytes _ _ _ _ S)).
    destruct (skc_store k out (last8 out) Ho B8 LL) as (m & ES & SS). { lia. }
    unfold store64. rewrite native_roundtrip by auto. rewrite ES, bind_done.
    destruct (IHn _ _ (SS (c_in k) (c_bits k) (c_buffer k))) as (k' & -> & S' & R).
    { rewrite app_length. lia. } { rewrite lenZ_app. unfold lenZ at 2. rewrite LL. lia. }
    exists k'. split; auto. rewrite last8_app in S' by auto. rewrite <- app_assoc in S'. split; [exact S'|exact R].
Qed.
Lemma cget_index_ok k out n i : skc k out -> (n = 2 \/ n = 4 \/ n = 8)%nat -> 0 <= i < 2 ^ Z.of_nat (index_bits n) ->
  cget_index k (Z.of_nat n) i (window n) = poff (length out) n i.
Proof.
  intros HS Hn Hi. pose proof (skk_pos _ _ _ _ HS) as PO. destruct HS as [S A]. cbn [k_out k_mem] in PO, S.
  pose proof (sk_fit _ _ _ _ S) as FT.
  destruct (index_offset_ok (length out) n i Hn Hi ltac:(unfold lenZ in *; lia)) as [IO U].
  unfold cget_index. rewrite PO. unfold index_offset in IO. fold (lenZ out) in IO. cbv zeta in *.
  destruct (round_down (lenZ out) 8 >? window n); congruence.
Qed.

(** * The fields *)
Lemma cload_ok k out p n : skc k out -> (n = 2 \/ n = 4 \/ n = 8)%nat -> (p + n <= length out)%nat ->
  cload (c_mem k) (Z.of_nat p) (Z.of_nat n) = Done (be_val (slice p n out)).
Proof.
  intros HS Hn Hp. unfold cload. pose proof HS as [S A]. cbn [k_out k_mem] in S.
  assert (NE : (if Z.of_nat n =? 8 then 8 else if Z.of_nat n >? 2 then 4 else 2) = Z.of_nat n) by (destruct Hn as [-> | [-> | ->]]; reflexivity).
  rewrite NE. pose proof (sk_load _ _ _ out p n S Hp) as LD. cbn [o_mem] in LD. rewrite LD, bind_done. f_equal.
  set (bs := slice p n out).
  assert (L : length bs = n) by now apply slice_length.
  assert (B : is_bytes bs) by (apply is_bytes_slice, (sk_obytes _ _ _ _ S)).
  set (z := List.repeat 0 (8 - n)).
  assert (ZB : is_bytes z) by (apply is_bytes_repeat; unfold is_byte; lia).
  assert (RZ : rev z = z).
  { unfold z. destruct Hn as [-> | [-> | ->]]; reflexivity. }
  assert (ZV : be_val z = 0) by (unfold z; destruct Hn as [-> | [-> | ->]]; reflexivity).
  assert (G : gshl (native_val LE bs) (64 - 8 * Z.of_nat n) = native_val LE (z ++ bs)).
  { cbn [native_val]. rewrite rev_app_distr, RZ, be_val_app, ZV, Z.add_0_r. rewrite gshl_ok by lia.
    assert (LZ : lenZ z = 8 - Z.of_nat n) by (unfold z, lenZ; rewrite repeat_length; lia). rewrite LZ.
    assert (PW : 256 ^ (8 - Z.of_nat n) = 2 ^ (64 - 8 * Z.of_nat n)).
    { change 256 with (2 ^ 8). rewrite <- Z.pow_mul_r by lia. f_equal. lia. }
    rewrite PW.
    pose proof (be_val_bound (rev bs) (is_bytes_rev _ B)) as BV. unfold lenZ in BV. rewrite rev_length, L in BV.
    apply Z.mod_small. split; [apply Z.mul_nonneg_nonneg; lia|].
    replace (2 ^ 64) with (2 ^ (8 * Z.of_nat n) * 2 ^ (64 - 8 * Z.of_nat n)) by (rewrite <- Z.pow_add_r by lia; f_equal; lia).
    apply Z.mul_lt_mono_pos_r; [apply pow2_pos; lia|lia]. }
  rewrite G. unfold bswap64. rewrite swap_native64.
  - rewrite be_val_app, ZV. lia.
  - rewrite app_length, L. unfold z. rewrite repeat_length. lia.
  - apply is_bytes_app. auto.
Qed.
Lemma cbe_lor pre v d : is_bytes pre -> 0 <= d -> 8 * lenZ pre + 8 * d <= 64 -> 0 <= v < 2 ^ (8 * d) ->
  Z.lor (be_val pre * 2 ^ (64 - 8 * lenZ pre)) (gshl v (64 - d * 8 - 8 * lenZ pre)) = (be_val pre * 2 ^ (8 * d) + v) * 2 ^ (64 - (8 * lenZ pre + d * 8)).
Proof.
  intros HB Hd Hl Hv. pose proof (lenZ_nonneg pre). set (s := 64 - d * 8 - 8 * lenZ pre).
  assert (S0 : 0 <= s <= 64) by (unfold s; lia).
  assert (PS : 0 < 2 ^ s) by (apply pow2_pos; lia).
  assert (VS : v * 2 ^ s < 2 ^ (64 - 8 * lenZ pre)).
  { replace (64 - 8 * lenZ pre) with (8 * d + s) by (unfold s; lia). rewrite Z.pow_add_r by lia. apply Z.mul_lt_mono_pos_r; lia. }
  assert (GV : gshl v s = v * 2 ^ s).
  { unfold gshl. destruct (Z.ltb_spec s 64).
    - apply Z.mod_small. split; [apply Z.mul_nonneg_nonneg; lia|]. eapply Z.lt_le_trans; [exact VS|]. apply Z.pow_le_mono_r; lia.
    - assert (D0 : d = 0) by (unfold s in *; lia). subst d. change (2 ^ (8 * 0)) with 1 in Hv. assert (v = 0) by lia. subst v. lia. }
  rewrite GV, lor_disjoint. 2: lia. 2: { split; [|exact VS]. apply Z.mul_nonneg_nonneg; lia. }
  replace (64 - 8 * lenZ pre) with (8 * d + s) by (unfold s; lia). rewrite Z.pow_add_r by lia.
  replace (64 - (8 * lenZ pre + d * 8)) with s by (unfold s; lia). ring.
Qed.

Definition centry (a : action) : Z * Z :=
  match a with D n => (Z.of_nat (8 * n), Z.of_nat n) | I n => (128 + Z.of_nat (index_bits n), Z.of_nat n) end.
Definition cmatch (fs : list (Z * Z)) (acts : list action) : Prop := exists n, fs = map centry acts ++ List.repeat (0, 0) n.
Lemma args_inv_D out n acts bs out' rest : args out (D n :: acts) bs out' rest ->
  exists d bs', bs = bytes_bits d ++ bs' /\ length d = n /\ is_bytes d /\ args (out ++ d) acts bs' out' rest.
Proof. inversion 1; subst. eauto 10. Qed.
Lemma args_inv_I out n acts bs out' rest : args out (I n :: acts) bs out' rest ->
  exists i p bs', bs = bits_of (index_bits n) i ++ bs' /\ 0 <= i < 2 ^ Z.of_nat (index_bits n) /\ refers (length out) n i p /\ args (out ++ slice p n out) acts bs' out' rest.
Proof. inversion 1; subst. eauto 10. Qed.
Lemma args_inv_nil out bs out' rest : args out [] bs out' rest -> out' = out /\ rest = bs.
Proof. inversion 1; auto. Qed.

(** One field: [d] are the bytes it stands for. *)
Lemma cfield_next base acts n k pre d : is_bytes pre -> is_bytes d -> (length pre + (length d + acts_len acts) = 8)%nat ->
  cfields inp (map centry acts ++ List.repeat (0, 0) n) k
    (Z.lor (be_val pre * 2 ^ (64 - 8 * lenZ pre)) (gshl (be_val d) (64 - lenZ d * 8 - 8 * lenZ pre))) (8 * lenZ pre + lenZ d * 8) =
  cfields inp (map centry acts ++ List.repeat (0, 0) n) k (be_val (pre ++ d) * 2 ^ (64 - 8 * lenZ (pre ++ d))) (8 * lenZ (pre ++ d)) /\
  base ++ pre ++ d = (base ++ pre) ++ d.
Proof.
  intros HP HD HL. split; [|now rewrite app_assoc].
  pose proof (be_val_bound d HD) as BD.
  rewrite cbe_lor; auto; try (unfold lenZ; lia).
  rewrite be_val_app, lenZ_app.
  assert (PW : 256 ^ lenZ d = 2 ^ (8 * lenZ d)).
  { change 256 with (2 ^ 8). rewrite <- Z.pow_mul_r by (unfold lenZ; lia). reflexivity. }
  rewrite PW. replace (8 * lenZ pre + lenZ d * 8) with (8 * (lenZ pre + lenZ d)) by lia. reflexivity.
Qed.

Lemma cfields_ok base acts : forall n k pre bs out1 bs1,
  Forall (fun a => act_size_ok a = true) acts ->
  args (base ++ pre) acts bs out1 bs1 -> skc k base -> rdc inp k bs -> is_bytes pre -> (length pre + acts_len acts = 8)%nat ->
  exists pre' k', out1 = base ++ pre' /\ length pre' = 8%nat /\ is_bytes pre' /\
    cfields inp (map centry acts ++ List.repeat (0, 0) n) k (be_val pre * 2 ^ (64 - 8 * lenZ pre)) (8 * lenZ pre) = Done (be_val pre', k') /\
    rdc inp k' bs1 /\ c_mem k' = c_mem k /\ c_out k' = c_out k.
Proof.
  induction acts as [|[w|w] acts IH]; intros n k pre bs out1 bs1 F HA HS HR HP HL.
  - apply args_inv_nil in HA. destruct HA as [-> ->].
    cbn [acts_len fold_right] in HL. assert (LP : lenZ pre = 8) by (unfold lenZ; lia).
    rewrite LP. change (2 ^ (64 - 8 * 8)) with 1. rewrite Z.mul_1_r. change (8 * 8) with 64. cbn [map app].
    exists pre. revert k HS HR. induction n; intros k HS HR; cbn [List.repeat cfields].
    + exists k. split; [auto|]. split; [lia|]. auto.
    + change (Z.land 0 127) with 0. destruct (cread_zero k _ HR) as (k' & E & R' & M' & O'). rewrite E, bind_done.
      change (negb (Z.shiftr 0 7 =? 0)) with false. cbv iota. rewrite bind_done.
      change (gshl 0 (64 - 0 * 8 - 64)) with 0. rewrite Z.lor_0_r. change (64 + 0 * 8) with 64.
      destruct (IHn k' (skc_same k k' _ M' O' HS) R') as (k2 & E1 & E2 & E3 & E4 & E5 & E6 & E7).
      exists k2. rewrite E6, E7, M', O'. auto 10.
  - (* literal *)
    inversion F as [|? ? Fa F']; subst. apply size_cases in Fa. cbn [act_len] in Fa.
    change (acts_len (D w :: acts)) with (w + acts_len acts)%nat in HL.
    apply args_inv_D in HA. destruct HA as (d & bs' & -> & LD & BD & HA).
    cbn [map app cfields centry].
    assert (LW : Z.land (Z.of_nat (8 * w)) 127 = Z.of_nat (8 * w) /\ Z.shiftr (Z.of_nat (8 * w)) 7 = 0) by (destruct Fa as [-> | [-> | ->]]; split; reflexivity).
    destruct LW as [-> ->]. change (negb (0 =? 0)) with false. cbv iota.
    destruct (bytes_as_bits d BD) as [EB VB]. rewrite LD in EB, VB. rewrite EB in HR.
    destruct (cread_bits_ok k _ (Z.of_nat (8 * w)) (be_val d) bs' HR ltac:(lia)) as (k1 & -> & R1 & _ & M1 & O1).
    { rewrite Nat2Z.id. now apply rdb_app. }
    rewrite !bind_done. assert (WD : Z.of_nat w = lenZ d) by (unfold lenZ; lia). rewrite WD.
    destruct (cfield_next base acts n k1 pre d HP BD ltac:(lia)) as [-> BA]. rewrite <- BA in HA.
    destruct (IH n k1 (pre ++ d) bs' out1 bs1 F' HA (skc_same _ _ _ M1 O1 HS) R1) as (pre' & k2 & E1 & E2 & E3 & E4 & E5 & E6 & E7).
    { apply is_bytes_app. auto. } { rewrite app_length. lia. }
    exists pre', k2. rewrite E6, E7, M1, O1. auto 10.
  - (* index *)
    inversion F as [|? ? Fa F']; subst. apply size_cases in Fa. cbn [act_len] in Fa.
    change (acts_len (I w :: acts)) with (w + acts_len acts)%nat in HL.
    apply args_inv_I in HA. destruct HA as (i & p & bs' & -> & VI & RF & HA).
    cbn [map app cfields centry].
    assert (LW : Z.land (128 + Z.of_nat (index_bits w)) 127 = Z.of_nat (index_bits w) /\ negb (Z.shiftr (128 + Z.of_nat (index_bits w)) 7 =? 0) = true /\
      cfifo (Z.of_nat w) = window w /\ 1 <= Z.of_nat (index_bits w) <= 64) by (destruct Fa as [-> | [-> | ->]]; repeat split; try reflexivity; cbn; lia).
    destruct LW as (-> & -> & -> & IB).
    destruct (cread_bits_ok k _ (Z.of_nat (index_bits w)) i bs' HR IB) as (k1 & -> & R1 & _ & M1 & O1).
    { rewrite Nat2Z.id. now apply rdb_app. }
    rewrite bind_done. assert (S1 : skc k1 base) by (eapply skc_same; eauto).
    rewrite (cget_index_ok k1 base w i S1 Fa VI).
    assert (AB : al8 base) by apply HS.
    assert (RB : refers (length base) w i p).
    { assert (DV : Z.of_nat (length (base ++ pre)) / 8 = Z.of_nat (length base) / 8).
      { rewrite app_length, Nat2Z.inj_add. unfold al8 in AB.
        pose proof (Nat.div_mod (length base) 8 ltac:(lia)) as DM. rewrite AB in DM.
        rewrite DM. set (q := (length base / 8)%nat).
        replace (Z.of_nat (8 * q + 0) + Z.of_nat (length pre)) with (Z.of_nat (length pre) + Z.of_nat q * 8) by lia.
        replace (Z.of_nat (8 * q + 0)) with (Z.of_nat q * 8) by lia. rewrite Z.div_add, Z.div_mul by lia. rewrite Z.div_small; lia. }
      unfold refers in *. rewrite DV in RF. exact RF. }
    destruct (poff_spec (length base) w i Fa VI) as (_ & _ & _ & PU). rewrite (PU p RB).
    assert (PL : (p + w <= length base)%nat).
    { destruct RB as (_ & R2 & _). pose proof (Z.mul_div_le (Z.of_nat (length base)) 8 ltac:(lia)). lia. }
    rewrite (cload_ok k1 base p w S1 Fa PL), bind_done.
    set (d := slice p w base) in *.
    assert (ED : slice p w (base ++ pre) = d).
    { unfold d, slice. rewrite skipn_app, firstn_app. rewrite skipn_length.
      replace (w - (length base - p))%nat with 0%nat by lia. cbn [firstn]. now rewrite app_nil_r. }
    rewrite ED in HA. 
    assert (LD : length d = w) by now apply slice_length.
    assert (BD : is_bytes d) by (apply is_bytes_slice; destruct HS as [S _]; apply (sk_obytes _ _ _ _ S)).
    assert (WD : Z.of_nat w = lenZ d) by (unfold lenZ; lia). rewrite WD.
    destruct (cfield_next base acts n k1 pre d HP BD ltac:(lia)) as [-> BA]. rewrite <- BA in HA.
    destruct (IH n k1 (pre ++ d) bs' out1 bs1 F' HA S1 R1) as (pre' & k2 & E1 & E2 & E3 & E4 & E5 & E6 & E7).
    { apply is_bytes_app. auto. } { rewrite app_length. lia. }
    exists pre', k2. rewrite E6, E7, M1, O1. auto 10.
Qed.

(** * The loop *)
Definition ctable_ok (op : Z) : bool :=
  match template op, nth_error dec_templates (Z.to_nat op) with
  | Some acts, Some fs => list_eqb (concat (map (fun x => [fst x; snd x]) fs)) (concat (map (fun x => [fst x; snd x]) (map centry acts ++ List.repeat (0, 0) (4 - length acts))))
  | _, _ => false
  end.
Lemma ctable_check : forallb (fun k => ctable_ok (Z.of_nat k)) (seq 0 26) = true.
Proof. vm_compute. reflexivity. Qed.
Lemma flat_inj (a b : list (Z * Z)) : concat (map (fun x => [fst x; snd x]) a) = concat (map (fun x => [fst x; snd x]) b) -> a = b.
Proof.
  revert b. induction a as [|[x y] a IH]; intros [|[x' y'] b] E; cbn in E; try discriminate; auto.
  injection E as -> -> E. f_equal. auto.
Qed.
Lemma ctable op acts : template op = Some acts -> nth_error dec_templates (Z.to_nat op) = Some (map centry acts ++ List.repeat (0, 0) (4 - length acts)).
Proof.
  intros T. destruct (template_sizes _ _ T) as (_ & _ & R). pose proof ctable_check as C. rewrite forallb_forall in C.
  specialize (C (Z.to_nat op) ltac:(apply in_seq; lia)). cbv beta in C. rewrite Z2Nat.id in C by lia. unfold ctable_ok in C. rewrite T in C.
  destruct (nth_error dec_templates (Z.to_nat op)); [|discriminate]. apply list_eqb_eq, flat_inj in C. now subst.
Qed.

Lemma cloop_ok sw out bits x rest : stream sw out bits x rest -> sw = false -> forall k f, skc k out -> rdc inp k bits ->
  lenZ x <= lenZ m0 -> (length bits < f)%nat -> exists k', cloop f inp k = Done k' /\ skc k' x.
Proof.
  induction 1 as [out rest|out bs out' rest HT IH|out n bs out' rest Hn HL HT IH|out d bs out' rest Hs|out op acts bs out1 bs1 out' rest Hop T HA HT IH];
    intros ESW k f HS HR Hx Hf; try congruence; (destruct f as [|f]; [lia|]); cbn [cloop]; rewrite app_length, bits_of_length in Hf; unfold cstep.
  - destruct (cread_bits_ok k _ OP_BITS 30 rest HR ltac:(unfold OP_BITS; lia)) as (k1 & -> & R1 & _ & M1 & O1).
    { apply (rdb_app 5 30). cbn; lia. }
    rewrite !bind_done. change (30 =? OP_REPEAT) with false. change (30 =? OP_ZEROS) with false. change (30 =? OP_END) with true. cbv iota. rewrite bind_done.
    exists k1. split; auto. eapply skc_same; eauto.
  - destruct (cread_bits_ok k _ OP_BITS 28 bs HR ltac:(unfold OP_BITS; lia)) as (k1 & -> & R1 & _ & M1 & O1).
    { apply (rdb_app 5 28). cbn; lia. }
    rewrite !bind_done. change (28 =? OP_REPEAT) with false. change (28 =? OP_ZEROS) with true. cbv iota.
    pose proof (stream_grows _ _ _ _ _ HT) as G. rewrite app_length, repeat_length in G.
    destruct (skc_store k1 out (List.repeat 0 8)) as (m & ES & SS).
    { eapply skc_same; eauto. } { apply is_bytes_repeat. unfold is_byte; lia. } { reflexivity. } { unfold lenZ in *. lia. }
    unfold store64. rewrite native_zero, ES, !bind_done. apply IH; auto.  lia.
  - destruct (cread_bits_ok k _ OP_BITS 27 (bits_of 6 n ++ bs) HR ltac:(unfold OP_BITS; lia)) as (k1 & -> & R1 & _ & M1 & O1).
    { apply (rdb_app 5 27). cbn; lia. }
    rewrite !bind_done. change (27 =? OP_REPEAT) with true. cbv iota.
    destruct (cread_bits_ok k1 _ REPEAT_BITS n bs R1 ltac:(unfold REPEAT_BITS; lia)) as (k2 & -> & R2 & _ & M2 & O2).
    { apply (rdb_app 6 n). cbn; lia. }
    rewrite !bind_done. rewrite app_length, bits_of_length in Hf.
    pose proof (stream_grows _ _ _ _ _ HT) as G. rewrite app_length, copies_length, last8_length in G by auto.
    destruct (crepeat_ok (Z.to_nat (n + 1)) k2 out) as (k3 & -> & S3 & I3 & B3 & U3).
    { eapply skc_same; [| |eapply skc_same; [| |exact HS]]; eauto. } { auto. } { unfold lenZ in *. lia. }
    rewrite !bind_done. replace (Z.to_nat n + 1)%nat with (Z.to_nat (n + 1)) in * by lia.
    apply IH; auto. 2: lia. unfold rdc in *. rewrite I3, B3, U3. exact R2.
  - destruct (template_sizes _ _ T) as (TS & TL & TR).
    destruct (cread_bits_ok k _ OP_BITS op bs HR ltac:(unfold OP_BITS; lia)) as (k1 & -> & R1 & _ & M1 & O1).
    { apply (rdb_app 5 op). cbn; lia. }
    rewrite !bind_done. unfold OP_REPEAT, OP_ZEROS, OP_END.
    destruct (Z.eqb_spec op 27); [lia|]. destruct (Z.eqb_spec op 28); [lia|]. destruct (Z.eqb_spec op 30); [lia|].
    rewrite (ctable op acts T).
    assert (S1 : skc k1 out) by (eapply skc_same; eauto).
    rewrite <- (app_nil_r out) in HA.
    destruct (cfields_ok out acts (4 - length acts) k1 [] bs out1 bs1 TS HA S1 R1 ltac:(constructor) TL) as (pre & k2 & -> & LP & BP & EF & R2 & M2 & O2).
    change (be_val [] * 2 ^ (64 - 8 * lenZ [])) with 0 in EF. change (8 * lenZ []) with 0 in EF.
    rewrite EF, !bind_done.
    pose proof (stream_grows _ _ _ _ _ HT) as G. rewrite app_length in G.
    destruct (skc_store k2 out pre) as (m & ES & SS). { eapply skc_same; eauto. } { auto. } { auto. } { unfold lenZ in *. lia. }
    unfold store64, bswap64. replace (swap_be_to_native64 LE (be_val pre)) with (swap_native_to_be64 LE (be_val pre)) by reflexivity.
    rewrite native_swap64. assert (EB8 : be_bytes 8 (be_val pre) = pre) by (rewrite <- LP at 1; now apply be_bytes_be_val).
    rewrite EB8, ES, !bind_done.
    apply IH; auto.
    assert (AL : forall acts o b o' b', args o acts b o' b' -> (length b' <= length b)%nat).
    { clear. induction 1; auto; rewrite app_length; lia. }
    apply AL in HA. lia.
Qed.
End Dec.

Lemma cuda_chunk_ok inp out x rest : is_bytes inp -> is_bytes out -> lenZ inp mod 8 = 0 -> lenZ out < 2 ^ 63 ->
  stream false [] (bytes_bits inp) x rest -> lenZ x <= lenZ out ->
  cuda_chunk inp out = Done (x ++ skipn (length x) out).
Proof.
  intros HI HO H8 HM HS HX. unfold cuda_chunk.
  destruct (cloop_ok inp out HI HM false [] (bytes_bits inp) x rest HS eq_refl (mkC 0 0 0 out 0) (S (Z.to_nat (8 * lenZ inp)))) as (k & -> & SK).
  - constructor; [|reflexivity]. cbn [k_mem k_out]. change (8 * 0) with 0. rewrite Z.sub_0_r. apply sk_init; auto. pose proof (lenZ_nonneg out). split; [assumption|apply Z.le_refl].
  - unfold rdc. cbn [c_in c_bits c_buffer]. pose proof (rdo_init inp []) as R. now rewrite (whole_mod8 inp H8) in R.
  - exact HX.
  - rewrite bytes_bits_length. unfold lenZ. lia.
  - rewrite bind_done. destruct SK as [SK _]. apply sk_mem in SK. cbn [o_mem k_mem] in SK. now rewrite SK.
Qed.

(** * A launch *)
Lemma stream_bytes_out sw out bits y rest : stream sw out bits y rest -> is_bytes out -> is_bytes y.
Proof.
  assert (AB : forall o acts b o' b', args o acts b o' b' -> is_bytes o -> is_bytes o').
  { clear. induction 1; auto; intros; apply IHargs; apply is_bytes_app; split; auto. now apply is_bytes_slice. }
  induction 1; auto; intros; apply IHstream; try (apply is_bytes_app; split; auto).
  - apply is_bytes_repeat. unfold is_byte; lia.
  - apply is_bytes_copies. unfold last8. now apply is_bytes_skipn.
  - eapply AB; eauto.
Qed.
Lemma in_order n order c : Permutation order (chunk_numbers n) -> existsb (Z.eqb c) order = (0 <=? c) && (c <? n).
Proof.
  intros P. apply eq_true_iff_eq. rewrite existsb_exists, andb_true_iff, Z.leb_le, Z.ltb_lt. split.
  - intros (y & I1 & E). apply Z.eqb_eq in E. subst y. apply in_numbers. eapply Permutation_in; eauto.
  - intros H. exists c. split; [|apply Z.eqb_refl]. eapply Permutation_in; [apply Permutation_sym; exact P|]. now apply in_numbers.
Qed.
Section Launch.
Variables (inp : list Z) (n : Z) (x : Z -> list Z).
Hypothesis Hn : 0 <= n <= 2 ^ 24.
Hypothesis Hinp : is_bytes inp.
Hypothesis H8 : lenZ inp mod 8 = 0.
Hypothesis Hx : forall c, 0 <= c < n -> lenZ (x c) <= 1024 /\ exists rest, stream false [] (bytes_bits (skipn (Z.to_nat (2048 * c)) inp)) (x c) rest.
Variable M : nat.
Hypothesis HM : 1024 * n <= Z.of_nat M < 2 ^ 63.

Lemma skipn_mod8 k : lenZ (skipn (Z.to_nat (2048 * k)) inp) mod 8 = 0.
Proof.
  unfold lenZ in *. rewrite skipn_length. destruct (Z_lt_ge_dec k 0).
  { replace (Z.to_nat (2048 * k)) with 0%nat by lia. now rewrite Nat.sub_0_r. }
  destruct (Nat.le_gt_cases (length inp) (Z.to_nat (2048 * k))).
  - replace (length inp - Z.to_nat (2048 * k))%nat with 0%nat by lia. reflexivity.
  - replace (Z.of_nat (length inp - Z.to_nat (2048 * k))) with (Z.of_nat (length inp) + (- 256 * k) * 8) by lia.
    now rewrite Z.mod_add by lia.
Qed.
Lemma cuda_thread_ok t out : is_bytes out -> length out = M -> 0 <= t < n ->
  cuda_thread inp t out = Done (put out (Z.to_nat (1024 * t)) (x t)).
Proof.
  intros HO HL Ht. unfold cuda_thread. change (1024 / 8) with 128.
  replace (u32 (128 * 2 * t)) with (128 * 2 * t) by (unfold u32; rewrite Z.mod_small; lia).
  replace (u32 (128 * t)) with (128 * t) by (unfold u32; rewrite Z.mod_small; lia).
  replace (8 * (128 * 2 * t)) with (2048 * t) by lia. replace (8 * (128 * t)) with (1024 * t) by lia.
  destruct (Hx t Ht) as (LX & rest & SX).
  assert (LS : lenZ (skipn (Z.to_nat (1024 * t)) out) = lenZ out - 1024 * t) by (unfold lenZ; rewrite skipn_length; lia).
  rewrite (cuda_chunk_ok _ _ (x t) rest).
  - rewrite bind_done. f_equal. unfold put. do 2 f_equal. apply skipn_skipn.
  - now apply is_bytes_skipn.
  - now apply is_bytes_skipn.
  - apply skipn_mod8.
  - rewrite LS. unfold lenZ. lia.
  - exact SX.
  - rewrite LS. unfold lenZ in *. lia.
Qed.
Definition in_chunk (order : list Z) (p : nat) : bool :=
  existsb (Z.eqb (Z.of_nat p / 1024)) order && (Z.of_nat p mod 1024 <? lenZ (x (Z.of_nat p / 1024))).
Lemma cuda_run_ok order : Forall (fun t => 0 <= t < n) order -> forall out, is_bytes out -> length out = M ->
  exists out', cuda_run inp order out = Done out' /\ is_bytes out' /\ length out' = M /\
    forall p, nth p out' 0 = if in_chunk order p then nth (Z.to_nat (Z.of_nat p mod 1024)) (x (Z.of_nat p / 1024)) 0 else nth p out 0.
Proof.
  induction 1 as [|t order Ht HO IH]; intros out HB HL; cbn [cuda_run].
  - exists out. repeat split; auto.
  - rewrite cuda_thread_ok by auto. rewrite bind_done.
    destruct (Hx t Ht) as (LX & rest & SX).
    assert (PL : (Z.to_nat (1024 * t) + length (x t) <= length out)%nat) by (unfold lenZ in *; lia).
    destruct (IH (put out (Z.to_nat (1024 * t)) (x t))) as (out' & E & B' & L' & N').
    { apply put_bytes; auto. eapply stream_bytes_out; [exact SX|constructor]. } { rewrite put_length; auto. }
    exists out'. split; auto. split; auto. split; auto. intros p. rewrite N'. unfold in_chunk. cbn [existsb].
    rewrite put_nth by auto.
    set (c := Z.of_nat p / 1024). pose proof (Z.div_mod (Z.of_nat p) 1024 ltac:(lia)) as DM. fold c in DM. pose proof (Z.mod_pos_bound (Z.of_nat p) 1024 ltac:(lia)) as MB.
    destruct (existsb (Z.eqb c) order); [rewrite orb_true_r; cbn [andb]|rewrite orb_false_r; cbn [andb]].
    + destruct (Z.ltb_spec (Z.of_nat p mod 1024) (lenZ (x c))) as [Q|Q]; [reflexivity|].
      destruct (Nat.leb_spec (Z.to_nat (1024 * t)) p) as [P1|P1]; cbn [andb]; auto.
      destruct (Nat.ltb_spec p (Z.to_nat (1024 * t) + length (x t))) as [P2|P2]; auto. exfalso.
      assert (CT : c = t) by (unfold lenZ in *; lia). rewrite CT in *. unfold lenZ in *. lia.
    + destruct (Z.eqb_spec c t) as [CT|CT]; cbn [andb].
      * rewrite CT in *. destruct (Nat.leb_spec (Z.to_nat (1024 * t)) p) as [P1|P1]; [|lia]. cbn [andb].
        destruct (Nat.ltb_spec p (Z.to_nat (1024 * t) + length (x t))) as [P2|P2];
          destruct (Z.ltb_spec (Z.of_nat p mod 1024) (lenZ (x t))) as [Q|Q]; unfold lenZ in *; try lia; auto.
        f_equal. lia.
      * destruct (Nat.leb_spec (Z.to_nat (1024 * t)) p) as [P1|P1]; cbn [andb]; auto.
        destruct (Nat.ltb_spec p (Z.to_nat (1024 * t) + length (x t))) as [P2|P2]; auto. exfalso. unfold lenZ in *. lia.
Qed.
Theorem cuda_launch order out : Permutation order (chunk_numbers n) -> is_bytes out -> length out = M ->
  exists out', cuda_run inp order out = Done out' /\ length out' = length out /\
    (forall c, 0 <= c < n -> bytes_at out' (1024 * c) 1024 = x c ++ bytes_at out (1024 * c + lenZ (x c)) (1024 - lenZ (x c))) /\
    (forall p, 1024 * n <= Z.of_nat p -> nth p out' 0 = nth p out 0).
Proof.
  intros P HB HL. destruct (cuda_run_ok order) with (out := out) as (out' & E & B' & L' & N'); auto.
  { apply Forall_forall. intros t Ht. apply in_numbers. eapply Permutation_in; eauto. }
  exists out'. split; auto. split; [lia|]. split.
  - intros c Hc. destruct (Hx c Hc) as (LX & _). pose proof (lenZ_nonneg (x c)).
    assert (L1 : length (bytes_at out' (1024 * c) 1024) = 1024%nat) by (unfold bytes_at; apply slice_length; lia).
    assert (L2 : length (bytes_at out (1024 * c + lenZ (x c)) (1024 - lenZ (x c))) = Z.to_nat (1024 - lenZ (x c))) by (unfold bytes_at; apply slice_length; lia).
    apply nth_ext with (d := 0) (d' := 0). { rewrite app_length, L1, L2. unfold lenZ in *. lia. }
    rewrite L1. intros k Hk.
    assert (NS : forall l p m j, (j < Z.to_nat m)%nat -> nth j (bytes_at l p m) 0 = nth (Z.to_nat p + j) l 0).
    { clear. intros. unfold bytes_at, slice. rewrite nth_firstn_gen by lia. apply nth_skipn_gen. }
    rewrite NS by lia. rewrite N'. unfold in_chunk.
    replace (Z.of_nat (Z.to_nat (1024 * c) + k)) with (Z.of_nat k + c * 1024) by lia.
    rewrite Z.div_add, Z.mod_add, Z.div_small, Z.mod_small by lia. rewrite Z.add_0_l. rewrite (in_order n order c P).
    destruct (Z.leb_spec 0 c) as [_|]; [|lia]. destruct (Z.ltb_spec c n) as [_|]; [|lia]. cbn [andb].
    destruct (Z.ltb_spec (Z.of_nat k) (lenZ (x c))) as [Q|Q].
    + rewrite app_nth1 by (unfold lenZ in *; lia). f_equal. lia.
    + rewrite app_nth2 by (unfold lenZ in *; lia). rewrite NS by (unfold lenZ in *; lia). f_equal. unfold lenZ in *. lia.
  - intros p Hp. rewrite N'. unfold in_chunk. rewrite (in_order n order _ P).
    destruct (Z.ltb_spec (Z.of_nat p / 1024) n) as [Q|Q]; [|now rewrite andb_false_r].
    exfalso. pose proof (Z.div_mod (Z.of_nat p) 1024 ltac:(lia)). pose proof (Z.mod_pos_bound (Z.of_nat p) 1024 ltac:(lia)). lia.
Qed.
End Launch.

(** Thread 2^24 reads the first chunk of the input. *)
Theorem cuda_wraps inp out x rest : is_bytes inp -> is_bytes out -> lenZ inp mod 8 = 0 -> 1024 * (2 ^ 24 + 1) <= lenZ out < 2 ^ 63 ->
  stream false [] (bytes_bits inp) x rest -> lenZ x <= 1024 ->
  exists out', cuda_thread inp (2 ^ 24) out = Done out' /\ bytes_at out' (1024 * 2 ^ 24) (lenZ x) = x.
Proof.
  intros HI HO H8 HL HS HX. unfold cuda_thread. change (1024 / 8) with 128.
  replace (u32 (128 * 2 * 2 ^ 24)) with 0 by reflexivity. replace (8 * u32 (128 * 2 ^ 24)) with (1024 * 2 ^ 24) by reflexivity.
  change (Z.to_nat (8 * 0)) with 0%nat. cbn [skipn]. set (o := Z.to_nat (1024 * 2 ^ 24)).
  assert (LS : lenZ (skipn o out) = lenZ out - 1024 * 2 ^ 24) by (unfold lenZ in *; rewrite skipn_length; unfold o; lia).
  rewrite (cuda_chunk_ok inp _ x rest); auto; try lia. 2: now apply is_bytes_skipn.
  rewrite bind_done. eexists. split; [reflexivity|]. unfold bytes_at. fold o. unfold slice, lenZ. rewrite Nat2Z.id.
  rewrite skipn_app_exact. 2: { rewrite firstn_length. unfold lenZ in *. lia. }
  now apply firstn_app_exact.
Qed.

(** * Compressed by one of the compressors *)
Lemma stream_more sw out bits x rest more : stream sw out bits x rest -> stream sw out (bits ++ more) x (rest ++ more).
Proof.
  assert (AM : forall o acts b o' b', args o acts b o' b' -> args o acts (b ++ more) o' (b' ++ more)).
  { induction 1; rewrite <- ?app_assoc; econstructor; eauto. }
  induction 1; rewrite <- ?app_assoc.
  - apply st_end.
  - now apply st_zeros.
  - now apply st_repeat.
  - apply st_short; auto.
  - eapply st_template; eauto.
Qed.
Lemma starts_stream inp p z x rest : slice p (length z) inp = z -> stream false [] (bytes_bits z) x rest ->
  exists rest', stream false [] (bytes_bits (skipn p inp)) x rest'.
Proof.
  intros E S. rewrite <- (firstn_skipn (length z) (skipn p inp)). fold (slice p (length z) inp). rewrite E, bytes_bits_app.
  eexists. apply stream_more. exact S.
Qed.
Theorem cuda_launch_compressed inp n x z order out : 0 <= n <= 2 ^ 24 -> is_bytes inp -> lenZ inp mod 8 = 0 ->
  (forall c, 0 <= c < n -> lenZ (x c) <= 1024 /\ is_bytes (x c) /\ lenZ (x c) mod 8 = 0 /\ is_compressed (x c) (z c) /\ bytes_at inp (2048 * c) (lenZ (z c)) = z c) ->
  1024 * n <= lenZ out < 2 ^ 63 -> Permutation order (chunk_numbers n) -> is_bytes out ->
  exists out', cuda_run inp order out = Done out' /\ length out' = length out /\
    (forall c, 0 <= c < n -> bytes_at out' (1024 * c) (lenZ (x c)) = x c).
Proof.
  intros Hn Hi H8 Hx Ho P HB.
  destruct (cuda_launch inp n x Hn Hi H8) with (M := length out) (order := order) (out := out) as (out' & E & L & C & _); auto.
  { intros c Hc. destruct (Hx c Hc) as (A1 & A2 & A3 & A4 & A5). split; auto.
    destruct (compressed_valid _ _ A2 A3 A4) as (_ & (rest & V) & _). 
    eapply starts_stream; [|exact V]. unfold bytes_at, lenZ in A5. now rewrite Nat2Z.id in A5. }
  exists out'. split; auto. split; auto. intros c Hc. specialize (C c Hc). destruct (Hx c Hc) as (A1 & _).
  assert (F : firstn (length (x c)) (bytes_at out' (1024 * c) 1024) = bytes_at out' (1024 * c) (lenZ (x c))).
  { unfold bytes_at. rewrite firstn_slice by (unfold lenZ in *; lia). unfold lenZ. now rewrite Nat2Z.id. }
  rewrite <- F, C. now apply firstn_app_exact.
Qed.
(** For the examples. *)
Lemma decoded_stream f inp x :
  match qd_loop f 2048 [] (bytes_bits inp) with Some (POk y _) => list_eqb y x | _ => false end = true ->
  exists rest, stream false [] (bytes_bits inp) x rest.
Proof.
  destruct (qd_loop f 2048 [] (bytes_bits inp)) as [[y rest| |]|] eqn:E; try discriminate.
  intros Q. apply list_eqb_eq in Q. subst y. exists rest. eapply qd_loop_sound; [| | |exact E]. reflexivity. constructor. cbn; lia.
Qed.
