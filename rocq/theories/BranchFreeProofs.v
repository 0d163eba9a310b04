(** optsw842_decompress built with BRANCH_FREE 1 refines the same pure decoder
    [qd_loop] as the default build. *)
From Coq Require Import ZArith List Bool Lia.
From Verif Require Import SpecBits SpecCrc Spec842 SpecCalls CBase BitsLemmas CrcProofs
  SerialCompModel SerialDecompModel SerialIdeal SerialValid PureDecoder SerialDecomp SerialFacts
  OptCompModel OptDecompModel OptWriter OptDecomp OclModel OclPure OclProofs BranchFreeModel.
Import ListNotations.
Open Scope Z_scope.

Definition bop_check (op : Z) : bool :=
  match template op with
  | Some acts => (bopbits op =? acts_width acts) && fcheck (map (bfield op) [0; 1; 2; 3]) (norm acts)
     && negb (snd (fst (bfield op 0)) =? 0)
  | None => false
  end.
Lemma bop_checks : forallb (fun k => bop_check (Z.of_nat k)) (seq 0 25) = true.
Proof. vm_compute. reflexivity. Qed.
Lemma bop_ok op : 0 <= op < 25 -> exists acts, template op = Some acts /\ bopbits op = acts_width acts /\
  fmatch (map (bfield op) [0; 1; 2; 3]) (norm acts) /\ snd (fst (bfield op 0)) <> 0 /\
  1 <= acts_width acts <= 64 /\ acts_width (norm acts) = acts_width acts /\ acts_len (norm acts) = 8%nat.
Proof.
  intros Ho. pose proof bop_checks as C. rewrite forallb_forall in C. specialize (C (Z.to_nat op) ltac:(apply in_seq; lia)).
  cbv beta in C. rewrite Z2Nat.id in C by lia. unfold bop_check in C.
  destruct (kop_ok op Ho) as (acts & T & _ & _ & W & N1 & N2). rewrite T in C.
  rewrite !andb_true_iff in C. destruct C as [[C1 C2] C3]. apply Z.eqb_eq in C1. apply fcheck_ok in C2. apply negb_true_iff, Z.eqb_neq in C3.
  exists acts. auto 10.
Qed.

Section Dec.
Variable over : Z -> outcome Z.
Hypothesis Hover : forall x, exists y, over x = Done y.
Variable e : endian.
Variables (inp m0 : list Z) (cap : Z).
Hypothesis Hinp : is_bytes inp.
Hypothesis Hcap : cap < 2 ^ 63.

Lemma bshr_ok x n : 0 <= n < 64 -> bshr over x n = Done (oshr x n).
Proof using. clear. intros. unfold bshr. destruct (Z.eqb_spec n 64); [lia|]. now rewrite shr64_ok, oshr_ok by lia. Qed.
Lemma bshl_ok x n : 0 <= n < 64 -> bshl over x n = Done (oshl x n).
Proof using. clear. intros. unfold bshl. destruct (Z.eqb_spec n 64); [lia|]. now rewrite shl64_ok, oshl_ok by lia. Qed.
Lemma bshr_any x n : 0 <= n <= 64 -> exists y, bshr over x n = Done y.
Proof.
  intros. destruct (Z.eq_dec n 64) as [->|].
  - unfold bshr. change (64 =? 64) with true. apply Hover.
  - rewrite bshr_ok by lia. eauto.
Qed.

Lemma bget_index_ok p out n i : sko cap m0 p out -> al8 out -> (n = 2 \/ n = 4 \/ n = 8)%nat -> 0 <= i < 2 ^ Z.of_nat (index_bits n) ->
  bget_index p (Z.of_nat n) i (window n) =
  if poff (length out) n i + Z.of_nat n >? lenZ out then (0, bwith_err p (- EINVAL)) else (poff (length out) n i, p).
Proof.
  intros HS HA Hn Hi. pose proof (sk_pos _ _ _ _ HS) as PO. cbn [o_pos] in PO. pose proof (sk_fit _ _ _ _ HS) as FT.
  destruct (index_offset_ok (length out) n i Hn Hi ltac:(unfold lenZ in *; lia)) as [IO U]. rewrite (ptotal_base out HA) in *.
  assert (RD : round_down (lenZ out) 8 = lenZ out).
  { unfold index_offset in IO. fold (lenZ out) in IO. destruct (_ >? window n); congruence. }
  unfold index_offset in IO. fold (lenZ out) in IO.
  unfold bget_index. rewrite PO. 
  assert (EO : (if round_down (lenZ out) 8 >? window n
     then u64 (u64 (i * Z.of_nat n) + (if u64 (i * Z.of_nat n) >=? round_down (lenZ out) 8 - round_down (round_down (lenZ out) 8) (window n)
        then u64 (round_down (round_down (lenZ out) 8) (window n) - window n) else round_down (round_down (lenZ out) 8) (window n)))
     else u64 (i * Z.of_nat n)) = poff (length out) n i).
  { destruct (round_down (lenZ out) 8 >? window n); cbv zeta in IO; congruence. }
  cbv zeta. rewrite EO, U, RD. unfold bwith_err. rewrite PO. reflexivity.
Qed.

Lemma first_bytes bs v n : is_bytes bs -> length bs = n -> (n = 2 \/ n = 4)%nat ->
  bshr over (swap_be_to_native64 e (native_val e (bs ++ skipn (length bs) (native_bytes e 8 v)))) (64 - 8 * Z.of_nat n) = Done (be_val bs).
Proof.
  intros HB <- Hn. set (t := skipn (length bs) (native_bytes e 8 v)).
  assert (NB : is_bytes (native_bytes e 8 v)) by (destruct e; cbn [native_bytes]; [apply is_bytes_rev|]; apply be_bytes_is_bytes).
  assert (LT : length t = (8 - length bs)%nat).
  { unfold t. rewrite skipn_length. destruct e; cbn [native_bytes]; rewrite ?rev_length, be_bytes_length; reflexivity. }
  assert (TB : is_bytes t) by now apply is_bytes_skipn.
  rewrite swap_native64; [|rewrite app_length; lia|apply is_bytes_app; auto].
  rewrite bshr_ok by lia. rewrite oshr_ok by lia. f_equal. rewrite be_val_app, pow256 by apply lenZ_nonneg.
  pose proof (be_val_bound _ TB) as V. replace (8 * lenZ t) with (64 - 8 * Z.of_nat (length bs)) in * by (unfold lenZ; lia).
  rewrite Z.div_add_l, Z.div_small by (try lia; apply Z.pow_nonzero; lia). lia.
Qed.

Lemma bmask_ok num : num = 8 \/ num = 9 \/ num = 16 ->
  exists y, bshr over (2 ^ 64 - 1) (64 - num) = Done y /\ Z.land (u64 (- bz (negb (num =? 0)))) y = 2 ^ num - 1.
Proof. intros H. rewrite bshr_ok by lia. eexists. split; [reflexivity|]. destruct H as [-> | [-> | ->]]; reflexivity. Qed.

Lemma bfields_ok fs acts : fmatch fs acts -> forall ml p base pre params opbits bits,
  sko cap m0 p base -> al8 base -> q_err p = 0 -> is_bytes pre -> bits = 8 * lenZ pre -> bits + 8 * Z.of_nat (acts_len acts) = 64 ->
  opbits = acts_width acts -> opbits <= 64 -> lenZ base + 2 <= ml ->
  (bits = 0 -> forall r, fs <> (0, 0, 0) :: r) ->
  match kvals ml base acts (bits_of (Z.to_nat opbits) params) with
  | KOk bs _ => bfields over e fs p params opbits (be_val pre * 2 ^ (64 - bits)) bits = Done (Some (be_val (pre ++ bs)), p) /\ is_bytes bs /\ length bs = acts_len acts
  | KErr => bfields over e fs p params opbits (be_val pre * 2 ^ (64 - bits)) bits = Done (None, bwith_err p (- EINVAL))
  | KUndef => False
  end.
Proof.
  assert (U8 : forall x, 0 <= x <= 64 -> u8 x = x) by (intros; unfold u8; apply Z.mod_small; lia).
  assert (SH : forall x, Z.shiftl x 3 = 8 * x) by (intros; rewrite Z.shiftl_mul_pow2 by lia; lia).
  induction 1 as [|fs acts FM IH|fs acts FM IH|fs acts FM IH|fs acts FM IH];
    intros ml p base pre params opbits bits HS HA HE HP HB HL HO H64 HM HF;
    pose proof (lenZ_nonneg pre) as LP; cbn [bfields].
  - cbn [kvals acts_len fold_right] in *. rewrite app_nil_r. replace (64 - bits) with 0 by lia. rewrite Z.mul_1_r. repeat split. constructor.
  - (* absent field *)
    assert (B0 : 0 < bits). { destruct (Z.eq_dec bits 0) as [Z0|]; [|lia]. exfalso. eapply HF; eauto. }
    pose proof (acts_width_nonneg acts) as W0.
    destruct (bshr_any (2 ^ 64 - 1) (64 - 0) ltac:(lia)) as [y ->]. rewrite bind_done.
    destruct (bshr_any params (opbits - 0) ltac:(lia)) as [y1 ->]. rewrite bind_done.
    change (0 =? 0) with true. cbn [negb bz]. cbv iota. change (u64 (- 0)) with 0. rewrite Z.land_0_l, Z.land_0_r.
    rewrite HE. change (0 =? 0) with true. cbn [negb]. cbv iota. change (0 * 0) with 0.
    rewrite load_bytes_ok by (try lia; apply lenZ_nonneg). change (slice (Z.to_nat 0) (Z.to_nat 0) (q_mem p)) with (@nil Z).
    rewrite bind_done. rewrite SH. change (8 * 0) with 0.
    destruct (bshr_any (swap_be_to_native64 e (native_val e ([] ++ skipn (length (@nil Z)) (native_bytes e 8 0)))) (64 - 0) ltac:(lia)) as [y2 ->].
    rewrite bind_done, Z.mul_0_r. change (Z.lor (u64 0) 0) with 0. rewrite bshl_ok by lia. rewrite bind_done.
    replace (oshl 0 (64 - 0 - bits)) with 0 by (unfold oshl; now rewrite Z.mul_0_l).
    rewrite Z.lor_0_r, Z.sub_0_r, Z.add_0_r, !U8 by lia.
    apply IH; auto. lia.
  - (* literal *)
    change (acts_width (D 2 :: acts)) with (16 + acts_width acts) in HO. change (acts_len (D 2 :: acts)) with (2 + acts_len acts)%nat in *.
    pose proof (acts_width_nonneg acts) as W0. subst opbits.
    destruct (bmask_ok 16 ltac:(auto)) as (y & -> & MK). rewrite bind_done, MK.
    rewrite bshr_ok by lia. rewrite bind_done.
    change (0 =? 0) with true. cbn [negb]. cbv iota.
    replace (16 + acts_width acts - 16) with (acts_width acts) by lia. rewrite oshr_ok by lia. rewrite land_ones_mod by lia.
    set (v := params / 2 ^ acts_width acts mod 2 ^ 16). assert (V : 0 <= v < 2 ^ 16) by (apply Z.mod_pos_bound; lia).
    rewrite HE. change (0 =? 0) with true. cbn [negb]. cbv iota. change (0 * 0) with 0. change (2 * 0) with 0.
    rewrite load_bytes_ok by (try lia; apply lenZ_nonneg). change (slice (Z.to_nat 0) (Z.to_nat 0) (q_mem p)) with (@nil Z).
    rewrite bind_done, SH. 
    destruct (bshr_any (swap_be_to_native64 e (native_val e ([] ++ skipn (length (@nil Z)) (native_bytes e 8 0)))) (64 - 8 * 2) ltac:(lia)) as [y2 ->].
    rewrite bind_done, Z.mul_0_r. change (Z.lor (u64 0) v) with v. rewrite bshl_ok by lia. rewrite bind_done.
    replace (64 - 8 * 2 - bits) with (64 - 2 * 8 - bits) by lia.
    rewrite be_lor; auto; try lia. rewrite !U8 by lia.
    replace (Z.to_nat (16 + acts_width acts)) with (16 + Z.to_nat (acts_width acts))%nat by lia.
    rewrite bits_of_app, Z2Nat.id by lia. cbn [kvals kval].
    rewrite <- (bits_of_mod 16 16) by lia. fold v. change (8 * 2)%nat with 16%nat. rewrite rdb_app by exact V.
    assert (BV : be_val pre * 2 ^ (8 * 2) + v = be_val (pre ++ be_bytes 2 v)).
    { rewrite be_val_app, be_val_be_bytes by exact V. unfold lenZ. rewrite be_bytes_length. reflexivity. }
    rewrite BV.
    assert (LB : lenZ (pre ++ be_bytes 2 v) = lenZ pre + 2) by (rewrite lenZ_app; unfold lenZ at 2; now rewrite be_bytes_length).
    assert (IS : is_bytes (pre ++ be_bytes 2 v)) by (apply is_bytes_app; split; auto; apply be_bytes_is_bytes).
    specialize (IH ml p base (pre ++ be_bytes 2 v) params (acts_width acts) (bits + 8 * 2) HS HA HE IS ltac:(lia) ltac:(lia) eq_refl ltac:(lia) HM ltac:(lia)).
    replace (bits + 2 * 8) with (bits + 8 * 2) by lia.
    destruct (kvals ml base acts _) as [bs r| |]; auto.
    destruct IH as (-> & B & L). rewrite app_assoc. split; [reflexivity|]. split; [apply is_bytes_app; split; auto; apply be_bytes_is_bytes|].
    rewrite app_length, be_bytes_length. lia.
  - (* two-byte index *)
    change (acts_width (I 2 :: acts)) with (8 + acts_width acts) in HO. change (acts_len (I 2 :: acts)) with (2 + acts_len acts)%nat in *.
    pose proof (acts_width_nonneg acts) as W0. subst opbits.
    destruct (bmask_ok 8 ltac:(auto)) as (y & -> & MK). rewrite bind_done, MK.
    rewrite bshr_ok by lia. rewrite bind_done.
    change (1 =? 0) with false. cbn [negb]. cbv iota.
    replace (8 + acts_width acts - 8) with (acts_width acts) by lia. rewrite oshr_ok by lia. rewrite land_ones_mod by lia.
    set (v := params / 2 ^ acts_width acts mod 2 ^ 8). assert (V : 0 <= v < 2 ^ 8) by (apply Z.mod_pos_bound; lia).
    replace (Z.to_nat (8 + acts_width acts)) with (8 + Z.to_nat (acts_width acts))%nat by lia.
    rewrite bits_of_app, Z2Nat.id by lia. cbn [kvals kval].
    rewrite <- (bits_of_mod 8 8) by lia. fold v. change (index_bits 2) with 8%nat. rewrite rdb_app by exact V.
    change (2048 - 1536 * bz (Z.shiftr 2 2 <? 1)) with (window 2).
    pose proof (bget_index_ok p base 2 v HS HA ltac:(auto) V) as GI. change (Z.of_nat 2) with 2 in GI. rewrite GI. clear GI. rewrite ptotal_base by exact HA.
    destruct (poff_spec (length base) 2 v ltac:(auto) V) as (P0 & _).
    set (off := poff (length base) 2 v) in *. change (Z.of_nat 2) with 2 in *. change (Z.max 4 2) with 4.
    destruct (Z.gtb_spec (off + 2) (lenZ base)) as [C|C].
    { cbn [bwith_err q_err]. reflexivity. }
    rewrite HE. change (0 =? 0) with true. cbn [negb]. cbv iota.
    destruct (Z.gtb_spec (off + 4) ml) as [G|G]; [lia|].
    pose proof (sk_load _ _ _ base (Z.to_nat off) 2 HS ltac:(unfold lenZ in *; lia)) as LD. cbn [o_mem] in LD. rewrite Z2Nat.id in LD by lia.
    change (Z.of_nat 2) with 2 in LD. rewrite Z.mul_1_r. change (2 * 1) with 2. rewrite LD, bind_done.
    set (bs0 := slice (Z.to_nat off) 2 base) in *.
    assert (L0 : length bs0 = 2%nat) by (apply slice_length; unfold lenZ in *; lia).
    assert (B0 : is_bytes bs0) by (apply is_bytes_slice, (sk_obytes _ _ _ _ HS)).
    pose proof (first_bytes bs0 v 2 B0 L0 ltac:(auto)) as FB. change (8 * Z.of_nat 2) with (8 * 2) in FB. rewrite SH. rewrite FB, bind_done. clear FB.
    pose proof (be_val_bound _ B0) as V0. unfold lenZ in V0. rewrite L0 in V0. change (8 * Z.of_nat 2) with 16 in V0.
    rewrite Z.mul_1_r, Z.lor_0_r. replace (u64 (be_val bs0)) with (be_val bs0) by (unfold u64; rewrite Z.mod_small; lia).
    rewrite bshl_ok by lia. rewrite bind_done. replace (64 - 8 * 2 - bits) with (64 - 2 * 8 - bits) by lia.
    rewrite be_lor; auto; try lia. rewrite !U8 by lia.
    assert (BV : be_val pre * 2 ^ (8 * 2) + be_val bs0 = be_val (pre ++ bs0)).
    { rewrite be_val_app. unfold lenZ. rewrite L0. reflexivity. }
    rewrite BV.
    assert (LB : lenZ (pre ++ bs0) = lenZ pre + 2) by (rewrite lenZ_app; unfold lenZ at 2; now rewrite L0).
    assert (IS : is_bytes (pre ++ bs0)) by (apply is_bytes_app; split; auto).
    specialize (IH ml p base (pre ++ bs0) params (acts_width acts) (bits + 8 * 2) HS HA HE IS ltac:(lia) ltac:(lia) eq_refl ltac:(lia) HM ltac:(lia)).
    replace (bits + 2 * 8) with (bits + 8 * 2) by lia.
    destruct (kvals ml base acts _) as [bs r| |]; auto.
    destruct IH as (-> & B & L). rewrite app_assoc. split; [reflexivity|]. split; [apply is_bytes_app; split; auto|].
    rewrite app_length. lia.
  - (* four-byte index *)
    change (acts_width (I 4 :: acts)) with (9 + acts_width acts) in HO. change (acts_len (I 4 :: acts)) with (4 + acts_len acts)%nat in *.
    pose proof (acts_width_nonneg acts) as W0. subst opbits.
    destruct (bmask_ok 9 ltac:(auto)) as (y & -> & MK). rewrite bind_done, MK.
    rewrite bshr_ok by lia. rewrite bind_done.
    change (1 =? 0) with false. cbn [negb]. cbv iota.
    replace (9 + acts_width acts - 9) with (acts_width acts) by lia. rewrite oshr_ok by lia. rewrite land_ones_mod by lia.
    set (v := params / 2 ^ acts_width acts mod 2 ^ 9). assert (V : 0 <= v < 2 ^ 9) by (apply Z.mod_pos_bound; lia).
    replace (Z.to_nat (9 + acts_width acts)) with (9 + Z.to_nat (acts_width acts))%nat by lia.
    rewrite bits_of_app, Z2Nat.id by lia. cbn [kvals kval].
    rewrite <- (bits_of_mod 9 9) by lia. fold v. change (index_bits 4) with 9%nat. rewrite rdb_app by exact V.
    change (2048 - 1536 * bz (Z.shiftr 4 2 <? 1)) with (window 4).
    pose proof (bget_index_ok p base 4 v HS HA ltac:(auto) V) as GI. change (Z.of_nat 4) with 4 in GI. rewrite GI. clear GI. rewrite ptotal_base by exact HA.
    destruct (poff_spec (length base) 4 v ltac:(auto) V) as (P0 & _).
    set (off := poff (length base) 4 v) in *. change (Z.of_nat 4) with 4 in *. change (Z.max 4 4) with 4.
    destruct (Z.gtb_spec (off + 4) (lenZ base)) as [C|C].
    { cbn [bwith_err q_err]. reflexivity. }
    rewrite HE. change (0 =? 0) with true. cbn [negb]. cbv iota.
    destruct (Z.gtb_spec (off + 4) ml) as [G|G]; [lia|].
    pose proof (sk_load _ _ _ base (Z.to_nat off) 4 HS ltac:(unfold lenZ in *; lia)) as LD. cbn [o_mem] in LD. rewrite Z2Nat.id in LD by lia.
    change (Z.of_nat 4) with 4 in LD. rewrite Z.mul_1_r. change (4 * 1) with 4. rewrite LD, bind_done.
    set (bs0 := slice (Z.to_nat off) 4 base) in *.
    assert (L0 : length bs0 = 4%nat) by (apply slice_length; unfold lenZ in *; lia).
    assert (B0 : is_bytes bs0) by (apply is_bytes_slice, (sk_obytes _ _ _ _ HS)).
    pose proof (first_bytes bs0 v 4 B0 L0 ltac:(auto)) as FB. change (8 * Z.of_nat 4) with (8 * 4) in FB. rewrite SH. rewrite FB, bind_done. clear FB.
    pose proof (be_val_bound _ B0) as V0. unfold lenZ in V0. rewrite L0 in V0. change (8 * Z.of_nat 4) with 32 in V0.
    rewrite Z.mul_1_r, Z.lor_0_r. replace (u64 (be_val bs0)) with (be_val bs0) by (unfold u64; rewrite Z.mod_small; lia).
    rewrite bshl_ok by lia. rewrite bind_done. replace (64 - 8 * 4 - bits) with (64 - 4 * 8 - bits) by lia.
    rewrite be_lor; auto; try lia. rewrite !U8 by lia.
    assert (BV : be_val pre * 2 ^ (8 * 4) + be_val bs0 = be_val (pre ++ bs0)).
    { rewrite be_val_app. unfold lenZ. rewrite L0. reflexivity. }
    rewrite BV.
    assert (LB : lenZ (pre ++ bs0) = lenZ pre + 4) by (rewrite lenZ_app; unfold lenZ at 2; now rewrite L0).
    assert (IS : is_bytes (pre ++ bs0)) by (apply is_bytes_app; split; auto).
    specialize (IH ml p base (pre ++ bs0) params (acts_width acts) (bits + 8 * 4) HS HA HE IS ltac:(lia) ltac:(lia) eq_refl ltac:(lia) HM ltac:(lia)).
    replace (bits + 4 * 8) with (bits + 8 * 4) by lia.
    destruct (kvals ml base acts _) as [bs r| |]; auto.
    destruct IH as (-> & B & L). rewrite app_assoc. split; [reflexivity|]. split; [apply is_bytes_app; split; auto|].
    rewrite app_length. lia.
Qed.

(** One iteration. *)
Lemma bdecomp_step_ok p out bits : rdo inp p bits -> sko cap m0 p out -> q_err p = 0 -> al8 out ->
  let '(fin, q) := qd_step cap out bits in qagrees inp m0 cap fin q (bdecomp_step over e inp cap p).
Proof.
  intros Hr Hs H0 HA. unfold bdecomp_step, qd_step.
  assert (NEG : - EINVAL < 0 /\ - ENOSPC < 0) by (unfold EINVAL, ENOSPC; lia). destruct NEG as (NI & NN).
  assert (NE0 : negb (- EINVAL =? 0) = true) by reflexivity.
  pose proof (read_bits_ok e inp Hinp p bits OP_BITS Hr ltac:(unfold OP_BITS; lia)) as RB. change (Z.to_nat OP_BITS) with 5%nat in RB.
  destruct (rdb 5 bits) as [[op b1]|] eqn:R.
  2: { destruct RB as (v & p1 & -> & E1 & M1 & P1). rewrite bind_done, E1, H0. change (0 =? 0) with true. cbv iota. rewrite NE0.
       split; auto. exists p1, out. split; [reflexivity|]. unfold sko. rewrite M1, P1. exact Hs. }
  destruct RB as (p1 & -> & Hr1 & V & E1 & M1 & P1). rewrite bind_done. rewrite H0 in E1. rewrite E1.
  change (negb (0 =? 0)) with false. cbv iota. change (2 ^ OP_BITS) with 32 in V.
  assert (Hs1 : sko cap m0 p1 out) by (unfold sko; rewrite M1, P1; exact Hs).
  pose proof (sk_pos _ _ _ _ Hs1) as PO. cbn [o_pos] in PO. rewrite PO.
  change (OPS_MAX - 1) with 0x19. change OPS_MAX with 26. change OP_ZEROS with 0x1c. change OP_REPEAT with 0x1b. change OP_END with 0x1e.
  destruct (((op <? 26) || (op =? 28)) && (lenZ out + 8 >? cap)) eqn:CC.
  { split; auto. eauto. }
  assert (FIT : op < 26 \/ op = 28 -> lenZ out + 8 <= cap).
  { intros H. assert (O : (op <? 26) || (op =? 28) = true).
    { destruct H as [H|H]; [destruct (Z.ltb_spec op 26); [reflexivity|lia]|subst; reflexivity]. }
    rewrite O in CC. cbn [andb] in CC. rewrite Z.gtb_ltb in CC. apply Z.ltb_ge in CC. lia. }
  destruct (Z.eqb_spec op 0x1b) as [->|N1].
  { change (template 0x1b) with (@None (list action)). cbv iota.
    pose proof (read_bits_ok e inp Hinp p1 b1 REPEAT_BITS Hr1 ltac:(unfold REPEAT_BITS; lia)) as RB. change (Z.to_nat REPEAT_BITS) with 6%nat in RB.
    destruct (rdb 6 b1) as [[rep b2]|] eqn:R2.
    2: { destruct RB as (v & p2 & -> & E2 & M2 & P2). rewrite bind_done. rewrite E1 in E2. change (0 =? 0) with true in E2. cbv iota in E2. rewrite E2, NE0, bind_done.
         split; auto. exists p2, out. split; [reflexivity|]. unfold sko. rewrite M2, P2. exact Hs1. }
    destruct RB as (p2 & -> & Hr2 & V2 & E2 & M2 & P2). rewrite bind_done. rewrite E1 in E2. rewrite E2. change (negb (0 =? 0)) with false. cbv iota.
    change (2 ^ REPEAT_BITS) with 64 in V2.
    assert (Hs2 : sko cap m0 p2 out) by (unfold sko; rewrite M2, P2; exact Hs1). rewrite P2, PO.
    destruct (Z.eqb_spec (lenZ out) 0) as [Z0|Z0]; destruct (Nat.eqb_spec (length out) 0) as [Z1|Z1]; try (unfold lenZ in Z0; lia).
    { rewrite bind_done. split; auto. eauto. }
    cbv zeta. rewrite Z.gtb_ltb. destruct (Z.ltb_spec cap (lenZ out + (rep + 1) * 8)) as [C|C].
    { rewrite bind_done. split; auto. eauto. }
    pose proof (al8_ge8 _ HA Z1) as G8.
    destruct (orepeat_copy_ok m0 cap (Z.to_nat (rep + 1)) p2 out Hs2 G8 ltac:(lia)) as (p3 & -> & S3 & A1 & A2 & A3 & A4).
    rewrite !bind_done, A4, E2. change (negb (0 =? 0)) with false. cbv iota. cbn [qagrees].
    exists p3. split; [reflexivity|]. split; [eapply rdo_same; eauto|]. split; [auto|congruence]. }
  destruct (Z.eqb_spec op 0x1c) as [->|N2].
  { change (template 0x1c) with (@None (list action)). cbv iota.
    destruct (sko_store m0 cap p1 out (List.repeat 0 8) Hs1) as (m & ES & S).
    { apply is_bytes_repeat. unfold is_byte; lia. } { change (lenZ (List.repeat 0 8)) with 8. apply FIT. auto. }
    change (lenZ (List.repeat 0 8)) with 8 in S. rewrite <- PO, ES, !bind_done. cbn [q_err]. change (negb (0 =? 0)) with false. cbv iota.
    cbn [qagrees]. eexists. split; [reflexivity|]. split; [eapply rdo_same; [| | |exact Hr1]; reflexivity|]. split; [apply S|reflexivity]. }
  destruct (Z.eqb_spec op 0x1e) as [->|N3].
  { change (template 0x1e) with (@None (list action)). cbv iota.
    rewrite bind_done, E1. change (negb (0 =? 0)) with false. cbv iota. cbn [qagrees]. eauto. }
  destruct (Z.eqb_spec op 0x19) as [->|N4].
  { (* eight-byte index *)
    specialize (FIT ltac:(lia)).
    change (template 0x19) with (Some [I 8]). cbv iota. cbn [pd_acts pd_act]. unfold pd_index. change (index_bits 8) with 8%nat.
    pose proof (read_bits_ok e inp Hinp p1 b1 8 Hr1 ltac:(lia)) as RB. change (Z.to_nat 8) with 8%nat in RB.
    destruct (rdb 8 b1) as [[i b2]|] eqn:R2.
    2: { destruct RB as (v & p2 & -> & E2 & M2 & P2). rewrite bind_done. rewrite E1 in E2. change (0 =? 0) with true in E2. cbv iota in E2. rewrite E2, NE0, bind_done.
         split; auto. exists p2, out. split; [reflexivity|]. unfold sko. rewrite M2, P2. exact Hs1. }
    destruct RB as (p2 & -> & Hr2 & V2 & E2 & M2 & P2). rewrite bind_done. rewrite E1 in E2. rewrite E2. change (negb (0 =? 0)) with false. cbv iota.
    assert (Hs2 : sko cap m0 p2 out) by (unfold sko; rewrite M2, P2; exact Hs1).
    pose proof (bget_index_ok p2 out 8 i Hs2 HA ltac:(auto) V2) as GI. change (Z.of_nat 8) with 8 in GI. change (window 8) with I8_FIFO_SIZE in GI.
    rewrite GI. clear GI. rewrite (ptotal_base out HA). change (Z.of_nat 8) with 8. cbv zeta.
    destruct (poff_spec (length out) 8 i ltac:(auto) V2) as (P0 & _).
    set (off := poff (length out) 8 i) in *.
    destruct (Z.gtb_spec (off + 8) (lenZ out)) as [C|C].
    { cbn [bwith_err q_err]. rewrite NE0, bind_done. split; auto. exists (bwith_err p2 (- EINVAL)), out. split; [reflexivity|]. exact Hs2. }
    destruct (Z.gtb_spec (lenZ out + 8) cap) as [C2|C2]; [lia|].
    rewrite E2. change (negb (0 =? 0)) with false. cbv iota.
    pose proof (sk_load _ _ _ out (Z.to_nat off) 8 Hs2 ltac:(unfold lenZ in *; lia)) as LD. cbn [o_mem] in LD. rewrite Z2Nat.id in LD by lia.
    change (Z.of_nat 8) with 8 in LD. rewrite LD, !bind_done.
    set (bs := slice (Z.to_nat off) 8 out) in *.
    assert (L8 : lenZ bs = 8) by (unfold lenZ, bs; rewrite slice_length; unfold lenZ in *; lia).
    assert (B8 : is_bytes bs) by (apply is_bytes_slice, (sk_obytes _ _ _ _ Hs2)).
    destruct (sko_store m0 cap p2 out bs Hs2 B8 ltac:(lia)) as (m & ES & S). rewrite L8 in S.
    rewrite ES, !bind_done. cbn [q_err]. change (negb (0 =? 0)) with false. cbv iota. cbn [qagrees].
    eexists. split; [reflexivity|]. split; [eapply rdo_same; [| | |exact Hr2]; reflexivity|]. split; [apply S|reflexivity]. }
  unfold bdo_op. change OPS_MAX with 26.
  destruct (Z.geb_spec op 26) as [G26|L26].
  { rewrite !bind_done. cbn [bwith_err q_err]. rewrite NE0, bind_done.
    assert (T : template op = None).
    { assert (op = 26 \/ op = 29 \/ op = 31) as [-> | [-> | ->]] by lia; reflexivity. }
    rewrite T. destruct (Z.eqb_spec op 0x1b); [lia|]. destruct (Z.eqb_spec op 0x1c); [lia|]. destruct (Z.eqb_spec op 0x1e); [lia|].
    split; auto. exists (bwith_err p1 (- EINVAL)), out. split; [reflexivity|]. exact Hs1. }
  specialize (FIT ltac:(lia)).
  destruct (bop_ok op ltac:(lia)) as (acts & T & OB & FM & F0 & W & NW & NL). rewrite T, OB.
  destruct (template_sizes _ _ T) as (TS & TL & _).
  pose proof (read_bits_ok e inp Hinp p1 b1 (acts_width acts) Hr1 W) as RB.
  destruct (rdb (Z.to_nat (acts_width acts)) b1) as [[params b2]|] eqn:R2.
  2: { destruct RB as (v & p2 & -> & E2 & M2 & P2). rewrite !bind_done. rewrite E1 in E2. change (0 =? 0) with true in E2. cbv iota in E2.
       rewrite E2, NE0, !bind_done, E2, NE0, bind_done.
       assert (PF : forall o b, pd_acts cap acts out b1 <> POk o b).
       { intros o b PE. destruct (pd_acts_sound cap acts TS _ _ _ _ PE) as (S1 & _).
         apply acts_width_len in S1. unfold rdb in R2. destruct (Nat.leb_spec (Z.to_nat (acts_width acts)) (length b1)); [discriminate|].
         pose proof (lenZ_nonneg b). unfold lenZ in *. lia. }
       assert (Hs2 : sko cap m0 p2 out) by (unfold sko; rewrite M2, P2; exact Hs1).
       destruct (pd_acts cap acts out b1) as [o b|c|]; [exfalso; eapply PF; eauto| |]; (split; [auto|]; eauto). }
  destruct RB as (p2 & -> & Hr2 & V2 & E2 & M2 & P2). rewrite !bind_done. rewrite E1 in E2. rewrite E2. change (negb (0 =? 0)) with false. cbv iota.
  assert (Hs2 : sko cap m0 p2 out) by (unfold sko; rewrite M2, P2; exact Hs1).
  pose proof (bfields_ok _ _ FM (lenZ out + 2) p2 out [] params (acts_width acts) 0 Hs2 HA E2 ltac:(constructor) eq_refl
    ltac:(rewrite NL; reflexivity) ltac:(congruence) ltac:(lia) ltac:(lia)) as KF.
  assert (HF : 0 = 0 -> forall r, map (bfield op) [0; 1; 2; 3] <> (0, 0, 0) :: r).
  { intros _ r E. apply F0. cbn [map] in E. pose proof (f_equal (fun l => hd (1, 1, 1) l) E) as E0. cbn [hd] in E0. now rewrite E0. }
  specialize (KF HF). rewrite (kvals_norm _ _ _ TS) in KF. change (be_val [] * 2 ^ (64 - 0)) with 0 in KF. cbn [app] in KF.
  pose proof (rdb_some _ _ _ _ R2) as [EB _].
  pose proof (kvals_pd (lenZ out + 2) cap out acts HA TS FIT [] b1 ltac:(cbn; lia)) as K. rewrite app_nil_r in K.
  pose proof (kvals_more (lenZ out + 2) out acts (bits_of (Z.to_nat (acts_width acts)) params) b2) as M. rewrite <- EB in M.
  assert (LB : lenZ (bits_of (Z.to_nat (acts_width acts)) params) = acts_width acts).
  { unfold lenZ. rewrite bits_of_length. lia. }
  rewrite M in K by lia.
  destruct (kvals (lenZ out + 2) out acts (bits_of _ params)) as [bs r| |] eqn:KV.
  - apply kvals_width in KV. destruct r; [|exfalso; rewrite lenZ_cons in KV; pose proof (lenZ_nonneg r); lia].
    destruct K as [-> _]. rewrite app_nil_l. destruct KF as (-> & BB & LBS). rewrite !bind_done. rewrite P2, PO.
    destruct (Z.gtb_spec (lenZ out + 8) cap) as [C|C]; [lia|].
    assert (L8 : length bs = 8%nat) by lia. assert (L8z : lenZ bs = 8) by (unfold lenZ; lia).
    destruct (sko_store m0 cap p2 out bs Hs2 BB ltac:(lia)) as (m & ES & S). rewrite L8z in S. rewrite P2, PO in *.
    unfold store64. rewrite native_swap64. rewrite <- L8 at 1. rewrite be_bytes_be_val by auto. rewrite ES, !bind_done. cbn [q_err]. rewrite E2.
    change (negb (0 =? 0)) with false. cbv iota. rewrite bind_done. cbn [q_err]. change (negb (0 =? 0)) with false. cbv iota. cbn [qagrees app].
    eexists. split; [reflexivity|]. split; [eapply rdo_same; [| | |exact Hr2]; reflexivity|]. split; [apply S|reflexivity].
  - destruct K as [c ->]. rewrite KF, !bind_done. cbn [bwith_err q_err]. rewrite NE0, bind_done. split; auto.
    exists (bwith_err p2 (- EINVAL)), out. split; [reflexivity|]. exact Hs2.
  - contradiction.
Qed.

Lemma bdecomp_loop_ok f : forall p out bits, rdo inp p bits -> sko cap m0 p out -> q_err p = 0 -> al8 out ->
  match qd_loop f cap out bits with
  | Some (POk x rest) => exists p', bdecomp_loop over e f inp cap p = Done (0, p') /\ rdo inp p' rest /\ sko cap m0 p' x /\ q_err p' = 0
  | Some (PErr c) => c < 0 /\ exists p' out', bdecomp_loop over e f inp cap p = Done (c, p') /\ sko cap m0 p' out'
  | Some PUndef => False
  | None => bdecomp_loop over e f inp cap p = NoFuel
  end.
Proof.
  induction f as [|f IH]; intros p out bits Hr Hs H0 HA; cbn [qd_loop bdecomp_loop]; auto.
  pose proof (bdecomp_step_ok p out bits Hr Hs H0 HA) as A.
  destruct (qd_step cap out bits) as [fin [o1 b1|c|]] eqn:Q; cbn [qagrees] in A.
  - destruct A as (p' & -> & Hr' & Hs' & E'). rewrite bind_done. destruct fin; [eauto|].
    apply IH; auto. eapply qd_step_sound; eauto.
  - destruct A as (C & p' & out' & -> & S'). rewrite bind_done. destruct fin; split; eauto.
  - contradiction.
Qed.
End Dec.

Theorem bf_pure over e iaddr oaddr inp out olen : (forall x, exists y, over x = Done y) ->
  is_bytes inp -> is_bytes out -> 0 <= olen <= lenZ out -> olen < 2 ^ 63 -> iaddr mod 8 = 0 -> oaddr mod 8 = 0 ->
  match qrun inp olen with
  | None | Some PUndef => False
  | Some (PErr c) => (c = - EINVAL \/ c = - ENOSPC) /\ exists m, optsw842_decompress_bf over e iaddr oaddr inp out olen = Done (c, 0, m) /\ kept olen out m
  | Some (POk x rest) =>
    exists m, m = x ++ skipn (length x) out /\ is_bytes x /\ lenZ x <= olen /\
    optsw842_decompress_bf over e iaddr oaddr inp out olen =
      match rdb 32 rest with
      | None => Done (- EINVAL, 0, m)
      | Some (crc, _) => if negb (crc =? crc32 x) then Done (- EINVAL, 0, m) else Done (0, lenZ x, m)
      end
  end.
Proof.
  intros Hov Hinp Hout Hcap H63 HI HO. unfold optsw842_decompress_bf, qrun. rewrite HI, HO. change (negb (0 =? 0)) with false. cbn [orb]. cbv iota.
  assert (S0 : sko olen out (mkP 0 0 0 0 out 0) []).
  { unfold sko. cbn [q_mem q_pos]. rewrite Z.sub_0_r. now apply sk_init. }
  pose proof (bdecomp_loop_ok over Hov e inp out olen Hinp H63 (S (Z.to_nat (8 * lenZ inp))) (mkP 0 0 0 0 out 0) []
    (bytes_bits (whole inp)) (rdo_init inp out) S0 eq_refl eq_refl) as L.
  assert (FU : (length (bytes_bits (whole inp)) < S (Z.to_nat (8 * lenZ inp)))%nat).
  { rewrite bytes_bits_length, whole_length. pose proof (Nat.mul_div_le (length inp) 8 ltac:(lia)). unfold lenZ. lia. }
  pose proof (qd_loop_fuel _ olen [] (bytes_bits (whole inp)) eq_refl FU) as NF.
  destruct (qd_loop (S (Z.to_nat (8 * lenZ inp))) olen [] (bytes_bits (whole inp))) as [[x rest|c|]|] eqn:Q; [| | |congruence].
  - destruct L as (p & -> & Hr & Hs & E0). rewrite bind_done. change (negb (0 =? 0)) with false. cbv iota.
    exists (q_mem p). split; [apply (sk_mem _ _ _ _ Hs)|]. split; [apply (sk_obytes _ _ _ _ Hs)|]. split; [apply (sk_fit _ _ _ _ Hs)|].
    pose proof (read_bits_ok e inp Hinp p rest CRC_BITS Hr ltac:(unfold CRC_BITS; lia)) as RB. change (Z.to_nat CRC_BITS) with 32%nat in RB.
    destruct (rdb 32 rest) as [[crc b]|].
    + destruct RB as (p1 & -> & _ & _ & E1 & M1 & P1). rewrite bind_done, E1, E0. change (negb (0 =? 0)) with false. cbv iota.
      pose proof (sk_pos _ _ _ _ Hs) as PO. pose proof (sk_fit _ _ _ _ Hs) as FT. cbn [o_pos] in PO.
      pose proof (sk_mlen _ _ _ _ Hs) as ML. pose proof (sk_bytes _ _ _ _ Hs) as BS. pose proof (sk_out _ _ _ _ Hs) as OU. cbn [o_mem] in ML, BS, OU.
      rewrite M1, P1, PO. rewrite crc32_be_spec; auto. 2: { pose proof (lenZ_nonneg x). unfold lenZ in *. lia. }
      rewrite bind_done. unfold lenZ at 1. rewrite Nat2Z.id, OU. reflexivity.
    + destruct RB as (v & p1 & -> & E1 & M1 & P1). rewrite bind_done, E1, E0, M1. reflexivity.
  - destruct L as (C & p & out' & -> & Hs). rewrite bind_done. destruct (Z.eqb_spec c 0); [lia|]. cbn [negb].
    apply qd_loop_good in Q. split; auto. eexists. split; [reflexivity|]. apply sk_kept in Hs. exact Hs.
  - exact L.
Qed.

(** Same observable result as the default build. *)
Theorem bf_same over e iaddr oaddr inp out olen : (forall x, exists y, over x = Done y) ->
  is_bytes inp -> is_bytes out -> 0 <= olen <= lenZ out -> olen < 2 ^ 63 ->
  observed (optsw842_decompress_bf over e iaddr oaddr inp out olen) = observed (optsw842_decompress e iaddr oaddr inp out olen).
Proof.
  intros Hov Hi Ho Hc H63.
  destruct (Z.eq_dec (iaddr mod 8) 0) as [HI|HI]; [destruct (Z.eq_dec (oaddr mod 8) 0) as [HO|HO]|].
  - pose proof (bf_pure over e iaddr oaddr inp out olen Hov Hi Ho Hc H63 HI HO) as A.
    pose proof (optsw842_decompress_pure e iaddr oaddr inp out olen Hi Ho Hc H63 HI HO) as B.
    destruct (qrun inp olen) as [[x rest|c|]|]; try contradiction.
    + destruct A as (m & -> & _ & _ & ->). destruct B as (m & -> & _ & _ & ->). reflexivity.
    + destruct A as (_ & m & -> & _). destruct B as (_ & m' & -> & _). reflexivity.
  - unfold optsw842_decompress_bf, optsw842_decompress. destruct (Z.eqb_spec (oaddr mod 8) 0); [contradiction|].
    rewrite orb_true_r. reflexivity.
  - unfold optsw842_decompress_bf, optsw842_decompress. destruct (Z.eqb_spec (iaddr mod 8) 0); [contradiction|]. reflexivity.
Qed.
Lemma bf_kept over e iaddr oaddr inp out olen : (forall x, exists y, over x = Done y) ->
  is_bytes inp -> is_bytes out -> 0 <= olen <= lenZ out -> olen < 2 ^ 63 -> iaddr mod 8 = 0 -> oaddr mod 8 = 0 ->
  exists ret n m, optsw842_decompress_bf over e iaddr oaddr inp out olen = Done (ret, n, m) /\ kept olen out m.
Proof.
  intros Hov Hi Ho Hc H63 HI HO. pose proof (bf_pure over e iaddr oaddr inp out olen Hov Hi Ho Hc H63 HI HO) as A.
  destruct (qrun inp olen) as [[x rest|c|]|]; try contradiction.
  - destruct A as (m & -> & B & L & ->). 
    assert (K : kept olen out (x ++ skipn (length x) out)) by (exists x; auto).
    destruct (rdb 32 rest) as [[crc r]|]; [destruct (negb _)|]; eauto 6.
  - destruct A as (_ & m & -> & K). eauto.
Qed.
