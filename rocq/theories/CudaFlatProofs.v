(** The CUDA kernel without LIB842_CUDA_STRICT decodes every well-formed stream of its own format that fits. *)
From Coq Require Import ZArith List Bool Lia Permutation.
From Verif Require Import SpecBits SpecCrc Spec842 CBase BitsLemmas CrcProofs
  SerialCompModel SerialDecompModel SerialIdeal SerialValid PureDecoder SerialDecomp SerialFacts
  OptCompModel OptDecompModel OptWriter OptDecomp OclModel OclPure OclProofs OclItems SpecOcl SerialProps OptProps CudaModel CudaProofs CudaFlatModel SpecCudaFlat SpecCalls SpecOptConfig OptConfigModel OptConfigProofs.
Import ListNotations.
Open Scope Z_scope.

Section Dec.
Variable lg : nat.
Hypothesis Hlg : (4 <= lg <= 60)%nat.
Variables (inp : list Z) (m0 : list Z).
Hypothesis Hinp : is_bytes inp.
Hypothesis Hcap : lenZ m0 < 2 ^ 63.
Notation skc := (skc m0).

Definition fentry (a : action) : Z * Z :=
  match a with D n => (Z.of_nat (8 * n), Z.of_nat n) | I n => (Z.lor (Z.of_nat (flat_bits lg n)) 128, Z.of_nat n) end.
Lemma fentry_bits w : (w = 2 \/ w = 4 \/ w = 8)%nat -> Z.land (Z.lor (Z.of_nat (flat_bits lg w)) 128) 127 = Z.of_nat (flat_bits lg w) /\
  Z.shiftr (Z.lor (Z.of_nat (flat_bits lg w)) 128) 7 = 1 /\ 1 <= Z.of_nat (flat_bits lg w) <= 64.
Proof.
  intros Hw. assert (B : 1 <= Z.of_nat (flat_bits lg w) < 60) by (destruct Hw as [-> | [-> | ->]]; cbn [flat_bits]; lia).
  set (b := Z.of_nat (flat_bits lg w)) in *. split; [|split; [|lia]].
  - change 127 with (Z.ones 7). rewrite Z.land_lor_distr_l, !Z.land_ones by lia. change (128 mod 2 ^ 7) with 0. rewrite Z.lor_0_r. apply Z.mod_small. lia.
  - rewrite Z.shiftr_lor, !Z.shiftr_div_pow2 by lia. change (128 / 2 ^ 7) with 1. rewrite Z.div_small by lia. reflexivity.
Qed.
Lemma flat_inv_D out n acts bs out' rest : flat_args lg out (D n :: acts) bs out' rest ->
  exists d bs', bs = bytes_bits d ++ bs' /\ length d = n /\ is_bytes d /\ flat_args lg (out ++ d) acts bs' out' rest.
Proof. inversion 1; subst. eauto 10. Qed.
Lemma flat_inv_I out n acts bs out' rest : flat_args lg out (I n :: acts) bs out' rest ->
  exists i bs', bs = bits_of (flat_bits lg n) (Z.of_nat i) ++ bs' /\ (i < 2 ^ flat_bits lg n)%nat /\ (i * n + n <= 8 * (length out / 8))%nat /\
    flat_args lg (out ++ slice (i * n) n out) acts bs' out' rest.
Proof. inversion 1; subst. eauto 10. Qed.
Lemma flat_inv_nil out bs out' rest : flat_args lg out [] bs out' rest -> out' = out /\ rest = bs.
Proof. inversion 1; auto. Qed.

(** One field: [d] are the bytes it stands for. *)
Lemma ffield_next base acts n k pre d : is_bytes pre -> is_bytes d -> (length pre + (length d + acts_len acts) = 8)%nat ->
  ffields inp (map fentry acts ++ List.repeat (0, 0) n) k
    (Z.lor (be_val pre * 2 ^ (64 - 8 * lenZ pre)) (gshl (be_val d) (64 - lenZ d * 8 - 8 * lenZ pre))) (8 * lenZ pre + lenZ d * 8) =
  ffields inp (map fentry acts ++ List.repeat (0, 0) n) k (be_val (pre ++ d) * 2 ^ (64 - 8 * lenZ (pre ++ d))) (8 * lenZ (pre ++ d)) /\
  base ++ pre ++ d = (base ++ pre) ++ d.
Proof.
  intros HP HD HL. split; [|now rewrite app_assoc].
  pose proof (be_val_bound d HD) as BD.
  rewrite cbe_lor; auto; try (unfold lenZ; lia).
  rewrite be_val_app, lenZ_app.
  assert (PW : 256 ^ lenZ d = 2 ^ (8 * lenZ d)).
  { change 256 with (2 ^ 8). rewrite <- Z.pow_mul_r by (unfold lenZ; lia). reflexivity. }
  rewrite PW. replace (8 * lenZ pre + lenZ d * 8) with (8 * (lenZ pre + lenZ d)) by lia. reflexivity.
Qed.

Lemma ffields_ok base acts : forall n k pre bs out1 bs1,
  Forall (fun a => act_size_ok a = true) acts ->
  flat_args lg (base ++ pre) acts bs out1 bs1 -> skc k base -> rdc inp k bs -> is_bytes pre -> (length pre + acts_len acts = 8)%nat ->
  exists pre' k', out1 = base ++ pre' /\ length pre' = 8%nat /\ is_bytes pre' /\
    ffields inp (map fentry acts ++ List.repeat (0, 0) n) k (be_val pre * 2 ^ (64 - 8 * lenZ pre)) (8 * lenZ pre) = Done (be_val pre', k') /\
    rdc inp k' bs1 /\ c_mem k' = c_mem k /\ c_out k' = c_out k.
Proof.
  induction acts as [|[w|w] acts IH]; intros n k pre bs out1 bs1 F HA HS HR HP HL.
  - apply flat_inv_nil in HA. destruct HA as [-> ->].
    cbn [acts_len fold_right] in HL. assert (LP : lenZ pre = 8) by (unfold lenZ; lia).
    rewrite LP. change (2 ^ (64 - 8 * 8)) with 1. rewrite Z.mul_1_r. change (8 * 8) with 64. cbn [map app].
    exists pre. revert k HS HR. induction n; intros k HS HR; cbn [List.repeat ffields].
    + exists k. split; [auto|]. split; [lia|]. auto.
    + change (Z.land 0 127) with 0. destruct (cread_zero inp k _ HR) as (k' & E & R' & M' & O'). rewrite E, bind_done.
      change (Z.shiftr 0 7 =? 1) with false. cbv iota. rewrite bind_done.
      change (gshl 0 (64 - 0 * 8 - 64)) with 0. rewrite Z.lor_0_r. change (64 + 0 * 8) with 64.
      destruct (IHn k' (skc_same m0 k k' _ M' O' HS) R') as (k2 & E1 & E2 & E3 & E4 & E5 & E6 & E7).
      exists k2. rewrite E6, E7, M', O'. auto 10.
  - (* literal *)
    inversion F as [|? ? Fa F']; subst. apply size_cases in Fa. cbn [act_len] in Fa.
    change (acts_len (D w :: acts)) with (w + acts_len acts)%nat in HL.
    apply flat_inv_D in HA. destruct HA as (d & bs' & -> & LD & BD & HA).
    cbn [map app ffields fentry].
    assert (LW : Z.land (Z.of_nat (8 * w)) 127 = Z.of_nat (8 * w) /\ Z.shiftr (Z.of_nat (8 * w)) 7 = 0) by (destruct Fa as [-> | [-> | ->]]; split; reflexivity).
    destruct LW as [-> ->]. change (0 =? 1) with false. cbv iota.
    destruct (bytes_as_bits d BD) as [EB VB]. rewrite LD in EB, VB. rewrite EB in HR.
    destruct (cread_bits_ok inp m0 Hinp k _ (Z.of_nat (8 * w)) (be_val d) bs' HR ltac:(lia)) as (k1 & -> & R1 & _ & M1 & O1).
    { rewrite Nat2Z.id. now apply rdb_app. }
    rewrite !bind_done. assert (WD : Z.of_nat w = lenZ d) by (unfold lenZ; lia). rewrite WD.
    destruct (ffield_next base acts n k1 pre d HP BD ltac:(lia)) as [-> BA]. rewrite <- BA in HA.
    destruct (IH n k1 (pre ++ d) bs' out1 bs1 F' HA (skc_same m0 _ _ _ M1 O1 HS) R1) as (pre' & k2 & E1 & E2 & E3 & E4 & E5 & E6 & E7).
    { apply is_bytes_app. auto. } { rewrite app_length. lia. }
    exists pre', k2. rewrite E6, E7, M1, O1. auto 10.
  - (* index *)
    inversion F as [|? ? Fa F']; subst. apply size_cases in Fa. cbn [act_len] in Fa.
    change (acts_len (I w :: acts)) with (w + acts_len acts)%nat in HL.
    apply flat_inv_I in HA. destruct HA as (i & bs' & -> & VI & RF & HA).
    cbn [map app ffields fentry]. set (p := (i * w)%nat) in *.
    destruct (fentry_bits w Fa) as (-> & -> & IB). change (1 =? 1) with true. cbv iota.
    assert (VZ : 0 <= Z.of_nat i < 2 ^ Z.of_nat (flat_bits lg w)).
    { split; [lia|]. apply inj_lt in VI. rewrite Nat2Z.inj_pow in VI. exact VI. }
    destruct (cread_bits_ok inp m0 Hinp k _ (Z.of_nat (flat_bits lg w)) (Z.of_nat i) bs' HR IB) as (k1 & -> & R1 & _ & M1 & O1).
    { rewrite Nat2Z.id. now apply rdb_app. }
    rewrite bind_done. assert (S1 : skc k1 base) by (eapply skc_same; eauto).
    assert (AB : al8 base) by apply HS.
    assert (PL : (p + w <= length base)%nat).
    { unfold al8 in AB. rewrite app_length in RF. pose proof (Nat.div_mod (length base) 8 ltac:(lia)) as DM. rewrite AB in DM.
      replace (length base + length pre)%nat with (length pre + length base / 8 * 8)%nat in RF by lia.
      rewrite Nat.div_add, Nat.div_small in RF by lia. lia. }
    assert (FT : lenZ base <= lenZ m0) by (destruct HS as [S _]; pose proof (sk_fit _ _ _ _ S); lia).
    assert (PU : u64 (Z.of_nat i * Z.of_nat w) = Z.of_nat p).
    { unfold p. rewrite Nat2Z.inj_mul. unfold u64. apply Z.mod_small. rewrite <- Nat2Z.inj_mul. fold p. unfold lenZ in *. lia. }
    rewrite PU.
    rewrite (cload_ok m0 k1 base p w S1 Fa PL), bind_done.
    set (d := slice p w base) in *.
    assert (ED : slice p w (base ++ pre) = d).
    { unfold d, slice. rewrite skipn_app, firstn_app. rewrite skipn_length.
      replace (w - (length base - p))%nat with 0%nat by lia. cbn [firstn]. now rewrite app_nil_r. }
    rewrite ED in HA. 
    assert (LD : length d = w) by now apply slice_length.
    assert (BD : is_bytes d) by (apply is_bytes_slice; destruct HS as [S _]; apply (sk_obytes _ _ _ _ S)).
    assert (WD : Z.of_nat w = lenZ d) by (unfold lenZ; lia). rewrite WD.
    destruct (ffield_next base acts n k1 pre d HP BD ltac:(lia)) as [-> BA]. rewrite <- BA in HA.
    destruct (IH n k1 (pre ++ d) bs' out1 bs1 F' HA S1 R1) as (pre' & k2 & E1 & E2 & E3 & E4 & E5 & E6 & E7).
    { apply is_bytes_app. auto. } { rewrite app_length. lia. }
    exists pre', k2. rewrite E6, E7, M1, O1. auto 10.
Qed.

(** * The loop *)
Lemma ftable op acts : template op = Some acts -> nth_error (flat_templates (Z.of_nat lg)) (Z.to_nat op) = Some (map fentry acts ++ List.repeat (0, 0) (4 - length acts)).
Proof.
  intros T. destruct (template_sizes _ _ T) as (_ & _ & R).
  assert (E2 : fentry (I 2) = fI2 (Z.of_nat lg)) by (unfold fentry, fI2; cbn [flat_bits]; do 2 f_equal; lia).
  assert (E4 : fentry (I 4) = fI4 (Z.of_nat lg)) by (unfold fentry, fI4; cbn [flat_bits]; do 2 f_equal; lia).
  assert (E8 : fentry (I 8) = fI8 (Z.of_nat lg)) by (unfold fentry, fI8; cbn [flat_bits]; do 2 f_equal; lia).
  assert (C : forall k, In k (seq 0 26) -> template (Z.of_nat k) = Some acts ->
    nth_error (flat_templates (Z.of_nat lg)) k = Some (map fentry acts ++ List.repeat (0, 0) (4 - length acts))).
  { clear T R. intros k HK T. cbn [seq In] in HK. decompose [or] HK; try contradiction; subst k; cbn in T; injection T as <-;
      cbn [map length Nat.sub List.repeat app]; rewrite ?E2, ?E4, ?E8; reflexivity. }
  apply C; [apply in_seq; lia|]. now rewrite Z2Nat.id by lia.
Qed.
Lemma flat_args_grows o acts b o' b' : flat_args lg o acts b o' b' -> (length o <= length o' /\ length b' <= length b)%nat.
Proof. induction 1; auto; rewrite !app_length in *; lia. Qed.
Lemma flat_grows o b o' b' : flat_stream lg o b o' b' -> (length o <= length o')%nat.
Proof. induction 1; auto. apply flat_args_grows in H1. lia. Qed.

Lemma floop_ok out bits x rest : flat_stream lg out bits x rest -> forall k f, skc k out -> rdc inp k bits ->
  lenZ x <= lenZ m0 -> (length bits < f)%nat -> exists k', floop (Z.of_nat lg) f inp k = Done k' /\ skc k' x.
Proof.
  induction 1 as [out rest|out op acts bs out1 bs1 out' rest Hop T HA HT IH];
    intros k f HS HR Hx Hf; (destruct f as [|f]; [lia|]); cbn [floop]; rewrite app_length, bits_of_length in Hf; unfold fstep.
  - destruct (cread_bits_ok inp m0 Hinp k _ OP_BITS 30 rest HR ltac:(unfold OP_BITS; lia)) as (k1 & -> & R1 & _ & M1 & O1).
    { apply (rdb_app 5 30). cbn; lia. }
    rewrite !bind_done. change (30 =? OP_END) with true. cbv iota. rewrite bind_done.
    exists k1. split; auto. eapply skc_same; eauto.
  - destruct (template_sizes _ _ T) as (TS & TL & TR).
    destruct (cread_bits_ok inp m0 Hinp k _ OP_BITS op bs HR ltac:(unfold OP_BITS; lia)) as (k1 & -> & R1 & _ & M1 & O1).
    { apply (rdb_app 5 op). cbn; lia. }
    rewrite !bind_done. unfold OP_END.
    destruct (Z.eqb_spec op 30); [lia|].
    rewrite (ftable op acts T).
    assert (S1 : skc k1 out) by (eapply skc_same; eauto).
    pose proof (flat_args_grows _ _ _ _ _ HA) as AG.
    rewrite <- (app_nil_r out) in HA.
    destruct (ffields_ok out acts (4 - length acts) k1 [] bs out1 bs1 TS HA S1 R1 ltac:(constructor) TL) as (pre & k2 & -> & LP & BP & EF & R2 & M2 & O2).
    change (be_val [] * 2 ^ (64 - 8 * lenZ [])) with 0 in EF. change (8 * lenZ []) with 0 in EF.
    rewrite EF, !bind_done.
    pose proof (flat_grows _ _ _ _ HT) as G. rewrite app_length in G.
    destruct (skc_store m0 k2 out pre) as (m & ES & SS). { eapply skc_same; eauto. } { auto. } { auto. } { unfold lenZ in *. lia. }
    unfold store64, bswap64. replace (swap_be_to_native64 LE (be_val pre)) with (swap_native_to_be64 LE (be_val pre)) by reflexivity.
    rewrite native_swap64. assert (EB8 : be_bytes 8 (be_val pre) = pre) by (rewrite <- LP at 1; now apply be_bytes_be_val).
    rewrite EB8, ES, !bind_done.
    apply IH; auto. lia.
Qed.
End Dec.

Lemma flat_chunk_ok lg inp out x rest : (4 <= lg <= 60)%nat -> is_bytes inp -> is_bytes out -> lenZ inp mod 8 = 0 -> lenZ out < 2 ^ 63 ->
  flat_stream lg [] (bytes_bits inp) x rest -> lenZ x <= lenZ out ->
  flat_chunk (Z.of_nat lg) inp out = Done (x ++ skipn (length x) out).
Proof.
  intros HG HI HO H8 HM HS HX. unfold flat_chunk.
  destruct (floop_ok lg HG inp out HI HM [] (bytes_bits inp) x rest HS (mkC 0 0 0 out 0) (S (Z.to_nat (8 * lenZ inp)))) as (k & -> & SK).
  - constructor; [|reflexivity]. cbn [k_mem k_out]. change (8 * 0) with 0. rewrite Z.sub_0_r. apply sk_init; auto. pose proof (lenZ_nonneg out). split; [assumption|apply Z.le_refl].
  - unfold rdc. cbn [c_in c_bits c_buffer]. pose proof (rdo_init inp []) as R. now rewrite (whole_mod8 inp H8) in R.
  - exact HX.
  - rewrite bytes_bits_length. unfold lenZ. lia.
  - rewrite bind_done. destruct SK as [SK _]. apply sk_mem in SK. cbn [o_mem k_mem] in SK. now rewrite SK.
Qed.
Lemma flat_bytes_out lg o b o' b' : flat_stream lg o b o' b' -> is_bytes o -> is_bytes o'.
Proof.
  assert (AB : forall o acts b o' b', flat_args lg o acts b o' b' -> is_bytes o -> is_bytes o').
  { clear. induction 1; auto; intros; apply IHflat_args; apply is_bytes_app; split; auto. now apply is_bytes_slice. }
  induction 1; auto; intros; apply IHflat_stream. eapply AB; eauto.
Qed.

Section Launch.
Variables (inp : list Z) (n : Z) (x : Z -> list Z).
Hypothesis Hn : 0 <= n <= 2 ^ 24.
Hypothesis Hinp : is_bytes inp.
Hypothesis H8 : lenZ inp mod 8 = 0.
Hypothesis Hx : forall c, 0 <= c < n -> lenZ (x c) <= 1024 /\ exists rest, flat_stream 10 [] (bytes_bits (skipn (Z.to_nat (2048 * c)) inp)) (x c) rest.
Variable M : nat.
Hypothesis HM : 1024 * n <= Z.of_nat M < 2 ^ 63.

Lemma flat_thread_ok t out : is_bytes out -> length out = M -> 0 <= t < n ->
  flat_thread 10 inp t out = Done (put out (Z.to_nat (1024 * t)) (x t)).
Proof.
  intros HO HL Ht. unfold flat_thread. change (2 ^ 10 / 8) with 128.
  replace (u32 (128 * 2 * t)) with (128 * 2 * t) by (unfold u32; rewrite Z.mod_small; lia).
  replace (u32 (128 * t)) with (128 * t) by (unfold u32; rewrite Z.mod_small; lia).
  replace (8 * (128 * 2 * t)) with (2048 * t) by lia. replace (8 * (128 * t)) with (1024 * t) by lia.
  destruct (Hx t Ht) as (LX & rest & SX).
  assert (LS : lenZ (skipn (Z.to_nat (1024 * t)) out) = lenZ out - 1024 * t) by (unfold lenZ; rewrite skipn_length; lia).
  change 10 with (Z.of_nat 10) at 1. rewrite (flat_chunk_ok 10 _ _ (x t) rest).
  - rewrite bind_done. f_equal. unfold put. do 2 f_equal. apply skipn_skipn.
  - lia.
  - now apply is_bytes_skipn.
  - now apply is_bytes_skipn.
  - apply skipn_mod8; auto.
  - rewrite LS. unfold lenZ. lia.
  - exact SX.
  - rewrite LS. unfold lenZ in *. lia.
Qed.
Definition in_chunk (order : list Z) (p : nat) : bool :=
  existsb (Z.eqb (Z.of_nat p / 1024)) order && (Z.of_nat p mod 1024 <? lenZ (x (Z.of_nat p / 1024))).
Lemma flat_run_ok order : Forall (fun t => 0 <= t < n) order -> forall out, is_bytes out -> length out = M ->
  exists out', flat_run 10 inp order out = Done out' /\ is_bytes out' /\ length out' = M /\
    forall p, nth p out' 0 = if in_chunk order p then nth (Z.to_nat (Z.of_nat p mod 1024)) (x (Z.of_nat p / 1024)) 0 else nth p out 0.
Proof.
  induction 1 as [|t order Ht HO IH]; intros out HB HL; cbn [flat_run].
  - exists out. repeat split; auto.
  - rewrite flat_thread_ok by auto. rewrite bind_done.
    destruct (Hx t Ht) as (LX & rest & SX).
    assert (PL : (Z.to_nat (1024 * t) + length (x t) <= length out)%nat) by (unfold lenZ in *; lia).
    destruct (IH (put out (Z.to_nat (1024 * t)) (x t))) as (out' & E & B' & L' & N').
    { apply put_bytes; auto. eapply flat_bytes_out; [exact SX|constructor]. } { rewrite put_length; auto. }
    exists out'. split; auto. split; auto. split; auto. intros p. rewrite N'. unfold in_chunk. cbn [existsb].
    rewrite put_nth by auto.
    set (c := Z.of_nat p / 1024). pose proof (Z.div_mod (Z.of_nat p) 1024 ltac:(lia)) as DM. fold c in DM. pose proof (Z.mod_pos_bound (Z.of_nat p) 1024 ltac:(lia)) as MB.
    destruct (existsb (Z.eqb c) order); [rewrite orb_true_r; cbn [andb]|rewrite orb_false_r; cbn [andb]].
    + destruct (Z.ltb_spec (Z.of_nat p mod 1024) (lenZ (x c))) as [Q|Q]; [reflexivity|].
      destruct (Nat.leb_spec (Z.to_nat (1024 * t)) p) as [P1|P1]; cbn [andb]; auto.
      destruct (Nat.ltb_spec p (Z.to_nat (1024 * t) + length (x t))) as [P2|P2]; auto. exfalso.
      assert (CT : c = t) by (unfold lenZ in *; lia). rewrite CT in *. unfold lenZ in *. lia.
    + destruct (Z.eqb_spec c t) as [CT|CT]; cbn [andb].
      * rewrite CT in *. destruct (Nat.leb_spec (Z.to_nat (1024 * t)) p) as [P1|P1]; [|lia]. cbn [andb].
        destruct (Nat.ltb_spec p (Z.to_nat (1024 * t) + length (x t))) as [P2|P2];
          destruct (Z.ltb_spec (Z.of_nat p mod 1024) (lenZ (x t))) as [Q|Q]; unfold lenZ in *; try lia; auto.
        f_equal. lia.
      * destruct (Nat.leb_spec (Z.to_nat (1024 * t)) p) as [P1|P1]; cbn [andb]; auto.
        destruct (Nat.ltb_spec p (Z.to_nat (1024 * t) + length (x t))) as [P2|P2]; auto. exfalso. unfold lenZ in *. lia.
Qed.
Theorem flat_launch order out : Permutation order (chunk_numbers n) -> is_bytes out -> length out = M ->
  exists out', flat_run 10 inp order out = Done out' /\ length out' = length out /\
    (forall c, 0 <= c < n -> bytes_at out' (1024 * c) 1024 = x c ++ bytes_at out (1024 * c + lenZ (x c)) (1024 - lenZ (x c))) /\
    (forall p, 1024 * n <= Z.of_nat p -> nth p out' 0 = nth p out 0).
Proof.
  intros P HB HL. destruct (flat_run_ok order) with (out := out) as (out' & E & B' & L' & N'); auto.
  { apply Forall_forall. intros t Ht. apply in_numbers. eapply Permutation_in; eauto. }
  exists out'. split; auto. split; [lia|]. split.
  - intros c Hc. destruct (Hx c Hc) as (LX & _). pose proof (lenZ_nonneg (x c)).
    assert (L1 : length (bytes_at out' (1024 * c) 1024) = 1024%nat) by (unfold bytes_at; apply slice_length; lia).
    assert (L2 : length (bytes_at out (1024 * c + lenZ (x c)) (1024 - lenZ (x c))) = Z.to_nat (1024 - lenZ (x c))) by (unfold bytes_at; apply slice_length; lia).
    apply nth_ext with (d := 0) (d' := 0). { rewrite app_length, L1, L2. unfold lenZ in *. lia. }
    rewrite L1. intros k Hk.
    assert (NS : forall l p m j, (j < Z.to_nat m)%nat -> nth j (bytes_at l p m) 0 = nth (Z.to_nat p + j) l 0).
    { clear. intros. unfold bytes_at, slice. rewrite nth_firstn_gen by lia. apply nth_skipn_gen. }
    rewrite NS by lia. rewrite N'. unfold in_chunk.
    replace (Z.of_nat (Z.to_nat (1024 * c) + k)) with (Z.of_nat k + c * 1024) by lia.
    rewrite Z.div_add, Z.mod_add, Z.div_small, Z.mod_small by lia. rewrite Z.add_0_l. rewrite (in_order n order c P).
    destruct (Z.leb_spec 0 c) as [_|]; [|lia]. destruct (Z.ltb_spec c n) as [_|]; [|lia]. cbn [andb].
    destruct (Z.ltb_spec (Z.of_nat k) (lenZ (x c))) as [Q|Q].
    + rewrite app_nth1 by (unfold lenZ in *; lia). f_equal. lia.
    + rewrite app_nth2 by (unfold lenZ in *; lia). rewrite NS by (unfold lenZ in *; lia). f_equal. unfold lenZ in *. lia.
  - intros p Hp. rewrite N'. unfold in_chunk. rewrite (in_order n order _ P).
    destruct (Z.ltb_spec (Z.of_nat p / 1024) n) as [Q|Q]; [|now rewrite andb_false_r].
    exfalso. pose proof (Z.div_mod (Z.of_nat p) 1024 ltac:(lia)). pose proof (Z.mod_pos_bound (Z.of_nat p) 1024 ltac:(lia)). lia.
Qed.
End Launch.

(** * The compressor, with any switches, and the kernel as it is *)
Lemma holds_stream crc z x : holds_842 crc z x -> exists rest, stream false [] (bytes_bits z) x rest.
Proof. intros (rest & S). eauto. Qed.
Lemma strict_reads e strict crc iaddr oaddr x out0 olen n m inp out : is_bytes x -> lenZ x mod 8 = 0 -> x <> [] ->
  is_bytes out0 -> 0 <= olen <= lenZ out0 -> iaddr mod 8 = 0 -> oaddr mod 8 = 0 ->
  compress_with e strict crc iaddr oaddr x out0 olen = Done (0, n, m) ->
  is_bytes inp -> lenZ inp mod 8 = 0 -> firstn (Z.to_nat n) inp = firstn (Z.to_nat n) m -> is_bytes out -> lenZ x <= lenZ out < 2 ^ 63 ->
  cuda_chunk inp out = Done (x ++ skipn (length x) out).
Proof.
  intros BX X8 NX BO HO AI AO EC BI I8 EI BU HU.
  destruct (c98_output strict crc x BX X8 NX) as (z & BZ & HZ & Z8 & LZ & C). destruct (C e iaddr oaddr out0 olen BO HO AI AO) as (C1 & _).
  rewrite EC in C1. unfold observed in C1.
  destruct (lenZ z <=? olen); [|discriminate]. injection C1 as -> EM.
  destruct (holds_stream _ _ _ HZ) as (rest & S).
  assert (S2 : exists rest2, stream false [] (bytes_bits inp) x rest2).
  { replace inp with (skipn 0 inp) by reflexivity. eapply starts_stream; [|exact S]. unfold slice. cbn [skipn]. 
    rewrite <- EM at 2. rewrite <- EI. unfold lenZ. now rewrite Nat2Z.id. }
  destruct S2 as (rest2 & S2). eapply cuda_chunk_ok; eauto; lia.
Qed.
