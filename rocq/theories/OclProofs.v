(** decompress_core (decompress.cl) refines the pure decoder of OclPure.v. *)
From Coq Require Import ZArith List Bool Lia.
From Verif Require Import SpecBits SpecCrc Spec842 CBase BitsLemmas CrcProofs
  SerialCompModel SerialDecompModel SerialIdeal SerialValid PureDecoder SerialDecomp SerialFacts
  OptCompModel OptDecompModel OptWriter OptDecomp OclModel OclPure.
Import ListNotations.
Open Scope Z_scope.

(** * Shifts, loads *)
Lemma oshr_ok x n : 0 <= n < 64 -> oshr x n = x / 2 ^ n.
Proof. intros. unfold oshr. now rewrite Z.mod_small by lia. Qed.
Lemma oshl_ok x n : 0 <= n < 64 -> oshl x n = x * 2 ^ n mod 2 ^ 64.
Proof. intros. unfold oshl. now rewrite (Z.mod_small n 64) by lia. Qed.
Lemma oshl_small x n : 0 <= n < 64 -> 0 <= x -> x * 2 ^ n < 2 ^ 64 -> oshl x n = x * 2 ^ n.
Proof. intros. rewrite oshl_ok by lia. apply Z.mod_small. split; auto. apply Z.mul_nonneg_nonneg; auto. apply Z.pow_nonneg. lia. Qed.
Lemma load_bytes_oob m i k : lenZ m < i + k -> load_bytes m i k = Undef.
Proof. intros H. unfold load_bytes. destruct (Z.leb_spec (i + k) (lenZ m)); [lia|]. now rewrite andb_false_r. Qed.
Lemma native_roundtrip e l n : length l = n -> is_bytes l -> native_bytes e n (native_val e l) = l.
Proof.
  intros <- B. destruct e; cbn [native_bytes native_val].
  - rewrite <- (rev_length l), be_bytes_be_val by now apply is_bytes_rev. apply rev_involutive.
  - now apply be_bytes_be_val.
Qed.
Lemma native_zero e n : native_bytes e n 0 = List.repeat 0 n.
Proof.
  assert (E : be_bytes n 0 = List.repeat 0 n).
  { induction n; cbn [be_bytes List.repeat]; [reflexivity|]. now rewrite IHn, Z.div_0_l by (apply Z.pow_nonzero; lia). }
  destruct e; cbn [native_bytes]; rewrite E; auto.
  clear E. induction n; cbn [List.repeat rev]; auto. rewrite IHn.
  clear IHn. induction n; cbn [List.repeat app]; congruence.
Qed.
Lemma poff_mod written n i : (n = 2 \/ n = 4 \/ n = 8)%nat -> poff written n i mod Z.of_nat n = 0.
Proof.
  intros Hn. pose proof (window_pos n Hn) as [WE W].
  assert (NZ : 0 < Z.of_nat n) by lia.
  unfold poff. set (p := 2 ^ Z.of_nat (index_bits n)) in *. set (q := ptotal written / window n).
  assert (E1 : i * Z.of_nat n + (q * window n - window n) = (i + (q * p - p)) * Z.of_nat n) by (rewrite WE; ring).
  assert (E2 : i * Z.of_nat n + q * window n = (i + q * p) * Z.of_nat n) by (rewrite WE; ring).
  destruct (_ >? _); [destruct (_ >=? _)|]; rewrite ?E1, ?E2; apply Z.mod_mul; lia.
Qed.

(** * The fields of a template *)
Inductive fmatch : list (Z * Z * Z) -> list action -> Prop :=
| fm_nil : fmatch [] []
| fm_zero fs acts : fmatch fs acts -> fmatch ((0, 0, 0) :: fs) acts
| fm_data fs acts : fmatch fs acts -> fmatch ((0, 2, 16) :: fs) (D 2 :: acts)
| fm_i2 fs acts : fmatch fs acts -> fmatch ((1, 2, 8) :: fs) (I 2 :: acts)
| fm_i4 fs acts : fmatch fs acts -> fmatch ((1, 4, 9) :: fs) (I 4 :: acts).
Fixpoint fcheck (fs : list (Z * Z * Z)) (acts : list action) : bool :=
  match fs with
  | [] => match acts with [] => true | _ => false end
  | (a, b, c) :: fs' =>
    if (a =? 0) && (b =? 0) && (c =? 0) then fcheck fs' acts
    else match acts with
         | D 2 :: r => (a =? 0) && (b =? 2) && (c =? 16) && fcheck fs' r
         | I 2 :: r => (a =? 1) && (b =? 2) && (c =? 8) && fcheck fs' r
         | I 4 :: r => (a =? 1) && (b =? 4) && (c =? 9) && fcheck fs' r
         | _ => false
         end
  end.
Lemma fcheck_ok fs : forall acts, fcheck fs acts = true -> fmatch fs acts.
Proof.
  induction fs as [|[[a b] c] fs IH]; intros acts H; cbn [fcheck] in H.
  - destruct acts; [constructor|discriminate].
  - destruct ((a =? 0) && (b =? 0) && (c =? 0)) eqn:Z0.
    + rewrite !andb_true_iff, !Z.eqb_eq in Z0. destruct Z0 as [[-> ->] ->]. constructor; auto.
    + destruct acts as [|[n|n] r]; [discriminate| |];
        (destruct n as [|[|[|[|[|n]]]]]; try discriminate; rewrite !andb_true_iff, !Z.eqb_eq in H; destruct H as [[[-> ->] ->] H]; constructor; auto).
Qed.
Definition kop_check (op : Z) : bool :=
  match template op with
  | Some acts => (kopbits op =? acts_width acts) && fcheck (map (kfield op) [0; 1; 2; 3]) (norm acts)
  | None => false
  end.
Lemma kop_checks : forallb (fun k => kop_check (Z.of_nat k)) (seq 0 25) = true.
Proof. vm_compute. reflexivity. Qed.
Lemma kop_ok op : 0 <= op < 25 -> exists acts, template op = Some acts /\ kopbits op = acts_width acts /\
  fmatch (map (kfield op) [0; 1; 2; 3]) (norm acts) /\ 1 <= acts_width acts <= 64 /\ acts_width (norm acts) = acts_width acts /\ acts_len (norm acts) = 8%nat.
Proof.
  intros Ho. pose proof kop_checks as C. rewrite forallb_forall in C. specialize (C (Z.to_nat op) ltac:(apply in_seq; lia)).
  cbv beta in C. rewrite Z2Nat.id in C by lia. unfold kop_check in C. pose proof (case_ok op ltac:(lia)) as CO.
  destruct (template op) as [acts|] eqn:T; [|discriminate]. apply andb_true_iff in C. destruct C as [C1 C2].
  apply Z.eqb_eq in C1. apply fcheck_ok in C2. exists acts. destruct CO as [_ W].
  destruct (template_sizes _ _ T) as (TS & TL & _).
  assert (NM : forall l, Forall (fun a => act_size_ok a = true) l -> acts_width (norm l) = acts_width l /\ acts_len (norm l) = acts_len l).
  { clear. induction 1 as [|a l SO HS [IH1 IH2]]; [auto|]. unfold norm. cbn [map concat]. fold (norm l).
    assert (AW : forall x y, acts_width (x ++ y) = acts_width x + acts_width y) by (induction x; intros; cbn; [auto|]; fold (acts_width (x ++ y)); rewrite IHx; fold (acts_width x); lia).
    assert (AL : forall x y, acts_len (x ++ y) = (acts_len x + acts_len y)%nat) by (induction x; intros; cbn; [auto|]; fold (acts_len (x ++ y)); rewrite IHx; fold (acts_len x); lia).
    rewrite AW, AL, IH1, IH2. change (acts_width (a :: l)) with (act_width a + acts_width l). change (acts_len (a :: l)) with (act_len a + acts_len l)%nat.
    apply size_cases in SO. destruct a as [n|n]; cbn [act_len] in SO; destruct SO as [-> | [-> | ->]]; split; reflexivity. }
  destruct (NM acts TS) as [N1 N2]. repeat split; auto; lia.
Qed.

Section Dec.
Variable e : endian.
Variables (inp : list Z) (ilen : Z) (m0 : list Z) (cap : Z).
Hypothesis Hinp : is_bytes inp.
Hypothesis Hilen : 0 <= ilen.
Hypothesis Hread : forall i, 0 <= i -> i * 8 < ilen -> 8 * i + 8 <= lenZ inp.
Hypothesis Hcap : cap < 2 ^ 63.
Definition cin : list Z := firstn (Z.to_nat ilen) inp.

Lemma ilen_le : ilen <= lenZ inp.
Proof.
  destruct (Z.eq_dec ilen 0); [subst; apply lenZ_nonneg|].
  pose proof (Hread ((ilen - 1) / 8) ltac:(apply Z.div_pos; lia)) as H.
  pose proof (Z.div_mod (ilen - 1) 8 ltac:(lia)). pose proof (Z.mod_pos_bound (ilen - 1) 8 ltac:(lia)). lia.
Qed.
Lemma cin_len : lenZ cin = ilen.
Proof. unfold cin, lenZ. rewrite firstn_length. pose proof ilen_le. unfold lenZ in *. lia. Qed.
Lemma cin_bytes : is_bytes cin. Proof. now apply is_bytes_firstn. Qed.

(** * The bit reader *)
Definition word (i : Z) : Z := if i * 8 <? ilen then be_val (slice (Z.to_nat (8 * i)) 8 inp) else 0.
Lemma lookahead_ok i : 0 <= i -> lookahead e inp ilen i = Done (word i).
Proof.
  intros. unfold lookahead, word. destruct (Z.ltb_spec (i * 8) ilen); auto. pose proof (Hread i ltac:(lia) ltac:(lia)).
  rewrite load64_ok, bind_done by lia. rewrite swap_native64; auto.
  - apply slice_length. unfold lenZ in *. lia.
  - now apply is_bytes_slice.
Qed.
Record rdk (k : kstate) (bits : list bool) : Prop := mkRdk {
  rk_rdo : rdo cin (mkP (k_in k) (k_bits k) (k_buffer k) 0 [] 0) bits;
  rk_la : forall j, (j < 6)%nat -> nth j (k_la k) 0 = word (k_in k + Z.of_nat j) }.
Lemma rdk_same k k' bits : k_in k' = k_in k -> k_bits k' = k_bits k -> k_buffer k' = k_buffer k -> k_la k' = k_la k -> rdk k bits -> rdk k' bits.
Proof. intros E1 E2 E3 E4 []. constructor; rewrite ?E1, ?E2, ?E3, ?E4; auto. Qed.

Lemma kread_bits_ok k bits n : rdk k bits -> 1 <= n <= 64 ->
  match rdb (Z.to_nat n) bits with
  | Some (v, rest) => exists k', kread_bits e inp ilen k n = Done (v, k') /\ rdk k' rest /\ 0 <= v < 2 ^ n /\
      k_err k' = k_err k /\ k_mem k' = k_mem k /\ k_out k' = k_out k
  | None => exists v k', kread_bits e inp ilen k n = Done (v, k') /\
      k_err k' = (if k_err k =? 0 then - EINVAL else k_err k) /\ k_mem k' = k_mem k /\ k_out k' = k_out k
  end.
Proof.
  intros [HR HL] Hn. pose proof (read_bits_ok e cin cin_bytes _ bits n HR Hn) as RB.
  pose proof HR as [HI HB _]. cbn [q_in q_bits] in HI, HB.
  unfold read_bits, read_word in RB. cbn [q_in q_bits q_buffer q_err q_mem q_pos] in RB. rewrite cin_len in RB.
  unfold kread_bits. rewrite oshr_ok by lia. rewrite shr64_ok in RB by lia. rewrite bind_done in RB.
  destruct (Z.ltb_spec (k_bits k) n) as [LTn|GEn].
  - rewrite Z.gtb_ltb in RB. rewrite Z.gtb_ltb. destruct (Z.ltb_spec ilen ((k_in k + 1) * 8)) as [F|F].
    + rewrite bind_done, shr64_ok, bind_done, shl64_ok, bind_done, shl64_ok, bind_done in RB by lia.
      destruct (rdb (Z.to_nat n) bits) as [[v rest]|].
      * exfalso. destruct RB as (p' & E & _ & _ & E1 & _). injection E as _ <-. discriminate.
      * do 2 eexists. split; [reflexivity|]. destruct (k_err k =? 0); auto.
    + rewrite lookahead_ok, bind_done by lia. rewrite (HL 0%nat ltac:(lia)). change (Z.of_nat 0) with 0. rewrite Z.add_0_r.
      assert (W0 : word (k_in k) = be_val (slice (Z.to_nat (8 * k_in k)) 8 inp)).
      { unfold word. destruct (Z.ltb_spec (k_in k * 8) ilen); [auto|lia]. }
      assert (SC : slice (Z.to_nat (8 * k_in k)) 8 cin = slice (Z.to_nat (8 * k_in k)) 8 inp).
      { unfold slice, cin. rewrite skipn_firstn_comm, firstn_firstn_le by lia. reflexivity. }
      pose proof ilen_le as IL.
      rewrite load64_ok in RB by (rewrite ?cin_len; lia). rewrite !bind_done, SC in RB.
      rewrite swap_native64 in RB. 2: { apply slice_length. unfold lenZ in *. lia. } 2: { now apply is_bytes_slice. }
      rewrite <- W0 in RB. rewrite shr64_ok, bind_done, shl64_ok, bind_done, shl64_ok, bind_done in RB by lia.
      rewrite oshr_ok, !oshl_ok by lia.
      replace (u8 (k_bits k + (64 - n))) with (k_bits k + (64 - n)) in RB by (unfold u8; rewrite Z.mod_small; lia).
      replace (u32 (k_bits k + (64 - n))) with (k_bits k + (64 - n)) by (unfold u32; rewrite Z.mod_small; lia).
      destruct (rdb (Z.to_nat n) bits) as [[v rest]|].
      * destruct RB as (p' & E & R' & V & _). pose proof (f_equal (fun o => match o with Done x => fst x | _ => v end) E) as EV.
        pose proof (f_equal (fun o => match o with Done x => snd x | _ => p' end) E) as EP. cbn beta iota in EV, EP. cbn [fst snd q_in q_bits q_buffer q_err q_mem q_pos] in EV, EP.
        rewrite EV. eexists. split; [reflexivity|]. cbn [k_err k_mem k_out]. split; [|auto].
        constructor; cbn [k_in k_bits k_buffer k_la]. { rewrite EP. exact R'. }
        intros j Hj. destruct j as [|[|[|[|[|[|j]]]]]]; cbn [nth]; try lia.
        1: { rewrite (HL 1%nat ltac:(lia)). f_equal. lia. } 1: { rewrite (HL 2%nat ltac:(lia)). f_equal. lia. }
        1: { rewrite (HL 3%nat ltac:(lia)). f_equal. lia. } 1: { rewrite (HL 4%nat ltac:(lia)). f_equal. lia. }
        1: { rewrite (HL 5%nat ltac:(lia)). f_equal. lia. } f_equal. lia.
      * exfalso. destruct RB as (v' & p' & E & E1 & _). injection E as _ <-. cbn [q_err] in E1. discriminate.
  - rewrite shl64_ok, bind_done in RB by lia.
    destruct (rdb (Z.to_nat n) bits) as [[v rest]|].
    + destruct RB as (p' & E & R' & V & _). pose proof (f_equal (fun o => match o with Done x => fst x | _ => v end) E) as EV.
      pose proof (f_equal (fun o => match o with Done x => snd x | _ => p' end) E) as EP. cbn beta iota in EV, EP. cbn [fst snd q_in q_bits q_buffer q_err q_mem q_pos] in EV, EP.
      rewrite EV. eexists. split; [reflexivity|]. cbn [k_err k_mem k_out]. split; [|auto].
      constructor; cbn [k_in k_bits k_buffer k_la]; auto. rewrite oshl_ok by lia. rewrite EP. exact R'.
    + exfalso. destruct RB as (v' & p' & E & E1 & _). injection E as _ <-. cbn [q_err] in E1. discriminate.
Qed.

(** * The output *)
Record skk (k : kstate) (out : list Z) : Prop := mkSkk {
  ks_sk : sk cap m0 (mkSink (k_mem k) (8 * k_out k) (cap - 8 * k_out k)) out;
  ks_al : al8 out }.
Lemma skk_pos k out : skk k out -> 8 * k_out k = lenZ out.
Proof. intros [S _]. apply (sk_pos _ _ _ _ S). Qed.
Lemma skk_same k k' out : k_mem k' = k_mem k -> k_out k' = k_out k -> skk k out -> skk k' out.
Proof. intros E1 E2 []. constructor; rewrite ?E1, ?E2; auto. Qed.
Lemma skk_store k out bs : skk k out -> is_bytes bs -> length bs = 8%nat -> lenZ out + 8 <= cap ->
  exists m, store_bytes (k_mem k) (8 * k_out k) bs = Done m /\
    forall ki kb ku kl ke, skk (mkK ki kb ku kl ke m (k_out k + 1)) (out ++ bs).
Proof.
  intros [S A] Hb L8 Hf. assert (LB : lenZ bs = 8) by (unfold lenZ; lia).
  destruct (sk_store cap m0 _ out bs S Hb ltac:(lia)) as (m & E & S'). exists m. split; [exact E|]. intros.
  constructor; cbn [k_mem k_out o_pos o_olen] in *.
  - rewrite LB in S'. replace (8 * (k_out k + 1)) with (8 * k_out k + 8) by lia. replace (cap - (8 * k_out k + 8)) with (cap - 8 * k_out k - 8) by lia. exact S'.
  - eapply (al8_app _ 1); eauto.
Qed.

Lemma kget_index_ok k out n i : skk k out -> (n = 2 \/ n = 4 \/ n = 8)%nat -> 0 <= i < 2 ^ Z.of_nat (index_bits n) ->
  kget_index k (Z.of_nat n) i (window n) =
  if poff (length out) n i + Z.of_nat n >? lenZ out then (0, kraise k (- EINVAL)) else (poff (length out) n i, k).
Proof.
  intros HS Hn Hi. pose proof (skk_pos _ _ HS) as PO. destruct HS as [S A].
  pose proof (sk_fit _ _ _ _ S) as FT.
  destruct (index_offset_ok (length out) n i Hn Hi ltac:(unfold lenZ in *; lia)) as [IO U].
  unfold kget_index. replace (k_out k * 8) with (lenZ out) by lia.
  unfold index_offset in IO. fold (lenZ out) in IO.
  assert (RT : round_down (lenZ out) 8 = lenZ out).
  { pose proof (ptotal_base out A) as PB. unfold ptotal in PB. fold (lenZ out) in PB.
    change 8 with (2 ^ 3) at 1. rewrite (round_down_pow (lenZ out) 3) by (pose proof (lenZ_nonneg out); lia). change (2 ^ 3) with 8. lia. }
  rewrite RT in IO.
  assert (EO : (if lenZ out >? window n
     then u64 (u64 (i * Z.of_nat n) + (if u64 (i * Z.of_nat n) >=? lenZ out - round_down (lenZ out) (window n) then u64 (round_down (lenZ out) (window n) - window n) else round_down (lenZ out) (window n)))
     else u64 (i * Z.of_nat n)) = poff (length out) n i).
  { destruct (lenZ out >? window n); cbv zeta in IO; congruence. }
  cbv zeta. rewrite EO, U. reflexivity.
Qed.

(** * The fields *)
Lemma mask_ok num : num = 8 \/ num = 9 \/ num = 16 -> oshr (2 ^ 64 - 1) (64 - num) = 2 ^ num - 1.
Proof. intros [-> | [-> | ->]]; reflexivity. Qed.
Lemma field_ext params rest num : num = 8 \/ num = 9 \/ num = 16 -> 0 <= rest -> rest + num <= 64 ->
  Z.land (oshr params (rest + num - num)) (if negb (num =? 0) then oshr (2 ^ 64 - 1) (64 - num) else 0) = params / 2 ^ rest mod 2 ^ num.
Proof.
  intros Hn Hr Hb. destruct (Z.eqb_spec num 0); [lia|]. cbn [negb]. rewrite mask_ok by auto.
  replace (rest + num - num) with rest by lia. rewrite oshr_ok by lia. apply land_ones_mod. lia.
Qed.
Lemma be_lor pre v d bits : is_bytes pre -> bits = 8 * lenZ pre -> (d = 2 \/ d = 4) -> bits + 8 * d <= 64 -> 0 <= v < 2 ^ (8 * d) ->
  Z.lor (be_val pre * 2 ^ (64 - bits)) (oshl v (64 - d * 8 - bits)) = (be_val pre * 2 ^ (8 * d) + v) * 2 ^ (64 - (bits + d * 8)).
Proof.
  intros HB -> Hd Hl Hv. pose proof (lenZ_nonneg pre). set (s := 64 - d * 8 - 8 * lenZ pre).
  assert (S0 : 0 <= s < 64) by (unfold s; lia).
  assert (PS : 0 < 2 ^ s) by (apply pow2_pos; lia).
  assert (VS : v * 2 ^ s < 2 ^ (64 - 8 * lenZ pre)).
  { replace (64 - 8 * lenZ pre) with (8 * d + s) by (unfold s; lia). rewrite Z.pow_add_r by lia. apply Z.mul_lt_mono_pos_r; lia. }
  rewrite oshl_small. 2: lia. 2: lia.
  2: { eapply Z.lt_le_trans; [exact VS|]. apply Z.pow_le_mono_r; lia. }
  rewrite lor_disjoint. 2: lia. 2: { split; [|exact VS]. apply Z.mul_nonneg_nonneg; lia. }
  replace (64 - 8 * lenZ pre) with (8 * d + s) by (unfold s; lia). rewrite Z.pow_add_r by lia.
  replace (64 - (8 * lenZ pre + d * 8)) with s by (unfold s; lia). ring.
Qed.

Lemma kfields_ok fs acts : fmatch fs acts -> forall k base pre params opbits bits,
  skk k base -> k_err k = 0 -> is_bytes pre -> bits = 8 * lenZ pre -> bits + 8 * Z.of_nat (acts_len acts) = 64 ->
  opbits = acts_width acts -> opbits <= 64 ->
  match kvals (lenZ m0) base acts (bits_of (Z.to_nat opbits) params) with
  | KOk bs _ => kfields e fs k params opbits (be_val pre * 2 ^ (64 - bits)) bits = Done (Some (be_val (pre ++ bs)), k) /\ is_bytes bs /\ length bs = acts_len acts
  | KErr => kfields e fs k params opbits (be_val pre * 2 ^ (64 - bits)) bits = Done (None, kraise k (- EINVAL))
  | KUndef => kfields e fs k params opbits (be_val pre * 2 ^ (64 - bits)) bits = Undef
  end.
Proof.
  induction 1 as [|fs acts FM IH|fs acts FM IH|fs acts FM IH|fs acts FM IH]; intros k base pre params opbits bits HS HE HP HB HL HO H64;
    pose proof (lenZ_nonneg pre) as LP; cbn [kfields].
  - cbn [kvals acts_len fold_right] in *. rewrite app_nil_r. replace (64 - bits) with 0 by lia. rewrite Z.mul_1_r. repeat split. constructor.
  - change (negb (0 =? 0)) with false. cbv iota. rewrite Z.land_0_r. pose proof (acts_width_nonneg acts).
    replace (u8 (opbits - 0)) with opbits by (unfold u8; rewrite Z.mod_small; lia).
    replace (oshl 0 (64 - 0 * 8 - bits)) with 0 by (unfold oshl; now rewrite Z.mul_0_l).
    rewrite Z.lor_0_r. replace (bits + 0 * 8) with bits by lia. apply IH; auto.
  - (* literal *)
    change (acts_width (D 2 :: acts)) with (16 + acts_width acts) in HO. change (acts_len (D 2 :: acts)) with (2 + acts_len acts)%nat in *.
    pose proof (acts_width_nonneg acts) as W0. subst opbits.
    change (negb (0 =? 0)) with false at 2. cbv iota.
    replace (16 + acts_width acts) with (acts_width acts + 16) by lia. rewrite field_ext by (auto; lia).
    set (v := params / 2 ^ acts_width acts mod 2 ^ 16). assert (V : 0 <= v < 2 ^ 16) by (apply Z.mod_pos_bound; lia).
    replace (u8 (acts_width acts + 16 - 16)) with (acts_width acts) by (unfold u8; rewrite Z.mod_small; lia).
    rewrite be_lor; auto; try lia.
    replace (Z.to_nat (acts_width acts + 16)) with (16 + Z.to_nat (acts_width acts))%nat by lia.
    rewrite bits_of_app, Z2Nat.id by lia. cbn [kvals kval].
    rewrite <- (bits_of_mod 16 16) by lia. fold v. change (8 * 2)%nat with 16%nat. rewrite rdb_app by exact V.
    assert (BV : be_val pre * 2 ^ (8 * 2) + v = be_val (pre ++ be_bytes 2 v)).
    { rewrite be_val_app, be_val_be_bytes by exact V. unfold lenZ. rewrite be_bytes_length. reflexivity. }
    rewrite BV.
    assert (LB : lenZ (pre ++ be_bytes 2 v) = lenZ pre + 2) by (rewrite lenZ_app; unfold lenZ at 2; now rewrite be_bytes_length).
    specialize (IH k base (pre ++ be_bytes 2 v) params (acts_width acts) (bits + 2 * 8) HS HE).
    assert (IS : is_bytes (pre ++ be_bytes 2 v)) by (apply is_bytes_app; split; auto; apply be_bytes_is_bytes).
    specialize (IH IS ltac:(lia) ltac:(lia) eq_refl ltac:(lia)).
    destruct (kvals (lenZ m0) base acts _) as [bs r| |]; auto.
    destruct IH as (-> & B & L). rewrite app_assoc. split; [reflexivity|]. split; [apply is_bytes_app; split; auto; apply be_bytes_is_bytes|].
    rewrite app_length, be_bytes_length. lia.
  - (* two-byte index *)
    change (acts_width (I 2 :: acts)) with (8 + acts_width acts) in HO. change (acts_len (I 2 :: acts)) with (2 + acts_len acts)%nat in *.
    pose proof (acts_width_nonneg acts) as W0. subst opbits.
    change (negb (1 =? 0)) with true. cbv iota.
    replace (8 + acts_width acts) with (acts_width acts + 8) by lia. rewrite field_ext by (auto; lia).
    set (v := params / 2 ^ acts_width acts mod 2 ^ 8). assert (V : 0 <= v < 2 ^ 8) by (apply Z.mod_pos_bound; lia).
    replace (u8 (acts_width acts + 8 - 8)) with (acts_width acts) by (unfold u8; rewrite Z.mod_small; lia).
    replace (Z.to_nat (acts_width acts + 8)) with (8 + Z.to_nat (acts_width acts))%nat by lia.
    rewrite bits_of_app, Z2Nat.id by lia. cbn [kvals kval].
    rewrite <- (bits_of_mod 8 8) by lia. fold v. change (index_bits 2) with 8%nat. rewrite rdb_app by exact V.
    change (2048 - 1536 * b2z (Z.shiftr 2 2 <? 1)) with (window 2).
    pose proof (kget_index_ok k base 2 v HS ltac:(auto) V) as GI. change (Z.of_nat 2) with 2 in GI. rewrite GI. clear GI. rewrite ptotal_base by apply HS.
    pose proof (poff_mod (length base) 2 v ltac:(auto)) as PM. destruct (poff_spec (length base) 2 v ltac:(auto) V) as (P0 & _).
    set (off := poff (length base) 2 v) in *. change (Z.of_nat 2) with 2 in *. change (Z.max 4 2) with 4.
    destruct (Z.gtb_spec (off + 2) (lenZ base)) as [C|C].
    { cbn [kraise k_err]. reflexivity. }
    rewrite HE. change (negb (0 =? 0)) with false. cbv iota.
    assert (OF : 2 * Z.shiftr off 1 = off).
    { rewrite Z.shiftr_div_pow2 by lia. change (2 ^ 1) with 2. pose proof (Z.div_mod off 2 ltac:(lia)). lia. }
    replace (2 * (Z.shiftr off 1 + 1)) with (off + 2) by lia. rewrite OF.
    destruct HS as [S A]. pose proof (sk_mlen _ _ _ _ S) as ML. pose proof (sk_bytes _ _ _ _ S) as MB. cbn [o_mem] in ML, MB.
    pose proof (sk_cap _ _ _ _ S) as SC. pose proof (sk_fit _ _ _ _ S) as SF.
    assert (MLZ : lenZ (k_mem k) = lenZ m0) by (unfold lenZ; now rewrite ML).
    pose proof (sk_load _ _ _ base (Z.to_nat off) 2 S ltac:(unfold lenZ in *; lia)) as LD. cbn [o_mem] in LD. rewrite Z2Nat.id in LD by lia.
    change (Z.of_nat 2) with 2 in LD. 
    set (bs0 := slice (Z.to_nat off) 2 base) in *.
    assert (L0 : length bs0 = 2%nat) by (apply slice_length; unfold lenZ in *; lia).
    assert (B0 : is_bytes bs0) by (apply is_bytes_slice, (sk_obytes _ _ _ _ S)).
    destruct (Z.gtb_spec (off + 4) (lenZ m0)) as [G|G].
    { unfold load16 at 1. rewrite LD, !bind_done. unfold load16. rewrite load_bytes_oob by lia. reflexivity. }
    assert (LH : load16 e (k_mem k) off = Done (native_val e bs0)) by (unfold load16; now rewrite LD).
    rewrite LH, bind_done, swap_native16 by auto.
    rewrite load16_ok by lia. rewrite bind_done.
    assert (B1 : is_bytes (slice (Z.to_nat (off + 2)) 2 (k_mem k))) by now apply is_bytes_slice.
    assert (L1 : length (slice (Z.to_nat (off + 2)) 2 (k_mem k)) = 2%nat) by (apply slice_length; unfold lenZ in *; lia).
    rewrite swap_native16 by auto.
    pose proof (be_val_bound _ B0) as V0. pose proof (be_val_bound _ B1) as V1. unfold lenZ in V0, V1. rewrite L0 in V0. rewrite L1 in V1.
    change (8 * Z.of_nat 2) with 16 in V0, V1. 
    set (h0 := be_val bs0) in *. set (h1 := be_val (slice (Z.to_nat (off + 2)) 2 (k_mem k))) in *.
    assert (VAL : oshr (Z.lor (oshl h0 48) (oshl h1 32)) (64 - 2 * 8) = h0).
    { rewrite !oshl_small by lia. rewrite lor_disjoint by lia. rewrite oshr_ok by lia. change (64 - 2 * 8) with 48.
      rewrite Z.div_add_l by lia. rewrite Z.div_small by lia. lia. }
    rewrite VAL. rewrite be_lor; auto; try lia.
    assert (BV : be_val pre * 2 ^ (8 * 2) + h0 = be_val (pre ++ bs0)).
    { rewrite be_val_app. unfold lenZ. rewrite L0. reflexivity. }
    rewrite BV.
    assert (LB : lenZ (pre ++ bs0) = lenZ pre + 2) by (rewrite lenZ_app; unfold lenZ at 2; now rewrite L0).
    specialize (IH k base (pre ++ bs0) params (acts_width acts) (bits + 2 * 8) (mkSkk _ _ S A) HE).
    assert (IS : is_bytes (pre ++ bs0)) by (apply is_bytes_app; split; auto).
    specialize (IH IS ltac:(lia) ltac:(lia) eq_refl ltac:(lia)).
    destruct (kvals (lenZ m0) base acts _) as [bs r| |]; auto.
    destruct IH as (-> & B & L). rewrite app_assoc. split; [reflexivity|]. split; [apply is_bytes_app; split; auto|].
    rewrite app_length. lia.
  - (* four-byte index *)
    change (acts_width (I 4 :: acts)) with (9 + acts_width acts) in HO. change (acts_len (I 4 :: acts)) with (4 + acts_len acts)%nat in *.
    pose proof (acts_width_nonneg acts) as W0. subst opbits.
    change (negb (1 =? 0)) with true. cbv iota.
    replace (9 + acts_width acts) with (acts_width acts + 9) by lia. rewrite field_ext by (auto; lia).
    set (v := params / 2 ^ acts_width acts mod 2 ^ 9). assert (V : 0 <= v < 2 ^ 9) by (apply Z.mod_pos_bound; lia).
    replace (u8 (acts_width acts + 9 - 9)) with (acts_width acts) by (unfold u8; rewrite Z.mod_small; lia).
    replace (Z.to_nat (acts_width acts + 9)) with (9 + Z.to_nat (acts_width acts))%nat by lia.
    rewrite bits_of_app, Z2Nat.id by lia. cbn [kvals kval].
    rewrite <- (bits_of_mod 9 9) by lia. fold v. change (index_bits 4) with 9%nat. rewrite rdb_app by exact V.
    change (2048 - 1536 * b2z (Z.shiftr 4 2 <? 1)) with (window 4).
    pose proof (kget_index_ok k base 4 v HS ltac:(auto) V) as GI. change (Z.of_nat 4) with 4 in GI. rewrite GI. clear GI. rewrite ptotal_base by apply HS.
    pose proof (poff_mod (length base) 4 v ltac:(auto)) as PM. destruct (poff_spec (length base) 4 v ltac:(auto) V) as (P0 & _).
    set (off := poff (length base) 4 v) in *. change (Z.of_nat 4) with 4 in *. change (Z.max 4 4) with 4.
    destruct (Z.gtb_spec (off + 4) (lenZ base)) as [C|C].
    { cbn [kraise k_err]. reflexivity. }
    rewrite HE. change (negb (0 =? 0)) with false. cbv iota.
    assert (OF : 2 * Z.shiftr off 1 = off).
    { rewrite Z.shiftr_div_pow2 by lia. change (2 ^ 1) with 2. pose proof (Z.div_mod off 2 ltac:(lia)).
      pose proof (Z.div_mod off 4 ltac:(lia)). pose proof (Z.mod_pos_bound off 2 ltac:(lia)). lia. }
    replace (2 * (Z.shiftr off 1 + 1)) with (off + 2) by lia. rewrite OF.
    destruct HS as [S A]. pose proof (sk_mlen _ _ _ _ S) as ML. cbn [o_mem] in ML.
    pose proof (sk_cap _ _ _ _ S) as SC. pose proof (sk_fit _ _ _ _ S) as SF.
    pose proof (sk_load _ _ _ base (Z.to_nat off) 2 S ltac:(unfold lenZ in *; lia)) as LD. cbn [o_mem] in LD. rewrite Z2Nat.id in LD by lia.
    pose proof (sk_load _ _ _ base (Z.to_nat (off + 2)) 2 S ltac:(unfold lenZ in *; lia)) as LD2. cbn [o_mem] in LD2. rewrite Z2Nat.id in LD2 by lia.
    change (Z.of_nat 2) with 2 in LD, LD2. unfold load16. rewrite LD, !bind_done, LD2, !bind_done.
    set (bs0 := slice (Z.to_nat off) 2 base) in *. set (bs1 := slice (Z.to_nat (off + 2)) 2 base) in *.
    assert (L0 : length bs0 = 2%nat) by (apply slice_length; unfold lenZ in *; lia).
    assert (L1 : length bs1 = 2%nat) by (apply slice_length; unfold lenZ in *; lia).
    assert (B0 : is_bytes bs0) by (apply is_bytes_slice, (sk_obytes _ _ _ _ S)).
    assert (B1 : is_bytes bs1) by (apply is_bytes_slice, (sk_obytes _ _ _ _ S)).
    rewrite !swap_native16 by auto.
    assert (S4 : slice (Z.to_nat off) 4 base = bs0 ++ bs1).
    { unfold bs0, bs1, slice. replace (Z.to_nat (off + 2)) with (Z.to_nat off + 2)%nat by lia. rewrite <- skipn_add.
      rewrite <- (firstn_skipn 2 (firstn 4 _)). rewrite firstn_firstn_le by lia. f_equal. now rewrite skipn_firstn_comm. }
    destruct (Z.gtb_spec (off + 4) (lenZ m0)) as [G|G]; [lia|]. rewrite S4.
    pose proof (be_val_bound _ B0) as V0. pose proof (be_val_bound _ B1) as V1. unfold lenZ in V0, V1. rewrite L0 in V0. rewrite L1 in V1.
    change (8 * Z.of_nat 2) with 16 in V0, V1.
    assert (BB : be_val (bs0 ++ bs1) = be_val bs0 * 2 ^ 16 + be_val bs1) by (rewrite be_val_app; unfold lenZ; now rewrite L1).
    set (h0 := be_val bs0) in *. set (h1 := be_val bs1) in *.
    assert (VAL : oshr (Z.lor (oshl h0 48) (oshl h1 32)) (64 - 4 * 8) = be_val (bs0 ++ bs1)).
    { rewrite BB, !oshl_small by lia. rewrite lor_disjoint by lia. rewrite oshr_ok by lia. change (64 - 4 * 8) with 32.
      replace (h0 * 2 ^ 48 + h1 * 2 ^ 32) with ((h0 * 2 ^ 16 + h1) * 2 ^ 32) by ring. apply Z.div_mul. lia. }
    rewrite VAL. set (bs4 := bs0 ++ bs1) in *.
    assert (L4 : length bs4 = 4%nat) by (unfold bs4; rewrite app_length; lia).
    assert (B4 : is_bytes bs4) by (apply is_bytes_app; auto).
    pose proof (be_val_bound _ B4) as V4. unfold lenZ in V4. rewrite L4 in V4. change (8 * Z.of_nat 4) with 32 in V4.
    rewrite be_lor; auto; try lia.
    assert (BV : be_val pre * 2 ^ (8 * 4) + be_val bs4 = be_val (pre ++ bs4)).
    { rewrite be_val_app. unfold lenZ. rewrite L4. reflexivity. }
    rewrite BV.
    assert (LB : lenZ (pre ++ bs4) = lenZ pre + 4) by (rewrite lenZ_app; unfold lenZ at 2; now rewrite L4).
    specialize (IH k base (pre ++ bs4) params (acts_width acts) (bits + 4 * 8) (mkSkk _ _ S A) HE).
    assert (IS : is_bytes (pre ++ bs4)) by (apply is_bytes_app; split; auto).
    specialize (IH IS ltac:(lia) ltac:(lia) eq_refl ltac:(lia)).
    destruct (kvals (lenZ m0) base acts _) as [bs r| |]; auto.
    destruct IH as (-> & B & L). rewrite app_assoc. split; [reflexivity|]. split; [apply is_bytes_app; split; auto|].
    rewrite app_length. lia.
Qed.

Lemma krepeat_ok n : forall k out, skk k out -> (8 <= length out)%nat -> lenZ out + 8 * Z.of_nat n <= cap ->
  exists k', krepeat e n k = Done k' /\ skk k' (out ++ copies n (last8 out)) /\
    k_in k' = k_in k /\ k_bits k' = k_bits k /\ k_buffer k' = k_buffer k /\ k_la k' = k_la k /\ k_err k' = k_err k.
Proof.
  induction n; intros k out Ho L8 Hfit; cbn [krepeat].
  - exists k. split; auto. change (copies 0 (last8 out)) with (@nil Z). rewrite app_nil_r. repeat split; auto; apply Ho.
  - assert (LL := last8_length out L8). pose proof (skk_pos _ _ Ho) as PO. pose proof Ho as [S A].
    pose proof (sk_load cap m0 _ out (length out - 8) 8 S ltac:(lia)) as LD. cbn [o_mem] in LD.
    replace (8 * (k_out k - 1)) with (Z.of_nat (length out - 8)) by (unfold lenZ in *; lia).
    unfold load64. change 8 with (Z.of_nat 8) at 1. rewrite LD, !bind_done.
    assert (E8 : slice (length out - 8) 8 out = last8 out).
    { unfold slice, last8. apply firstn_all2. rewrite skipn_length. lia. }
    rewrite E8.
    assert (B8 : is_bytes (last8 out)) by (apply is_bytes_skipn; apply (sk_obytes _ _ _ _ S)).
    destruct (skk_store k out (last8 out) Ho B8 LL) as (m & ES & SS). { lia. }
    unfold store64. rewrite native_roundtrip by auto. rewrite ES, bind_done.
    destruct (IHn _ _ (SS (k_in k) (k_bits k) (k_buffer k) (k_la k) (k_err k))) as (k' & -> & S' & R).
    { rewrite app_length. lia. } { rewrite lenZ_app. unfold lenZ at 2. rewrite LL. lia. }
    exists k'. split; auto. rewrite last8_app in S' by auto. rewrite <- app_assoc in S'. split; [exact S'|exact R].
Qed.

Definition kagrees (out0 : list Z) (fin : bool) (q : pres) (r : outcome ((Z + bool) * kstate)) : Prop :=
  match q with
  | POk out bits => exists k', r = Done (inr fin, k') /\ rdk k' bits /\ skk k' out /\ k_err k' = 0
  | PErr c => c < 0 /\ exists k', r = Done (inl c, k') /\ skk k' out0
  | PUndef => r = Undef
  end.

Lemma kstep_ok k out bits : rdk k bits -> skk k out -> k_err k = 0 ->
  let '(fin, q) := kd_step (lenZ m0) cap out bits in kagrees out fin q (kstep e inp ilen cap k).
Proof.
  intros Hr Hs H0. unfold kstep, kd_step.
  assert (NEG : - EINVAL < 0 /\ - ENOSPC < 0) by (unfold EINVAL, ENOSPC; lia). destruct NEG as (NI & NN).
  assert (NE0 : negb (- EINVAL =? 0) = true) by reflexivity.
  assert (NZ0 : negb (0 =? 0) = false) by reflexivity.
  pose proof (kread_bits_ok k bits OP_BITS Hr ltac:(unfold OP_BITS; lia)) as RB. change (Z.to_nat OP_BITS) with 5%nat in RB.
  destruct (rdb 5 bits) as [[op b1]|] eqn:R.
  2: { destruct RB as (v & k1 & -> & E1 & M1 & P1). rewrite bind_done, E1, H0. change (0 =? 0) with true. cbv iota. rewrite NE0.
       split; auto. exists k1. split; [reflexivity|]. eapply skk_same; eauto. }
  destruct RB as (k1 & -> & Hr1 & V & E1 & M1 & P1). rewrite bind_done. rewrite H0 in E1. rewrite E1, NZ0. cbv iota.
  change (2 ^ OP_BITS) with 32 in V.
  assert (Hs1 : skk k1 out) by (eapply skk_same; eauto).
  pose proof (skk_pos _ _ Hs1) as PO. pose proof Hs1 as [SK1 AL1]. 
  change OP_ZEROS with 0x1c. change OP_REPEAT with 0x1b. change OP_END with 0x1e. change (OPS_MAX - 1) with 0x19.
  assert (PO' : k_out k1 * 8 = lenZ out) by lia.
  destruct (Z.eqb_spec op 0x1b) as [->|N1].
  { change (template 0x1b) with (@None (list action)). cbv iota.
    pose proof (kread_bits_ok k1 b1 REPEAT_BITS Hr1 ltac:(unfold REPEAT_BITS; lia)) as RB. change (Z.to_nat REPEAT_BITS) with 6%nat in RB.
    destruct (rdb 6 b1) as [[rep b2]|] eqn:R2.
    2: { destruct RB as (v & k2 & -> & E2 & M2 & P2). rewrite bind_done, E2, E1. change (0 =? 0) with true. cbv iota. rewrite NE0.
         split; auto. exists k2. split; [reflexivity|]. eapply skk_same; eauto. }
    destruct RB as (k2 & -> & Hr2 & V2 & E2 & M2 & P2). rewrite bind_done. rewrite E1 in E2. rewrite E2, NZ0. cbv iota.
    change (2 ^ REPEAT_BITS) with 64 in V2.
    assert (Hs2 : skk k2 out) by (eapply skk_same; eauto). rewrite P2. rewrite PO'.
    destruct (Z.eqb_spec (k_out k1) 0) as [Z0|Z0]; destruct (Nat.eqb_spec (length out) 0) as [Z1|Z1]; try (unfold lenZ in PO; lia).
    { split; auto. eauto. }
    destruct (Z.gtb_spec (lenZ out + (rep + 1) * 8) cap) as [C|C].
    { split; auto. eauto. }
    destruct (krepeat_ok (Z.to_nat (rep + 1)) k2 out Hs2 (al8_ge8 _ AL1 Z1) ltac:(lia)) as (k3 & -> & S3 & A1 & A2 & A3 & A4 & A5).
    rewrite bind_done. exists k3. split; [reflexivity|]. split; [eapply rdk_same; eauto|]. split; [auto|congruence]. }
  destruct (Z.eqb_spec op 0x1c) as [->|N2].
  { change (template 0x1c) with (@None (list action)). cbv iota. rewrite PO'.
    destruct (Z.gtb_spec (lenZ out + 8) cap) as [C|C]. { split; auto. eauto. }
    destruct (skk_store k1 out (List.repeat 0 8) Hs1) as (m & ES & SS).
    { apply is_bytes_repeat. unfold is_byte; lia. } { reflexivity. } { lia. }
    unfold store64. rewrite native_zero, ES, bind_done. eexists. split; [reflexivity|].
    split; [eapply rdk_same; [| | | |exact Hr1]; reflexivity|]. split; [apply SS|first [exact E1|reflexivity]]. }
  destruct (Z.eqb_spec op 0x1e) as [->|N3].
  { change (template 0x1e) with (@None (list action)). cbv iota. cbn [kagrees]. eauto. }
  destruct (Z.eqb_spec op 0x19) as [->|N4].
  { (* eight-byte index *)
    change (template 0x19) with (Some [I 8]). cbv iota. change (Z.to_nat (acts_width [I 8])) with 8%nat.
    pose proof (kread_bits_ok k1 b1 8 Hr1 ltac:(lia)) as RB. change (Z.to_nat 8) with 8%nat in RB.
    destruct (rdb 8 b1) as [[i b2]|] eqn:R2.
    2: { destruct RB as (v & k2 & -> & E2 & M2 & P2). rewrite bind_done, E2, E1. change (0 =? 0) with true. cbv iota. rewrite NE0.
         split; auto. exists k2. split; [reflexivity|]. eapply skk_same; eauto. }
    destruct RB as (k2 & -> & Hr2 & V2 & E2 & M2 & P2). rewrite bind_done. rewrite E1 in E2. rewrite E2, NZ0. cbv iota.
    assert (Hs2 : skk k2 out) by (eapply skk_same; eauto).
    cbn [kvals kval]. change (index_bits 8) with 8%nat. rewrite <- (app_nil_r (bits_of 8 i)). rewrite rdb_app by exact V2.
    pose proof (kget_index_ok k2 out 8 i Hs2 ltac:(auto) V2) as GI. change (Z.of_nat 8) with 8 in GI. change (window 8) with I8_FIFO_SIZE in GI.
    rewrite GI. clear GI. rewrite (ptotal_base out AL1). change (Z.of_nat 8) with 8. change (Z.max 4 8) with 8. cbv zeta.
    pose proof (poff_mod (length out) 8 i ltac:(auto)) as PM. destruct (poff_spec (length out) 8 i ltac:(auto) V2) as (P0 & _).
    set (off := poff (length out) 8 i) in *. change (Z.of_nat 8) with 8 in *.
    destruct (Z.gtb_spec (off + 8) (lenZ out)) as [C|C].
    { cbn [kraise k_err]. rewrite NE0. split; auto. exists (kraise k2 (- EINVAL)). split; [reflexivity|]. eapply skk_same; [| |exact Hs2]; reflexivity. }
    rewrite E2, NZ0. cbv iota. rewrite P2, PO'.
    pose proof (sk_cap _ _ _ _ SK1) as SC. pose proof (sk_fit _ _ _ _ SK1) as SF.
    destruct (Z.gtb_spec (off + 8) (lenZ m0)) as [G|G]; [lia|].
    destruct (Z.gtb_spec (lenZ out + 8) cap) as [C2|C2]. { split; auto. eauto. }
    assert (OF : 8 * Z.shiftr off 3 = off).
    { rewrite Z.shiftr_div_pow2 by lia. change (2 ^ 3) with 8. pose proof (Z.div_mod off 8 ltac:(lia)). lia. }
    rewrite OF. rewrite app_nil_r. destruct Hs2 as [S A].
    pose proof (sk_load _ _ _ out (Z.to_nat off) 8 S ltac:(unfold lenZ in *; lia)) as LD. cbn [o_mem] in LD. rewrite Z2Nat.id in LD by lia.
    change (Z.of_nat 8) with 8 in LD. unfold load64. rewrite LD, !bind_done.
    set (bs := slice (Z.to_nat off) 8 out) in *.
    assert (L8 : length bs = 8%nat) by (apply slice_length; unfold lenZ in *; lia).
    assert (B8 : is_bytes bs) by (apply is_bytes_slice, (sk_obytes _ _ _ _ S)).
    unfold store64. rewrite native_roundtrip by auto.
    destruct (skk_store k2 out bs (mkSkk _ _ S A) B8 L8 ltac:(lia)) as (m & ES & SS). rewrite P2 in ES. rewrite ES, bind_done.
    eexists. split; [reflexivity|]. split; [eapply rdk_same; [| | | |exact Hr2]; reflexivity|]. split; [rewrite <- P2; apply SS|first [exact E2|reflexivity]]. }
  (* the templates of four fields, or an unassigned opcode *)
  unfold kdo_op. change OPS_MAX with 26.
  destruct (Z.geb_spec op 26) as [G26|L26].
  { rewrite bind_done. cbn [kraise k_err]. rewrite NE0.
    assert (T : template op = None).
    { assert (op = 26 \/ op = 29 \/ op = 31) as [-> | [-> | ->]] by lia; reflexivity. }
    rewrite T. destruct (Z.eqb_spec op 0x1b); [lia|]. destruct (Z.eqb_spec op 0x1c); [lia|]. destruct (Z.eqb_spec op 0x1e); [lia|].
    split; auto. exists (kraise k1 (- EINVAL)). split; [reflexivity|]. eapply skk_same; [| |exact Hs1]; reflexivity. }
  destruct (kop_ok op ltac:(lia)) as (acts & T & OB & FM & W & NW & NL). rewrite T. rewrite OB.
  destruct (template_sizes _ _ T) as (TS & _).
  pose proof (kread_bits_ok k1 b1 (acts_width acts) Hr1 W) as RB.
  destruct (rdb (Z.to_nat (acts_width acts)) b1) as [[params b2]|] eqn:R2.
  2: { destruct RB as (v & k2 & -> & E2 & M2 & P2). rewrite bind_done, E2, E1. change (0 =? 0) with true. cbv iota. rewrite NE0, bind_done, E2, E1.
       change (0 =? 0) with true. cbv iota. rewrite NE0. split; auto. exists k2. split; [reflexivity|]. eapply skk_same; eauto. }
  destruct RB as (k2 & -> & Hr2 & V2 & E2 & M2 & P2). rewrite bind_done. rewrite E1 in E2. rewrite E2, NZ0. cbv iota.
  assert (Hs2 : skk k2 out) by (eapply skk_same; eauto).
  pose proof (kfields_ok _ _ FM k2 out [] params (acts_width acts) 0 Hs2 E2 ltac:(constructor) eq_refl ltac:(rewrite NL; reflexivity) ltac:(congruence) ltac:(lia)) as KF.
  rewrite (kvals_norm _ _ _ TS) in KF. change (be_val [] * 2 ^ (64 - 0)) with 0 in KF. cbn [app] in KF.
  destruct (kvals (lenZ m0) out acts _) as [bs r| |].
  - destruct KF as (-> & BB & LB). rewrite bind_done. rewrite P2, PO'.
    destruct (Z.gtb_spec (lenZ out + 8) cap) as [C|C].
    { rewrite bind_done. cbn [kraise k_err]. change (negb (- ENOSPC =? 0)) with true. cbv iota. split; auto.
      exists (kraise k2 (- ENOSPC)). split; [reflexivity|]. eapply skk_same; [| |exact Hs2]; reflexivity. }
    assert (L8 : length bs = 8%nat) by lia.
    destruct (skk_store k2 out bs Hs2 BB L8 ltac:(lia)) as (m & ES & SS). rewrite P2 in ES.
    unfold store64. replace (swap_be_to_native64 e (be_val bs)) with (swap_native_to_be64 e (be_val bs)) by reflexivity.
    rewrite native_swap64. rewrite <- L8 at 1. rewrite be_bytes_be_val by auto. rewrite ES, !bind_done. cbn [k_err]. rewrite E2, NZ0.
    eexists. split; [reflexivity|]. split; [eapply rdk_same; [| | | |exact Hr2]; reflexivity|]. split; [rewrite <- P2; apply SS|reflexivity].
  - rewrite KF, !bind_done. cbn [kraise k_err]. rewrite NE0. split; auto.
    exists (kraise k2 (- EINVAL)). split; [reflexivity|]. eapply skk_same; [| |exact Hs2]; reflexivity.
  - rewrite KF. reflexivity.
Qed.

Lemma kloop_ok f : forall k out bits, rdk k bits -> skk k out -> k_err k = 0 ->
  match kd_loop f (lenZ m0) cap out bits with
  | Some (POk x rest) => exists k', kloop e f inp ilen cap k = Done (0, k') /\ rdk k' rest /\ skk k' x /\ k_err k' = 0
  | Some (PErr c) => c < 0 /\ exists k', kloop e f inp ilen cap k = Done (c, k') /\ skk k' (kd_fin f (lenZ m0) cap out bits)
  | Some PUndef => kloop e f inp ilen cap k = Undef
  | None => kloop e f inp ilen cap k = NoFuel
  end.
Proof.
  induction f as [|f IH]; intros k out bits Hr Hs H0; cbn [kd_loop kd_fin kloop]; auto.
  pose proof (kstep_ok k out bits Hr Hs H0) as A.
  destruct (kd_step (lenZ m0) cap out bits) as [fin [o1 b1|c|]] eqn:Q; cbn [kagrees] in A.
  - destruct A as (k' & -> & Hr' & Hs' & E'). rewrite bind_done. destruct fin; [eauto 6|]. apply IH; auto.
  - destruct A as (C & k' & -> & S'). rewrite bind_done. destruct fin; split; eauto.
  - rewrite A. destruct fin; reflexivity.
Qed.
End Dec.

(** What decompress_core does: [qd_loop] is the decoder optsw842_decompress
    refines (OptDecomp.v); [readable] says that the words the kernel looks
    ahead at are inside the input memory. *)
Definition readable (inp : list Z) (ilen : Z) : Prop := 0 <= ilen /\ forall i, 0 <= i -> i * 8 < ilen -> 8 * i + 8 <= lenZ inp.
Definition krun (inp : list Z) (ilen ml cap : Z) : option pres :=
  kd_loop (S (Z.to_nat (8 * lenZ inp))) ml cap [] (bytes_bits (whole (firstn (Z.to_nat ilen) inp))).
Definition kfin (inp : list Z) (ilen ml cap : Z) : list Z :=
  kd_fin (S (Z.to_nat (8 * lenZ inp))) ml cap [] (bytes_bits (whole (firstn (Z.to_nat ilen) inp))).

Theorem core_pure e inp ilen out olen : is_bytes inp -> is_bytes out -> readable inp ilen -> 0 <= olen <= lenZ out -> olen < 2 ^ 63 ->
  match krun inp ilen (lenZ out) olen with
  | None => False
  | Some PUndef => decompress_core e inp ilen out olen = Undef
  | Some (PErr c) => c < 0 /\ let w := kfin inp ilen (lenZ out) olen in is_bytes w /\ lenZ w <= olen /\
      decompress_core e inp ilen out olen = Done (c, 0, w ++ skipn (length w) out)
  | Some (POk x rest) =>
    exists m, m = x ++ skipn (length x) out /\ is_bytes x /\ lenZ x <= olen /\ al8 x /\
    decompress_core e inp ilen out olen = match rdb 32 rest with None => Done (- EINVAL, 0, m) | Some _ => Done (0, lenZ x, m) end
  end.
Proof.
  intros Hi Ho [HL HR] Hc H63. unfold decompress_core, krun, kfin.
  rewrite !(lookahead_ok e inp ilen Hi HR), !bind_done by lia.
  assert (R0 : rdk inp ilen (mkK 0 0 0 [word inp ilen 0; word inp ilen 1; word inp ilen 2; word inp ilen 3; word inp ilen 4; word inp ilen 5] 0 out 0)
    (bytes_bits (whole (cin inp ilen)))).
  { constructor. { apply rdo_init. } cbn [k_in k_la]. intros j Hj. destruct j as [|[|[|[|[|[|j]]]]]]; try reflexivity. lia. }
  assert (S0 : skk out olen (mkK 0 0 0 [word inp ilen 0; word inp ilen 1; word inp ilen 2; word inp ilen 3; word inp ilen 4; word inp ilen 5] 0 out 0) []).
  { constructor; [|reflexivity]. cbn [k_mem k_out]. rewrite Z.mul_0_r, Z.sub_0_r. now apply sk_init. }
  pose proof (kloop_ok e inp ilen out olen Hi HL HR H63 (S (Z.to_nat (8 * lenZ inp))) _ _ _ R0 S0 eq_refl) as L. unfold cin in L.
  assert (FU : (length (bytes_bits (whole (firstn (Z.to_nat ilen) inp))) < S (Z.to_nat (8 * lenZ inp)))%nat).
  { rewrite bytes_bits_length, whole_length. set (c := firstn (Z.to_nat ilen) inp). pose proof (Nat.mul_div_le (length c) 8 ltac:(lia)).
    assert (length c <= length inp)%nat by (unfold c; rewrite firstn_length; lia). unfold lenZ. lia. }
  pose proof (qd_loop_fuel _ olen [] _ eq_refl FU) as NF.
  pose proof (kd_loop_qd (lenZ out) olen ltac:(lia) (S (Z.to_nat (8 * lenZ inp))) [] (bytes_bits (whole (firstn (Z.to_nat ilen) inp))) eq_refl ltac:(rewrite lenZ_nil; lia)) as KQ.
  destruct (kd_loop _ (lenZ out) olen [] _) as [[x rest|c|]|] eqn:K.
  - destruct L as (k & -> & Hr & Hs & E0). rewrite bind_done. change (negb (0 =? 0)) with false. cbv iota.
    pose proof (skk_pos _ _ _ _ Hs) as PO. destruct Hs as [SK AL].
    exists (k_mem k). split; [apply (sk_mem _ _ _ _ SK)|]. split; [apply (sk_obytes _ _ _ _ SK)|]. split; [apply (sk_fit _ _ _ _ SK)|]. split; auto.
    pose proof (kread_bits_ok e inp ilen Hi HL HR k rest CRC_BITS Hr ltac:(unfold CRC_BITS; lia)) as RB. change (Z.to_nat CRC_BITS) with 32%nat in RB.
    destruct (rdb 32 rest) as [[crc b]|].
    + destruct RB as (k1 & -> & _ & _ & E1 & M1 & P1). rewrite bind_done, E1, E0. change (negb (0 =? 0)) with false. cbv iota. rewrite M1, P1.
      replace (k_out k * 8) with (lenZ x) by lia. reflexivity.
    + destruct RB as (v & k1 & -> & E1 & M1 & P1). rewrite bind_done, E1, E0, M1. reflexivity.
  - destruct L as (C & k & -> & Hs). rewrite bind_done. split; auto. destruct (Z.eqb_spec c 0); [lia|]. cbn [negb].
    destruct Hs as [SK _]. cbv zeta. split; [apply (sk_obytes _ _ _ _ SK)|]. split; [apply (sk_fit _ _ _ _ SK)|].
    f_equal. f_equal. apply (sk_mem _ _ _ _ SK).
  - rewrite L. reflexivity.
  - apply NF. destruct (qd_loop _ olen [] _) as [[x rest|c|]|]; try discriminate; auto.
    destruct KQ as [KQ|[[_ KQ]|(_ & _ & KQ)]]; discriminate.
Qed.

(** With two bytes of memory behind the room for the output, the result is a
    function of the first [ilen] bytes of input and of the room. *)
Definition core_res (c : list Z) (cap : Z) : Z * Z * list Z :=
  let bits := bytes_bits (whole c) in
  let f := S (length bits) in
  match kd_loop f (cap + 2) cap [] bits with
  | Some (POk x rest) => match rdb 32 rest with None => (- EINVAL, 0, x) | Some _ => (0, lenZ x, x) end
  | Some (PErr c) => (c, 0, kd_fin f (cap + 2) cap [] bits)
  | _ => (- EINVAL, 0, [])
  end.

Lemma core_fun e inp ilen out olen : is_bytes inp -> is_bytes out -> readable inp ilen -> 0 <= olen -> olen + 2 <= lenZ out -> olen < 2 ^ 63 ->
  let '(r, n, w) := core_res (firstn (Z.to_nat ilen) inp) olen in
  is_bytes w /\ lenZ w <= olen /\ (r = 0 -> n = lenZ w) /\ (r <> 0 -> n = 0) /\ decompress_core e inp ilen out olen = Done (r, n, w ++ skipn (length w) out).
Proof.
  intros Hi Ho HR H0 H2 H63. pose proof (core_pure e inp ilen out olen Hi Ho HR ltac:(lia) H63) as C. unfold krun, kfin in C. unfold core_res.
  set (bits := bytes_bits (whole (firstn (Z.to_nat ilen) inp))) in *.
  assert (FU : (length bits < S (Z.to_nat (8 * lenZ inp)))%nat).
  { unfold bits. rewrite bytes_bits_length, whole_length. set (c := firstn (Z.to_nat ilen) inp). pose proof (Nat.mul_div_le (length c) 8 ltac:(lia)).
    assert (length c <= length inp)%nat by (unfold c; rewrite firstn_length; lia). unfold lenZ. lia. }
  destruct (kd_loop_ml (lenZ out) (olen + 2) olen (S (Z.to_nat (8 * lenZ inp))) ltac:(lia) ltac:(lia) [] bits eq_refl ltac:(rewrite lenZ_nil; lia)) as [E1 E2].
  rewrite E1, E2 in C. clear E1 E2.
  assert (NF : kd_loop (S (length bits)) (olen + 2) olen [] bits <> None).
  { pose proof (qd_loop_fuel (S (length bits)) olen [] bits eq_refl ltac:(lia)) as NF.
    pose proof (kd_loop_qd (olen + 2) olen ltac:(lia) (S (length bits)) [] bits eq_refl ltac:(rewrite lenZ_nil; lia)) as KQ.
    destruct (qd_loop _ olen [] bits) as [[x rest|c|]|]; try (rewrite KQ; discriminate); auto.
    destruct KQ as [KQ|[[_ KQ]|(_ & _ & KQ)]]; rewrite KQ; discriminate. }
  assert (NU : kd_loop (S (length bits)) (olen + 2) olen [] bits <> Some PUndef).
  { pose proof (kd_loop_qd (olen + 2) olen ltac:(lia) (S (length bits)) [] bits eq_refl ltac:(rewrite lenZ_nil; lia)) as KQ.
    pose proof (qd_loop_good (S (length bits)) olen [] bits) as QG.
    destruct (qd_loop _ olen [] bits) as [[x rest|c|]|]; try (rewrite KQ; discriminate); auto.
    - destruct KQ as [KQ|[[_ KQ]|(_ & KL & KQ)]]; try (rewrite KQ; discriminate). lia.
    - destruct (QG _ eq_refl). }
  destruct (kd_loop (S (length bits)) (olen + 2) olen [] bits) as [p|] eqn:K; [|now destruct NF].
  destruct (kd_loop_more _ _ _ (S (Z.to_nat (8 * lenZ inp))) _ _ _ K ltac:(lia)) as [K1 K2]. rewrite K1 in C.
  destruct p as [x rest|c|]; [| |now destruct NU].
  - destruct C as (m & -> & B & F & _ & E). destruct (rdb 32 rest); (split; [auto|]; split; [auto|]; split; [|split; auto]); auto; try lia.
    intros; unfold EINVAL in *; lia.
  - destruct C as (CN & C). cbv zeta in C. rewrite K2 in C. destruct C as (B & F & E). split; [auto|]. split; [auto|]. split; [lia|]. auto.
Qed.
