(** The work items of the OpenCL kernel: what each does to the buffers, and
    that the order does not matter. *)
From Coq Require Import ZArith List Bool Lia Permutation.
From Verif Require Import SpecBits SpecCrc Spec842 CBase BitsLemmas SerialIdeal SerialValid PureDecoder SerialFacts SerialDecomp OptDecomp OclModel SpecOcl OclPure OclProofs.
Import ListNotations.
Open Scope Z_scope.

(** ** The result of the decoder in terms of the format *)
Lemma kd_meaning ml cap bits f : 0 <= cap <= ml -> (length bits < f)%nat ->
  (forall x rest, stream false [] bits x rest -> lenZ x <= cap -> kd_loop f ml cap [] bits = Some (POk x rest)) /\
  (forall x rest, stream false [] bits x rest -> cap < lenZ x ->
    kd_loop f ml cap [] bits = Some (PErr (- ENOSPC)) \/ (ml < cap + 2 /\ kd_loop f ml cap [] bits = Some PUndef)) /\
  (forall x rest, kd_loop f ml cap [] bits = Some (POk x rest) -> stream false [] bits x rest /\ lenZ x <= cap) /\
  (exists p, kd_loop f ml cap [] bits = Some p /\ (p = PUndef -> ml < cap + 2) /\ forall c, p = PErr c -> c = - EINVAL \/ c = - ENOSPC).
Proof.
  intros HC HF.
  pose proof (kd_loop_qd ml cap ltac:(lia) f [] bits eq_refl ltac:(rewrite lenZ_nil; lia)) as KQ.
  pose proof (qd_loop_fuel f cap [] bits eq_refl ltac:(lia)) as NF.
  pose proof (qd_loop_good f cap [] bits) as QG.
  split; [|split; [|split]].
  - intros x rest ST HX. destruct (qd_stream_complete cap _ _ _ _ ST) as [A _]. destruct (A HX) as [f1 F1].
    destruct (qd_loop f cap [] bits) as [r|] eqn:Q; [|now destruct NF].
    pose proof (qd_loop_more _ _ _ _ _ (f1 + f)%nat F1 ltac:(lia)) as M1. pose proof (qd_loop_more _ _ _ _ _ (f1 + f)%nat Q ltac:(lia)) as M2.
    rewrite M1 in M2. injection M2 as <-. exact KQ.
  - intros x rest ST HX. destruct (kd_stream_nospace ml cap _ _ _ _ ST eq_refl ltac:(rewrite lenZ_nil; lia) ltac:(lia)) as [f1 F1].
    assert (exists r, kd_loop f ml cap [] bits = Some r) as [r R].
    { destruct (qd_loop f cap [] bits) as [[ | |]|]; eauto; [|now destruct NF]. destruct KQ as [KQ|[[_ KQ]|(_ & _ & KQ)]]; eauto. }
    destruct (kd_loop_more _ _ _ (f1 + f)%nat _ _ _ R ltac:(lia)) as [M _]. rewrite R.
    destruct F1 as [F1|[L F1]]; destruct (kd_loop_more _ _ _ (f1 + f)%nat _ _ _ F1 ltac:(lia)) as [M1 _]; rewrite M in M1; injection M1 as ->; auto.
  - intros x rest K. pose proof (qd_loop_sound f cap [] bits x rest eq_refl ltac:(constructor) ltac:(rewrite lenZ_nil; lia)) as SD.
    destruct (qd_loop f cap [] bits) as [[x' r'|c|]|]; try (rewrite K in KQ; congruence).
    + rewrite K in KQ. injection KQ as <- <-. destruct (SD eq_refl) as (S1 & _ & S3 & _). auto.
    + exfalso. destruct KQ as [KQ|[[_ KQ]|(_ & _ & KQ)]]; congruence.
  - destruct (qd_loop f cap [] bits) as [[x' r'|c|]|]; [| |destruct (QG _ eq_refl)|now destruct NF].
    + exists (POk x' r'). split; auto. split; intros; discriminate.
    + specialize (QG _ eq_refl). cbn [qgood] in QG. destruct KQ as [KQ|[[-> KQ]|(-> & L & KQ)]]; eexists; (split; [exact KQ|]).
      * split; [discriminate|]. intros c0 E. injection E as <-. auto.
      * split; [discriminate|]. intros c0 E. injection E as <-. auto.
      * split; [auto|discriminate].
Qed.

Lemma whole_mod8 c : lenZ c mod 8 = 0 -> whole c = c.
Proof.
  intros H. unfold whole. apply firstn_all2. unfold lenZ in H. 
  assert (HH : (length c mod 8 = 0)%nat). { apply Nat2Z.inj. rewrite Nat2Z.inj_mod. exact H. }
  pose proof (Nat.div_mod (length c) 8 ltac:(lia)). lia.
Qed.
Lemma rdb_enough (rest : list bool) : (32 <= length rest)%nat <-> exists v r, rdb 32 rest = Some (v, r).
Proof.
  unfold rdb. destruct (Nat.leb_spec 32 (length rest)) as [H|H]; split; eauto; [lia|]. intros (v & r & E); discriminate.
Qed.

Lemma core_res_ok c cap x : lenZ c mod 8 = 0 -> 0 <= cap ->
  (denotes_842 c x /\ lenZ x <= cap <-> core_res c cap = (0, lenZ x, x)).
Proof.
  intros H8 HC. unfold core_res. rewrite (whole_mod8 c H8).
  destruct (kd_meaning (cap + 2) cap (bytes_bits c) (S (length (bytes_bits c))) ltac:(lia) ltac:(lia)) as (A1 & _ & A3 & p & A4 & A5 & A6).
  split.
  - intros ((rest & ST & L) & HX). rewrite (A1 _ _ ST HX). apply rdb_enough in L. destruct L as (v & r & ->). reflexivity.
  - rewrite A4. destruct p as [y rest|q|]; [| |exfalso; specialize (A5 eq_refl); lia].
    + destruct (rdb 32 rest) as [[v r]|] eqn:R; [|discriminate]. intros E. injection E as E ->.
      destruct (A3 _ _ A4) as (ST & HX). split; auto. exists rest. split; auto. apply rdb_enough. eauto.
    + intros E. injection E as -> _ _. destruct (A6 _ eq_refl); discriminate.
Qed.
Lemma core_res_code c cap : 0 <= cap -> let '(r, n, w) := core_res c cap in r = 0 \/ r = - EINVAL \/ r = - ENOSPC.
Proof.
  intros HC. unfold core_res.
  destruct (kd_meaning (cap + 2) cap (bytes_bits (whole c)) (S (length (bytes_bits (whole c)))) ltac:(lia) ltac:(lia)) as (_ & _ & _ & p & A4 & A5 & A6).
  rewrite A4. destruct p as [y rest|q|]; [|destruct (A6 _ eq_refl); auto|auto]. destruct (rdb 32 rest); auto.
Qed.
Lemma core_res_nospace c cap x : lenZ c mod 8 = 0 -> 0 <= cap -> denotes_842 c x -> cap < lenZ x -> exists w, core_res c cap = (- ENOSPC, 0, w).
Proof.
  intros H8 HC (rest & ST & L) HX. unfold core_res. rewrite (whole_mod8 c H8).
  destruct (kd_meaning (cap + 2) cap (bytes_bits c) (S (length (bytes_bits c))) ltac:(lia) ltac:(lia)) as (_ & A2 & _).
  destruct (A2 _ _ ST HX) as [-> | [? _]]; [eauto|lia].
Qed.

(** ** One work item *)
Lemma global_size_ge num : 0 <= num <= 2 ^ 64 - 256 -> num <= global_size num < num + 256.
Proof.
  intros H. unfold global_size. unfold u64. rewrite Z.mod_small by lia.
  change (2 ^ 64 - 1 - 255) with (Z.shiftl (Z.ones 56) 8).
  assert (E : Z.land (num + 255) (Z.shiftl (Z.ones 56) 8) = Z.shiftl (Z.shiftr (num + 255) 8) 8).
  { apply Z.bits_inj'. intros n Hn. rewrite Z.land_spec, !Z.shiftl_spec by lia. destruct (Z.ltb_spec n 8) as [L|L].
    - rewrite !(Z.testbit_neg_r _ (n - 8)) by lia. apply andb_false_r.
    - rewrite Z.shiftr_spec by lia. replace (n - 8 + 8) with n by lia. destruct (Z.ltb_spec (n - 8) 56) as [L2|L2].
      + rewrite Z.ones_spec_low by lia. apply andb_true_r.
      + rewrite Z.ones_spec_high by lia. rewrite andb_false_r. symmetry.
        destruct (Z.eq_dec (num + 255) 0); [lia|]. apply Z.bits_above_log2; [lia|]. apply Z.log2_lt_pow2; [lia|].
        apply Z.lt_le_trans with (2 ^ 64); [lia|]. apply Z.pow_le_mono_r; lia. }
  rewrite E, Z.shiftl_mul_pow2, Z.shiftr_div_pow2 by lia. change (2 ^ 8) with 256.
  pose proof (Z.div_mod (num + 255) 256 ltac:(lia)). pose proof (Z.mod_pos_bound (num + 255) 256 ltac:(lia)). lia.
Qed.

Definition put (M : list Z) (o : nat) (w : list Z) : list Z := firstn o M ++ w ++ skipn (o + length w) M.
Lemma put_length M o w : (o + length w <= length M)%nat -> length (put M o w) = length M.
Proof. intros. unfold put. rewrite !app_length, firstn_length, skipn_length. lia. Qed.
Lemma put_nth M o w p : (o + length w <= length M)%nat ->
  nth p (put M o w) 0 = if (o <=? p)%nat && (p <? o + length w)%nat then nth (p - o) w 0 else nth p M 0.
Proof.
  intros H. unfold put. destruct (Nat.leb_spec o p) as [A|A]; cbn [andb].
  - rewrite app_nth2 by (rewrite firstn_length; lia). rewrite firstn_length, Nat.min_l by lia.
    destruct (Nat.ltb_spec p (o + length w)) as [B|B].
    + rewrite app_nth1 by lia. reflexivity.
    + rewrite app_nth2 by lia. rewrite <- (firstn_skipn (o + length w) M) at 2.
      rewrite (app_nth2 (firstn (o + length w) M)) by (rewrite firstn_length; lia). rewrite firstn_length. f_equal. lia.
  - rewrite app_nth1 by (rewrite firstn_length; lia). rewrite <- (firstn_skipn o M) at 2. rewrite (app_nth1 (firstn o M)) by (rewrite firstn_length; lia). reflexivity.
Qed.
Lemma put_bytes M o w : is_bytes M -> is_bytes w -> is_bytes (put M o w).
Proof. intros. unfold put. rewrite !is_bytes_app. auto using is_bytes_firstn, is_bytes_skipn. Qed.
Lemma native_bytes_length e n v : length (native_bytes e n v) = n.
Proof. destruct e; cbn [native_bytes]; rewrite ?rev_length; apply be_bytes_length. Qed.
Lemma native_val_bytes e n v : 0 <= v < 2 ^ Z.of_nat (8 * n) -> native_val e (native_bytes e n v) = v.
Proof. intros. destruct e; cbn [native_val native_bytes]; rewrite ?rev_involutive; now apply be_val_be_bytes. Qed.

(** What a work item leaves: return value, size, bytes written at the start of the chunk. *)
Definition item_res (e : endian) (a : cl_args) (c cap : Z) : Z * Z * list Z :=
  match a_format a with
  | AlwaysCompressed => core_res (bytes_at (a_in a) (in_pos a c) (elem (a_ilen a) c)) cap
  | MaybeCompressed =>
    let chunk := bytes_at (a_in a) (in_pos a c) (a_size a) in
    if list_eqb (firstn 16 chunk) MARKER then
      let n := native_val e (slice 16 8 chunk) in
      if n =? 0 then (0, a_size a, []) else core_res (bytes_at chunk (a_size a - n) n) cap
    else (0, a_size a, chunk)
  end.

Lemma list_eqb_eq a : forall b, list_eqb a b = true <-> a = b.
Proof.
  induction a as [|x a IH]; intros [|y b]; cbn [list_eqb]; split; intros H; try discriminate; auto.
  - apply andb_true_iff in H. destruct H as [H1 H2]. apply Z.eqb_eq in H1. apply IH in H2. congruence.
  - injection H as -> ->. rewrite Z.eqb_refl. apply IH. reflexivity.
Qed.
Lemma slice_slice {A} (l : list A) p n q k : (q + k <= n)%nat -> slice q k (slice p n l) = slice (p + q) k l.
Proof.
  intros H. unfold slice. rewrite skipn_firstn_comm. rewrite firstn_firstn. rewrite Nat.min_l by lia. f_equal.
  rewrite skipn_skipn. f_equal.
Qed.
Lemma firstn_slice {A} (l : list A) p n k : (k <= n)%nat -> firstn k (slice p n l) = slice p k l.
Proof. intros. unfold slice. rewrite firstn_firstn, Nat.min_l; auto. Qed.
Lemma opt_get_some l c d : 0 <= c < lenZ l -> opt_get (Some l) c d = Done (nth (Z.to_nat c) l 0).
Proof. intros. cbn [opt_get]. now rewrite aget_ok. Qed.
Lemma opt_set_some l c v : 0 <= c < lenZ l -> opt_set (Some l) c v = Done (Some (put l (Z.to_nat c) [v])).
Proof.
  intros. cbn [opt_set]. rewrite aset_ok by auto. rewrite bind_done. unfold put. cbn [length app].
  do 5 f_equal. lia.
Qed.

Section Item.
Variable e : endian.
Variable a : cl_args.
Hypothesis Hs : 0 < a_size a < 2 ^ 63 /\ a_size a mod 8 = 0.
Hypothesis Ht : 0 <= a_stride a /\ a_stride a mod 8 = 0.
Hypothesis Hio : 0 <= a_inoff a /\ a_inoff a mod 8 = 0.
Hypothesis Hoo : 0 <= a_outoff a /\ a_outoff a mod 8 = 0.
Hypothesis Hin : is_bytes (a_in a).
Hypothesis Hfmt : sizes_ok a \/ chunks_ok e a.

Lemma div8 x : x mod 8 = 0 -> 8 * (x / 8) = x.
Proof using. clear. intros. pose proof (Z.div_mod x 8 ltac:(lia)). lia. Qed.
Lemma oaddr_ok c : 8 * (a_outoff a / 8 + a_size a / 8 * c) = out_pos a c.
Proof. unfold out_pos. rewrite <- (div8 (a_size a)) at 2 by tauto. rewrite <- (div8 (a_outoff a)) at 2 by tauto. lia. Qed.
Lemma iaddr_ok c : 8 * (a_inoff a / 8 + a_stride a / 8 * c) = in_pos a c.
Proof. unfold in_pos. rewrite <- (div8 (a_stride a)) at 2 by tauto. rewrite <- (div8 (a_inoff a)) at 2 by tauto. lia. Qed.
Lemma in_pos_nonneg c : 0 <= c -> 0 <= in_pos a c.
Proof. unfold in_pos. nia. Qed.
Lemma out_pos_nonneg c : 0 <= c -> 0 <= out_pos a c.
Proof. unfold out_pos. nia. Qed.

Lemma item_core_ok m c ip il L R : 0 <= c < lenZ L -> lenZ R = lenZ L -> m_olen m = Some L -> m_ret m = Some R -> is_bytes (m_out m) ->
  let cap := nth (Z.to_nat c) L 0 in 0 <= cap <= a_size a -> out_pos a c + cap + 2 <= lenZ (m_out m) ->
  0 <= ip -> 0 <= il -> il mod 8 = 0 -> ip + il <= lenZ (a_in a) ->
  let '(r, n, w) := core_res (bytes_at (a_in a) ip il) cap in
  is_bytes w /\ lenZ w <= cap /\
  item_core e m (a_in a) c ip il (out_pos a c) =
    Done (mkM (put (m_out m) (Z.to_nat (out_pos a c)) w) (Some (put L (Z.to_nat c) [n])) (Some (put R (Z.to_nat c) [r]))).
Proof.
  intros HcL HR EO ER Hb cap Hcap Hfit Hip Hil H8 Hii. unfold item_core. rewrite EO, ER, opt_get_some by auto. rewrite bind_done. fold cap.
  set (o := out_pos a c) in *. assert (O0 : 0 <= o) by (apply out_pos_nonneg; lia).
  assert (LO : lenZ (skipn (Z.to_nat o) (m_out m)) = lenZ (m_out m) - o) by (unfold lenZ in *; rewrite skipn_length; lia).
  assert (LI : lenZ (skipn (Z.to_nat ip) (a_in a)) = lenZ (a_in a) - ip) by (unfold lenZ in *; rewrite skipn_length; lia).
  pose proof (core_fun e (skipn (Z.to_nat ip) (a_in a)) il (skipn (Z.to_nat o) (m_out m)) cap) as CF.
  unfold bytes_at, slice. destruct (core_res _ cap) as [[r n] w].
  destruct CF as (B & F & _ & _ & E); auto; try lia.
  { now apply is_bytes_skipn. } { now apply is_bytes_skipn. }
  { split; [lia|]. intros i Hi Hl. rewrite LI. pose proof (Z.div_mod il 8 ltac:(lia)). lia. }
  split; [auto|]. split; [auto|]. rewrite E, bind_done. rewrite !opt_set_some, !bind_done by lia.
  do 2 f_equal. unfold put. rewrite skipn_skipn. do 3 f_equal.
Qed.

Lemma work_item_ok m gid c L R : 0 <= gid < a_num a -> opt_get (a_map a) gid gid = Done c -> 0 <= c < a_num a -> lenZ L = a_num a -> lenZ R = a_num a ->
  m_olen m = Some L -> m_ret m = Some R -> is_bytes (m_out m) ->
  let cap := nth (Z.to_nat c) L 0 in 0 <= cap <= a_size a -> out_pos a c + a_size a + 2 <= lenZ (m_out m) ->
  let '(r, n, w) := item_res e a c cap in
  is_bytes w /\ lenZ w <= a_size a /\
  work_item e a gid m = Done (mkM (put (m_out m) (Z.to_nat (out_pos a c)) w) (Some (put L (Z.to_nat c) [n])) (Some (put R (Z.to_nat c) [r]))).
Proof.
  intros Hg Hm Hc HL HR EO ER Hb cap Hcap Hfit. unfold work_item. destruct (Z.geb_spec gid (a_num a)); [lia|].
  rewrite Hm, bind_done. cbv zeta. rewrite oaddr_ok, iaddr_ok. assert (I0 := in_pos_nonneg c ltac:(lia)). assert (O0 := out_pos_nonneg c ltac:(lia)).
  destruct Hfmt as [(FA & l & EI & Ll & SZ)|(FM & S16 & LI & SZ)].
  - unfold item_res. rewrite FA. rewrite EI, opt_get_some by lia. rewrite bind_done. destruct (SZ c Hc) as (Z0 & Z8 & ZF). rewrite EI in Z0, Z8, ZF. cbn [elem] in Z0, Z8, ZF.
    cbn [elem]. set (il := nth (Z.to_nat c) l 0) in *.
    pose proof (item_core_ok m c (in_pos a c) il L R ltac:(lia) ltac:(lia) EO ER Hb) as CF. cbv zeta in CF. fold cap in CF.
    destruct (core_res _ cap) as [[r n] w]. destruct CF as (B & F & E); auto; try lia. split; [auto|]. split; [lia|auto].
  - unfold item_res. rewrite FM. destruct (SZ c Hc) as (ZF & PK). cbv zeta in PK. set (ch := bytes_at (a_in a) (in_pos a c) (a_size a)) in *.
    assert (EL : exists v, opt_get (a_ilen a) c SIZE_MAX = Done v).
    { destruct (a_ilen a) as [l|]; [|eexists; reflexivity]. rewrite opt_get_some; eauto. specialize (LI l eq_refl). lia. }
    destruct EL as [v ->]. rewrite bind_done. rewrite load_bytes_ok by lia. rewrite bind_done.
    assert (LC : length ch = Z.to_nat (a_size a)) by (unfold ch, bytes_at; apply slice_length; unfold lenZ in *; lia).
    assert (H16 : slice (Z.to_nat (in_pos a c)) (Z.to_nat 16) (a_in a) = firstn 16 ch).
    { unfold ch, bytes_at. rewrite firstn_slice by lia. reflexivity. }
    rewrite H16. destruct (list_eqb (firstn 16 ch) MARKER) eqn:LE; cbn [negb].
    + apply list_eqb_eq in LE. destruct PK as [PK|(z & (pad & EP & _) & Z8)]; [congruence|].
      assert (L24 : (24 + length pad + length z = Z.to_nat (a_size a))%nat).
      { rewrite <- LC, EP, !app_length, native_bytes_length. change (length MARKER) with 16%nat. lia. }
      assert (LZ : lenZ z < 2 ^ 63) by (unfold lenZ; lia).
      assert (N64 : slice (Z.to_nat (in_pos a c + 16)) 8 (a_in a) = slice 16 8 ch).
      { unfold ch, bytes_at. rewrite slice_slice by lia. f_equal. lia. }
      assert (NV : native_val e (slice 16 8 ch) = lenZ z).
      { rewrite EP. unfold slice. change 16%nat with (length MARKER) at 1. rewrite skipn_app, Nat.sub_diag, skipn_all. cbn [app skipn].
        rewrite <- (native_bytes_length e 8 (lenZ z)) at 1. rewrite firstn_app, Nat.sub_diag, firstn_all, firstn_O, app_nil_r.
        apply native_val_bytes. unfold lenZ in *. lia. }
      rewrite load64_ok by lia. rewrite bind_done, N64, NV. destruct (Z.eqb_spec (lenZ z) 0) as [Z0|Z0].
      * split; [constructor|]. split; [rewrite lenZ_nil; lia|]. unfold item_done. rewrite EO, ER, !opt_set_some, !bind_done by lia. do 2 f_equal.
        unfold put. cbn [app length]. rewrite Nat.add_0_r. symmetry. apply firstn_skipn.
      * assert (LZP : 0 <= lenZ z) by (unfold lenZ; lia).
        unfold u64. rewrite Z.mod_small by (unfold lenZ in *; lia). rewrite div8.
        2: { rewrite Zminus_mod. replace (a_size a mod 8) with 0 by lia. rewrite Z8. reflexivity. }
        assert (BE : bytes_at ch (a_size a - lenZ z) (lenZ z) = bytes_at (a_in a) (in_pos a c + (a_size a - lenZ z)) (lenZ z)).
        { unfold ch, bytes_at. rewrite slice_slice by (unfold lenZ in *; lia). f_equal. unfold lenZ in *. lia. }
        rewrite BE.
        pose proof (item_core_ok m c (in_pos a c + (a_size a - lenZ z)) (lenZ z) L R ltac:(lia) ltac:(lia) EO ER Hb) as CF. cbv zeta in CF. fold cap in CF.
        destruct (core_res _ cap) as [[r n] w]. destruct CF as (B & F & E); auto; try (unfold lenZ in *; lia). split; [auto|]. split; [lia|auto].
    + split. { now apply is_bytes_slice. } split. { unfold lenZ. lia. }
      rewrite div8 by tauto. rewrite load_bytes_ok by lia. rewrite bind_done.
      change (slice (Z.to_nat (in_pos a c)) (Z.to_nat (a_size a)) (a_in a)) with ch.
      rewrite store_bytes_ok by (unfold lenZ in *; lia). rewrite bind_done. unfold item_done. rewrite EO, ER, !opt_set_some, !bind_done by lia.
      reflexivity.
Qed.
End Item.

(** ** All work items, in any order *)
Section Run.
Variable e : endian.
Variable a : cl_args.
Variable m0 : cl_mem.
Hypothesis Hly : layout_ok 2 a m0.
Hypothesis Hfmt : sizes_ok a \/ chunks_ok e a.
Variables L0 R0 : list Z.
Hypothesis EL0 : m_olen m0 = Some L0.
Hypothesis ER0 : m_ret m0 = Some R0.

Definition res (c : Z) : Z * Z * list Z := item_res e a c (nth (Z.to_nat c) L0 0).
Definition res_ret c := fst (fst (res c)).
Definition res_n c := snd (fst (res c)).
Definition res_w c := snd (res c).
Definition expect (D : Z -> bool) (p : nat) : Z :=
  let q := Z.of_nat p - a_outoff a in
  let c := q / a_size a in
  if (0 <=? q) && (c <? a_num a) && D c && (q mod a_size a <? lenZ (res_w c)) then nth (Z.to_nat (q mod a_size a)) (res_w c) 0
  else nth p (m_out m0) 0.

Record Inv (D : Z -> bool) (m : cl_mem) : Prop := {
  iv_L : exists L, m_olen m = Some L /\ lenZ L = a_num a /\
    forall c, 0 <= c < a_num a -> nth (Z.to_nat c) L 0 = if D c then res_n c else nth (Z.to_nat c) L0 0;
  iv_R : exists R, m_ret m = Some R /\ lenZ R = a_num a /\
    forall c, 0 <= c < a_num a -> nth (Z.to_nat c) R 0 = if D c then res_ret c else nth (Z.to_nat c) R0 0;
  iv_B : is_bytes (m_out m);
  iv_len : length (m_out m) = length (m_out m0);
  iv_out : forall p, nth p (m_out m) 0 = expect D p }.

Lemma L0_ok : lenZ L0 = a_num a /\ forall c, 0 <= c < a_num a -> 0 <= nth (Z.to_nat c) L0 0 <= a_size a.
Proof.
  destruct Hly. destruct ly_olen as (l & E & L & F). rewrite EL0 in E. injection E as <-. split; auto.
  intros c Hc. rewrite Forall_forall in F. apply F. apply nth_In. unfold lenZ in L. lia.
Qed.
Lemma R0_ok : lenZ R0 = a_num a.
Proof. destruct Hly. destruct ly_ret as (l & E & L). rewrite ER0 in E. now injection E as <-. Qed.

Lemma Inv_init : Inv (fun _ => false) m0.
Proof.
  destruct L0_ok as [A _]. constructor.
  - exists L0. auto. - exists R0. split; auto. split; [apply R0_ok|auto]. - apply (ly_out _ _ _ Hly). - auto.
  - intros p. unfold expect. cbv zeta. rewrite andb_false_r. reflexivity.
Qed.

(** The chunk a work item deals with. *)
Definition cmap (g : Z) : Z := match a_map a with Some l => nth (Z.to_nat g) l 0 | None => g end.
Lemma in_numbers n c : In c (chunk_numbers n) <-> 0 <= c < n.
Proof using.
  unfold chunk_numbers. rewrite in_map_iff. split.
  - intros (k & <- & K). apply in_seq in K. lia.
  - intros H. exists (Z.to_nat c). split; [lia|]. apply in_seq. lia.
Qed.
Lemma numbers_length n : length (chunk_numbers n) = Z.to_nat n.
Proof using. unfold chunk_numbers. now rewrite map_length, seq_length. Qed.
Lemma numbers_nodup n : NoDup (chunk_numbers n).
Proof using. unfold chunk_numbers. apply FinFun.Injective_map_NoDup; [|apply seq_NoDup]. intros x y. lia. Qed.

Lemma cmap_ok g : 0 <= g < a_num a -> opt_get (a_map a) g g = Done (cmap g) /\ 0 <= cmap g < a_num a.
Proof.
  intros Hg. unfold cmap. destruct (a_map a) as [l|] eqn:E; [|auto]. pose proof (ly_map _ _ _ Hly l E) as P.
  pose proof (Permutation_length P) as PL. rewrite numbers_length in PL. split.
  - apply opt_get_some. unfold lenZ. lia.
  - apply in_numbers. eapply Permutation_in; [exact P|]. apply nth_In. lia.
Qed.
Lemma cmap_inj g h : 0 <= g < a_num a -> 0 <= h < a_num a -> cmap g = cmap h -> g = h.
Proof.
  intros Hg Hh. unfold cmap. destruct (a_map a) as [l|] eqn:E; [|auto]. pose proof (ly_map _ _ _ Hly l E) as P.
  pose proof (Permutation_length P) as PL. rewrite numbers_length in PL.
  assert (ND : NoDup l) by (eapply Permutation_NoDup; [apply Permutation_sym; exact P|apply numbers_nodup]).
  intros EQ. apply (proj1 (NoDup_nth l 0) ND) in EQ; lia.
Qed.
Lemma cmap_surj c : 0 <= c < a_num a -> exists g, 0 <= g < a_num a /\ cmap g = c.
Proof.
  intros Hc. unfold cmap. destruct (a_map a) as [l|] eqn:E; [|eauto]. pose proof (ly_map _ _ _ Hly l E) as P.
  pose proof (Permutation_length P) as PL. rewrite numbers_length in PL.
  assert (IN : In c l). { eapply Permutation_in; [apply Permutation_sym; exact P|]. now apply in_numbers. }
  destruct (In_nth l c 0 IN) as (k & K & KE). exists (Z.of_nat k). rewrite Nat2Z.id. split; [lia|auto].
Qed.

Definition add (D : Z -> bool) (c : Z) : Z -> bool := fun x => D x || (x =? c).

Lemma step_ok D m g : Inv D m -> 0 <= g -> (g < a_num a -> D (cmap g) = false) ->
  exists m', work_item e a g m = Done m' /\ Inv (if g <? a_num a then add D (cmap g) else D) m'.
Proof.
  intros HI Hg HD. destruct (Z.ltb_spec g (a_num a)) as [G|G].
  2: { exists m. split; auto. unfold work_item. destruct (Z.geb_spec g (a_num a)); [reflexivity|lia]. }
  specialize (HD G). destruct (cmap_ok g ltac:(lia)) as [CM CR]. set (c := cmap g) in *.
  destruct HI as [(L & EL & LL & NL) (R & ER & LR & NR) IB IL IO]. destruct L0_ok as [LL0 B0].
  pose proof (NL c CR) as NC. rewrite HD in NC. pose proof Hly as [Ly1 Ly2 Ly3 Ly4 Ly5 Ly6 Ly7 _ _ _].
  assert (OF : out_pos a c + a_size a + 2 <= lenZ (m_out m)).
  { unfold lenZ. rewrite IL. fold (lenZ (m_out m0)). unfold out_pos. nia. }
  pose proof (work_item_ok e a Ly2 Ly3 Ly4 Ly5 Ly6 Hfmt m g c L R ltac:(lia) CM CR LL LR EL ER IB) as W. cbv zeta in W.
  rewrite NC in W. specialize (W (B0 c CR) OF). 
  assert (ER1 : item_res e a c (nth (Z.to_nat c) L0 0) = (res_ret c, res_n c, res_w c)).
  { unfold res_ret, res_n, res_w, res. destruct (item_res _ _ _ _) as [[? ?] ?]. reflexivity. }
  rewrite ER1 in W. destruct W as (BW & LW & E). eexists. split; [exact E|].
  assert (O0 : 0 <= out_pos a c) by (unfold out_pos; nia).
  constructor; cbn [m_out m_olen m_ret].
  - eexists. split; [reflexivity|]. split. { unfold lenZ in *. rewrite put_length; [lia|cbn [length]; lia]. }
    intros x Hx. rewrite put_nth by (cbn [length]; unfold lenZ in *; lia). unfold add. cbn [length].
    destruct (Z.eqb_spec x c) as [->|N].
    + rewrite orb_true_r. destruct (Nat.leb_spec (Z.to_nat c) (Z.to_nat c)); [|lia]. destruct (Nat.ltb_spec (Z.to_nat c) (Z.to_nat c + 1)); [|lia].
      rewrite Nat.sub_diag. reflexivity.
    + rewrite orb_false_r, <- NL by auto.
      destruct (Nat.leb_spec (Z.to_nat c) (Z.to_nat x)); auto. destruct (Nat.ltb_spec (Z.to_nat x) (Z.to_nat c + 1)); auto. lia.
  - eexists. split; [reflexivity|]. split. { unfold lenZ in *. rewrite put_length; [lia|cbn [length]; lia]. }
    intros x Hx. rewrite put_nth by (cbn [length]; unfold lenZ in *; lia). unfold add. cbn [length].
    destruct (Z.eqb_spec x c) as [->|N].
    + rewrite orb_true_r. destruct (Nat.leb_spec (Z.to_nat c) (Z.to_nat c)); [|lia]. destruct (Nat.ltb_spec (Z.to_nat c) (Z.to_nat c + 1)); [|lia].
      rewrite Nat.sub_diag. reflexivity.
    + rewrite orb_false_r, <- NR by auto.
      destruct (Nat.leb_spec (Z.to_nat c) (Z.to_nat x)); auto. destruct (Nat.ltb_spec (Z.to_nat x) (Z.to_nat c + 1)); auto. lia.
  - now apply put_bytes.
  - rewrite put_length; auto. unfold lenZ in *. lia.
  - intros p. rewrite put_nth by (unfold lenZ in *; lia). rewrite IO. unfold expect, add. cbv zeta.
    set (q := Z.of_nat p - a_outoff a) in *. pose proof (Z.div_mod q (a_size a) ltac:(lia)) as DM. pose proof (Z.mod_pos_bound q (a_size a) ltac:(lia)) as MB.
    destruct (Z.eqb_spec (q / a_size a) c) as [QC|QC].
    + rewrite QC, HD. rewrite orb_true_r, andb_false_r. cbn [andb]. rewrite andb_true_r.
      destruct (Z.leb_spec 0 q) as [Q0|Q0].
      2: { exfalso. assert (q / a_size a < 0) by (apply Z.div_lt_upper_bound; lia). lia. }
      destruct (Z.ltb_spec c (a_num a)); [|lia]. cbn [andb].
      assert (QP : q mod a_size a = Z.of_nat p - out_pos a c). { unfold out_pos, q in *. rewrite QC in DM. lia. }
      destruct (Nat.leb_spec (Z.to_nat (out_pos a c)) p); [|lia]. cbn [andb].
      destruct (Nat.ltb_spec p (Z.to_nat (out_pos a c) + length (res_w c))) as [P|P]; destruct (Z.ltb_spec (q mod a_size a) (lenZ (res_w c))) as [P'|P']; unfold lenZ in *; try lia.
      f_equal. lia.
    + rewrite orb_false_r. 
      destruct (Nat.leb_spec (Z.to_nat (out_pos a c)) p) as [P1|P1]; auto. destruct (Nat.ltb_spec p (Z.to_nat (out_pos a c) + length (res_w c))) as [P2|P2]; auto.
      exfalso. apply QC. symmetry. apply (Z.div_unique q (a_size a) c (q - a_size a * c)); [|lia]. left. unfold q, out_pos, lenZ in *. lia.
Qed.

Definition done_after (D : Z -> bool) (order : list Z) : Z -> bool :=
  fold_left (fun D g => if g <? a_num a then add D (cmap g) else D) order D.
Lemma run_ok order : forall D m, Inv D m -> NoDup order -> (forall g, In g order -> 0 <= g /\ (g < a_num a -> D (cmap g) = false)) ->
  exists m', run_items e a order m = Done m' /\ Inv (done_after D order) m'.
Proof.
  induction order as [|g order IH]; intros D m HI ND HG; cbn [run_items done_after fold_left]; [eauto|].
  inversion ND as [|? ? NI ND']; subst. destruct (HG g (or_introl eq_refl)) as [G0 GD].
  destruct (step_ok D m g HI G0 GD) as (m1 & -> & I1). rewrite bind_done. apply IH; auto.
  intros h Hh. destruct (HG h (or_intror Hh)) as [H0 HD]. split; auto. intros HN. destruct (Z.ltb_spec g (a_num a)); auto.
  unfold add. rewrite HD by auto. destruct (Z.eqb_spec (cmap h) (cmap g)) as [E|]; auto. apply cmap_inj in E; try lia. subst. contradiction.
Qed.
Lemma done_after_mono order : forall D c, D c = true -> done_after D order c = true.
Proof. induction order as [|g order IH]; intros D c H; cbn [done_after fold_left]; auto. apply IH. destruct (g <? a_num a); auto. unfold add. now rewrite H. Qed.
Lemma done_after_in order : forall D g, In g order -> g < a_num a -> done_after D order (cmap g) = true.
Proof.
  induction order as [|h order IH]; intros D g I G; [destruct I|]. cbn [done_after fold_left]. destruct I as [<-|H].
  - destruct (Z.ltb_spec h (a_num a)); [|lia]. apply done_after_mono. unfold add. rewrite Z.eqb_refl. apply orb_true_r.
  - now apply IH.
Qed.
Lemma Inv_ext D D' m : (forall c, 0 <= c < a_num a -> D c = D' c) -> Inv D m -> Inv D' m.
Proof.
  intros HE [(L & EL & LL & NL) (R & ER & LR & NR) IB IL IO]. constructor; auto.
  - exists L. split; auto. split; auto. intros c Hc. rewrite <- HE by auto. auto.
  - exists R. split; auto. split; auto. intros c Hc. rewrite <- HE by auto. auto.
  - intros p. rewrite IO. unfold expect. cbv zeta. set (q := Z.of_nat p - a_outoff a). destruct (Z.leb_spec 0 q); auto. destruct (Z.ltb_spec (q / a_size a) (a_num a)); auto.
    rewrite HE; auto. pose proof (ly_size _ _ _ Hly). split; auto. apply Z.div_pos; lia.
Qed.

Lemma run_all order : schedule a order -> exists m', run_items e a order m0 = Done m' /\ Inv (fun _ => true) m'.
Proof.
  intros P. unfold schedule in P. destruct (run_ok order (fun _ => false) m0 Inv_init) as (m' & E & I).
  - eapply Permutation_NoDup; [apply Permutation_sym; exact P|apply numbers_nodup].
  - intros g Hg. split; auto. eapply Permutation_in in Hg; [|exact P]. apply in_numbers in Hg. lia.
  - exists m'. split; auto. eapply Inv_ext; [|exact I]. intros c Hc. cbv beta. destruct (cmap_surj c Hc) as (g & Hg & <-).
    apply done_after_in; [|lia]. eapply Permutation_in; [apply Permutation_sym; exact P|]. apply in_numbers.
    pose proof (global_size_ge (a_num a) (ly_num _ _ _ Hly)). lia.
Qed.
Lemma Inv_unique D m m' : Inv D m -> Inv D m' -> m = m'.
Proof.
  intros [(L & EL & LL & NL) (R & ER & LR & NR) IB IL IO] [(L' & EL' & LL' & NL') (R' & ER' & LR' & NR') IB' IL' IO'].
  destruct m as [o l r], m' as [o' l' r']. cbn [m_out m_olen m_ret] in *. subst. f_equal.
  - apply (nth_ext _ _ 0 0); [congruence|]. intros. now rewrite IO, IO'.
  - f_equal. apply (nth_ext _ _ 0 0); [unfold lenZ in *; lia|]. intros n Hn. specialize (NL (Z.of_nat n)). specialize (NL' (Z.of_nat n)).
    rewrite Nat2Z.id in *. rewrite NL, NL' by (unfold lenZ in *; lia). reflexivity.
  - f_equal. apply (nth_ext _ _ 0 0); [unfold lenZ in *; lia|]. intros n Hn. specialize (NR (Z.of_nat n)). specialize (NR' (Z.of_nat n)).
    rewrite Nat2Z.id in *. rewrite NR, NR' by (unfold lenZ in *; lia). reflexivity.
Qed.
(** The bytes of a chunk afterwards. *)
Lemma Inv_chunk m c : Inv (fun _ => true) m -> 0 <= c < a_num a -> lenZ (res_w c) <= a_size a ->
  bytes_at (m_out m) (out_pos a c) (lenZ (res_w c)) = res_w c.
Proof.
  intros I Hc HW. pose proof Hly as [Ly1 Ly2 Ly3 Ly4 Ly5 Ly6 Ly7 _ _ _].
  assert (O0 : 0 <= out_pos a c) by (unfold out_pos; nia).
  assert (OF : out_pos a c + a_size a + 2 <= lenZ (m_out m)).
  { unfold lenZ. rewrite (iv_len _ _ I). fold (lenZ (m_out m0)). unfold out_pos. nia. }
  assert (SL : length (bytes_at (m_out m) (out_pos a c) (lenZ (res_w c))) = length (res_w c)).
  { unfold bytes_at. rewrite slice_length; unfold lenZ in *; lia. }
  apply (nth_ext _ _ 0 0); [auto|]. rewrite SL. intros n Hn. unfold bytes_at, slice.
  rewrite nth_firstn_gen by (unfold lenZ; lia). rewrite nth_skipn_gen. rewrite (iv_out _ _ I). unfold expect. cbv zeta.
  set (q := Z.of_nat (Z.to_nat (out_pos a c) + n) - a_outoff a).
  assert (Q : q = a_size a * c + Z.of_nat n) by (unfold q, out_pos in *; lia).
  assert (QD : q / a_size a = c). { symmetry. apply (Z.div_unique q (a_size a) c (Z.of_nat n)); [|lia]. left. unfold lenZ in *. lia. }
  assert (QM : q mod a_size a = Z.of_nat n). { symmetry. apply (Z.mod_unique q (a_size a) c (Z.of_nat n)); [|lia]. left. unfold lenZ in *. lia. }
  rewrite QD, QM. destruct (Z.leb_spec 0 q); [|nia]. destruct (Z.ltb_spec c (a_num a)); [|lia].
  destruct (Z.ltb_spec (Z.of_nat n) (lenZ (res_w c))); [|unfold lenZ in *; lia]. cbn [andb]. now rewrite Nat2Z.id.
Qed.
(** Bytes that belong to no chunk keep their value. *)
Lemma Inv_outside m p : Inv (fun _ => true) m -> (Z.of_nat p < a_outoff a \/ a_outoff a + a_size a * a_num a <= Z.of_nat p) -> nth p (m_out m) 0 = nth p (m_out m0) 0.
Proof.
  intros I H. pose proof (ly_size _ _ _ Hly). rewrite (iv_out _ _ I). unfold expect. cbv zeta. set (q := Z.of_nat p - a_outoff a).
  destruct (Z.leb_spec 0 q) as [Q|Q]; auto. destruct (Z.ltb_spec (q / a_size a) (a_num a)) as [D|D]; auto. exfalso.
  pose proof (Z.div_mod q (a_size a) ltac:(lia)). pose proof (Z.mod_pos_bound q (a_size a) ltac:(lia)). unfold q in *. nia.
Qed.
End Run.
