(** Proofs about the cryptodev back end. *)
From Coq Require Import ZArith List Bool Lia Permutation.
From Verif Require Import SpecBits CBase BitsLemmas SpecCalls SerialFacts ChunkedModel SpecChunked ChunkedProofs CryptodevModel SpecCryptodev.
Import ListNotations.
Open Scope Z_scope.

(** * Narrowing and widening *)
Definition n32 (l : Z) : Z := if l =? SIZE_MAX then UINT32_MAX else l.
Lemma wide_n32 l : l = SIZE_MAX \/ 0 <= l < UINT32_MAX -> wide_len (n32 l) = l.
Proof.
  unfold wide_len, n32. intros [->|H]; [reflexivity|]. destruct (Z.eqb_spec l SIZE_MAX) as [->|]; [unfold SIZE_MAX, UINT32_MAX in H; lia|].
  destruct (Z.eqb_spec l UINT32_MAX); lia.
Qed.
Definition fits (il ol : Z) : Prop := (il = SIZE_MAX \/ 0 <= il < UINT32_MAX) /\ 0 <= ol <= UINT32_MAX.

Lemma narrow_ok ilens olens : length ilens = length olens -> forall fuel k, (k <= length ilens)%nat -> (fuel > length ilens - k)%nat ->
  (forall j, (k <= j < length ilens)%nat -> fits (nth j ilens 0) (nth j olens 0)) ->
  narrow fuel (Z.of_nat k) (lenZ ilens) ilens olens = Done (Some (map n32 (skipn k ilens), skipn k olens)).
Proof.
  intros LL. induction fuel as [|fuel IH]; intros k Hk Hf HF; [lia|]. cbn [narrow]. unfold lenZ. destruct (Z.ltb_spec (Z.of_nat k) (Z.of_nat (length ilens))) as [L|L].
  - rewrite aget_ok by (unfold lenZ; lia). rewrite bind_done, Nat2Z.id. destruct (HF k ltac:(lia)) as [F1 F2]. set (il := nth k ilens 0) in *.
    assert (E1 : (il >? UINT32_MAX - 1) && negb (il =? SIZE_MAX) = false).
    { destruct (Z.gtb_spec il (UINT32_MAX - 1)); [|reflexivity]. destruct (Z.eqb_spec il SIZE_MAX); [reflexivity|lia]. }
    rewrite E1. rewrite aget_ok by (unfold lenZ; lia). rewrite bind_done, Nat2Z.id. set (ol := nth k olens 0) in *. destruct (Z.gtb_spec ol UINT32_MAX); [lia|].
    replace (Z.of_nat k + 1) with (Z.of_nat (S k)) by lia. fold (lenZ ilens). rewrite IH by (try lia; intros; apply HF; lia). rewrite bind_done.
    assert (SK : forall (l : list Z), (k < length l)%nat -> skipn k l = nth k l 0 :: skipn (S k) l).
    { clear. induction k; intros [|x l] H; cbn in H; try lia; [reflexivity|]. cbn [skipn nth]. apply IHk. lia. }
    rewrite (SK ilens), (SK olens) by lia. fold il ol. cbn [map]. do 4 f_equal.
    + unfold n32, u32. destruct (Z.eqb_spec il SIZE_MAX); [reflexivity|]. cbn [negb]. apply Z.mod_small. unfold UINT32_MAX in *. lia.
    + unfold u32. apply Z.mod_small. unfold UINT32_MAX in *. lia.
  - rewrite !skipn_all2 by lia. reflexivity.
Qed.
Lemma narrow_bad ilens olens : length ilens = length olens -> forall fuel k, (k <= length ilens)%nat -> (fuel > length ilens - k)%nat ->
  (exists j, (k <= j < length ilens)%nat /\ 0 <= nth j ilens 0 /\ 0 <= nth j olens 0 /\ ~ fits (nth j ilens 0) (nth j olens 0)) ->
  narrow fuel (Z.of_nat k) (lenZ ilens) ilens olens = Done None.
Proof.
  intros LL. induction fuel as [|fuel IH]; intros k Hk Hf (j & Hj & P1 & P2 & HF); [lia|]. cbn [narrow]. unfold lenZ. destruct (Z.ltb_spec (Z.of_nat k) (Z.of_nat (length ilens))) as [L|L]; [|lia].
  rewrite aget_ok by (unfold lenZ; lia). rewrite bind_done, Nat2Z.id. set (il := nth k ilens 0) in *.
  destruct ((il >? UINT32_MAX - 1) && negb (il =? SIZE_MAX)) eqn:E1; [reflexivity|].
  rewrite aget_ok by (unfold lenZ; lia). rewrite bind_done, Nat2Z.id. set (ol := nth k olens 0) in *. destruct (Z.gtb_spec ol UINT32_MAX); [reflexivity|].
  replace (Z.of_nat k + 1) with (Z.of_nat (S k)) by lia. fold (lenZ ilens). rewrite IH; [reflexivity|lia|lia|].
  exists j. repeat split; auto; try lia. destruct (Nat.eq_dec j k) as [->|]; [|lia]. exfalso. apply HF. fold il in P1 |- *. fold ol in P2 |- *. unfold fits.
  destruct (Z.gtb_spec il (UINT32_MAX - 1)); [|lia]. destruct (Z.eqb_spec il SIZE_MAX); [lia|discriminate].
Qed.
Lemma widen_ok new : forall fuel k olens, length olens = length new -> (k <= length new)%nat -> (fuel > length new - k)%nat ->
  widen fuel (Z.of_nat k) (lenZ new) new olens = Done (firstn k olens ++ skipn k new).
Proof.
  induction fuel as [|fuel IH]; intros k olens LL Hk Hf; [lia|]. cbn [widen]. unfold lenZ. destruct (Z.ltb_spec (Z.of_nat k) (Z.of_nat (length new))) as [L|L].
  - rewrite aget_ok by (unfold lenZ; lia). rewrite bind_done. rewrite aset_ok by (unfold lenZ; lia). rewrite bind_done, !Nat2Z.id. replace (Z.of_nat k + 1) with (Z.of_nat (S k)) by lia. fold (lenZ new).
    assert (LF : length (firstn k olens) = k) by (rewrite firstn_length; lia).
    rewrite IH; try lia. 2: { rewrite app_length, firstn_length. cbn [length]. rewrite skipn_length. lia. }
    assert (SK : forall (l : list Z), (k < length l)%nat -> skipn k l = nth k l 0 :: skipn (S k) l).
    { clear. induction k; intros [|x l] H; cbn in H; try lia; [reflexivity|]. cbn [skipn nth]. apply IHk. lia. }
    rewrite (SK new) by lia. f_equal. rewrite firstn_app, LF. replace (S k - k)%nat with 1%nat by lia. rewrite firstn_all2 by lia. cbn [firstn]. now rewrite <- app_assoc.
  - rewrite skipn_all2, firstn_all2 by lia. now rewrite app_nil_r.
Qed.

(** * Alignment *)
Lemma aligned_ok ptr k : 0 <= k <= 16 -> 0 <= ptr < 2 ^ 64 - 2 ^ 16 -> is_pointer_aligned ptr (2 ^ k - 1) = (ptr mod 2 ^ k =? 0).
Proof.
  intros Hk Hp. unfold is_pointer_aligned. assert (P : 0 < 2 ^ k <= 2 ^ 16) by (split; [apply Z.pow_pos_nonneg; lia|apply Z.pow_le_mono_r; lia]).
  unfold u64. rewrite Z.mod_small by lia. replace (2 ^ 64 - 1 - (2 ^ k - 1)) with (Z.shiftl (Z.ones (64 - k)) k).
  2: { rewrite Z.shiftl_mul_pow2, Z.ones_equiv by lia. unfold Z.pred. rewrite Z.mul_add_distr_r, <- Z.pow_add_r by lia. replace (64 - k + k) with 64 by lia. lia. }
  assert (E : Z.land (ptr + (2 ^ k - 1)) (Z.shiftl (Z.ones (64 - k)) k) = (ptr + (2 ^ k - 1)) / 2 ^ k * 2 ^ k).
  { rewrite <- Z.shiftl_mul_pow2, <- Z.shiftr_div_pow2 by lia. apply Z.bits_inj'. intros i Hi. rewrite Z.land_spec, !Z.shiftl_spec by lia.
    destruct (Z.ltb_spec i k); [rewrite !Z.testbit_neg_r with (n := i - k) by lia; apply andb_false_r|]. rewrite Z.shiftr_spec by lia. replace (i - k + k) with i by lia.
    destruct (Z.ltb_spec i 64); [rewrite Z.ones_spec_low by lia; apply andb_true_r|]. rewrite Z.ones_spec_high by lia. rewrite andb_false_r. symmetry.
    destruct (Z.eq_dec (ptr + (2 ^ k - 1)) 0) as [->|]; [apply Z.bits_0|]. apply Z.bits_above_log2; [lia|]. apply Z.lt_le_trans with 64; [|lia]. apply Z.log2_lt_pow2; lia. }
  rewrite E. pose proof (Z.div_mod ptr (2 ^ k) ltac:(lia)) as D. pose proof (Z.mod_pos_bound ptr (2 ^ k) ltac:(lia)) as B. set (r := ptr mod 2 ^ k) in *. set (d := ptr / 2 ^ k) in *.
  replace ((ptr + (2 ^ k - 1)) / 2 ^ k) with (if r =? 0 then d else d + 1).
  - destruct (Z.eqb_spec r 0) as [->|N]; [apply Z.eqb_eq; lia|]. apply Z.eqb_neq. lia.
  - destruct (Z.eqb_spec r 0); apply Z.div_unique with (r := if r =? 0 then 2 ^ k - 1 else r - 1); destruct (Z.eqb_spec r 0); lia.
Qed.
Lemma mask_check ptr mask : (exists k, 0 <= k <= 16 /\ mask = 2 ^ k - 1) -> 0 <= ptr < 2 ^ 64 - 2 ^ 16 ->
  negb (mask =? 0) && negb (is_pointer_aligned ptr mask) = negb (ptr mod (mask + 1) =? 0).
Proof.
  intros (k & Hk & ->) Hp. rewrite aligned_ok by auto. replace (2 ^ k - 1 + 1) with (2 ^ k) by lia. destruct (Z.eqb_spec (2 ^ k - 1) 0) as [E|E]; [|reflexivity].
  replace (2 ^ k) with 1 by lia. now rewrite Z.mod_1_r.
Qed.
Lemma stride_check n s : 0 <= n -> 0 <= s -> negb (n =? 0) && (s >? UINT32_MAX / n) = (n * s >=? 2 ^ 32).
Proof.
  intros Hn Hs. destruct (Z.eqb_spec n 0) as [->|N]; [reflexivity|]. cbn [negb andb]. unfold UINT32_MAX. pose proof (Z.div_mod (2 ^ 32 - 1) n ltac:(lia)) as D. pose proof (Z.mod_pos_bound (2 ^ 32 - 1) n ltac:(lia)).
  destruct (Z.gtb_spec s ((2 ^ 32 - 1) / n)), (Z.geb_spec (n * s) (2 ^ 32)); auto; nia.
Qed.

(** * The chunked call *)
Section Call.
Variables (drv : driver) (maxc mask op : Z).
Variables (n : Z) (rets : list Z) (iaddr : Z) (inp : list Z) (istride : Z) (ilens : list Z) (oaddr : Z) (out : list Z) (ostride : Z) (olens : list Z).
Hypothesis A : arguments mask n iaddr istride ilens oaddr ostride olens.
Lemma accepted_dec : accepted maxc mask n iaddr istride ilens oaddr ostride olens \/ ~ accepted maxc mask n iaddr istride ilens oaddr ostride olens.
Proof.
  destruct A as (_ & _ & _ & _ & _ & _ & LI & LO & FI & FO). unfold accepted.
  destruct (Z.eq_dec (iaddr mod (mask + 1)) 0); [|right; tauto]. destruct (Z.eq_dec (oaddr mod (mask + 1)) 0); [|right; tauto].
  destruct (Z_le_dec n maxc); [|right; tauto]. destruct (Z_lt_dec (n * istride) (2 ^ 32)); [|right; tauto]. destruct (Z_lt_dec (n * ostride) (2 ^ 32)); [|right; tauto].
  assert (D : forall k, (forall j, (j < k)%nat -> (nth j ilens 0 = 2 ^ 64 - 1 \/ nth j ilens 0 < 2 ^ 32 - 1) /\ nth j olens 0 < 2 ^ 32) \/
    ~ (forall j, (j < k)%nat -> (nth j ilens 0 = 2 ^ 64 - 1 \/ nth j ilens 0 < 2 ^ 32 - 1) /\ nth j olens 0 < 2 ^ 32)).
  { induction k as [|k [IH|IH]]; [left; lia| |right; intros H; apply IH; intros; apply H; lia].
    assert (((nth k ilens 0 = 2 ^ 64 - 1 \/ nth k ilens 0 < 2 ^ 32 - 1) /\ nth k olens 0 < 2 ^ 32) \/ ~ ((nth k ilens 0 = 2 ^ 64 - 1 \/ nth k ilens 0 < 2 ^ 32 - 1) /\ nth k olens 0 < 2 ^ 32)) as [Y|N] by lia.
    - left. intros j Hj. destruct (Nat.eq_dec j k) as [->|]; auto. apply IH. lia.
    - right. intros H. apply N, H. lia. }
  destruct (D (Z.to_nat n)); [left|right]; tauto.
Qed.
Lemma nth_range (l : list Z) j : Forall (fun v => 0 <= v <= SIZE_MAX) l -> 0 <= nth j l 0 <= SIZE_MAX.
Proof.
  intros F. destruct (Nat.lt_ge_cases j (length l)); [exact (proj1 (Forall_forall _ _) F _ (nth_In _ _ H))|]. rewrite nth_overflow by lia. unfold SIZE_MAX. lia.
Qed.
Theorem hw_rejects : ~ accepted maxc mask n iaddr istride ilens oaddr ostride olens ->
  c842_compress_chunked drv maxc mask op n rets iaddr inp istride ilens oaddr out ostride olens = Done (- EINVAL, rets, olens, out).
Proof.
  destruct A as (M & PI & PO & HN & HIS & HOS & LI & LO & FI & FO). intros NA. unfold c842_compress_chunked.
  rewrite !mask_check, !stride_check by (auto; lia).
  destruct (Z.eqb_spec (iaddr mod (mask + 1)) 0); cbn [negb]; [|reflexivity]. destruct (Z.eqb_spec (oaddr mod (mask + 1)) 0); cbn [negb]; [|reflexivity].
  destruct (Z.geb_spec (n * istride) (2 ^ 32)); [reflexivity|]. destruct (Z.geb_spec (n * ostride) (2 ^ 32)); [reflexivity|]. destruct (Z.gtb_spec n maxc); [reflexivity|].
  assert (BAD : exists j, (j < Z.to_nat n)%nat /\ ~ ((nth j ilens 0 = 2 ^ 64 - 1 \/ nth j ilens 0 < 2 ^ 32 - 1) /\ nth j olens 0 < 2 ^ 32)).
  { assert (D : forall k, (forall j, (j < k)%nat -> (nth j ilens 0 = 2 ^ 64 - 1 \/ nth j ilens 0 < 2 ^ 32 - 1) /\ nth j olens 0 < 2 ^ 32) \/
      exists j, (j < k)%nat /\ ~ ((nth j ilens 0 = 2 ^ 64 - 1 \/ nth j ilens 0 < 2 ^ 32 - 1) /\ nth j olens 0 < 2 ^ 32)).
    { induction k as [|k [IH|(j & Hj & B)]]; [left; lia| |right; exists j; split; [lia|auto]].
      assert (((nth k ilens 0 = 2 ^ 64 - 1 \/ nth k ilens 0 < 2 ^ 32 - 1) /\ nth k olens 0 < 2 ^ 32) \/ ~ ((nth k ilens 0 = 2 ^ 64 - 1 \/ nth k ilens 0 < 2 ^ 32 - 1) /\ nth k olens 0 < 2 ^ 32)) as [Y|N] by lia.
      - left. intros j Hj. destruct (Nat.eq_dec j k) as [->|]; auto. apply IH. lia. - right. exists k. split; [lia|auto]. }
    destruct (D (Z.to_nat n)) as [Y|Y]; auto. exfalso. apply NA. unfold accepted. repeat split; auto; try lia; apply Y; auto. }
  destruct BAD as (j & Hj & B). assert (LL : length ilens = length olens) by (unfold lenZ in *; lia).
  assert (N : narrow (S (Z.to_nat n)) (Z.of_nat 0) (lenZ ilens) ilens olens = Done None).
  { apply narrow_bad; auto; [lia|unfold lenZ in *; lia|].
    exists j. pose proof (nth_range ilens j FI). pose proof (nth_range olens j FO). unfold fits, SIZE_MAX, UINT32_MAX in *. unfold lenZ in *. repeat split; lia. }
  rewrite LI in N. change (Z.of_nat 0) with 0 in N. now rewrite N, bind_done.
Qed.
Lemma hw_request : accepted maxc mask n iaddr istride ilens oaddr ostride olens ->
  c842_compress_chunked drv maxc mask op n rets iaddr inp istride ilens oaddr out ostride olens =
  ('(err, o32, rets', out') <- drv (mkQ op (istride * n) (ostride * n) n (map n32 ilens) olens) iaddr inp oaddr out rets ;;
   if negb (err =? 0) then Done (- err, rets', olens, out') else olens' <- widen (S (Z.to_nat n)) 0 n o32 olens ;; Done (0, rets', olens', out')).
Proof.
  destruct A as (M & PI & PO & HN & HIS & HOS & LI & LO & FI & FO). intros (A1 & A2 & A3 & A4 & A5 & A6). unfold c842_compress_chunked.
  rewrite !mask_check, !stride_check by (auto; lia).
  destruct (Z.eqb_spec (iaddr mod (mask + 1)) 0); cbn [negb]; [|lia]. destruct (Z.eqb_spec (oaddr mod (mask + 1)) 0); cbn [negb]; [|lia].
  destruct (Z.geb_spec (n * istride) (2 ^ 32)); [lia|]. destruct (Z.geb_spec (n * ostride) (2 ^ 32)); [lia|]. destruct (Z.gtb_spec n maxc); [lia|].
  assert (LL : length ilens = length olens) by (unfold lenZ in *; lia).
  assert (N : narrow (S (Z.to_nat n)) 0 n ilens olens = Done (Some (map n32 ilens, olens))).
  { assert (N : narrow (S (Z.to_nat n)) (Z.of_nat 0) (lenZ ilens) ilens olens = Done (Some (map n32 (skipn 0 ilens), skipn 0 olens))); [|now rewrite LI in N].
    apply narrow_ok; auto; try (unfold lenZ in *; lia).
    intros j Hj. destruct (A6 j ltac:(unfold lenZ in *; lia)). pose proof (nth_range ilens j FI). pose proof (nth_range olens j FO). unfold fits, SIZE_MAX, UINT32_MAX in *. lia. }
  rewrite N, bind_done. unfold u32, u64. rewrite !(Z.mod_small (_ * n)) by nia. reflexivity.
Qed.
Theorem hw_accepts f : good_driver f op maxc drv -> accepted maxc mask n iaddr istride ilens oaddr ostride olens -> is_bytes inp -> is_bytes out ->
  areas n rets inp istride ilens out ostride olens -> all_defined f n iaddr inp istride ilens oaddr out ostride olens ->
  exists rets' olens' out', c842_compress_chunked drv maxc mask op n rets iaddr inp istride ilens oaddr out ostride olens = Done (0, rets', olens', out') /\
    done_as_single f n rets iaddr inp istride ilens oaddr out ostride olens rets' olens' out'.
Proof.
  intros GD AC Bi Bo AR AD. rewrite hw_request by auto. destruct A as (M & PI & PO & HN & HIS & HOS & LI & LO & FI & FO). destruct AC as (A1 & A2 & A3 & A4 & A5 & A6).
  set (q := mkQ op (istride * n) (ostride * n) n (map n32 ilens) olens).
  assert (EI : map wide_len (q_lens q) = ilens).
  { cbn [q q_lens]. rewrite map_map. rewrite <- (map_id ilens) at 2. apply map_ext_in. intros l Hl. apply wide_n32. destruct (In_nth _ _ 0 Hl) as (j & Hj & <-).
    destruct (A6 j ltac:(unfold lenZ in *; lia)). pose proof (nth_range ilens j FI). unfold SIZE_MAX, UINT32_MAX in *. lia. }
  destruct (GD q iaddr inp oaddr out rets istride ostride) as (o' & r' & m' & -> & DS); rewrite ?EI; cbn [q q_op q_num q_len q_dlen q_lens q_dlens]; auto; try (unfold UINT32_MAX; nia).
  - apply Forall_forall. intros v Hv. apply in_map_iff in Hv. destruct Hv as (l & <- & Hl). destruct (In_nth _ _ 0 Hl) as (j & Hj & <-).
    destruct (A6 j ltac:(unfold lenZ in *; lia)). pose proof (nth_range ilens j FI). unfold n32. destruct (Z.eqb_spec (nth j ilens 0) SIZE_MAX); unfold SIZE_MAX, UINT32_MAX in *; lia.
  - apply Forall_forall. intros v Hl. destruct (In_nth _ _ 0 Hl) as (j & Hj & <-).
    destruct (A6 j ltac:(unfold lenZ in *; lia)). pose proof (nth_range olens j FO). unfold SIZE_MAX, UINT32_MAX in *; lia.
  - rewrite EI in DS. cbn [q q_num q_dlens] in DS. rewrite bind_done. cbn [Z.eqb negb]. assert (LO' : length o' = length olens) by apply DS.
    pose proof (widen_ok o' (S (Z.to_nat n)) 0%nat olens ltac:(lia) ltac:(lia) ltac:(unfold lenZ in *; lia)) as W. replace (lenZ o') with n in W by (unfold lenZ in *; lia).
    change (Z.of_nat 0) with 0 in W. rewrite W, bind_done. cbn [firstn skipn app].
    exists r', o', m'. split; auto.
Qed.
Theorem hw_driver_error err o32 rets' out' : accepted maxc mask n iaddr istride ilens oaddr ostride olens -> err <> 0 ->
  drv (mkQ op (istride * n) (ostride * n) n (map n32 ilens) olens) iaddr inp oaddr out rets = Done (err, o32, rets', out') ->
  c842_compress_chunked drv maxc mask op n rets iaddr inp istride ilens oaddr out ostride olens = Done (- err, rets', olens, out').
Proof. intros AC NE E. rewrite hw_request, E, bind_done by auto. destruct (Z.eqb_spec err 0); [lia|]. reflexivity. Qed.
End Call.

(** * The single call *)
Theorem hw_single_ok drv maxc mask op f cret iaddr oaddr inp out v :
  good_driver f op maxc drv -> 1 <= maxc -> (exists k, 0 <= k <= 16 /\ mask = 2 ^ k - 1) -> 0 <= iaddr < 2 ^ 64 - 2 ^ 16 -> 0 <= oaddr < 2 ^ 64 - 2 ^ 16 ->
  iaddr mod (mask + 1) = 0 -> oaddr mod (mask + 1) = 0 -> lenZ inp < 2 ^ 32 - 1 -> lenZ out < 2 ^ 32 -> is_bytes inp -> is_bytes out ->
  observed (f iaddr oaddr inp out (lenZ out)) = Done v ->
  observed (c842_compress drv maxc mask op cret iaddr oaddr inp out (lenZ out)) = Done v.
Proof.
  intros GD M1 M PI PO AI AO LI LO Bi Bo E. unfold c842_compress.
  assert (Li0 : 0 <= lenZ inp) by (unfold lenZ; lia). assert (Lo0 : 0 <= lenZ out) by (unfold lenZ; lia).
  assert (NS : lenZ inp <> SIZE_MAX) by (unfold SIZE_MAX; lia).
  assert (Z0 : forall a b, a + Z.of_nat 0 * b = a) by (intros; lia).
  assert (SL : forall (l : list Z) b, slice (Z.to_nat (Z.of_nat 0 * b)) (Z.to_nat (lenZ l)) l = l).
  { intros l b. replace (Z.to_nat (Z.of_nat 0 * b)) with 0%nat by lia. unfold slice. cbn [skipn]. rewrite firstn_all2; auto. unfold lenZ. lia. }
  assert (SG : single f iaddr inp (lenZ inp) [lenZ inp] oaddr out (lenZ out) [lenZ out] 0 = Done v).
  { unfold single. cbn [nth]. now rewrite !Z0, !SL. }
  assert (LV : forall j, live 1 [lenZ inp] j <-> j = 0%nat).
  { intros j. unfold live. change (Z.to_nat 1) with 1%nat. split; [lia|]. intros ->. cbn [nth]. split; [lia|auto]. }
  assert (AR : areas 1 [cret] inp (lenZ inp) [lenZ inp] out (lenZ out) [lenZ out]).
  { unfold areas. repeat split; auto; try (unfold lenZ; cbn [length]; lia); apply LV in H; subst j; cbn [nth]; lia. }
  destruct (hw_accepts drv maxc mask op 1 [cret] iaddr inp (lenZ inp) [lenZ inp] oaddr out (lenZ out) [lenZ out]) with (f := f) as (r' & o' & m' & -> & D); auto.
  - unfold arguments. repeat split; auto; try (unfold SIZE_MAX; lia); repeat constructor; unfold SIZE_MAX; lia.
  - unfold accepted. repeat split; auto; try lia; change (Z.to_nat 1) with 1%nat in H; assert (j = 0%nat) by lia; subst j; cbn [nth]; lia.
  - intros j Hj. apply LV in Hj. subst j. eauto.
  - rewrite bind_done. destruct D as (DL & _ & LR & LO' & LM & _). cbn [length] in LR, LO'. specialize (DL 0%nat (proj2 (LV _) eq_refl)). rewrite SG in DL.
    rewrite aget_ok by (unfold lenZ; lia). rewrite bind_done. rewrite aget_ok by (unfold lenZ; lia). rewrite bind_done. change (Z.to_nat 0) with 0%nat. cbn [Z.eqb negb].
    rewrite DL. unfold observed, seen. reflexivity.
Qed.
Theorem hw_single_rejects drv maxc mask op cret iaddr oaddr inp out olen :
  (exists k, 0 <= k <= 16 /\ mask = 2 ^ k - 1) -> 0 <= iaddr < 2 ^ 64 - 2 ^ 16 -> 0 <= oaddr < 2 ^ 64 - 2 ^ 16 -> lenZ inp <= SIZE_MAX -> 0 <= olen <= SIZE_MAX ->
  iaddr mod (mask + 1) <> 0 \/ oaddr mod (mask + 1) <> 0 \/ 2 ^ 32 - 1 < lenZ inp \/ (lenZ inp = 2 ^ 32 - 1) \/ 2 ^ 32 <= olen ->
  c842_compress drv maxc mask op cret iaddr oaddr inp out olen = Done (- EINVAL, olen, out).
Proof.
  intros M PI PO LI LO B. unfold c842_compress. assert (Li0 : 0 <= lenZ inp) by (unfold lenZ; lia).
  rewrite hw_rejects.
  - rewrite bind_done. cbn. reflexivity.
  - unfold arguments. repeat split; auto; try (unfold SIZE_MAX; lia); repeat constructor; lia.
  - unfold accepted. intros (A1 & A2 & A3 & A4 & A5 & A6). specialize (A6 0%nat ltac:(lia)). cbn [nth] in A6. lia.
Qed.

(** * Through the entry points *)
Lemma ready_ctx info t mask p : ready t mask p -> exists c, get_thread_cryptodev_ctx info t p = Done (0, Some c, p) /\ ctx_mask c = Some mask.
Proof.
  intros (O & K & E & c & F & M). exists c. split; auto. unfold get_thread_cryptodev_ctx, create_thread_ctx_key. rewrite O, E, K, F. reflexivity.
Qed.
Lemma with_ctx_ready A info t mask p fail (run : Z -> outcome A) : ready t mask p -> with_ctx info t p fail run = (a <- run mask ;; Done (a, p)).
Proof. intros R. destruct (ready_ctx info t mask p R) as (c & E & M). unfold with_ctx. now rewrite E, bind_done, M. Qed.

(** * Histories *)
Lemma in_remove_length x l : NoDup l -> In x l -> Permutation l (x :: remove Z.eq_dec x l).
Proof.
  induction l as [|y l IH]; intros N H; [destruct H|]. inversion_clear N as [|? ? NI N']. cbn [remove]. destruct (Z.eq_dec x y) as [->|NE].
  - rewrite notin_remove by auto. reflexivity.
  - destruct H as [H|H]; [congruence|]. rewrite (IH N' H) at 1. apply perm_swap.
Qed.
Definition pinv (al : Z -> Prop) (p : process) : Prop :=
  (p_once p = true -> p_key p = true) /\ p_key_err p = 0 /\
  (p_once p = false -> p_tss p = [] /\ hd 0 (os_script (p_os p)) = 0) /\
  Permutation (os_fds (p_os p)) (map (fun x => cfd (snd x)) (p_tss p)) /\ NoDup (os_fds (p_os p)) /\ NoDup (map fst (p_tss p)) /\
  Forall (fun d => d < os_next (p_os p)) (os_fds (p_os p)) /\ os_mem (p_os p) = lenZ (p_tss p) /\
  Forall (fun x => al (fst x)) (p_tss p).
Lemma alive_call h t u : alive (h ++ [Call t]) u <-> u = t \/ alive h u.
Proof.
  induction h as [|[v|v] h IH]; cbn [app alive].
  - split; [intros [[-> _]|[]]; auto|intros [->|[]]; left; split; auto].
  - rewrite IH. split.
    + intros [[-> N]|[->|A]]; auto. right. left. split; auto. intros H. apply N. apply in_or_app. auto.
    + intros [->|[[-> N]|A]]; auto. destruct (Z.eq_dec t u) as [->|NE]; auto. left. split; auto. intros H. apply in_app_or in H. destruct H as [H|[H|[]]]; [auto|discriminate].
  - exact IH.
Qed.
Lemma alive_exit h t u : alive (h ++ [Exit t]) u <-> u <> t /\ alive h u.
Proof.
  induction h as [|[v|v] h IH]; cbn [app alive].
  - tauto.
  - rewrite IH. split.
    + intros [[-> N]|[H A]]; auto. split; [|left; split; auto; intros H; apply N; apply in_or_app; auto]. intros ->. apply N. apply in_or_app. right. left. reflexivity.
    + intros [NE [[-> N]|A]]; auto. left. split; auto. intros H. apply in_app_or in H. destruct H as [H|[H|[]]]; [auto|congruence].
  - exact IH.
Qed.
(** The calls that change nothing but the script. *)
Definition same (w w' : os) : Prop := os_fds w' = os_fds w /\ os_next w' = os_next w /\ os_mem w' = os_mem w.
Lemma os_call_same w r w' : os_call w = (r, w') -> same w w'.
Proof. unfold os_call. destruct (os_script w); intros H; apply pair_inj in H; destruct H as [_ <-]; unfold same; auto. Qed.
Lemma os_close_spec fd w r w' : os_close fd w = (r, w') -> os_fds w' = remove Z.eq_dec fd (os_fds w) /\ os_next w' = os_next w /\ os_mem w' = os_mem w.
Proof.
  unfold os_close. destruct (os_call w) as [x w1] eqn:E. apply os_call_same in E. destruct E as (E1 & E2 & E3). intros H. apply pair_inj in H. destruct H as [_ <-]. cbn. now rewrite E1.
Qed.
Lemma deinit_spec c w r w' : c842_ctx_deinit c w = (r, w') -> os_fds w' = remove Z.eq_dec (cfd c) (os_fds w) /\ os_next w' = os_next w /\ os_mem w' = os_mem w.
Proof.
  unfold c842_ctx_deinit. destruct (os_call w) as [x w1] eqn:E. apply os_call_same in E. destruct E as (E1 & E2 & E3). destruct (os_close (cfd c) w1) as [y w2] eqn:E. apply os_close_spec in E. destruct E as (F1 & F2 & F3).
  intros H. apply pair_inj in H. destruct H as [_ <-]. rewrite F1, E1. intuition congruence.
Qed.
Lemma fresh_remove w : Forall (fun d => d < os_next w) (os_fds w) -> remove Z.eq_dec (os_next w) (os_next w :: os_fds w) = os_fds w.
Proof.
  intros F. cbn [remove]. destruct (Z.eq_dec (os_next w) (os_next w)); [|congruence]. apply notin_remove. intros H. pose proof (proj1 (Forall_forall _ _) F _ H). cbn in *. lia.
Qed.
(** c842_ctx_init opens one new descriptor, or leaves none. *)
Lemma init_spec info w err c w' : Forall (fun d => d < os_next w) (os_fds w) -> c842_ctx_init info w = ((err, c), w') ->
  os_mem w' = os_mem w /\ os_next w <= os_next w' /\
  (err = 0 -> cfd c = os_next w /\ os_fds w' = os_next w :: os_fds w /\ os_next w' = os_next w + 1) /\
  (err <> 0 -> os_fds w' = os_fds w).
Proof.
  intros F. unfold c842_ctx_init, os_open. destruct (os_call w) as [r w1] eqn:E. apply os_call_same in E. destruct E as (E1 & E2 & E3).
  destruct (Z.eqb_spec r 0) as [R|R].
  2: { destruct (Z.eqb_spec r 0); [lia|]. cbn [negb]. intros H. apply pair_inj in H. destruct H as [H <-]. apply pair_inj in H. destruct H as [<- <-]. rewrite E2, E3. repeat split; auto; lia. }
  cbn [Z.eqb negb]. set (w2 := mkOS _ _ _ _). assert (W2 : os_fds w2 = os_next w :: os_fds w /\ os_next w2 = os_next w + 1 /\ os_mem w2 = os_mem w) by (cbn; rewrite E1, E2, E3; auto).
  rewrite E2. assert (CL : forall w3 x w4 (e : Z), os_fds w3 = os_next w :: os_fds w /\ os_next w3 = os_next w + 1 /\ os_mem w3 = os_mem w -> os_close (os_next w) w3 = (x, w4) -> e <> 0 ->
    os_mem w4 = os_mem w /\ os_next w <= os_next w4 /\ (- e = 0 -> cfd (mkCtx (-1) None) = os_next w /\ os_fds w4 = os_next w :: os_fds w /\ os_next w4 = os_next w + 1) /\ (- e <> 0 -> os_fds w4 = os_fds w)).
  { intros w3 x w4 e (A1 & A2 & A3) C NE. apply os_close_spec in C. destruct C as (C1 & C2 & C3). rewrite C1, C2, C3, A1, A2, A3. rewrite fresh_remove by auto. repeat split; auto; lia. }
  clearbody w2. assert (TR : forall a b, (os_fds a = os_next w :: os_fds w /\ os_next a = os_next w + 1 /\ os_mem a = os_mem w) -> same a b -> os_fds b = os_next w :: os_fds w /\ os_next b = os_next w + 1 /\ os_mem b = os_mem w).
  { intros a b (A1 & A2 & A3) (B1 & B2 & B3). rewrite B1, B2, B3. auto. }
  destruct (os_call w2) as [r3 w3] eqn:E. apply os_call_same in E. pose proof (TR _ _ W2 E) as W3. clear E.
  destruct (Z.eqb_spec r3 0) as [R3|R3]; cbn [negb].
  2: { destruct (os_close (os_next w) w3) as [x w4] eqn:C. intros H. apply pair_inj in H. destruct H as [H <-]. apply pair_inj in H. destruct H as [<- <-]. eapply CL; eauto. }
  destruct (os_call w3) as [r4 w4] eqn:E. apply os_call_same in E. pose proof (TR _ _ W3 E) as W4. clear E.
  destruct (Z.eqb_spec r4 0) as [R4|R4]; cbn [negb].
  2: { destruct (os_close (os_next w) w4) as [x w5] eqn:C. intros H. apply pair_inj in H. destruct H as [H <-]. apply pair_inj in H. destruct H as [<- <-]. eapply CL; eauto. }
  destruct info as [mask|].
  2: { intros H. apply pair_inj in H. destruct H as [H <-]. apply pair_inj in H. destruct H as [<- <-]. destruct W4 as (W4 & W4' & W4''). cbn [cfd]. repeat split; auto; lia. }
  destruct (os_call w4) as [r5 w5] eqn:E. apply os_call_same in E. pose proof (TR _ _ W4 E) as W5. clear E.
  destruct (Z.eqb_spec r5 0) as [R5|R5]; cbn [negb].
  - intros H. apply pair_inj in H. destruct H as [H <-]. apply pair_inj in H. destruct H as [<- <-]. destruct W5 as (W4' & W4'' & W4'''). cbn [cfd]. repeat split; auto; lia.
  - destruct (os_call w5) as [r6 w6] eqn:E. apply os_call_same in E. pose proof (TR _ _ W5 E) as W6. clear E.
    destruct (os_close (os_next w) w6) as [x w7] eqn:C. intros H. apply pair_inj in H. destruct H as [H <-]. apply pair_inj in H. destruct H as [<- <-]. eapply CL; eauto.
Qed.
Lemma tss_find_in t l c : tss_find t l = Some c -> In (t, c) l.
Proof.
  unfold tss_find. destruct (find (fun x => fst x =? t) l) as [[u d]|] eqn:F; cbn [option_map]; [|discriminate]. cbn [snd]. intros H. assert (d = c) by congruence. subst d.
  apply find_some in F. cbn [fst] in F. destruct F as [F E]. apply Z.eqb_eq in E. now subst u.
Qed.
Lemma tss_find_none t l : tss_find t l = None -> ~ In t (map fst l).
Proof.
  unfold tss_find. destruct (find (fun x => fst x =? t) l) as [x|] eqn:F; cbn [option_map]; [discriminate|]. intros _ H. apply in_map_iff in H. destruct H as (x & E & H).
  pose proof (find_none _ _ F _ H) as N. cbn in N. apply Z.eqb_neq in N. auto.
Qed.
Lemma create_inv al p : pinv al p -> pinv al (create_thread_ctx_key p) /\ p_key (create_thread_ctx_key p) = true /\ p_once (create_thread_ctx_key p) = true /\ p_tss (create_thread_ctx_key p) = p_tss p.
Proof.
  unfold create_thread_ctx_key. intros I. destruct (p_once p) eqn:O; [split; [exact I|]; destruct I as (K & _); split; [now apply K|split; auto]|].
  destruct I as (K & E & S0 & P & N1 & N2 & F & M & A). destruct (S0 O) as [T H]. destruct (os_call (p_os p)) as [r w] eqn:C. assert (r = 0).
  { unfold os_call in C. destruct (os_script (p_os p)); apply pair_inj in C; destruct C as [<- _]; auto. }
  subst r. apply os_call_same in C. destruct C as (C1 & C2 & C3). cbn [Z.eqb]. unfold pinv. cbn. rewrite C1, C2, C3. repeat split; auto; discriminate.
Qed.
Lemma call_inv info (al al' : Z -> Prop) t p : (forall u, al u -> al' u) -> al' t -> pinv al p ->
  exists r c p', get_thread_cryptodev_ctx info t p = Done (r, c, p') /\ pinv al' p' /\
    (r = 0 -> exists c0, c = Some c0 /\ tss_find t (p_tss p') = Some c0) /\ (r <> 0 -> c = None /\ p_tss p' = p_tss p).
Proof.
  intros AL At I. unfold get_thread_cryptodev_ctx. destruct (create_inv al p I) as (I1 & K1 & O1 & T1). set (q := create_thread_ctx_key p) in *. clearbody q. rewrite <- T1. clear I T1.
  destruct I1 as (K & E & S0 & P & N1 & N2 & F & M & A). rewrite E, K1. cbn [Z.eqb negb].
  assert (A' : Forall (fun x => al' (fst x)) (p_tss q)) by (eapply Forall_impl; [|exact A]; cbn; auto).
  destruct (tss_find t (p_tss q)) as [c|] eqn:TF.
  { exists 0, (Some c), q. split; auto. split; [unfold pinv; repeat split; auto; congruence|]. split; [intros _; eauto|lia]. }
  destruct (os_malloc (p_os q)) as [ok w] eqn:EM. unfold os_malloc in EM. destruct (os_call (p_os q)) as [r0 w0] eqn:C. apply os_call_same in C. destruct C as (C1 & C2 & C3).
  destruct (Z.eqb_spec r0 0); apply pair_inj in EM; destruct EM as [<- <-]; cbn [negb].
  2: { eexists _, _, _. split; [reflexivity|]. split; [|split; [unfold ENOMEM; lia|auto]]. unfold pinv. cbn. rewrite C1, C2, C3. repeat split; auto; congruence. }
  destruct (c842_ctx_init info _) as [[err c] w1] eqn:EI. apply init_spec in EI; [|cbn; rewrite C1, C2; auto]. cbn in EI. rewrite C1, C2, C3 in EI. destruct EI as (I1 & I2 & I3 & I4).
  destruct (Z.eqb_spec err 0) as [->|NE]; cbn [negb].
  2: { eexists _, _, _. split; [reflexivity|]. split; [|split; [lia|auto]]. unfold pinv. cbn. rewrite I1, (I4 NE). repeat split; auto; try congruence; [|lia]. eapply Forall_impl; [|exact F]. cbn. lia. }
  destruct (I3 eq_refl) as (J1 & J2 & J3). destruct (os_call w1) as [r2 w2] eqn:C. apply os_call_same in C. destruct C as (D1 & D2 & D3).
  destruct (Z.eqb_spec r2 0); cbn [negb].
  - eexists _, _, _. split; [reflexivity|]. split; [|split; [|lia]].
    + unfold pinv. cbn. rewrite D1, D2, D3, I1, J1, J2, J3. repeat split; auto; try congruence.
      * constructor; auto. intros H. pose proof (proj1 (Forall_forall _ _) F _ H). cbn in *. lia.
      * constructor; auto. now apply tss_find_none.
      * constructor; [lia|]. eapply Forall_impl; [|exact F]. cbn. lia.
      * rewrite M. unfold lenZ. cbn [length]. lia.
    + intros _. exists c. split; auto. cbn. unfold tss_find. cbn [find fst]. rewrite Z.eqb_refl. reflexivity.
  - destruct (c842_ctx_deinit c w2) as [x w3] eqn:ED. apply deinit_spec in ED. destruct ED as (G1 & G2 & G3). eexists _, _, _. split; [reflexivity|]. split; [|split; [unfold ENOMEM; lia|auto]].
    unfold pinv. cbn. rewrite G1, G2, G3, D1, D2, D3, I1, J1, J2, J3, (fresh_remove (p_os q)) by auto. repeat split; auto; try congruence; [|lia]. eapply Forall_impl; [|exact F]. cbn. lia.
Qed.
Lemma exit_inv (al al' : Z -> Prop) t p : (forall u, u <> t -> al u -> al' u) -> pinv al p -> pinv al' (thread_exit t p).
Proof.
  intros AL (K & E & S0 & P & N1 & N2 & F & M & A). unfold thread_exit. destruct (tss_find t (p_tss p)) as [c|] eqn:TF.
  - destruct (c842_ctx_deinit c (p_os p)) as [x w] eqn:ED. apply deinit_spec in ED. destruct ED as (G1 & G2 & G3). apply tss_find_in in TF.
    destruct (in_split _ _ TF) as (l1 & l2 & EL).
    assert (FL : filter (fun x => negb (fst x =? t)) (p_tss p) = l1 ++ l2).
    { rewrite EL in N2 |- *. rewrite map_app in N2. cbn [map fst] in N2. apply NoDup_remove_2 in N2. rewrite <- map_app in N2.
      assert (G : forall l, ~ In t (map fst l) -> filter (fun x : Z * ctx => negb (fst x =? t)) l = l).
      { clear. induction l as [|[u d] l IH]; intros H; [reflexivity|]. cbn [filter fst]. cbn [map fst In] in H. destruct (Z.eqb_spec u t); [tauto|]. cbn [negb]. f_equal. apply IH. tauto. }
      rewrite map_app in N2. rewrite filter_app. cbn [filter fst]. rewrite Z.eqb_refl. cbn [negb]. rewrite !G; auto; intros H; apply N2, in_or_app; auto. }
    assert (PM : Permutation (p_tss p) ((t, c) :: l1 ++ l2)) by (rewrite EL; symmetry; apply Permutation_middle).
    assert (P2 : Permutation (os_fds (p_os p)) (cfd c :: map (fun x => cfd (snd x)) (l1 ++ l2))) by (rewrite P, PM; reflexivity).
    assert (P3 : Permutation (os_fds (p_os p)) (cfd c :: remove Z.eq_dec (cfd c) (os_fds (p_os p)))) by (apply in_remove_length; auto; rewrite P2; left; auto).
    assert (P4 : Permutation (remove Z.eq_dec (cfd c) (os_fds (p_os p))) (map (fun x => cfd (snd x)) (l1 ++ l2))) by (apply (Permutation_cons_inv (a := cfd c)); now rewrite <- P2, <- P3).
    unfold pinv. cbn. rewrite G1, G2, G3, FL. repeat split; auto.
    + destruct (S0 H) as [T _]. rewrite T in TF. destruct TF.
    + destruct (S0 H) as [T _]. rewrite T in TF. destruct TF.
    + rewrite P3 in N1. now inversion N1.
    + rewrite PM in N2. now inversion N2.
    + rewrite P3 in F. now inversion F.
    + rewrite M. unfold lenZ. rewrite (Permutation_length PM). cbn [length]. lia.
    + apply Forall_forall. intros y Hy. apply AL.
      * intros EQ. rewrite PM in N2. cbn [map fst] in N2. apply NoDup_cons_iff in N2. apply (proj1 N2). rewrite <- EQ. now apply in_map.
      * assert (In y (p_tss p)) by (rewrite PM; right; auto). exact (proj1 (Forall_forall _ _) A _ H).
  - unfold pinv. repeat split; auto; try apply S0; auto. apply Forall_forall. intros x Hx. apply AL; [|exact (proj1 (Forall_forall _ _) A _ Hx)]. intros EQ. apply (tss_find_none _ _ TF). rewrite <- EQ. now apply in_map.
Qed.
Lemma fresh_inv script fd : hd 0 script = 0 -> pinv (fun _ => False) (fresh script fd).
Proof. intros H. unfold pinv, fresh. cbn. repeat split; auto; try discriminate; constructor. Qed.
Theorem history_inv info script fd h p : hd 0 script = 0 -> history info (fresh script fd) h p -> pinv (alive h) p.
Proof.
  intros HS H. induction H as [|h p t r c p' H IH G|h p t H IH].
  - apply (fresh_inv script fd HS).
  - destruct (call_inv info (alive h) (alive (h ++ [Call t])) t p) as (r0 & c0 & p0 & E & I & _); auto.
    + intros u A. apply alive_call. auto.
    + apply alive_call. auto.
    + rewrite E in G. assert (p0 = p') by congruence. now subst p0.
  - apply (exit_inv (alive h)); auto. intros u NE A. apply alive_exit. auto.
Qed.

(** * The library itself is a driver as expected *)
Theorem soft_driver_good f g op maxc : as_single_calls (2 ^ 32) f g -> maxc <= UINT_MAX -> good_driver f op maxc (soft_driver op g).
Proof.
  intros AS HM q iaddr inp oaddr out rets istride ostride n ilens olens EO HN EL HL ED HD FL FO Bi Bo AR AD. unfold soft_driver. rewrite EO, Z.eqb_refl. fold n ilens olens.
  unfold UINT32_MAX, UINT_MAX in *. destruct (Z.eq_dec n 0) as [N0|N0].
  - assert (NL : forall j, ~ live n ilens j) by (intros j [H _]; rewrite N0 in H; change (Z.to_nat 0) with 0%nat in H; lia).
    rewrite N0, !Zdiv_0_r. rewrite N0 in AR, NL. destruct AR as (A1 & A2 & A3 & A4 & A5 & A6).
    destruct (AS 0 rets iaddr inp 0 ilens oaddr out 0 olens) as (r & rets' & olens' & out' & -> & D1 & D2 & D3 & D4 & D5 & D6 & D7); auto; try (unfold UINT_MAX; lia).
    + unfold areas. repeat split; auto; try lia; exfalso; eapply NL; eauto. + intros j L. exfalso. eapply NL; eauto.
    + rewrite bind_done. exists olens', rets', out'. split; [reflexivity|]. unfold done_as_single. fold n ilens olens. rewrite ?N0.
      split; [intros j L; exfalso; eapply NL; eauto|]. split; [exact D2|]. split; [auto|]. split; [auto|]. split; [auto|]. intros k _. apply D7. intros j L. exfalso. eapply NL; eauto.
  - assert (E1 : q_len q / n = istride) by (rewrite EL; apply Z.div_mul; lia). assert (E2 : q_dlen q / n = ostride) by (rewrite ED; apply Z.div_mul; lia). rewrite E1, E2.
    assert (PS : 0 <= istride /\ 0 <= ostride) by (destruct AR as (_ & _ & _ & ? & ? & _); auto).
    destruct (AS n rets iaddr inp istride ilens oaddr out ostride olens) as (r & rets' & olens' & out' & -> & D1 & D2 & D3 & D4 & D5 & D6 & D7); auto; try (unfold UINT_MAX; nia).
    rewrite bind_done. exists olens', rets', out'. split; [reflexivity|]. unfold done_as_single. repeat split; auto; apply D2; auto.
Qed.

Lemma context_kept : forall info t c p, p_once p = true -> p_key p = true -> p_key_err p = 0 -> tss_find t (p_tss p) = Some c ->
  get_thread_cryptodev_ctx info t p = Done (0, Some c, p) /\
  forall u, u <> t -> (forall r d p', get_thread_cryptodev_ctx info u p = Done (r, d, p') -> tss_find t (p_tss p') = Some c) /\ tss_find t (p_tss (thread_exit u p)) = Some c.
Proof.
  intros info t c p O K E F. split; [unfold get_thread_cryptodev_ctx, create_thread_ctx_key; rewrite O, E, K, F; reflexivity|]. intros u NE. split.
  - intros r d p'. unfold get_thread_cryptodev_ctx, create_thread_ctx_key. rewrite O, E, K. cbn [Z.eqb negb]. destruct (tss_find u (p_tss p)) as [cu|]; [intros H; assert (p' = p) by congruence; subst; auto|].
    destruct (os_malloc (p_os p)) as [[|] w]; cbn [negb]; [|intros H; assert (p_tss p' = p_tss p) as -> by (replace p' with (mkP true true 0 (p_tss p) w) by congruence; reflexivity); auto].
    destruct (c842_ctx_init info w) as [[err cu] w1]. destruct (negb (err =? 0)); [intros H; assert (p_tss p' = p_tss p) as -> by (replace p' with (mkP true true 0 (p_tss p) (os_free w1)) by congruence; reflexivity); auto|].
    destruct (os_call w1) as [r2 w2]. destruct (negb (r2 =? 0)).
    + destruct (c842_ctx_deinit cu w2) as [x w3]. intros H; assert (p_tss p' = p_tss p) as -> by (replace p' with (mkP true true 0 (p_tss p) (os_free w3)) by congruence; reflexivity); auto.
    + intros H. replace p' with (mkP true true 0 ((u, cu) :: p_tss p) w2) by congruence. cbn [p_tss]. unfold tss_find in *. cbn [find fst]. destruct (Z.eqb_spec u t); [contradiction|exact F].
  - unfold thread_exit. destruct (tss_find u (p_tss p)) as [cu|]; [|exact F]. destruct (c842_ctx_deinit cu (p_os p)) as [x w]. cbn [p_tss]. revert F. unfold tss_find. clear - NE. induction (p_tss p) as [|[v d] l IH]; cbn [find option_map filter fst]; [discriminate|].
    destruct (Z.eqb_spec v t) as [->|NV]; cbn [negb].
    + destruct (Z.eqb_spec t u); [congruence|]. cbn [negb find fst]. rewrite Z.eqb_refl. auto.
    + intros H. destruct (Z.eqb_spec v u); cbn [negb]; [auto|]. cbn [find fst]. destruct (Z.eqb_spec v t); [contradiction|]. auto.
Qed.
