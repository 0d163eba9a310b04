(** The two orders of the parameters of CLDeviceDecompressor::decompress. *)
From Coq Require Import ZArith List Bool Lia Permutation.
From Verif Require Import SpecBits SpecCrc Spec842 CBase BitsLemmas OclModel SpecOcl OclItems OclProps OptFinds SpecNull NullItems DeviceModel SampleProofs.
Import ListNotations.
Open Scope Z_scope.

Lemma array_length e k bs : length (array e k bs) = (length bs / k)%nat.
Proof. unfold array. now rewrite map_length, seq_length. Qed.

(** A run that ends ran every item. *)
Lemma run_all_done e a g order : forall m m', In g order -> run_items e a order m = Done m' -> exists m1 m2, work_item e a g m1 = Done m2.
Proof.
  induction order as [|h order IH]; intros m m' IN R; [destruct IN|]. cbn [run_items] in R.
  destruct (work_item e a h m) as [m1| |] eqn:E; try discriminate. destruct IN as [->|IN]; eauto.
Qed.
Lemma short_map e a order m m' l : 1 <= a_num a <= 2 ^ 64 - 256 -> schedule a order -> a_map a = Some l -> lenZ l < a_num a -> run_items e a order m <> Done m'.
Proof.
  intros HN SC HM HL R. assert (IN : In (a_num a - 1) order).
  { apply (numbers_perm _ _ SC). pose proof (global_size_ge (a_num a) ltac:(lia)). lia. }
  destruct (run_all_done _ _ _ _ _ _ IN R) as (m1 & m2 & E). unfold work_item in E. destruct (Z.geb_spec (a_num a - 1) (a_num a)); [lia|].
  rewrite HM in E. cbn [opt_get] in E. unfold aget in E. destruct (Z.ltb_spec (a_num a - 1) (lenZ l)); [lia|]. rewrite andb_false_r in E. discriminate.
Qed.
Lemma with_map_schedule a m order : schedule (with_map a m) order <-> schedule a order.
Proof. reflexivity. Qed.

Theorem declared_fails e a order out olen rets shuffle r : 1 <= a_num a <= 2 ^ 64 - 256 -> schedule a order -> lenZ rets = 4 * a_num a ->
  declared_decompress e a order out olen (Some rets) shuffle <> Done r.
Proof.
  intros HN SC LR R. unfold declared_decompress, device_decompress in R. cbn [option_map] in R.
  match type of R with context [run_items e ?A order ?M] => destruct (run_items e A order M) as [m'| |] eqn:E end; try discriminate.
  revert E. apply (short_map _ _ _ _ _ (array e 8 rets)); auto. unfold lenZ in *. rewrite array_length. change (a_num (with_map a _)) with (a_num a).
  pose proof (Nat.div_mod (length rets) 8 ltac:(lia)). lia.
Qed.

Lemma zeros_unarray e k l rest : Forall (fun v => v = 0) l -> unarray e k l rest = repeat 0 (k * length l) ++ rest.
Proof.
  assert (ZB : native_bytes e k 0 = repeat 0 k).
  { assert (B : forall n, be_bytes n 0 = repeat 0 n).
    { induction n; [reflexivity|]. cbn [be_bytes repeat]. rewrite Z.div_0_l, Zmod_0_l by (apply Z.pow_nonzero; lia). f_equal. exact IHn. }
    destruct e; cbn [native_bytes]; rewrite B; auto. clear. induction k; [reflexivity|]. cbn [repeat rev]. rewrite IHk. symmetry. apply repeat_cons. }
  intros F. unfold unarray. f_equal. revert F. induction 1 as [|v l -> _ IH]; [now rewrite Nat.mul_0_r|]. cbn [flat_map length]. rewrite IH, Zmod_0_l, ZB, <- repeat_app. f_equal. lia.
Qed.

Theorem definition_order e a out olen shuffle rets x order :
  let a' := with_map a (option_map (array e 8) shuffle) in let m := mkM out olen (Some (array e 4 rets)) in
  1 <= a_num a -> 4 * a_num a <= lenZ rets < 4 * a_num a + 4 -> nlayout_ok a' m -> (forall c, 0 <= c < a_num a -> chunk_holds e a' m c (x c)) -> schedule a order ->
  exists out' olen' zeros, device_decompress e a order out olen shuffle (Some rets) = Done (out', olen', Some (zeros ++ skipn (4 * Z.to_nat (a_num a)) rets)) /\
    zeros = repeat 0 (4 * Z.to_nat (a_num a)) /\ forall c, 0 <= c < a_num a -> bytes_at out' (out_pos a c) (lenZ (x c)) = x c.
Proof.
  intros a' m NN LR NL CH SC. destruct (well_formed e a' m x NL CH order SC) as (m' & R & LM & RS & _).
  assert (L4 : (length rets / 4)%nat = Z.to_nat (a_num a)).
  { symmetry. apply (Nat.div_unique _ 4 _ (length rets - 4 * Z.to_nat (a_num a))); unfold lenZ in LR; lia. }
  unfold device_decompress. cbn [option_map]. fold a' m. rewrite R, bind_done.
  destruct (RS 0) as (_ & _ & R0); [cbn [a' with_map a_num]; lia|]. cbn [m m_ret] in R0. destruct R0 as ((l & EL & LL) & _). cbn [a' with_map a_num] in LL. rewrite EL.
  exists (m_out m'), (m_olen m'), (repeat 0 (4 * Z.to_nat (a_num a))). split; [|split; [reflexivity|intros c Hc; apply (RS c Hc)]]. do 3 f_equal. rewrite L4.
  rewrite zeros_unarray. { do 2 f_equal. unfold lenZ in *. lia. }
  apply Forall_forall. intros v Hv. destruct (In_nth _ _ 0 Hv) as (i & Hi & <-).
  destruct (RS (Z.of_nat i)) as (_ & _ & RI); [cbn [a' with_map a_num]; unfold lenZ in *; lia|]. cbn [m m_ret] in RI. destruct RI as (_ & E0). rewrite EL in E0. cbn [elem] in E0. now rewrite Nat2Z.id in E0.
Qed.

(** Without return values the declared order works, but the map is the array of return values. *)
Theorem declared_null e a out olen x order :
  let a' := with_map a None in let m := mkM out olen None in
  nlayout_ok a' m -> (forall c, 0 <= c < a_num a -> chunk_holds e a' m c (x c)) -> schedule a order ->
  exists out' olen', declared_decompress e a order out olen None None = Done (out', olen', None, None) /\
    forall c, 0 <= c < a_num a -> bytes_at out' (out_pos a c) (lenZ (x c)) = x c.
Proof.
  intros a' m NL CH SC. destruct (well_formed e a' m x NL CH order SC) as (m' & R & LM & RS & _).
  unfold declared_decompress, device_decompress. cbn [option_map]. fold a' m. rewrite R, !bind_done.
  exists (m_out m'), (m_olen m'). split; [reflexivity|]. intros c Hc. apply (RS c Hc).
Qed.

(** * Any content *)
Lemma opt_set_len o i v l : o = Some l -> forall o', opt_set o i v = Done o' -> exists l', o' = Some l' /\ length l' = length l.
Proof.
  intros -> o' E. cbn [opt_set] in E. unfold aset in E. destruct ((0 <=? i) && (i <? lenZ l)) eqn:C; [|discriminate].
  rewrite bind_done in E. apply Done_inj in E. rewrite <- E. eexists. split; [reflexivity|].
  rewrite app_length, firstn_length. cbn [length]. rewrite skipn_length. unfold lenZ in C. lia.
Qed.
Lemma work_item_ret e a g m m' l : m_ret m = Some l -> work_item e a g m = Done m' -> exists l', m_ret m' = Some l' /\ length l' = length l.
Proof.
  intros HR E. unfold work_item in E. destruct (g >=? a_num a). { apply Done_inj in E. rewrite <- E. eauto. }
  destruct (opt_get (a_map a) g g) as [c| |]; try discriminate. rewrite bind_done in E.
  destruct (opt_get (a_ilen a) c SIZE_MAX) as [ilen| |]; try discriminate. rewrite bind_done in E.
  assert (ID : forall out, item_done a m c out = Done m' -> exists l', m_ret m' = Some l' /\ length l' = length l).
  { intros out E1. unfold item_done in E1. destruct (opt_set (m_olen m) c (a_size a)); try discriminate. rewrite bind_done in E1.
    destruct (opt_set (m_ret m) c 0) as [rv| |] eqn:ES; try discriminate. rewrite bind_done in E1. apply Done_inj in E1. rewrite <- E1.
    exact (opt_set_len _ _ _ _ HR _ ES). }
  assert (IC : forall inb ia n oa, item_core e m inb c ia n oa = Done m' -> exists l', m_ret m' = Some l' /\ length l' = length l).
  { intros inb ia n oa E1. unfold item_core in E1. destruct (opt_get (m_olen m) c SIZE_MAX); try discriminate. rewrite bind_done in E1.
    match type of E1 with bind ?x _ = _ => destruct x as [[[ret n'] mem]| |]; try discriminate end. rewrite bind_done in E1.
    destruct (opt_set (m_olen m) c n'); try discriminate. rewrite bind_done in E1.
    destruct (opt_set (m_ret m) c ret) as [rv| |] eqn:ES; try discriminate. rewrite bind_done in E1. apply Done_inj in E1. rewrite <- E1.
    exact (opt_set_len _ _ _ _ HR _ ES). }
  destruct (a_format a); [now apply IC in E|].
  destruct (load_bytes (a_in a) _ 16) as [hd| |]; try discriminate. rewrite bind_done in E.
  destruct (negb (list_eqb hd MARKER)).
  - destruct (load_bytes (a_in a) _ _) as [bs| |]; try discriminate. rewrite bind_done in E.
    destruct (store_bytes (m_out m) _ bs) as [out| |]; try discriminate. rewrite bind_done in E. now apply ID in E.
  - destruct (load64 e (a_in a) _) as [n| |]; try discriminate. rewrite bind_done in E.
    destruct (n =? 0); [now apply ID in E|now apply IC in E].
Qed.
Lemma run_items_ret e a order : forall m m' l, m_ret m = Some l -> run_items e a order m = Done m' -> exists l', m_ret m' = Some l' /\ length l' = length l.
Proof.
  induction order as [|g order IH]; intros m m' l HR E; cbn [run_items] in E. { apply Done_inj in E. rewrite <- E. eauto. }
  destruct (work_item e a g m) as [m1| |] eqn:E1; try discriminate. rewrite bind_done in E.
  destruct (work_item_ret _ _ _ _ _ _ HR E1) as (l1 & H1 & L1). destruct (IH _ _ _ H1 E) as (l2 & H2 & L2). exists l2. split; [auto|congruence].
Qed.

(** The int at position [c] of a buffer. *)
Lemma unarray_int e l rest i : (i < length l)%nat -> - 2 ^ 31 <= nth i l 0 < 2 ^ 31 -> int_at e (unarray e 4 l rest) (Z.of_nat i) = nth i l 0.
Proof.
  intros Hi HR. unfold int_at, bytes_at.
  assert (F : forall l r i, (i < length l)%nat -> slice (4 * i) 4 (flat_map (fun v => native_bytes e 4 (v mod 2 ^ (8 * Z.of_nat 4))) l ++ r) =
    native_bytes e 4 (nth i l 0 mod 2 ^ 32)).
  { clear. assert (L4 : forall v, length (native_bytes e 4 v) = 4%nat) by (intros v; destruct e; reflexivity).
    induction l as [|v l IH]; intros r i Hi; [cbn in Hi; lia|]. cbn [flat_map]. rewrite <- app_assoc. destruct i as [|i].
    - unfold slice. change (4 * 0)%nat with 0%nat. cbn [skipn nth]. rewrite firstn_app_exact; [reflexivity|]. symmetry. apply L4.
    - unfold slice. replace (4 * S i)%nat with (4 + 4 * i)%nat by lia. rewrite skipn_app, skipn_all2 by (rewrite L4; lia). cbn [app]. rewrite L4. replace (4 + 4 * i - 4)%nat with (4 * i)%nat by lia.
      cbn [nth]. apply IH. cbn [length] in Hi. lia. }
  replace (Z.to_nat (4 * Z.of_nat i)) with (4 * i)%nat by lia. change (Z.to_nat 4) with 4%nat. unfold unarray. rewrite F by auto.
  rewrite native_val_bytes. 2: { change (Z.of_nat (8 * 4)) with 32. apply Z.mod_pos_bound. lia. }
  destruct (Z_lt_ge_dec (nth i l 0) 0) as [N|N].
  - assert (M : nth i l 0 mod 2 ^ 32 = nth i l 0 + 2 ^ 32) by (symmetry; apply (Z.mod_unique _ _ (-1)); lia).
    rewrite M. destruct (Z.ltb_spec (nth i l 0 + 2 ^ 32) (2 ^ 31)); lia.
  - rewrite Z.mod_small by lia. destruct (Z.ltb_spec (nth i l 0) (2 ^ 31)); lia.
Qed.
Theorem definition_any e a out olen shuffle rets order :
  let a' := with_map a (option_map (array e 8) shuffle) in let m := mkM out olen (Some (array e 4 rets)) in
  layout_ok 2 a' m -> sizes_ok a -> schedule a order ->
  exists out' olen' rets', device_decompress e a order out olen shuffle (Some rets) = Done (out', olen', Some rets') /\ length rets' = length rets /\
    forall c, 0 <= c < a_num a ->
    let z := bytes_at (a_in a) (in_pos a c) (elem (a_ilen a) c) in
    (forall x, int_at e rets' c = 0 /\ elem olen' c = lenZ x /\ bytes_at out' (out_pos a c) (lenZ x) = x <-> denotes_842 z x /\ lenZ x <= elem olen c) /\
    (forall x, denotes_842 z x -> elem olen c < lenZ x -> int_at e rets' c = - ENOSPC) /\
    (int_at e rets' c = 0 \/ ((int_at e rets' c = - EINVAL \/ int_at e rets' c = - ENOSPC) /\ elem olen' c = 0)).
Proof.
  intros a' m HL HS SC. destruct (batch_always e a' m HL order HS SC) as (m' & R & LM & RS & _).
  destruct (run_items_ret e a' order m m' (array e 4 rets) eq_refl R) as (l & ER & LR).
  destruct (ly_ret _ _ _ HL) as (l0 & E0 & L0). cbn [m m_ret] in E0. assert (E1 : l0 = array e 4 rets) by congruence. subst l0.
  cbn [a' with_map a_num] in L0.
  unfold device_decompress. cbn [option_map]. fold a' m. rewrite R, bind_done, ER. do 3 eexists. split; [reflexivity|]. split.
  - unfold unarray. rewrite app_length, skipn_length.
    assert (FL : forall l1, length (flat_map (fun v => native_bytes e 4 (v mod 2 ^ (8 * Z.of_nat 4))) l1) = (4 * length l1)%nat).
    { assert (L4 : forall v, length (native_bytes e 4 v) = 4%nat) by (intros v; destruct e; reflexivity).
      intros l1. induction l1 as [|v l1 IH]; [reflexivity|]. cbn [flat_map length]. rewrite app_length, IH, L4. lia. }
    rewrite FL, LR, array_length. pose proof (Nat.div_mod (length rets) 4 ltac:(lia)). lia.
  - intros c Hc. specialize (RS c Hc). cbv zeta in RS |- *. rewrite ER in RS.
    assert (IA : int_at e (unarray e 4 l (skipn (4 * (length rets / 4)) rets)) c = elem (Some l) c).
    { cbn [elem]. rewrite <- (Z2Nat.id c) at 1 by lia. apply unarray_int. { unfold lenZ in *. lia. }
      destruct RS as (_ & _ & RS). cbn [elem] in RS. unfold EINVAL, ENOSPC in RS. lia. }
    rewrite IA. exact RS.
Qed.

(** * A map given by its numbers *)
Lemma array_numbers e ms : Forall (fun v => 0 <= v < 2 ^ 64) ms -> array e 8 (flat_map (native_bytes e 8) ms) = ms.
Proof.
  intros F. assert (FL : length (flat_map (native_bytes e 8) ms) = (8 * length ms)%nat).
  { clear F. induction ms as [|v ms IH]; [reflexivity|]. cbn [flat_map length]. rewrite app_length, IH, native_bytes_length. lia. }
  assert (SL : forall l i, (i < length l)%nat -> slice (8 * i) 8 (flat_map (native_bytes e 8) l) = native_bytes e 8 (nth i l 0)).
  { clear. induction l as [|v l IH]; intros i Hi; [cbn [length] in Hi; lia|]. cbn [flat_map]. destruct i as [|i].
    - unfold slice. change (8 * 0)%nat with 0%nat. cbn [skipn nth]. apply firstn_app_exact. now rewrite native_bytes_length.
    - unfold slice. replace (8 * S i)%nat with (8 + 8 * i)%nat by lia. rewrite skipn_app, skipn_all2 by (rewrite native_bytes_length; lia).
      cbn [app nth]. rewrite native_bytes_length. replace (8 + 8 * i - 8)%nat with (8 * i)%nat by lia. apply IH. cbn [length] in Hi. lia. }
  unfold array. rewrite FL. rewrite Nat.mul_comm, Nat.div_mul by lia.
  apply (nth_ext _ _ 0 0). { now rewrite map_length, seq_length. }
  rewrite map_length, seq_length. intros i Hi. rewrite (nth_indep _ 0 ((fun i => native_val e (slice (8 * i) 8 (flat_map (native_bytes e 8) ms))) 0%nat)) by now rewrite map_length, seq_length.
  rewrite (map_nth (fun i => native_val e (slice (8 * i) 8 (flat_map (native_bytes e 8) ms)))), seq_nth by auto. cbn [plus]. rewrite SL by auto. apply native_val_bytes.
  change (Z.of_nat (8 * 8)) with 64. rewrite Forall_forall in F. apply F. now apply nth_In.
Qed.
Lemma map_numbers e n shuffle : 0 <= n <= 2 ^ 64 - 256 -> (forall l, shuffle = Some l -> Permutation l (chunk_numbers n)) ->
  option_map (array e 8) (option_map (flat_map (native_bytes e 8)) shuffle) = shuffle.
Proof.
  intros Hn HP. destruct shuffle as [l|]; [|reflexivity]. cbn [option_map]. f_equal. apply array_numbers. apply Forall_forall. intros v Hv.
  apply (Permutation_in _ (HP l eq_refl)) in Hv. unfold chunk_numbers in Hv. apply in_map_iff in Hv. destruct Hv as (i & <- & Hi). apply in_seq in Hi. lia.
Qed.
Lemma array_4 e rets n : 0 <= n -> 4 * n <= lenZ rets < 4 * n + 4 -> lenZ (array e 4 rets) = n.
Proof.
  intros Hn H. unfold lenZ in *. rewrite array_length. rewrite <- (Z2Nat.id n) by lia. f_equal. symmetry.
  apply (Nat.div_unique _ 4 _ (length rets - 4 * Z.to_nat n)); lia.
Qed.
Theorem definition_order_numbers e a out olen shuffle rets x order :
  let a' := with_map a shuffle in let m := mkM out olen None in
  1 <= a_num a -> 4 * a_num a <= lenZ rets < 4 * a_num a + 4 -> nlayout_ok a' m -> (forall c, 0 <= c < a_num a -> chunk_holds e a' m c (x c)) -> schedule a order ->
  exists out' olen' zeros, device_decompress e a order out olen (option_map (flat_map (native_bytes e 8)) shuffle) (Some rets) =
      Done (out', olen', Some (zeros ++ skipn (4 * Z.to_nat (a_num a)) rets)) /\
    zeros = repeat 0 (4 * Z.to_nat (a_num a)) /\ forall c, 0 <= c < a_num a -> bytes_at out' (out_pos a c) (lenZ (x c)) = x c.
Proof.
  intros a' m NN LR NL CH SC.
  assert (EM : option_map (array e 8) (option_map (flat_map (native_bytes e 8)) shuffle) = shuffle)
    by exact (map_numbers e (a_num a) shuffle (nl_num _ _ NL) (nl_map _ _ NL)).
  apply definition_order; auto. rewrite EM.
  destruct NL. constructor; auto. cbn [m_ret]. intros l E. injection E as <-. apply array_4; [cbn [a' with_map a_num]; lia|exact LR].
Qed.
Theorem definition_any_numbers e a out olen shuffle rets order :
  let a' := with_map a shuffle in let m := mkM out olen (Some (chunk_numbers (a_num a))) in
  4 * a_num a <= lenZ rets < 4 * a_num a + 4 -> layout_ok 2 a' m -> sizes_ok a -> schedule a order ->
  exists out' olen' rets', device_decompress e a order out olen (option_map (flat_map (native_bytes e 8)) shuffle) (Some rets) = Done (out', olen', Some rets') /\ length rets' = length rets /\
    forall c, 0 <= c < a_num a ->
    let z := bytes_at (a_in a) (in_pos a c) (elem (a_ilen a) c) in
    (forall x, int_at e rets' c = 0 /\ elem olen' c = lenZ x /\ bytes_at out' (out_pos a c) (lenZ x) = x <-> denotes_842 z x /\ lenZ x <= elem olen c) /\
    (forall x, denotes_842 z x -> elem olen c < lenZ x -> int_at e rets' c = - ENOSPC) /\
    (int_at e rets' c = 0 \/ ((int_at e rets' c = - EINVAL \/ int_at e rets' c = - ENOSPC) /\ elem olen' c = 0)).
Proof.
  intros a' m LR HL HS SC.
  assert (EM : option_map (array e 8) (option_map (flat_map (native_bytes e 8)) shuffle) = shuffle)
    by exact (map_numbers e (a_num a) shuffle (ly_num _ _ _ HL) (ly_map _ _ _ HL)).
  assert (NN : 0 <= a_num a) by exact (proj1 (ly_num _ _ _ HL)).
  apply definition_any; auto. rewrite EM. destruct HL. constructor; auto. cbn [m_ret]. eexists. split; [reflexivity|]. exact (array_4 e rets (a_num a) NN LR).
Qed.
