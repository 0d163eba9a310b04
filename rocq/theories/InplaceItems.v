(** The kernel with all its work items for in-place decompression. *)
From Coq Require Import ZArith List Bool Lia Permutation.
From Verif Require Import SpecBits SpecCrc Spec842 CBase BitsLemmas SerialIdeal SerialFacts SerialDecompModel SerialDecomp OptDecompModel OptDecomp OclModel SpecOcl OclPure OclProofs OclItems OclProps InplaceModel SpecInplace OclExt InplaceProofs InplaceSmall.
Import ListNotations.
Open Scope Z_scope.

Lemma is_bytes_b l : forallb (fun b => (0 <=? b) && (b <? 256)) l = true -> is_bytes l.
Proof. intros H. apply Forall_forall. intros b Hb. rewrite forallb_forall in H. specialize (H b Hb). unfold is_byte. lia. Qed.
Lemma nth_firstn_lt {A} (l : list A) d n : forall i, (i < n)%nat -> nth i (firstn n l) d = nth i l d.
Proof. revert l. induction n as [|n IH]; intros l i H; [lia|]. destruct l as [|x l]; [now destruct i|]. destruct i; cbn; auto. apply IH. lia. Qed.
Lemma nth_bytes_at l p n i : (i < Z.to_nat n)%nat -> (Z.to_nat p + i < length l)%nat -> nth i (bytes_at l p n) 0 = nth (Z.to_nat p + i) l 0.
Proof.
  intros H1 H2. unfold bytes_at, slice. rewrite nth_firstn_lt by lia.
  rewrite <- (firstn_skipn (Z.to_nat p) l) at 2. rewrite app_nth2 by (rewrite firstn_length; lia). f_equal. rewrite firstn_length. lia.
Qed.
Lemma bytes_at_same l l' p n : length l = length l' -> 0 <= p -> 0 <= n -> p + n <= lenZ l ->
  (forall q, p <= Z.of_nat q < p + n -> nth q l 0 = nth q l' 0) -> bytes_at l p n = bytes_at l' p n.
Proof.
  intros HL P N F H. assert (L1 : length (bytes_at l p n) = Z.to_nat n) by (unfold bytes_at; apply slice_length; unfold lenZ in *; lia).
  assert (L2 : length (bytes_at l' p n) = Z.to_nat n) by (unfold bytes_at; apply slice_length; unfold lenZ in *; lia).
  apply (nth_ext _ _ 0 0); [lia|]. intros i Hi. rewrite L1 in Hi. unfold lenZ in F. rewrite !nth_bytes_at by lia. apply H. lia.
Qed.
Lemma packed_facts e size chunk z : packed e size chunk z -> size < 2 ^ 63 ->
  firstn 16 chunk = MARKER /\ native_val e (slice 16 8 chunk) = lenZ z /\ bytes_at chunk (size - lenZ z) (lenZ z) = z /\ 0 <= lenZ z <= size - 24 /\ lenZ chunk = size.
Proof.
  intros (pad & EP & LC) HS.
  assert (L24 : (24 + length pad + length z = length chunk)%nat).
  { rewrite EP, !app_length, native_bytes_length. change (length MARKER) with 16%nat. lia. }
  split; [rewrite EP; reflexivity|]. split.
  { rewrite EP. unfold slice. change 16%nat with (length MARKER) at 1. rewrite skipn_app, Nat.sub_diag, skipn_all. cbn [app skipn].
    rewrite <- (native_bytes_length e 8 (lenZ z)) at 1. rewrite firstn_app, Nat.sub_diag, firstn_all, firstn_O, app_nil_r.
    apply native_val_bytes. unfold lenZ in *. lia. }
  split.
  { unfold bytes_at, slice. rewrite <- LC. replace (Z.to_nat (lenZ chunk - lenZ z)) with (length chunk - length z)%nat by (unfold lenZ; lia).
    rewrite EP. rewrite !app_assoc. set (u := _ ++ pad). rewrite app_length. replace (length u + length z - length z)%nat with (length u) by lia.
    rewrite skipn_app, Nat.sub_diag, skipn_all. cbn [app skipn]. unfold lenZ. rewrite Nat2Z.id. apply firstn_all. }
  split; auto. unfold lenZ in *. lia.
Qed.
Lemma words8 n : n mod 8 = 0 -> 8 * ((n + 7) / 8) = n.
Proof. intros H. pose proof (Z.div_mod n 8 ltac:(lia)). replace ((n + 7) / 8) with (n / 8); [lia|]. apply (Z.div_unique _ 8 _ 7); lia. Qed.
Lemma oaddr8 o s c : o mod 8 = 0 -> s mod 8 = 0 -> 8 * (o / 8 + s / 8 * c) = o + s * c.
Proof. intros H1 H2. rewrite <- (div8 o H1) at 2. rewrite <- (div8 s H2) at 2. lia. Qed.
Lemma put_self M p n : put M p (slice p n M) = M.
Proof.
  unfold put, slice. rewrite <- (firstn_skipn p M) at 5. f_equal.
  rewrite <- skipn_skipn. rewrite <- (firstn_skipn n (skipn p M)) at 4. f_equal.
  rewrite firstn_length. destruct (Nat.le_gt_cases n (length (skipn p M))) as [H|H]; [now rewrite Nat.min_l|].
  rewrite Nat.min_r by lia. rewrite !skipn_all2; auto; lia.
Qed.


Lemma put_at M o w n : (length w <= n)%nat -> (o + n <= length M)%nat -> slice o n (put M o w) = w ++ skipn (length w) (slice o n M).
Proof.
  intros H1 H2. unfold put, slice. rewrite skipn_app, firstn_length, Nat.min_l by lia. rewrite skipn_all2 by (rewrite firstn_length; lia).
  rewrite Nat.sub_diag. cbn [app skipn]. rewrite firstn_app, firstn_all2 by lia. f_equal.
  rewrite <- skipn_skipn. rewrite firstn_skipn_comm. do 2 f_equal. lia.
Qed.

Section Items.
Variable e : endian.
Variable a : cl_args.
Hypothesis Hs : 0 < a_size a < 2 ^ 63 /\ a_size a mod 8 = 0.
Hypothesis Ho : 0 <= a_outoff a /\ a_outoff a mod 8 = 0.
Hypothesis Hst : a_stride a = a_size a.
Hypothesis H16 : 16 <= a_size a.
Hypothesis Hil : forall l, a_ilen a = Some l -> lenZ l = a_num a.

Lemma iitem_ok m g c L R : 0 <= g < a_num a -> opt_get (a_map a) g g = Done c -> 0 <= c < a_num a -> lenZ L = a_num a -> lenZ R = a_num a ->
  m_olen m = Some L -> m_ret m = Some R -> is_bytes (m_out m) ->
  let cap := nth (Z.to_nat c) L 0 in 0 <= cap <= a_size a -> out_pos a c + a_size a + 2 <= lenZ (m_out m) ->
  let ch := bytes_at (m_out m) (out_pos a c) (a_size a) in
  (firstn 16 ch <> MARKER \/ exists z, packed e (a_size a) ch z /\ lenZ z mod 8 = 0) ->
  exists r n w, iwork_item e a g m = Done (mkM (put (m_out m) (Z.to_nat (out_pos a c)) w) (Some (put L (Z.to_nat c) [n])) (Some (put R (Z.to_nat c) [r]))) /\
    is_bytes w /\ lenZ w <= a_size a /\
    chunk_becomes e (a_size a) cap ch r n (bytes_at (put (m_out m) (Z.to_nat (out_pos a c)) w) (out_pos a c) (a_size a)).
Proof.
  intros Hg Hm Hc HL HR EO ER Hb cap Hcap Hfit ch CP. unfold iwork_item. destruct (Z.geb_spec g (a_num a)); [lia|].
  rewrite Hm, bind_done. cbv zeta. rewrite Hst, (oaddr8 (a_outoff a) (a_size a) c) by tauto. fold (out_pos a c).
  set (o := out_pos a c) in *. assert (O0 : 0 <= o) by (unfold o, out_pos; nia).
  assert (EL : exists v, opt_get (a_ilen a) c SIZE_MAX = Done v).
  { destruct (a_ilen a) as [l|]; [|eexists; reflexivity]. rewrite opt_get_some; eauto. specialize (Hil l eq_refl). lia. }
  destruct EL as [v ->]. rewrite bind_done. rewrite load_bytes_ok by lia. rewrite bind_done.
  assert (LC : lenZ ch = a_size a) by (unfold ch, bytes_at, lenZ in *; rewrite slice_length; lia).
  change (Z.to_nat 16) with 16%nat.
  assert (S1 : slice (Z.to_nat o) 16 (m_out m) = firstn 16 ch). { unfold ch, bytes_at. rewrite firstn_slice by lia. reflexivity. }
  rewrite S1.
  assert (DONE : forall r n, (r = 0 /\ n = a_size a) -> (firstn 16 ch = MARKER -> exists z, packed e (a_size a) ch z /\ lenZ z = 0) ->
    exists r n w, item_done a m c (m_out m) = Done (mkM (put (m_out m) (Z.to_nat o) w) (Some (put L (Z.to_nat c) [n])) (Some (put R (Z.to_nat c) [r]))) /\
    is_bytes w /\ lenZ w <= a_size a /\ chunk_becomes e (a_size a) cap ch r n (bytes_at (put (m_out m) (Z.to_nat o) w) o (a_size a))).
  { intros r n _ HM. exists 0, (a_size a), []. assert (P0 : put (m_out m) (Z.to_nat o) [] = m_out m).
    { unfold put. cbn [app length]. rewrite Nat.add_0_r. apply firstn_skipn. }
    rewrite P0. split. { unfold item_done. rewrite EO, ER, !opt_set_some, !bind_done by lia. reflexivity. }
    split; [constructor|]. split; [rewrite lenZ_nil; lia|]. split; [auto|]. split; [lia|]. split; [auto|].
    intros z PK Z8 ZP. exfalso. destruct (packed_facts e (a_size a) ch z PK ltac:(lia)) as (M1 & N1 & _).
    destruct (HM M1) as (z' & PK' & E0). destruct (packed_facts e (a_size a) ch z' PK' ltac:(lia)) as (_ & N2 & _). lia. }
  destruct (list_eqb (firstn 16 ch) MARKER) eqn:LE; cbn [negb].
  - apply list_eqb_eq in LE. destruct CP as [CP|(z & PK & Z8)]; [contradiction|].
    destruct (packed_facts e (a_size a) ch z PK ltac:(lia)) as (_ & NV & BZ & LZ & _).
    rewrite load64_ok by lia. replace (slice (Z.to_nat (o + 16)) 8 (m_out m)) with (slice 16 8 ch).
    2: { unfold ch, bytes_at. rewrite slice_slice by lia. f_equal. lia. }
    rewrite bind_done, NV. destruct (Z.eqb_spec (lenZ z) 0) as [Z0|Z0]; [apply (DONE 0 (a_size a)); eauto|].
    rewrite EO, ER, opt_get_some, bind_done by lia. fold cap. unfold u64. rewrite Z.mod_small by lia. rewrite (div8 (a_size a - lenZ z)).
    2: { rewrite Zminus_mod, Z8. replace (a_size a mod 8) with 0 by lia. reflexivity. }
    replace (o + (a_size a - lenZ z) - o) with (a_size a - lenZ z) by lia.
    set (M := skipn (Z.to_nat o) (m_out m)). assert (BM : is_bytes M) by now apply is_bytes_skipn.
    assert (LMM : lenZ M = lenZ (m_out m) - o) by (unfold M, lenZ in *; rewrite skipn_length; lia).
    assert (FI : firstn (Z.to_nat (lenZ z)) (input_now (a_size a - lenZ z) M) = z).
    { rewrite <- BZ at 3. unfold ch, bytes_at. rewrite slice_slice by lia. unfold input_now, M, slice. now rewrite skipn_skipn. }
    destruct (inplace_bounds e (a_size a - lenZ z) (lenZ z) cap ltac:(lia) M BM ltac:(lia) ltac:(rewrite words8 by auto; lia) ltac:(lia) ltac:(lia))
      as (r & n & M' & E & CODE & NB & w & BW & LW & EM).
    exists r, n, w. rewrite E, bind_done, !opt_set_some, !bind_done by lia.
    split. { do 2 f_equal. rewrite EM. unfold put, M. now rewrite skipn_skipn. }
    split; [auto|]. split; [lia|]. split; [auto|]. split; [lia|]. split; [congruence|].
    intros z' PK' Z8' ZP SA x.
    assert (z' = z) as ->. { destruct (packed_facts e (a_size a) ch z' PK' ltac:(lia)) as (_ & NV' & BZ' & _). rewrite <- BZ, <- BZ'. now rewrite <- NV', NV. }
    assert (R1 : readable (input_now (a_size a - lenZ z) M) (lenZ z)).
    { apply readable_words; [lia|]. rewrite words8 by auto. unfold lenZ at 2. unfold input_now. rewrite skipn_length. unfold lenZ in *. lia. }
    rewrite inplace_same in E; auto; try lia. 2: { rewrite FI, whole_mod8 by auto. exact SA. }
    pose proof (core_fun e (input_now (a_size a - lenZ z) M) (lenZ z) M cap) as C1. rewrite FI in C1.
    pose proof (core_res_ok z cap x Z8 ltac:(lia)) as CO.
    destruct (core_res z cap) as [[r1 n1] w1]. destruct C1 as (B1 & F1 & N1 & _ & C1); auto; try lia. { now apply is_bytes_skipn. }
    rewrite C1 in E. injection E as -> -> EW. rewrite CO. unfold bytes_at. rewrite put_at by (unfold lenZ in *; lia).
    assert (PW : forall k, (k <= Z.to_nat (a_size a))%nat -> firstn k (w ++ skipn (length w) (slice (Z.to_nat o) (Z.to_nat (a_size a)) (m_out m))) = firstn k (w1 ++ skipn (length w1) M)).
    { intros k K. rewrite EW, EM. clear - K LW Hcap. unfold M, slice.
      assert (LW' : (length w <= Z.to_nat (a_size a))%nat) by (unfold lenZ in *; lia).
      rewrite skipn_firstn_comm. rewrite !firstn_app. f_equal. rewrite firstn_firstn. f_equal. lia. }
    split.
    + intros (-> & -> & EX). specialize (N1 eq_refl). rewrite PW in EX by (unfold lenZ in *; lia).
      rewrite N1 in EX. unfold lenZ in EX. rewrite Nat2Z.id, firstn_app, Nat.sub_diag, firstn_all, firstn_O, app_nil_r in EX. now subst.
    + intros EQ. injection EQ as -> -> ->. split; auto. split; auto. rewrite PW by (unfold lenZ in *; lia). unfold lenZ. rewrite Nat2Z.id, firstn_app, Nat.sub_diag, firstn_all, firstn_O, app_nil_r. reflexivity.
  - apply (DONE 0 (a_size a)); auto. intros E. apply list_eqb_eq in E. congruence.
Qed.
End Items.

Section Run.
Variable e : endian.
Variable a : cl_args.
Variable m0 : cl_mem.
Hypothesis Hok : inplace_ok e a m0.
Variables L0 R0 : list Z.
Hypothesis EL0 : m_olen m0 = Some L0.
Hypothesis ER0 : m_ret m0 = Some R0.

Definition in_chunk (p : nat) (c : Z) : Prop := out_pos a c <= Z.of_nat p < out_pos a c + a_size a.
Definition chunk_now (m : cl_mem) (c : Z) : list Z := bytes_at (m_out m) (out_pos a c) (a_size a).
Record IInv (D : Z -> bool) (m : cl_mem) : Prop := {
  ii_L : exists L, m_olen m = Some L /\ lenZ L = a_num a /\ forall c, 0 <= c < a_num a -> D c = false -> nth (Z.to_nat c) L 0 = nth (Z.to_nat c) L0 0;
  ii_R : exists R, m_ret m = Some R /\ lenZ R = a_num a;
  ii_B : is_bytes (m_out m);
  ii_len : length (m_out m) = length (m_out m0);
  ii_out : forall p, (forall c, 0 <= c < a_num a -> D c = true -> ~ in_chunk p c) -> nth p (m_out m) 0 = nth p (m_out m0) 0;
  ii_done : forall c, 0 <= c < a_num a -> D c = true ->
    chunk_becomes e (a_size a) (nth (Z.to_nat c) L0 0) (chunk_now m0 c) (elem (m_ret m) c) (elem (m_olen m) c) (chunk_now m c) }.

Lemma Hly : layout_ok 2 a m0. Proof. apply Hok. Qed.
Lemma chunks_apart p c c' : in_chunk p c -> in_chunk p c' -> c = c'.
Proof. destruct (ly_size _ _ _ Hly) as [S _]. unfold in_chunk, out_pos. intros. nia. Qed.

Lemma IInv_init : IInv (fun _ => false) m0.
Proof.
  destruct (L0_ok a m0 Hly L0 EL0) as [A _]. pose proof (R0_ok a m0 Hly R0 ER0). constructor; auto; try discriminate.
  - exists L0. auto. - exists R0. auto. - apply (ly_out _ _ _ Hly).
Qed.

Lemma istep_ok D m g : IInv D m -> 0 <= g -> (g < a_num a -> D (cmap a g) = false) ->
  exists m', iwork_item e a g m = Done m' /\ IInv (if g <? a_num a then add D (cmap a g) else D) m'.
Proof.
  intros HI Hg HD. destruct (Z.ltb_spec g (a_num a)) as [G|G].
  2: { exists m. split; auto. unfold iwork_item. destruct (Z.geb_spec g (a_num a)); [reflexivity|lia]. }
  specialize (HD G). destruct (cmap_ok a m0 Hly g ltac:(lia)) as [CM CR]. set (c := cmap a g) in *.
  pose proof HI as [(L & EL & LL & NL) (R & ER & LR) IB IL IO IDn]. destruct (L0_ok a m0 Hly L0 EL0) as [LL0 B0]. specialize (B0 c CR).
  pose proof (NL c CR HD) as NC. pose proof Hly as [Ly1 Ly2 Ly3 Ly4 Ly5 Ly6 Ly7 _ _ _]. destruct Hok as (_ & (_ & S16 & LI & CK) & EI & EO & ES).
  assert (OF : out_pos a c + a_size a + 2 <= lenZ (m_out m)).
  { unfold lenZ. rewrite IL. fold (lenZ (m_out m0)). unfold out_pos. nia. }
  assert (O0 : 0 <= out_pos a c) by (unfold out_pos; nia).
  assert (CS : chunk_now m c = chunk_now m0 c).
  { unfold chunk_now. apply bytes_at_same; auto; try lia. intros q Hq. apply IO. intros c' Hc' Dc' IC. assert (c = c') by (eapply chunks_apart; eauto; unfold in_chunk; lia). congruence. }
  destruct (CK c CR) as [_ CP]. unfold in_pos in CP. rewrite EI, EO, ES in CP. fold (out_pos a c) in CP. cbv zeta in CP. fold (chunk_now m0 c) in CP.
  rewrite <- CS in CP.
  pose proof (iitem_ok e a Ly2 Ly5 ES S16 LI m g c L R ltac:(lia) CM CR LL LR EL ER IB) as W. cbv zeta in W. rewrite NC in W.
  destruct (W B0 OF CP) as (r & n & w & E & BW & LW & CB). eexists. split; [exact E|].
  assert (PL : length (put (m_out m) (Z.to_nat (out_pos a c)) w) = length (m_out m)) by (apply put_length; unfold lenZ in *; lia).
  assert (PN : forall p, ~ in_chunk p c -> nth p (put (m_out m) (Z.to_nat (out_pos a c)) w) 0 = nth p (m_out m) 0).
  { intros p NP. rewrite put_nth by (unfold lenZ in *; lia). unfold in_chunk in NP.
    destruct (Nat.leb_spec (Z.to_nat (out_pos a c)) p); auto. destruct (Nat.ltb_spec p (Z.to_nat (out_pos a c) + length w)); auto. unfold lenZ in *. cbn [andb]. lia. }
  constructor; cbn [m_out m_olen m_ret].
  - eexists. split; [reflexivity|]. split. { unfold lenZ in *. rewrite put_length; [lia|cbn [length]; lia]. }
    intros x Hx Dx. unfold add in Dx. apply orb_false_iff in Dx. destruct Dx as [Dx Nx]. apply Z.eqb_neq in Nx. rewrite put_nth by (cbn [length]; unfold lenZ in *; lia). cbn [length].
    rewrite <- NL by auto. destruct (Nat.leb_spec (Z.to_nat c) (Z.to_nat x)); auto. destruct (Nat.ltb_spec (Z.to_nat x) (Z.to_nat c + 1)); auto. lia.
  - eexists. split; [reflexivity|]. unfold lenZ in *. rewrite put_length; [lia|cbn [length]; lia].
  - now apply put_bytes.
  - now rewrite PL.
  - intros p HP. rewrite PN.
    + apply IO. intros c' Hc' Dc'. apply HP; auto. unfold add. now rewrite Dc'.
    + apply HP; auto. unfold add. rewrite Z.eqb_refl. apply orb_true_r.
  - intros x Hx Dx. cbn [elem]. rewrite !put_nth by (cbn [length]; unfold lenZ in *; lia). cbn [length]. unfold chunk_now at 2. cbn [m_out].
    destruct (Z.eqb_spec x c) as [->|N].
    + destruct (Nat.leb_spec (Z.to_nat c) (Z.to_nat c)); [|lia]. destruct (Nat.ltb_spec (Z.to_nat c) (Z.to_nat c + 1)); [|lia]. cbn [andb].
      rewrite Nat.sub_diag. cbn [nth]. rewrite <- CS. exact CB.
    + assert (Dx' : D x = true). { unfold add in Dx. destruct (Z.eqb_spec x c); [contradiction|]. now rewrite orb_false_r in Dx. }
      replace ((Z.to_nat c <=? Z.to_nat x)%nat && (Z.to_nat x <? Z.to_nat c + 1)%nat) with false.
      2: { destruct (Nat.leb_spec (Z.to_nat c) (Z.to_nat x)); auto. destruct (Nat.ltb_spec (Z.to_nat x) (Z.to_nat c + 1)); auto. lia. }
      specialize (IDn x Hx Dx'). rewrite EL, ER in IDn. cbn [elem] in IDn.
      replace (bytes_at (put (m_out m) (Z.to_nat (out_pos a c)) w) (out_pos a x) (a_size a)) with (chunk_now m x); [exact IDn|].
      assert (OX : out_pos a x + a_size a + 2 <= lenZ (m_out m)). { unfold lenZ. rewrite IL. fold (lenZ (m_out m0)). unfold out_pos. nia. }
      assert (OX0 : 0 <= out_pos a x) by (unfold out_pos; nia).
      unfold chunk_now. apply bytes_at_same; [now rewrite PL|lia|lia|lia|].
      intros q Hq. symmetry. apply PN. intros IC. apply N. eapply chunks_apart; eauto.
Qed.

Lemma irun_ok order : forall D m, IInv D m -> NoDup order -> (forall g, In g order -> 0 <= g /\ (g < a_num a -> D (cmap a g) = false)) ->
  exists m', irun_items e a order m = Done m' /\ IInv (done_after a D order) m'.
Proof.
  induction order as [|g order IH]; intros D m HI ND HG; cbn [irun_items done_after fold_left]; [eauto|].
  inversion ND as [|? ? NI ND']; subst. destruct (HG g (or_introl eq_refl)) as [G0 GD].
  destruct (istep_ok D m g HI G0 GD) as (m1 & -> & I1). rewrite bind_done. apply IH; auto.
  intros h Hh. destruct (HG h (or_intror Hh)) as [H0 HD]. split; auto. intros HN. destruct (Z.ltb_spec g (a_num a)); auto.
  unfold add. rewrite HD by auto. destruct (Z.eqb_spec (cmap a h) (cmap a g)) as [E|]; auto. apply (cmap_inj a m0 Hly) in E; try lia. subst. contradiction.
Qed.
End Run.

(** The whole run. *)
Lemma inplace_batch e a m order : inplace_ok e a m -> schedule a order ->
  exists m', irun_items e a order m = Done m' /\
  length (m_out m') = length (m_out m) /\
  (forall c, 0 <= c < a_num a ->
    chunk_becomes e (a_size a) (elem (m_olen m) c) (bytes_at (m_out m) (out_pos a c) (a_size a))
      (elem (m_ret m') c) (elem (m_olen m') c) (bytes_at (m_out m') (out_pos a c) (a_size a))) /\
  (forall p, (Z.of_nat p < a_outoff a \/ a_outoff a + a_size a * a_num a <= Z.of_nat p) -> nth p (m_out m') 0 = nth p (m_out m) 0).
Proof.
  intros Hok HS. pose proof (Hly e a m Hok) as LY. destruct (ly_olen _ _ _ LY) as (L0 & EL & _). destruct (ly_ret _ _ _ LY) as (R0 & ER & _).
  destruct (irun_ok e a m Hok L0 EL order (fun _ => false) m) as (m' & E & IV).
  - eapply IInv_init; eauto.
  - eapply Permutation_NoDup; [apply Permutation_sym; exact HS|]. apply numbers_nodup.
  - intros g Hg. split; auto. apply (Permutation_in _ HS) in Hg. apply in_numbers in Hg. lia.
  - exists m'. split; auto. split; [apply IV|]. split.
    + intros c Hc. rewrite EL. cbn [elem]. apply (ii_done _ _ _ _ _ _ IV c Hc).
      destruct (cmap_surj a m LY c Hc) as (g & Hg & <-). apply done_after_in; [|lia].
      apply (Permutation_in _ (Permutation_sym HS)). apply in_numbers. pose proof (global_size_ge (a_num a) (ly_num _ _ _ LY)). lia.
    + intros p Hp. apply (ii_out _ _ _ _ _ _ IV). intros c Hc _ IC. unfold in_chunk, out_pos in IC. pose proof (ly_size _ _ _ LY). nia.
Qed.

Lemma inplace_small e a m order : inplace_ok e a m -> schedule a order -> a_size a <= 560 ->
  exists m', irun_items e a order m = Done m' /\
  forall c z x, 0 <= c < a_num a -> packed e (a_size a) (bytes_at (m_out m) (out_pos a c) (a_size a)) z -> lenZ z mod 8 = 0 ->
    ends_with_crc z x -> lenZ x <= elem (m_olen m) c ->
    elem (m_ret m') c = 0 /\ elem (m_olen m') c = lenZ x /\ bytes_at (m_out m') (out_pos a c) (lenZ x) = x.
Proof.
  intros Hok HS HSZ. destruct (inplace_batch e a m order Hok HS) as (m' & E & LM & RES & _). exists m'. split; auto.
  intros c z x Hc PK Z8 EC HX. pose proof (Hly e a m Hok) as LY. destruct (RES c Hc) as (_ & _ & _ & R).
  pose proof (cap_ok a m LY c Hc) as CAP. pose proof (ly_size _ _ _ LY) as [SZ _]. destruct (packed_facts e _ _ z PK ltac:(lia)) as (_ & _ & _ & LZ & _).
  assert (ZP : 0 < lenZ z). { destruct EC as (rest & S & _). destruct z; [now apply stream_nonempty in S|]. rewrite lenZ_cons. unfold lenZ. lia. }
  specialize (R z PK Z8 ZP (small_ahead (a_size a) z x Z8 ltac:(lia) EC ltac:(lia)) x). destruct R as [_ R].
  destruct R as (R1 & R2 & R3). { split; auto. destruct EC as (rest & S & L). exists rest. split; [exact S|lia]. }
  split; auto. split; auto. unfold bytes_at in *. rewrite firstn_slice in R3 by lia. exact R3.
Qed.

Lemma inplace_copy e mem ioff ilen cap : is_bytes mem -> 0 <= ilen -> ilen mod 8 = 0 -> 0 <= ioff -> ioff + ilen <= lenZ mem ->
  0 <= cap < 2 ^ 63 -> cap + 2 <= lenZ mem -> stays_ahead ioff (bytes_at mem ioff ilen) ->
  inplace_core e mem ioff ilen cap = decompress_core e (bytes_at mem ioff ilen) ilen mem cap.
Proof.
  intros HB HI H8 HO HF HC HM SA. assert (LB : lenZ (bytes_at mem ioff ilen) = ilen) by now rewrite bytes_at_len.
  assert (R1 : readable (input_now ioff mem) ilen).
  { apply readable_words; [lia|]. rewrite words8 by auto. unfold input_now, lenZ in *. rewrite skipn_length. lia. }
  rewrite inplace_same; auto. 2: { change (firstn (Z.to_nat ilen) (input_now ioff mem)) with (bytes_at mem ioff ilen). now rewrite whole_mod8 by (rewrite LB; auto). }
  pose proof (core_fun e (input_now ioff mem) ilen mem cap) as C1. pose proof (core_fun e (bytes_at mem ioff ilen) ilen mem cap) as C2.
  rewrite (firstn_all2 (bytes_at mem ioff ilen)) in C2 by (unfold lenZ in *; lia).
  change (firstn (Z.to_nat ilen) (input_now ioff mem)) with (bytes_at mem ioff ilen) in C1.
  destruct (core_res _ cap) as [[r n] w].
  destruct C1 as (_ & _ & _ & _ & C1); auto; try lia. { now apply is_bytes_skipn. }
  destruct C2 as (_ & _ & _ & _ & C2); auto; try lia. { now apply is_bytes_slice. } { apply readable_words; [lia|]. rewrite words8 by auto. lia. }
  now rewrite C1, C2.
Qed.

(** The compressed data starts behind the end of the memory. *)
Lemma far_core e mem ioff ilen olen : lenZ mem <= ioff -> 0 < ilen -> inplace_core e mem ioff ilen olen = Undef.
Proof.
  intros H1 H2. unfold inplace_core, input_now. rewrite skipn_all2 by (unfold lenZ in *; lia). unfold lookahead. destruct (Z.ltb_spec (0 * 8) ilen); [reflexivity|lia].
Qed.
