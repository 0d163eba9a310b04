(** The kernel without the arrays that are optional. *)
From Coq Require Import ZArith List Bool Lia Permutation.
From Verif Require Import SpecBits SpecCrc Spec842 CBase BitsLemmas CrcProofs
  SerialCompModel SerialDecompModel SerialIdeal SerialValid PureDecoder SerialDecomp SerialFacts
  OptCompModel OptDecompModel OptWriter OptDecomp OclModel OclPure OclProofs SpecOcl OclItems OclProps OclExt InplaceModel SpecInplace InplaceProofs SpecNull.
Import ListNotations.
Open Scope Z_scope.

(** * One chunk *)
Lemma reads_more e hi inp il il' : (hi + 6) * 8 <= il -> il <= il' -> reads_same e 0 hi inp il inp il'.
Proof.
  intros H L n q v q' R L1 L2. unfold kread_bits in *. destruct (k_bits q <? n); auto.
  destruct (Z.gtb_spec ((k_in q + 1) * 8) il) as [G|G].
  - injection R as _ <-. destruct (k_err q =? 0); cbn [kraise k_in] in L2; lia.
  - destruct (Z.gtb_spec ((k_in q + 1) * 8) il'); [lia|].
    pose proof R as R'. apply bind_inv in R'. destruct R' as (l5 & E5 & E). injection E as _ <-. cbn [k_in] in L2.
    assert (LA : lookahead e inp il' (k_in q + 6) = lookahead e inp il (k_in q + 6)).
    { unfold lookahead. destruct (Z.ltb_spec ((k_in q + 6) * 8) il); [|lia]. destruct (Z.ltb_spec ((k_in q + 6) * 8) il'); [auto|lia]. }
    rewrite LA. exact R.
Qed.
Lemma reads_refl e lo hi inp il : reads_same e lo hi inp il inp il.
Proof. intros n q v q' R _ _. exact R. Qed.

Lemma denotes_more z more x : denotes_842 z x -> denotes_842 (z ++ more) x.
Proof.
  intros (rest & ST & L). destruct (stream_prefix _ _ _ _ _ ST) as (c & E & P).
  exists (rest ++ bytes_bits more). rewrite bytes_bits_app, E, <- app_assoc. split; [apply P|]. rewrite app_length. lia.
Qed.

(** More room changes nothing for a stream that is decompressed. *)
Lemma core_room e inp il out cap cap' n mem : decompress_core e inp il out cap = Done (0, n, mem) -> cap <= cap' ->
  decompress_core e inp il out cap' = Done (0, n, mem).
Proof.
  intros D C. unfold decompress_core in *.
  repeat (apply bind_inv in D; let l := fresh "l" in let E := fresh "E" in destruct D as (l & E & D); rewrite E, bind_done; clear E; cbv beta in D;
          match type of D with context [kloop] => idtac end).
  apply bind_inv in D. destruct D as ([c k] & K & D).
  assert (C0 : c = 0). { destruct (Z.eqb_spec c 0); auto. cbn [negb] in D. injection D as E _ _. contradiction. }
  destruct (kloop_inv e _ _ _ _ _ _ _ K) as (_ & _ & KX). rewrite (KX inp il cap' (reads_refl _ _ _ _ _) (or_intror (conj C C0))), bind_done.
  exact D.
Qed.

Lemma readable8 inp j : 0 <= j -> j mod 8 = 0 -> j <= lenZ inp -> readable inp j.
Proof. intros J0 J8 JL. split; auto. intros i Ii Il. pose proof (Z.div_mod j 8 ltac:(lia)). lia. Qed.
Lemma lenZ_firstn (l : list Z) j : 0 <= j <= lenZ l -> lenZ (firstn (Z.to_nat j) l) = j.
Proof. intros. unfold lenZ in *. rewrite firstn_length. lia. Qed.

Lemma core_good e inp il out cap x : is_bytes inp -> is_bytes out -> 0 <= il <= lenZ inp -> il mod 8 = 0 -> cap <= lenZ out -> cap < 2 ^ 63 ->
  denotes_842 (firstn (Z.to_nat il) inp) x -> lenZ x <= cap ->
  is_bytes x /\ decompress_core e inp il out cap = Done (0, lenZ x, x ++ skipn (length x) out).
Proof.
  intros Hi Ho HL H8 HC H63 (rest & ST & LR) HX. assert (X0 : 0 <= lenZ x) by (unfold lenZ; lia).
  pose proof (core_pure e inp il out cap Hi Ho (readable8 inp il ltac:(lia) H8 ltac:(lia)) ltac:(lia) H63) as C. unfold krun in C.
  rewrite whole_mod8 in C by (rewrite lenZ_firstn by lia; auto).
  assert (FU : (length (bytes_bits (firstn (Z.to_nat il) inp)) < S (Z.to_nat (8 * lenZ inp)))%nat).
  { rewrite bytes_bits_length, firstn_length. unfold lenZ. lia. }
  destruct (kd_meaning (lenZ out) cap _ _ ltac:(lia) FU) as (A1 & _). rewrite (A1 _ _ ST HX) in C. destruct C as (m & -> & B & _ & _ & C).
  split; auto. destruct (proj1 (rdb_enough rest) LR) as (v & r & ->) in C. exact C.
Qed.

(** Nor does it matter how much follows the stream, if six words can be read there. *)
Lemma core_long e inp il il' out cap w : is_bytes inp -> is_bytes out -> 0 <= il -> il mod 8 = 0 -> il + 48 <= lenZ inp -> il + 48 <= il' ->
  cap <= lenZ out -> cap < 2 ^ 63 -> denotes_842 (firstn (Z.to_nat il) inp) w -> lenZ w <= cap ->
  decompress_core e inp il' out cap = Done (0, lenZ w, w ++ skipn (length w) out).
Proof.
  intros Hi Ho H0 H8 HL HI HC H63 DN HW. assert (W0 : 0 <= lenZ w) by (unfold lenZ; lia).
  set (i2 := il + 48). assert (I8 : i2 mod 8 = 0) by (unfold i2; rewrite <- Zplus_mod_idemp_l, H8; reflexivity).
  assert (SP : firstn (Z.to_nat i2) inp = firstn (Z.to_nat il) inp ++ slice (Z.to_nat il) 48 inp).
  { unfold i2, slice. replace (Z.to_nat (il + 48)) with (Z.to_nat il + 48)%nat by lia. rewrite <- (firstn_skipn (Z.to_nat il) inp) at 1.
    rewrite firstn_app, firstn_firstn, Nat.min_r by lia. f_equal. rewrite firstn_length, Nat.min_l by (unfold lenZ in *; lia). f_equal. lia. }
  pose proof (denotes_more _ (slice (Z.to_nat il) 48 inp) _ DN) as DN2. rewrite <- SP in DN2.
  destruct (core_good e inp i2 out cap w Hi Ho ltac:(lia) I8 ltac:(lia) H63 DN2 HW) as [_ CF].
  destruct (readable8 inp i2 ltac:(lia) I8 ltac:(lia)) as [RL RR].
  unfold decompress_core in *.
  assert (LA : forall i, 0 <= i < 6 -> lookahead e inp il' i = lookahead e inp i2 i).
  { intros i Ii. unfold lookahead. destruct (Z.ltb_spec (i * 8) i2); [|lia]. destruct (Z.ltb_spec (i * 8) il'); [auto|lia]. }
  rewrite !LA by lia. rewrite !(lookahead_ok e inp i2 Hi RR), !bind_done in CF by lia. rewrite !(lookahead_ok e inp i2 Hi RR), !bind_done by lia.
  match type of CF with context [kloop _ _ _ _ _ ?k] => set (k0 := k) in * end.
  assert (WB : whole (cin inp i2) = firstn (Z.to_nat i2) inp) by (unfold cin; apply whole_mod8; rewrite lenZ_firstn by lia; auto).
  assert (R0 : rdk inp i2 k0 (bytes_bits (whole (cin inp i2)))).
  { constructor. { apply rdo_init. } cbn [k_in k_la k0]. intros j Hj. destruct j as [|[|[|[|[|[|j]]]]]]; try reflexivity. lia. }
  assert (S0 : skk out cap k0 []).
  { constructor; [|reflexivity]. cbn [k_mem k_out k0]. rewrite Z.mul_0_r, Z.sub_0_r. apply sk_init; auto. lia. }
  pose proof (kloop_ok e inp i2 out cap Hi RL RR ltac:(lia) (S (Z.to_nat (8 * lenZ inp))) k0 [] _ R0 S0 eq_refl) as KO.
  rewrite WB in KO.
  destruct DN as (rest & ST & LR).
  destruct (stream_prefix _ _ _ _ _ ST) as (pre & EB & PF).
  set (more := bytes_bits (slice (Z.to_nat il) 48 inp)) in *.
  assert (ST2 : stream false [] (bytes_bits (firstn (Z.to_nat i2) inp)) w (rest ++ more)).
  { rewrite SP, bytes_bits_app, EB, <- app_assoc. apply PF. }
  assert (FU : (length (bytes_bits (firstn (Z.to_nat i2) inp)) < S (Z.to_nat (8 * lenZ inp)))%nat).
  { rewrite bytes_bits_length, firstn_length. unfold lenZ. lia. }
  destruct (kd_meaning (lenZ out) cap _ _ ltac:(lia) FU) as (A1 & _). rewrite (A1 _ _ ST2 HW) in KO. destruct KO as (k & K & RK & SK & E0).
  rewrite K, bind_done in CF. cbn [Z.eqb negb] in CF.
  assert (KI : k_in k = (lenZ pre + 63) / 64).
  { eapply (consumed inp 0 i2); [exact RK|]. unfold input_now. cbn [Z.to_nat skipn]. fold (cin inp i2). rewrite WB, SP, bytes_bits_app, EB, <- app_assoc. reflexivity. }
  assert (LP : lenZ pre + 32 <= 8 * il).
  { pose proof (f_equal (@length bool) EB) as LL. rewrite bytes_bits_length, firstn_length, app_length in LL. unfold lenZ in *. lia. }
  pose proof (Z.div_mod il 8 ltac:(lia)) as D8.
  assert (KW : 0 <= k_in k <= il / 8).
  { rewrite KI. split; [apply Z.div_pos; unfold lenZ; lia|]. apply Z.lt_succ_r, Z.div_lt_upper_bound; lia. }
  destruct (kloop_inv e _ _ _ _ _ _ _ K) as (_ & _ & KX).
  rewrite (KX inp il' cap); [|apply reads_more; [|lia]|auto].
  2: { unfold i2. lia. }
  rewrite bind_done. cbn [Z.eqb negb].
  apply bind_inv in CF. destruct CF as ([v k1] & RB & CF).
  assert (RS : kread_bits e inp il' k CRC_BITS = Done (v, k1)).
  { pose proof (kread_bits_ok e inp i2 Hi RL RR k (rest ++ more) CRC_BITS RK ltac:(unfold CRC_BITS; lia)) as KR. change (Z.to_nat CRC_BITS) with 32%nat in KR.
    destruct (rdb 32 (rest ++ more)) as [[v2 rest2]|] eqn:R2.
    2: { exfalso. destruct (proj1 (rdb_enough (rest ++ more))) as (y & r & X); [rewrite app_length; lia|congruence]. }
    destruct KR as (k2 & E2 & RK2 & _). rewrite RB in E2. injection E2 as <- <-.
    apply rdb_some in R2. destruct R2 as [R2 _].
    assert (K2 : k_in k1 = (lenZ (pre ++ bits_of 32 v) + 63) / 64).
    { eapply (consumed inp 0 i2); [exact RK2|]. unfold input_now. cbn [Z.to_nat skipn]. fold (cin inp i2). rewrite WB, SP, bytes_bits_app, EB, <- !app_assoc. fold more. now rewrite R2. }
    apply (reads_more e (k_in k1) inp i2 il'); auto; try lia.
    assert (k_in k1 <= il / 8); [|unfold i2; lia].
    rewrite K2. apply Z.lt_succ_r, Z.div_lt_upper_bound; [lia|]. unfold lenZ in *. rewrite app_length, bits_of_length. lia. }
  rewrite RS, bind_done. exact CF.
Qed.

Lemma core_done e inp il out cap n mem : is_bytes inp -> is_bytes out -> 0 <= il <= lenZ inp -> il mod 8 = 0 ->
  0 <= cap -> cap + 2 <= lenZ out -> cap < 2 ^ 63 -> decompress_core e inp il out cap = Done (0, n, mem) ->
  exists w, denotes_842 (firstn (Z.to_nat il) inp) w /\ lenZ w <= cap /\ n = lenZ w /\ mem = w ++ skipn (length w) out.
Proof.
  intros Hi Ho H0 H8 HC HO H63 D.
  pose proof (core_fun e inp il out cap Hi Ho (readable8 inp il ltac:(lia) H8 ltac:(lia)) HC HO H63) as CF.
  destruct (core_res (firstn (Z.to_nat il) inp) cap) as [[r n0] w] eqn:CR. destruct CF as (_ & _ & N & _ & CF). rewrite D in CF. injection CF as <- <- ->.
  rewrite (N eq_refl) in *. exists w. apply core_res_ok in CR; [|rewrite lenZ_firstn by lia; auto|lia]. destruct CR. auto.
Qed.

(** * The kernel *)
Definition erase (bo br : bool) (m : cl_mem) : cl_mem :=
  mkM (m_out m) (if bo then m_olen m else None) (if br then m_ret m else None).
Lemma opt_set_erase (b : bool) (o : option (list Z)) i v (o' : option (list Z)) : opt_set o i v = Done o' -> opt_set (if b then o else None) i v = Done (if b then o' else None).
Proof. destruct b; auto. Qed.
Lemma opt_get_erase (b : bool) (o : option (list Z)) i d v : opt_get o i d = Done v -> opt_get (if b then o else None) i d = Done (if b then v else d).
Proof. destruct b; auto. Qed.
Lemma item_done_erase a il bo br m c out m1 : item_done a m c out = Done m1 -> item_done (without_sizes a il) (erase bo br m) c out = Done (erase bo br m1).
Proof.
  unfold item_done. intros H. apply bind_inv in H. destruct H as (ol & E1 & H). apply bind_inv in H. destruct H as (rv & E2 & H). injection H as <-.
  cbn [erase m_olen m_ret m_out without_sizes a_size]. rewrite (opt_set_erase bo _ _ _ _ E1), bind_done, (opt_set_erase br _ _ _ _ E2), bind_done. reflexivity.
Qed.
Lemma item_core_erase e bo br m inb c ip il il' op m1 : item_core e m inb c ip il op = Done m1 ->
  (forall olen, opt_get (m_olen m) c SIZE_MAX = Done olen -> olen <= SIZE_MAX) ->
  (forall l, m_ret m1 = Some l -> nth (Z.to_nat c) l 0 = 0) -> (exists l, m_ret m = Some l) ->
  (forall olen n mem, opt_get (m_olen m) c SIZE_MAX = Done olen ->
    decompress_core e (skipn (Z.to_nat ip) inb) il (skipn (Z.to_nat op) (m_out m)) olen = Done (0, n, mem) ->
    decompress_core e (skipn (Z.to_nat ip) inb) il' (skipn (Z.to_nat op) (m_out m)) olen = Done (0, n, mem)) ->
  item_core e (erase bo br m) inb c ip il' op = Done (erase bo br m1).
Proof.
  unfold item_core. intros H HM HR [R ER] HD. apply bind_inv in H. destruct H as (olen & E0 & H). apply bind_inv in H. destruct H as ([[ret n] mem] & E1 & H).
  apply bind_inv in H. destruct H as (ol & E2 & H). apply bind_inv in H. destruct H as (rv & E3 & H). injection H as <-.
  cbn [erase m_olen m_ret m_out] in *. rewrite (opt_get_erase bo _ _ _ _ E0), bind_done.
  assert (RT : ret = 0).
  { rewrite ER in E3. cbn [opt_set] in E3. apply bind_inv in E3. destruct E3 as (l & E3 & E4). injection E4 as <-. specialize (HR l eq_refl).
    unfold aset in E3. destruct (Z.leb_spec 0 c); cbn [andb] in E3; [|discriminate]. destruct (Z.ltb_spec c (lenZ R)); [|discriminate]. injection E3 as <-.
    rewrite app_nth2 in HR by (rewrite firstn_length; lia). rewrite firstn_length, Nat.min_l in HR by (unfold lenZ in *; lia).
    rewrite Nat.sub_diag in HR. exact HR. }
  subst ret. pose proof (HD _ _ _ E0 E1) as E1'.
  assert (E4 : decompress_core e (skipn (Z.to_nat ip) inb) il' (skipn (Z.to_nat op) (m_out m)) (if bo then olen else SIZE_MAX) = Done (0, n, mem)).
  { eapply core_room; [exact E1'|]. destruct bo; [lia|auto]. }
  rewrite E4, bind_done, (opt_set_erase bo _ _ _ _ E2), bind_done, (opt_set_erase br _ _ _ _ E3), bind_done. reflexivity.
Qed.

Lemma words_addr x y c : x mod 8 = 0 -> y mod 8 = 0 -> 8 * (x / 8 + y / 8 * c) = x + y * c.
Proof. intros. pose proof (Z.div_mod x 8 ltac:(lia)). pose proof (Z.div_mod y 8 ltac:(lia)). nia. Qed.

Section Run.
Variable e : endian.
Variable a : cl_args.
Variable m0 : cl_mem.
Hypothesis Hly : layout_ok 2 a m0.
Hypothesis Hfmt : sizes_ok a \/ chunks_ok e a.
Variables L0 R0 : list Z.
Hypothesis EL0 : m_olen m0 = Some L0.
Hypothesis ER0 : m_ret m0 = Some R0.
Variable il : option (list Z).
Hypothesis Hil : il = a_ilen a \/ (il = None /\ (a_format a = AlwaysCompressed -> bytes_behind 48 a /\ lenZ (a_in a) < 2 ^ 64)).
Notation Inv := (Inv e a m0 L0 R0).

Lemma step_erase bo br D m g m1 : Inv D m -> 0 <= g -> (g < a_num a -> D (cmap a g) = false /\ res_ret e a L0 (cmap a g) = 0) ->
  work_item e a g m = Done m1 -> work_item e (without_sizes a il) g (erase bo br m) = Done (erase bo br m1).
Proof.
  intros HI Hg HD W.
  destruct (step_ok e a m0 Hly Hfmt L0 R0 EL0 D m g HI Hg) as (m1' & W' & I1); [intros; now apply HD|].
  rewrite W in W'. injection W' as <-.
  unfold work_item in *. cbn [without_sizes a_format a_size a_stride a_in a_inoff a_ilen a_outoff a_num a_map].
  destruct (Z.geb_spec g (a_num a)) as [G|G]. { injection W as <-. reflexivity. }
  destruct (HD G) as [HD1 HD2]. clear HD. destruct (Z.ltb_spec g (a_num a)); [|lia].
  destruct (cmap_ok a m0 Hly g ltac:(lia)) as [CM CR]. rewrite CM, bind_done in W. rewrite CM, bind_done. set (c := cmap a g) in *.
  pose proof Hly as [Ly1 Ly2 Ly3 Ly4 Ly5 Ly6 Ly7 _ _ _].
  assert (OA : 8 * (a_outoff a / 8 + a_size a / 8 * c) = out_pos a c) by (apply words_addr; tauto).
  assert (IA : 8 * (a_inoff a / 8 + a_stride a / 8 * c) = in_pos a c) by (apply words_addr; tauto).
  rewrite OA, IA in W. rewrite OA, IA. clear OA IA.
  apply bind_inv in W. destruct W as (n0 & EI & W).
  destruct HI as [(L & EL & LL & NL) (R & ER & LR & NR) IB IL IO]. destruct (L0_ok a m0 Hly L0 EL0) as [LL0 B0].
  pose proof (NL c CR) as NC. rewrite HD1 in NC. specialize (B0 c CR).
  assert (OLEN : forall olen, opt_get (m_olen m) c SIZE_MAX = Done olen -> 0 <= olen <= a_size a).
  { intros olen. rewrite EL, opt_get_some by lia. intros E. injection E as <-. rewrite NC. exact B0. }
  assert (OMAX : forall olen, opt_get (m_olen m) c SIZE_MAX = Done olen -> olen <= SIZE_MAX).
  { intros olen E. apply OLEN in E. unfold SIZE_MAX. lia. }
  assert (RET : forall l, m_ret m1 = Some l -> nth (Z.to_nat c) l 0 = 0).
  { intros l E. destruct I1 as [_ (R1 & ER1 & _ & NR1) _ _ _]. rewrite E in ER1. injection ER1 as <-. rewrite NR1 by auto.
    unfold add. rewrite Z.eqb_refl, orb_true_r. exact HD2. }
  assert (EI' : exists n1, opt_get il c SIZE_MAX = Done n1 /\ (n1 = n0 \/ (n1 = SIZE_MAX /\ (a_format a = AlwaysCompressed -> bytes_behind 48 a /\ lenZ (a_in a) < 2 ^ 64)))).
  { destruct Hil as [->|[-> B]]; [eauto|]. exists SIZE_MAX. split; [reflexivity|auto]. }
  destruct EI' as (n1 & -> & N1). rewrite bind_done.
  assert (ERX : exists l, m_ret m = Some l) by eauto.
  destruct (a_format a) eqn:F.
  - eapply item_core_erase; eauto. intros olen n mem EO ED. destruct N1 as [->|[-> B]]; [exact ED|].
    destruct (B eq_refl) as [B48 B64]. destruct Hfmt as [(_ & l & EIl & Ll & SZ)|(FM & _)]; [|congruence].
    destruct (SZ c CR) as (Z0 & Z8 & ZF). specialize (B48 c CR). rewrite EIl in *. rewrite opt_get_some in EI by lia. injection EI as EI. cbn [elem] in *. rewrite EI in *.
    pose proof (OLEN _ EO) as OB. assert (I0 : 0 <= in_pos a c) by (unfold in_pos; nia). assert (O0 : 0 <= out_pos a c) by (unfold out_pos; nia).
    assert (OF : out_pos a c + a_size a + 2 <= lenZ (m_out m)).
    { unfold lenZ. rewrite IL. fold (lenZ (m_out m0)). unfold out_pos. nia. }
    set (inp := skipn (Z.to_nat (in_pos a c)) (a_in a)) in *. set (out := skipn (Z.to_nat (out_pos a c)) (m_out m)) in *.
    assert (LI : lenZ inp = lenZ (a_in a) - in_pos a c) by (unfold inp, lenZ in *; rewrite skipn_length; lia).
    assert (LO : lenZ out = lenZ (m_out m) - out_pos a c) by (unfold out, lenZ in *; rewrite skipn_length; lia).
    assert (BI : is_bytes inp) by now apply is_bytes_skipn. assert (BO : is_bytes out) by now apply is_bytes_skipn.
    destruct (core_done e inp n0 out olen n mem) as (w & DW & LW & -> & ->); auto; try lia.
    apply core_long with (il := n0); auto; try lia. unfold SIZE_MAX. lia.
  - apply bind_inv in W. destruct W as (hd & -> & W). rewrite bind_done. destruct (negb (list_eqb hd MARKER)).
    + apply bind_inv in W. destruct W as (bs & -> & W). rewrite bind_done. apply bind_inv in W. destruct W as (out & E & W). cbn [erase m_out]. rewrite E, bind_done.
      now apply item_done_erase.
    + apply bind_inv in W. destruct W as (n & -> & W). rewrite bind_done. destruct (n =? 0).
      * now apply item_done_erase.
      * eapply item_core_erase; eauto.
Qed.
Lemma run_erase bo br order : forall D m m1, Inv D m -> NoDup order ->
  (forall g, In g order -> 0 <= g /\ (g < a_num a -> D (cmap a g) = false /\ res_ret e a L0 (cmap a g) = 0)) ->
  run_items e a order m = Done m1 -> run_items e (without_sizes a il) order (erase bo br m) = Done (erase bo br m1).
Proof.
  induction order as [|g order IH]; intros D m m1 HI ND HG W; cbn [run_items] in *. { injection W as <-. reflexivity. }
  inversion ND as [|? ? NI ND']; subst. destruct (HG g (or_introl eq_refl)) as [G0 GD].
  apply bind_inv in W. destruct W as (m2 & W & W2). rewrite (step_erase bo br D m g m2 HI G0 GD W), bind_done.
  destruct (step_ok e a m0 Hly Hfmt L0 R0 EL0 D m g HI G0) as (m2' & W' & I1); [intros; now apply GD|]. rewrite W in W'. injection W' as <-.
  eapply IH; eauto.
  intros h Hh. destruct (HG h (or_intror Hh)) as [H0 HD]. split; auto. intros HN. destruct (HD HN) as [HD1 HD2]. split; auto.
  destruct (Z.ltb_spec g (a_num a)); auto.
  unfold add. rewrite HD1 by auto. destruct (Z.eqb_spec (cmap a h) (cmap a g)) as [E|]; auto. apply (cmap_inj a m0 Hly) in E; try lia. subst. contradiction.
Qed.
End Run.

Theorem arrays_optional e a m a' m' order m1 : layout_ok 2 a m -> sizes_ok a \/ chunks_ok e a -> schedule a order -> leaves_out a a' m m' ->
  (a_format a = AlwaysCompressed -> a_ilen a' = None -> bytes_behind 48 a /\ lenZ (a_in a) < 2 ^ 64) ->
  run_items e a order m = Done m1 -> all_succeed a m1 ->
  exists m1', run_items e a' order m' = Done m1' /\ same_effect m' m1 m1'.
Proof.
  intros Hly Hfmt P ((il & Oil & ->) & EO & OO & OR) HB W AS.
  pose proof (ly_olen _ _ _ Hly) as (L0 & EL0 & _). pose proof (ly_ret _ _ _ Hly) as (R0 & ER0 & LR0).
  destruct (run_all e a m Hly Hfmt L0 R0 EL0 ER0 order P) as (m2 & W2 & I2). rewrite W in W2. injection W2 as <-.
  assert (exists bo br, m' = erase bo br m /\ bo = (match m_olen m' with Some _ => true | None => false end) /\ br = (match m_ret m' with Some _ => true | None => false end)) as (bo & br & EM & EB & ER).
  { exists (match m_olen m' with Some _ => true | None => false end), (match m_ret m' with Some _ => true | None => false end). split; auto.
    destruct m' as [o l r], m as [o2 l2 r2]. cbn [m_out m_olen m_ret erase] in *. unfold erase, optional in *. cbn [m_out m_olen m_ret] in *. subst.
    destruct OO as [->| ->], OR as [->| ->]; reflexivity. }
  exists (erase bo br m1). split.
  - rewrite EM. apply (run_erase e a m Hly Hfmt L0 R0 EL0 il) with (D := fun _ => false); auto.
    + destruct Oil as [->| ->]; [auto|]. destruct (a_format a) eqn:F; [|right; split; [auto|discriminate]]. right. split; auto.
    + now apply Inv_init.
    + eapply Permutation_NoDup; [apply Permutation_sym; exact P|apply numbers_nodup].
    + intros g Hg. eapply Permutation_in in Hg; [|exact P]. apply in_numbers in Hg. split; [lia|]. intros HN. split; auto.
      destruct (cmap_ok a m Hly g ltac:(lia)) as [_ CR]. specialize (AS _ CR). destruct I2 as [_ (R & ER2 & _ & NR) _ _ _].
      unfold elem in AS. rewrite ER2, NR in AS by auto. exact AS.
  - unfold same_effect. cbn [erase m_out m_olen m_ret]. split; auto. rewrite EB, ER. split; [destruct (m_olen m')|destruct (m_ret m')]; reflexivity.
Qed.
