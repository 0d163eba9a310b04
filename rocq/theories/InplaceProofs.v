(** In-place decompression compared with decompression from a buffer of its own. *)
From Coq Require Import ZArith List Bool Lia.
From Verif Require Import SpecBits SpecCrc Spec842 CBase BitsLemmas CrcProofs
  SerialCompModel SerialDecompModel SerialIdeal SerialValid PureDecoder SerialDecomp SerialFacts
  OptCompModel OptDecompModel OptWriter OptDecomp OclModel OclPure OclProofs SpecOcl OclItems OclProps OclExt InplaceModel SpecInplace.
Import ListNotations.
Open Scope Z_scope.

(** * Templates, whatever follows them *)
Lemma qd_step_cont cap out bits o b : al8 out -> qd_step cap out bits = (false, POk o b) ->
  exists c, bits = c ++ b /\ forall bs x rest, stream false o bs x rest -> stream false out (c ++ bs) x rest.
Proof.
  intros HA. unfold qd_step. destruct (rdb 5 bits) as [[op b1]|] eqn:R; [|discriminate].
  apply rdb_some in R. destruct R as [-> OP].
  destruct (_ && _); [discriminate|].
  destruct (template op) as [acts|] eqn:T.
  - intros E. injection E as E. destruct (pd_acts cap acts out b1) as [o1 b2| |] eqn:P; try discriminate. injection E as <- <-.
    destruct (template_sizes _ _ T) as (TS & TL & TR). destruct (pd_acts_sound cap acts TS _ _ _ _ P) as (S1 & _).
    destruct (args_prefix _ _ _ _ _ S1) as (c & -> & PC). exists (bits_of 5 op ++ c). split; [now rewrite app_assoc|].
    intros bs x rest ST. rewrite <- app_assoc. eapply st_template; eauto.
  - destruct (Z.eqb_spec op 0x1b) as [->|N1].
    { intros E. injection E as E. destruct (rdb 6 b1) as [[rep b2]|] eqn:R2; [|discriminate]. apply rdb_some in R2. destruct R2 as [-> RP].
      destruct (Nat.eqb_spec (length out) 0); [discriminate|]. destruct (_ >? cap); [discriminate|]. injection E as <- <-.
      exists (bits_of 5 0x1b ++ bits_of 6 rep). split; [now rewrite <- app_assoc|]. intros bs x rest ST. rewrite <- app_assoc.
      apply st_repeat; [exact RP|now apply al8_ge8|]. change (2 ^ Z.of_nat 6) with 64 in RP. replace (Z.to_nat rep + 1)%nat with (Z.to_nat (rep + 1)) by lia. exact ST. }
    destruct (Z.eqb_spec op 0x1c) as [->|N2].
    { intros E. injection E as <- <-. exists (bits_of 5 0x1c). split; auto. intros bs x rest ST. now apply st_zeros. }
    destruct (op =? 0x1e); discriminate.
Qed.
Lemma kd_step_cont ml cap out bits o b : al8 out -> cap <= ml -> kd_step ml cap out bits = (false, POk o b) ->
  exists c, bits = c ++ b /\ forall bs x rest, stream false o bs x rest -> stream false out (c ++ bs) x rest.
Proof.
  intros HA HM HK. pose proof (kd_step_qd ml cap out bits HA HM) as [F K]. rewrite HK in F, K. cbn [fst snd] in F, K.
  destruct (qd_step cap out bits) as [fq q] eqn:Q. cbn [fst snd] in *. subst fq. unfold kweaker in K.
  destruct K as [K|(-> & _ & K)].
  - subst q. eapply qd_step_cont; eauto.
  - destruct K as [K|[K _]]; discriminate.
Qed.

(** * Reading *)
Lemma lookahead_agree e inp inp' ilen i : length inp' = length inp ->
  slice (Z.to_nat (8 * i)) 8 inp' = slice (Z.to_nat (8 * i)) 8 inp -> lookahead e inp' ilen i = lookahead e inp ilen i.
Proof.
  intros L S. unfold lookahead. destruct (_ <? ilen); auto. unfold load64, load_bytes, lenZ. rewrite L.
  destruct (_ && _); auto. change (Z.to_nat 8) with 8%nat. unfold slice in S. now rewrite S.
Qed.
Lemma reads_same_ext e lo hi inp inp' ilen : (forall i, lo + 6 <= i < hi + 6 -> lookahead e inp' ilen i = lookahead e inp ilen i) ->
  reads_same e lo hi inp ilen inp' ilen.
Proof.
  intros H n q v q' R L1 L2. unfold kread_bits in *. destruct (k_bits q <? n); auto. destruct (_ >? ilen); auto.
  pose proof R as R'. apply bind_inv in R'. destruct R' as (l5 & E5 & E). injection E as _ <-. cbn [k_in] in L2.
  rewrite H by lia. exact R.
Qed.
Lemma kread_len e inp inp' ilen p n v p1 : length inp' = length inp -> kread_bits e inp ilen p n = Done (v, p1) ->
  exists p2, kread_bits e inp' ilen p n = Done (v, p2) /\ k_err p2 = k_err p1 /\ k_mem p2 = k_mem p1 /\ k_out p2 = k_out p1.
Proof.
  intros L R. unfold kread_bits in *. destruct (k_bits p <? n).
  - destruct (_ >? ilen). { injection R as <- <-. eauto 6. }
    apply bind_inv in R. destruct R as (l5 & E5 & E). injection E as <- <-.
    assert (exists l5', lookahead e inp' ilen (k_in p + 6) = Done l5') as [l5' ->].
    { unfold lookahead, load64, load_bytes, lenZ in *. rewrite L. destruct (_ <? ilen); [|eauto]. destruct (_ && _); [|discriminate]. cbn [bind]. eauto. }
    rewrite bind_done. eexists. split; [reflexivity|]. cbn [k_err k_mem k_out]. auto.
  - injection R as <- <-. eauto 6.
Qed.
Lemma input_now_length ioff mem mem' : length mem' = length mem -> length (input_now ioff mem') = length (input_now ioff mem).
Proof. intros H. unfold input_now. rewrite !skipn_length. lia. Qed.

(** * When the output stays behind the input *)
Section Ahead.
Variable e : endian.
Variables (mem : list Z) (ioff ilen cap : Z).
Let inp := input_now ioff mem.
Hypothesis Hmem : is_bytes mem.
Hypothesis Hio : 0 <= ioff.
Hypothesis Hread : readable inp ilen.
Hypothesis Hcap : 0 <= cap < 2 ^ 63.
Hypothesis Hslack : cap + 2 <= lenZ mem.
Hypothesis Hahead : stays_ahead ioff (whole (firstn (Z.to_nat ilen) inp)).

Lemma inp_bytes : is_bytes inp. Proof. unfold inp, input_now. now apply is_bytes_skipn. Qed.

Lemma consumed k bits pre : rdk inp ilen k bits -> bytes_bits (whole (firstn (Z.to_nat ilen) inp)) = pre ++ bits -> k_in k = (lenZ pre + 63) / 64.
Proof.
  intros [[HI HB (T & TL & _ & TB)] _] EP. fold (cin inp ilen) in EP. cbn [q_in q_bits] in *.
  apply (f_equal (@length bool)) in EP. rewrite TB, !app_length, !bytes_bits_length, skipn_length, whole_length, TL in EP.
  rewrite lenZ_div8 in HI. set (n8 := (length (cin inp ilen) / 8)%nat) in *. unfold lenZ. apply (Z.div_unique _ _ _ (63 - k_bits k)); lia.
Qed.

Lemma iloop_same f : forall k out bits pre c k', rdk inp ilen k bits -> skk mem cap k out -> k_err k = 0 ->
  bytes_bits (whole (firstn (Z.to_nat ilen) inp)) = pre ++ bits ->
  (forall bs x rest, stream false out bs x rest -> stream false [] (pre ++ bs) x rest) ->
  kloop e f inp ilen cap k = Done (c, k') -> iloop e f ioff ilen cap k = Done (c, k').
Proof.
  destruct Hread as [HL HR].
  induction f as [|f IH]; intros k out bits pre c k' Hr Hs H0 EP HP HK; cbn [kloop iloop] in *; [discriminate|].
  apply bind_inv in HK. destruct HK as ([r k1] & K & HK).
  assert (AH : lenZ out <= ioff + 8 * (k_in k + 6)).
  { rewrite (consumed k bits pre Hr EP). pose proof (Hahead pre bits out EP) as A.
    assert (D : decoded_so_far pre out) by (apply HP; rewrite <- (app_nil_r (bits_of 5 30)); apply st_end). specialize (A D). lia. }
  assert (IN0 : 0 <= k_in k) by (destruct Hr as [[HI _ _] _]; cbn [q_in] in HI; lia).
  assert (KI : kstep e (input_now ioff (k_mem k)) ilen cap k = Done (r, k1)).
  { destruct (kstep_inv e _ _ _ _ _ _ K) as (_ & _ & _ & KX). apply KX; [|left; auto].
    apply reads_same_ext. intros i Hi. pose proof Hs as [SK _]. pose proof (sk_mem _ _ _ _ SK) as SM. pose proof (sk_fit _ _ _ _ SK) as SF.
    cbn [o_mem] in SM. apply lookahead_agree.
    - apply input_now_length. rewrite SM, app_length, skipn_length. unfold lenZ in *. lia.
    - unfold inp, input_now, slice. rewrite !skipn_skipn. f_equal. rewrite SM.
      rewrite skipn_app. rewrite skipn_all2 by (unfold lenZ in *; lia). rewrite app_nil_l, skipn_skipn. f_equal. unfold lenZ in *. lia. }
  rewrite KI, bind_done.
  pose proof (kstep_ok e inp ilen mem cap inp_bytes HL HR ltac:(lia) k out bits Hr Hs H0) as A. rewrite K in A.
  destruct (kd_step (lenZ mem) cap out bits) as [fin q] eqn:Q. destruct r as [c1|[]]; auto.
  destruct q as [o1 b1|c1|]; cbn [kagrees] in A.
  - destruct A as (k2 & E & Hr2 & Hs2 & E2). injection E as <- <-.
    destruct (kd_step_cont (lenZ mem) cap out bits o1 b1 (ks_al _ _ _ _ Hs) ltac:(lia) Q) as (cc & EB & HC).
    eapply (IH k1 o1 b1 (pre ++ cc)); eauto.
    + rewrite EP, EB. now rewrite app_assoc.
    + intros bs x rest ST. rewrite <- app_assoc. apply HP, HC, ST.
  - destruct A as (_ & k2 & E & _). discriminate.
  - discriminate.
Qed.

Theorem inplace_same : inplace_core e mem ioff ilen cap = decompress_core e inp ilen mem cap.
Proof.
  pose proof (core_fun e inp ilen mem cap inp_bytes Hmem Hread ltac:(lia) Hslack ltac:(lia)) as CF.
  destruct (core_res _ _) as [[r n] w]. destruct CF as (_ & _ & _ & _ & CF). rewrite CF.
  unfold decompress_core in CF. unfold inplace_core. fold inp. destruct Hread as [HL HR].
  rewrite !(lookahead_ok e inp ilen inp_bytes HR), !bind_done in CF by lia. rewrite !(lookahead_ok e inp ilen inp_bytes HR), !bind_done by lia.
  match type of CF with context [kloop _ _ _ _ _ ?k] => set (k0 := k) in * end.
  assert (R0 : rdk inp ilen k0 (bytes_bits (whole (cin inp ilen)))).
  { constructor. { apply rdo_init. } cbn [k_in k_la k0]. intros j Hj. destruct j as [|[|[|[|[|[|j]]]]]]; try reflexivity. lia. }
  assert (S0 : skk mem cap k0 []).
  { constructor; [|reflexivity]. cbn [k_mem k_out k0]. rewrite Z.mul_0_r, Z.sub_0_r. apply sk_init; auto. lia. }
  apply bind_inv in CF. destruct CF as ([c k] & K & CF).
  rewrite (iloop_same _ k0 [] _ [] c k R0 S0 eq_refl eq_refl (fun _ _ _ h => h) K), bind_done.
  destruct (negb (c =? 0)); [exact CF|]. apply bind_inv in CF. destruct CF as ([v k1] & RB & CF).
  destruct (kloop_inv e _ _ _ _ _ _ _ K) as (_ & [KM _] & _). cbn [k_mem k0] in KM.
  destruct (kread_len e inp (input_now ioff (k_mem k)) ilen k CRC_BITS v k1 (input_now_length _ _ _ KM) RB) as (k2 & -> & E1 & E2 & E3).
  rewrite bind_done, E1, E2, E3. exact CF.
Qed.
End Ahead.

(** * Any content: the words that were read, as they were when they were read *)
Section Any.
Variable e : endian.
Variables (ioff ilen olen : Z).
Hypothesis Hio : 0 <= ioff.

Lemma iloop_oracle f : forall k, is_bytes (k_mem k) -> 0 <= k_in k ->
  exists inp', length inp' = length (input_now ioff (k_mem k)) /\ is_bytes inp' /\
    firstn (Z.to_nat (8 * (k_in k + 6))) inp' = firstn (Z.to_nat (8 * (k_in k + 6))) (input_now ioff (k_mem k)) /\
    forall x, kloop e f inp' ilen olen k = Done x -> iloop e f ioff ilen olen k = Done x.
Proof.
  induction f as [|f IH]; intros k HB HI.
  { exists (input_now ioff (k_mem k)). split; auto. split; [now apply is_bytes_skipn|]. split; auto. }
  cbn [iloop kloop]. set (cur := input_now ioff (k_mem k)). assert (BC : is_bytes cur) by now apply is_bytes_skipn.
  destruct (kstep e cur ilen olen k) as [[r k1]| |] eqn:K.
  2: { exists cur. rewrite K. repeat split; auto; discriminate. } 2: { exists cur. rewrite K. repeat split; auto; discriminate. }
  rewrite bind_done. destruct (kstep_inv e _ _ _ _ _ _ K) as (KI & [KL KB] & _ & KX).
  destruct r as [c|[]].
  1: { exists cur. rewrite K. repeat split; auto. } 1: { exists cur. rewrite K. repeat split; auto. }
  destruct (IH k1 (KB HB) ltac:(lia)) as (i1 & L1 & B1 & F1 & E1).
  assert (LC : length i1 = length cur) by (rewrite L1; unfold cur, input_now; rewrite !skipn_length; lia).
  set (n := Z.to_nat (8 * (k_in k1 + 6))) in *.
  exists (firstn n cur ++ skipn n i1). 
  assert (LA : length (firstn n cur ++ skipn n i1) = length cur) by (rewrite app_length, firstn_length, skipn_length; lia).
  split; auto. split; [apply is_bytes_app; auto using is_bytes_firstn, is_bytes_skipn|]. split.
  { rewrite firstn_app, firstn_firstn. rewrite Nat.min_l by lia. destruct (Nat.le_gt_cases (length cur) n) as [C|C].
    - rewrite (skipn_all2 i1) by lia. rewrite firstn_nil. apply app_nil_r.
    - rewrite firstn_length. rewrite Nat.min_l by lia. replace (Z.to_nat (8 * (k_in k + 6)) - n)%nat with 0%nat by lia. rewrite firstn_O. apply app_nil_r. }
  rewrite (KX (firstn n cur ++ skipn n i1) ilen olen), bind_done; [|apply reads_same_ext|left; auto].
  - intros x HX. apply E1. destruct x as [c k']. destruct (kloop_inv e _ _ _ _ _ _ _ HX) as (_ & _ & X). apply X; [|auto].
    apply reads_same_ext. intros i Hi. apply lookahead_agree; [lia|]. unfold slice. f_equal. rewrite skipn_app.
    destruct (Nat.le_gt_cases (length cur) n) as [C|C].
    + rewrite (skipn_all2 (n := Z.to_nat (8 * i)) (firstn n cur)) by (rewrite firstn_length; lia). rewrite (skipn_all2 (n := n) i1) by lia. rewrite skipn_nil, (skipn_all2 (n := Z.to_nat (8 * i)) i1) by lia. reflexivity.
    + rewrite (skipn_all2 (n := Z.to_nat (8 * i)) (firstn n cur)) by (rewrite firstn_length; lia). rewrite app_nil_l, firstn_length, Nat.min_l by lia. rewrite skipn_skipn. f_equal. lia.
  - intros i Hi. apply lookahead_agree; [auto|]. unfold slice.
    assert (FA : forall l l' : list Z, length l' = length l -> firstn n l' = firstn n l -> firstn 8 (skipn (Z.to_nat (8 * i)) l') = firstn 8 (skipn (Z.to_nat (8 * i)) l)).
    { intros l l' LL FF. rewrite !(firstn_skipn_comm 8 (Z.to_nat (8 * i))).
      replace (Z.to_nat (8 * i) + 8)%nat with (Nat.min (Z.to_nat (8 * i) + 8) n) by (unfold n; lia). rewrite <- !firstn_firstn, FF. reflexivity. }
    apply FA; auto. rewrite firstn_app, firstn_firstn, Nat.min_id. destruct (Nat.le_gt_cases (length cur) n) as [C|C].
    + rewrite (skipn_all2 i1) by lia. rewrite firstn_nil. apply app_nil_r.
    + rewrite firstn_length. rewrite Nat.min_l by lia. rewrite Nat.sub_diag, firstn_O. apply app_nil_r.
Qed.

(** The result is that of decompressing some other bytes from a buffer of their own. *)
Lemma inplace_oracle mem : is_bytes mem -> readable (input_now ioff mem) ilen -> 0 <= olen < 2 ^ 63 -> olen + 2 <= lenZ mem ->
  exists inp', length inp' = length (input_now ioff mem) /\ is_bytes inp' /\ firstn 48 inp' = firstn 48 (input_now ioff mem) /\
    inplace_core e mem ioff ilen olen = decompress_core e inp' ilen mem olen.
Proof.
  intros HB HR H63 H2. set (inp := input_now ioff mem) in *. assert (BI : is_bytes inp) by now apply is_bytes_skipn.
  set (k0 i := mkK 0 0 0 [word i ilen 0; word i ilen 1; word i ilen 2; word i ilen 3; word i ilen 4; word i ilen 5] 0 mem 0).
  destruct (iloop_oracle (S (Z.to_nat (8 * lenZ inp))) (k0 inp) HB ltac:(cbn; lia)) as (i1 & L1 & B1 & F1 & E1).
  cbn [k_in k_mem k0] in L1, F1. fold inp in L1, F1. change (Z.to_nat (8 * (0 + 6))) with 48%nat in F1.
  exists i1. split; auto. split; auto. split; auto.
  assert (HR1 : readable i1 ilen). { destruct HR as [R1 R2]. split; auto. intros i I0 I1. specialize (R2 i I0 I1). unfold lenZ in *. lia. }
  assert (W : forall j, 0 <= j < 6 -> word i1 ilen j = word inp ilen j).
  { intros j Hj. unfold word. destruct (_ <? _); auto. f_equal. unfold slice. rewrite !firstn_skipn_comm.
    replace (Z.to_nat (8 * j) + 8)%nat with (Nat.min (Z.to_nat (8 * j) + 8) 48) by lia. rewrite <- !firstn_firstn, F1. reflexivity. }
  assert (K01 : k0 i1 = k0 inp) by (unfold k0; now rewrite !W by lia).
  pose proof (core_fun e i1 ilen mem olen B1 HB HR1 ltac:(lia) H2 ltac:(lia)) as CF.
  destruct (core_res _ _) as [[r n] w]. destruct CF as (_ & _ & _ & _ & CF). rewrite CF.
  unfold decompress_core in CF. unfold inplace_core. fold inp.
  rewrite !(lookahead_ok e inp ilen BI (proj2 HR)), !bind_done by lia. rewrite !(lookahead_ok e i1 ilen B1 (proj2 HR1)), !bind_done in CF by lia.
  fold (k0 i1) in CF. fold (k0 inp). rewrite K01 in CF. replace (lenZ i1) with (lenZ inp) in CF by (unfold lenZ; lia).
  apply bind_inv in CF. destruct CF as ([c k] & K & CF). rewrite (E1 _ K), bind_done.
  destruct (negb (c =? 0)); [exact CF|]. apply bind_inv in CF. destruct CF as ([v k1] & RB & CF).
  destruct (kloop_inv e _ _ _ _ _ _ _ K) as (_ & [KM _] & _). cbn [k_mem k0] in KM.
  destruct (kread_len e i1 (input_now ioff (k_mem k)) ilen k CRC_BITS v k1) as (k2 & -> & X1 & X2 & X3); auto.
  { rewrite L1. apply input_now_length. exact KM. }
  rewrite bind_done, X1, X2, X3. exact CF.
Qed.

Lemma inplace_bounds mem : is_bytes mem -> 0 <= ilen -> ioff + 8 * ((ilen + 7) / 8) <= lenZ mem -> 0 <= olen < 2 ^ 63 -> olen + 2 <= lenZ mem ->
  exists ret n m, inplace_core e mem ioff ilen olen = Done (ret, n, m) /\
    (ret = 0 \/ ((ret = - EINVAL \/ ret = - ENOSPC) /\ n = 0)) /\ 0 <= n <= olen /\
    exists w, is_bytes w /\ lenZ w <= olen /\ m = w ++ skipn (length w) mem.
Proof.
  intros HB HL HF H63 H2.
  assert (LI : 8 * ((ilen + 7) / 8) <= lenZ (input_now ioff mem)).
  { assert (0 <= (ilen + 7) / 8) by (apply Z.div_pos; lia). unfold input_now, lenZ in *. rewrite skipn_length. lia. }
  destruct (inplace_oracle mem HB (readable_words _ _ HL LI) H63 H2) as (i1 & L1 & B1 & _ & ->).
  apply core_bounds; auto; try lia. unfold lenZ in *. lia.
Qed.
End Any.
