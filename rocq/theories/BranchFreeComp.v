(** optsw842_compress built with BRANCH_FREE 1 emits the bits of OptIdeal, as the default build. *)
From Coq Require Import ZArith List Bool Lia.
From Verif Require Import SpecBits SpecCrc Spec842 SpecCalls CBase BitsLemmas CrcModel CrcProofs OpcodesTable
  SerialCompModel SerialWriter SerialDict SerialIdeal SerialComp SerialValid SerialFacts
  OptCompModel OptWriter OptDict GenLoop OptIdeal OptComp BranchFreeModel.
Import ListNotations.
Open Scope Z_scope.

(** the columns of a template in the table *)
Fixpoint bcols (b : nat) (acts : list action) : list (Z * Z) :=
  match acts with [] => [] | a :: r => (act_slot b a, act_width a) :: bcols (b + act_len a) r end.
Definition bcol_check (op : Z) : bool :=
  terms_eqb (nth (Z.to_nat op) templates [])
    (bcols 0 (oacts op) ++ List.repeat (15, 0) (4 - length (oacts op))).
Lemma bcol_checks : forallb (fun k => bcol_check (Z.of_nat k)) (seq 0 26) = true.
Proof. vm_compute. reflexivity. Qed.
Lemma bcols_ok op : 0 <= op < 26 ->
  nth (Z.to_nat op) templates [] = bcols 0 (oacts op) ++ List.repeat (15, 0) (4 - length (oacts op)).
Proof.
  intros Ho. pose proof bcol_checks as C. rewrite forallb_forall in C. specialize (C (Z.to_nat op) ltac:(apply in_seq; lia)).
  cbv beta in C. rewrite Z2Nat.id in C by lia. now apply terms_eqb_eq.
Qed.

Section BF.
Variable over : Z -> outcome Z.
Hypothesis over0 : over 0 = Done 0.
Variable e : endian.

Section Emit.
Variables (inp : list Z) (pos : nat) (blk : list Z).
Hypothesis Hinp : is_bytes inp.
Hypothesis Hpos : (pos + 8 <= length inp)%nat.
Hypothesis Hblk : blk = slice pos 8 inp.

Lemma bget_next_data_ok : bget_next_data e inp (Z.of_nat pos) = Done (odata blk, [be_val (slice 2 4 blk); 0]).
Proof.
  unfold bget_next_data. rewrite (oget_next_data_ok e inp pos blk Hinp Hpos Hblk), bind_done.
  pose proof (get32_ok e inp pos blk Hinp Hpos Hblk 2 ltac:(lia)) as G. change (Z.of_nat 2) with 2 in G.
  rewrite G, bind_done. reflexivity.
Qed.

Variables (v : list bool) (ix : list Z).
Hypothesis Hix : length ix = 7%nat.
Hypothesis Hix0 : forall i, (i < 7)%nat -> 0 <= nth i ix 0.
Hypothesis HixB : forall b n, lk_pos b n = true -> nth (vslot b n) ix 0 < 2 ^ Z.of_nat (index_bits n).
Let slots := odata blk ++ ix ++ [be_val (slice 2 4 blk); 0].

Lemma bslot_ok b a : act_pos b a = true -> gact_ok (olook v ix) b a = true -> act_size_ok a = true ->
  aget slots (act_slot b a) = Done (val (gact_bits (olook v ix) blk b a)).
Proof.
  intros HP HO HS. rewrite <- (oslot_ok e inp pos blk Hinp Hpos Hblk v ix Hix Hix0 HixB b a HP HO HS).
  assert (LS : lenZ slots = 16) by (unfold slots, lenZ; rewrite !app_length, Hix; reflexivity).
  assert (L14 : lenZ (odata blk ++ ix) = 14) by (unfold lenZ; rewrite !app_length, Hix; reflexivity).
  assert (R : 0 <= act_slot b a <= 14).
  { unfold act_slot. destruct a as [n|n]; cbn [act_pos] in HP.
    - destruct ((n =? 4)%nat && (b =? 2)%nat) eqn:E; [lia|]. rewrite orb_false_r in HP. unfold lk_pos in HP. unfold vslot.
      destruct n as [|[|[|[|[|[|[|[|[|]]]]]]]]]; try discriminate; rewrite ?orb_true_iff, ?Nat.eqb_eq in HP;
        repeat (destruct HP as [HP|HP]); subst b; cbn; lia.
    - unfold lk_pos in HP. unfold vslot.
      destruct n as [|[|[|[|[|[|[|[|[|]]]]]]]]]; try discriminate; rewrite ?orb_true_iff, ?Nat.eqb_eq in HP;
        repeat (destruct HP as [HP|HP]); subst b; cbn; lia. }
  unfold oslot. rewrite aget_ok by lia. unfold slots. rewrite app_assoc.
  destruct (Z.eqb_spec (act_slot b a) 14) as [E|E].
  - rewrite E. rewrite app_nth2 by (unfold lenZ in L14; lia).
    replace (Z.to_nat 14 - length (odata blk ++ ix))%nat with 0%nat by (unfold lenZ in L14; lia). cbn [nth].
    pose proof (get32_ok e inp pos blk Hinp Hpos Hblk 2 ltac:(lia)) as G. change (Z.of_nat 2) with 2 in G. now rewrite G.
  - rewrite app_nth1 by (unfold lenZ in L14; lia). now rewrite aget_ok by lia.
Qed.

Lemma bnone_ok k : forall w t, 0 <= w < 2 ^ 64 -> 0 <= t < 256 ->
  bparams over (List.repeat (15, 0) k) slots w t = Done (w, t).
Proof.
  assert (LS : lenZ slots = 16) by (unfold slots, lenZ; rewrite !app_length, Hix; reflexivity).
  induction k as [|k IH]; intros w t Hw Ht; [reflexivity|]. cbn [List.repeat bparams].
  unfold bshl. change (0 =? 64) with false. cbv iota. rewrite shl64_ok by lia. rewrite bind_done.
  rewrite aget_ok by lia. rewrite bind_done.
  replace (nth (Z.to_nat 15) slots 0) with 0.
  2:{ unfold slots. rewrite app_assoc, app_nth2 by (rewrite app_length, Hix; cbn; lia). rewrite app_length, Hix. reflexivity. }
  rewrite Z.lor_0_r, Z.mul_1_r, Z.mod_small, Z.add_0_r by lia. unfold u8. rewrite Z.mod_small by lia. now apply IH.
Qed.

Lemma bparams_ok k : forall acts b A t, (b + acts_len acts = 8)%nat -> acts_pos b acts = true -> gacts_ok (olook v ix) b acts = true ->
  Forall (fun a => act_size_ok a = true) acts -> 0 <= A < 2 ^ t -> 0 <= t -> t + acts_width acts <= 64 ->
  bparams over (bcols b acts ++ List.repeat (15, 0) k) slots A t =
    Done (A * 2 ^ acts_width acts + val (gacts_bits (olook v ix) blk b acts), t + acts_width acts).
Proof.
  pose proof (blk_len inp pos blk Hpos Hblk) as LB.
  induction acts as [|a acts IH]; intros b A t HL HP HO HS HA HT HW.
  - cbn [bcols app]. change (acts_width []) with 0 in *.
    assert (2 ^ t <= 2 ^ 64) by (apply Z.pow_le_mono_r; lia).
    rewrite bnone_ok by lia. cbn [gacts_bits]. unfold val. cbn [fold_left]. do 2 f_equal; lia.
  - cbn [acts_len fold_right] in HL. fold (acts_len acts) in HL. cbn [acts_pos gacts_ok] in HP, HO.
    apply andb_true_iff in HP, HO. destruct HP as [P1 P2], HO as [O1 O2]. pose proof (Forall_inv HS) as S1. pose proof (Forall_inv_tail HS) as S2. cbv beta in S1.
    cbn [bcols app bparams gacts_bits]. 
    change (acts_width (a :: acts)) with (act_width a + acts_width acts) in *.
    set (w := acts_width acts) in *. set (u := act_width a) in *.
    assert (W0 : 0 <= w). { pose proof (gacts_bits_len (olook v ix) blk acts (b + act_len a) ltac:(lia)) as X. fold w in X. rewrite <- X. apply lenZ_nonneg. }
    assert (U0 : lenZ (gact_bits (olook v ix) blk b a) = u).
    { unfold u. destruct a; cbn [gact_bits act_width act_len] in *. { unfold lenZ. rewrite bytes_bits_length, slice_length by lia. lia. } apply lenZ_bits_of. }
    pose proof (val_bound (gact_bits (olook v ix) blk b a)) as VB. fold (lenZ (gact_bits (olook v ix) blk b a)) in VB. rewrite U0 in VB.
    assert (0 <= u) by (rewrite <- U0; apply lenZ_nonneg).
    assert (A1 : A * 2 ^ u < 2 ^ (t + u)).
    { rewrite Z.pow_add_r by lia. apply Z.mul_lt_mono_pos_r; [apply pow2_pos|]; lia. }
    assert (LE : 2 ^ (t + u) <= 2 ^ 64) by (apply Z.pow_le_mono_r; lia).
    assert (SH : bshl over A u = Done (A * 2 ^ u)).
    { unfold bshl. destruct (Z.eqb_spec u 64) as [E|E].
      - assert (t = 0) by lia. subst t. change (2 ^ 0) with 1 in HA. assert (A = 0) by lia. subst A. rewrite over0. reflexivity.
      - rewrite shl64_ok by lia. rewrite Z.mod_small; [reflexivity|].
        pose proof (pow2_pos u ltac:(lia)). nia. }
    rewrite SH, bind_done, bslot_ok by auto. rewrite bind_done.
    set (x := val (gact_bits (olook v ix) blk b a)) in *.
    rewrite lor_disjoint by lia.
    unfold u8. rewrite Z.mod_small by lia.
    rewrite IH; auto; try lia.
    2:{ rewrite Z.pow_add_r by lia. nia. }
    fold w. do 2 f_equal; [|lia].
    rewrite val_app. fold x. pose proof (gacts_bits_len (olook v ix) blk acts (b + act_len a) ltac:(lia)) as X. fold w in X.
    fold (lenZ (gacts_bits (olook v ix) blk (b + act_len a) acts)). rewrite X. rewrite Z.pow_add_r by lia. ring.
Qed.

Variables (cap : Z) (m0 : list Z).
Lemma badd_template_ok s E op : bsw cap m0 s E -> 0 <= op < 26 -> gacts_ok (olook v ix) 0 (oacts op) = true ->
  sem cap m0 E (bits_of 5 op ++ gacts_bits (olook v ix) blk 0 (oacts op)) (badd_template over e s slots op).
Proof.
  intros HS Ho HG. destruct (op_ok op Ho) as (T & F & AL & P & W & C). unfold badd_template.
  apply sem_seq. { apply (sem_write e cap m0 s E op 5 HS); lia. }
  intros s' HS'. change (lenZ templates) with 26.
  destruct (Z.leb_spec 0 op); [|lia]. destruct (Z.ltb_spec op 26); [|lia]. cbn [andb]. rewrite bind_done.
  rewrite bcols_ok by lia. 
  pose proof (gacts_bits_len (olook v ix) blk (oacts op) 0 ltac:(pose proof (blk_len inp pos blk Hpos Hblk); lia)) as GL.
  set (B := gacts_bits (olook v ix) blk 0 (oacts op)) in *. set (w := acts_width (oacts op)) in *.
  rewrite bparams_ok; auto; try lia; try (change (2 ^ 0) with 1; lia).
  rewrite bind_done. fold B w. rewrite !Z.add_0_l.
  assert (W1 : 1 <= w).
  { unfold w. destruct (oacts op) as [|a acts]; [discriminate AL|].
    change (acts_width (a :: acts)) with (act_width a + acts_width acts).
    pose proof (Forall_inv F) as FA. cbv beta in FA.
    cbn [acts_len fold_right] in AL. fold (acts_len acts) in AL.
    pose proof (gacts_bits_len (olook v ix) blk acts (act_len a) ltac:(pose proof (blk_len inp pos blk Hpos Hblk); lia)) as X.
    pose proof (lenZ_nonneg (gacts_bits (olook v ix) blk (act_len a) acts)).
    assert (1 <= act_width a).
    { destruct a as [n|n]; destruct n as [|[|[|[|[|[|[|[|[|]]]]]]]]]; try discriminate FA; cbn; lia. }
    lia. }
  pose proof (val_bound B) as VB. fold (lenZ B) in VB. rewrite GL in VB.
  assert (BE : B = bits_of (Z.to_nat w) (val B)).
  { replace (Z.to_nat w) with (length B) by (unfold lenZ in GL; lia). now rewrite bits_of_val. }
  rewrite BE at 1. now apply sem_write.
Qed.
End Emit.

Section Comp.
Variables (cap : Z) (m0 : list Z).

Lemma bprocess_next_ok inp pos blk pre st s E : is_bytes inp -> (pos + 8 <= length inp)%nat -> blk = slice pos 8 inp ->
  odict_ok pre st -> bsw cap m0 s E ->
  exists ok s', bprocess_next over e s st (odata blk) [be_val (slice 2 4 blk); 0] = Done (ok, s', set_hashes st (ohash (odata blk))) /\
    sem cap m0 E (obits st blk) (Done (ok, s')).
Proof.
  intros Hi Hp Hb H HS. pose proof (blk_len inp pos blk Hp Hb) as LB.
  destruct (ofind_ok pre st blk H LB) as (v & ix & EF & EF' & L1 & L2 & K).
  destruct (find_facts pre st blk H LB v ix EF') as [IX0 IXB].
  destruct (oop_ok v L1) as (ET & OR & VO). destruct (op_ok _ OR) as (T & SZ & AL & AP & W & _).
  assert (G : gacts_ok (olook v ix) 0 (oacts (oop v)) = true) by now apply vacts_gacts.
  pose proof (badd_template_ok inp pos blk Hi Hp Hb v ix L2 IX0 IXB cap m0 s E (oop v) HS OR G) as A.
  unfold bprocess_next. rewrite EF, bind_done, ET, bind_done. unfold obits. rewrite EF'.
  destruct A as [(F & s' & EQ & A)|(F & s' & EQ & A)]; rewrite EQ, bind_done; do 2 eexists; (split; [reflexivity|]); [left|right]; eauto.
Qed.

Lemma bcomp_loop_ok inp : is_bytes inp ->
  forall blocks pre st s E last lastZ rc,
  inp = pre ++ concat blocks -> Forall (fun b => length b = 8%nat) blocks ->
  (exists q, length pre = (8 * q)%nat) -> odict_ok pre st -> last_rel e last lastZ blocks -> 0 <= rc <= 63 ->
  bsw cap m0 s E ->
  let '(B, r) := gloop ostate obits onx st (length pre) blocks last rc in
  0 <= r <= 63 /\
  lsem cap m0 E B r (bcomp_loop over e (length blocks) inp s st (lenZ pre) (lenZ (concat blocks)) lastZ rc).
Proof.
  intros Hinp blocks. induction blocks as [|b bs IH]; intros pre st s E last lastZ rc Hi Hlen [q Hq] Hst Hlast Hrc HS.
  - cbn [gloop concat length bcomp_loop]. split; [lia|]. left. rewrite lenZ_nil.
    pose proof HS as [? ? ? ? ? ? ? ? ? ? ?]. split; [lia|].
    change (0 >? 7) with false. cbv iota. exists s. split; [reflexivity|]. now rewrite app_nil_r.
  - pose proof (Forall_inv Hlen) as Lb. pose proof (Forall_inv_tail Hlen) as Hlen'. cbv beta in Lb.
    cbn [concat] in *.
    assert (Hb : b = slice (length pre) 8 inp).
    { rewrite Hi. rewrite slice_app_r by lia. rewrite Nat.sub_diag. rewrite slice_app_l by lia.
      unfold slice. cbn [skipn]. symmetry. apply firstn_all2. lia. }
    assert (Bb : is_bytes b) by (rewrite Hb; now apply is_bytes_slice).
    assert (LI : (length pre + 8 <= length inp)%nat) by (rewrite Hi, !app_length; lia).
    assert (Hi' : inp = (pre ++ b) ++ concat bs) by (rewrite Hi, <- !app_assoc; reflexivity).
    cbn [length bcomp_loop gloop].
    assert (LB8 : lenZ b = 8) by (unfold lenZ; lia).
    rewrite !lenZ_app, LB8. set (rest := lenZ (concat bs)) in *.
    assert (0 <= rest) by apply lenZ_nonneg.
    rewrite Z.gtb_ltb. destruct (Z.ltb_spec 7 (8 + rest)); [|lia].
    rewrite load64_ok by (unfold lenZ; lia). rewrite bind_done.
    change (Z.to_nat (lenZ pre)) with (Z.to_nat (Z.of_nat (length pre))). rewrite Nat2Z.id, <- Hb.
    rewrite !(lenZ_of pre).
    rewrite (bget_next_data_ok inp (length pre) b Hinp LI Hb), bind_done.
    replace (8 + rest - 8) with rest by lia.
    set (next := native_val e b) in *.
    assert (EQL : (next =? lastZ) = same last b).
    { unfold last_rel in Hlast. destruct last as [l|]; cbn [same].
      - destruct Hlast as (-> & Ll & Bl). apply native_val_eq; auto. congruence.
      - now apply Z.eqb_neq. }
    assert (LR : last_rel e (Some b) next bs) by (cbn; auto).
    assert (Q' : exists q', length (pre ++ b) = (8 * q')%nat) by (exists (S q); rewrite app_length; lia).
    assert (LP : length (pre ++ b) = (length pre + 8)%nat) by (rewrite app_length; lia).
    assert (LPZ : lenZ (pre ++ b) = Z.of_nat (length pre) + 8) by (unfold lenZ; lia).
    (* the end of the iteration, at any stream, choice and repeat count *)
    assert (REP : forall c s1 E1 rc1, 0 <= rc1 <= 63 -> bsw cap m0 s1 E1 ->
      let '(B, r) := gloop ostate obits onx (onx c st b (length pre)) (length pre + 8) bs (Some b) rc1 in
      0 <= r <= 63 /\
      lsem cap m0 E1 B r (st' <- oupdate_hashtables (if c then set_hashes st (ohash (odata b)) else st) (odata b) (Z.of_nat (length pre)) ;;
        bcomp_loop over e (length bs) inp s1 st' (Z.of_nat (length pre) + 8) rest next rc1)).
    { intros c s1 E1 rc1 R1 S1. destruct (onx_ok c pre st b q Hq Hst Lb) as [-> Hst']. rewrite bind_done.
      specialize (IH (pre ++ b) (onx c st b (length pre)) s1 E1 (Some b) next rc1 Hi' Hlen' Q' Hst' LR R1 S1).
      rewrite LP, LPZ in IH. exact IH. }
    (* emission of a block *)
    assert (EMIT : forall s1 E1, bsw cap m0 s1 E1 ->
      let '(B, r) := gloop ostate obits onx (onx (negb (be_val b =? 0)) st b (length pre)) (length pre + 8) bs (Some b) 0 in
      0 <= r <= 63 /\
      lsem cap m0 E1 (gblk ostate obits st b ++ B) r
        (if next =? 0 then
          '(ok, s') <- oadd_zeros_template e s1 ;;
          if ok : bool then 
            (st' <- oupdate_hashtables st (odata b) (Z.of_nat (length pre)) ;;
             bcomp_loop over e (length bs) inp s' st' (Z.of_nat (length pre) + 8) rest next 0) else Done (false, s', 0)
        else
          '(ok, s', st') <- bprocess_next over e s1 st (odata b) [be_val (slice 2 4 b); 0] ;;
          if ok : bool then 
            (st' <- oupdate_hashtables st' (odata b) (Z.of_nat (length pre)) ;;
             bcomp_loop over e (length bs) inp s' st' (Z.of_nat (length pre) + 8) rest next 0) else Done (false, s', 0))).
    { intros s1 E1 S1. unfold next at 1. rewrite native_val_0 by auto. unfold gblk.
      destruct (be_val b =? 0); cbn [negb].
      - specialize (REP false). cbn iota in REP.
        destruct (gloop ostate obits onx (onx false st b (length pre)) (length pre + 8) bs (Some b) 0) as [B r] eqn:G.
        split. { specialize (REP s1 E1 0 ltac:(lia) S1). rewrite G in REP. tauto. }
        apply lsem_seq.
        + apply (sem_write e cap m0 s1 E1 OP_ZEROS OP_BITS S1); unfold OP_BITS, OP_ZEROS; lia.
        + intros s' S'. specialize (REP s' _ 0 ltac:(lia) S'). rewrite G in REP. tauto.
      - specialize (REP true). cbn iota in REP.
        destruct (gloop ostate obits onx (onx true st b (length pre)) (length pre + 8) bs (Some b) 0) as [B r] eqn:G.
        split. { specialize (REP s1 E1 0 ltac:(lia) S1). rewrite G in REP. tauto. }
        destruct (bprocess_next_ok inp (length pre) b pre st s1 E1 Hinp LI Hb Hst S1) as (ok & s' & EQ & SM).
        rewrite EQ, bind_done.
        destruct SM as [(F & s2 & X & W)|(F & s2 & X & W)]; injection X as -> ->.
        + specialize (REP s2 _ 0 ltac:(lia) W). rewrite G in REP. destruct REP as [_ REP].
          destruct REP as [(F2 & s3 & -> & W2)|(F2 & s3 & i & -> & W2)]; [left|right]; rewrite !lenZ_app in *; (split; [lia|]).
          * eexists; split; eauto. now rewrite app_assoc.
          * eauto.
        + right. rewrite lenZ_app. pose proof (lenZ_nonneg B). split; [lia|]. eauto. }
    rewrite EQL. destruct (same last b) eqn:SM.
    + assert (U : u8 (rc + 1) = rc + 1) by (unfold u8; apply Z.mod_small; lia). rewrite U. cbn [andb].
      change REPEAT_BITS_MAX with 63.
      specialize (REP false). cbn iota in REP.
      destruct (Z.leb_spec (rc + 1) 63).
      * apply REP; auto. lia.
      * destruct (Z.eqb_spec (rc + 1) 0); [lia|]. cbn [negb].
        destruct (gloop ostate obits onx (onx false st b (length pre)) (length pre + 8) bs (Some b) 0) as [B r] eqn:G.
        split. { specialize (REP s E 0 ltac:(lia) HS). rewrite G in REP. tauto. }
        apply lsem_seq. { apply oadd_repeat_ok; auto. lia. }
        intros s' S'. specialize (REP s' _ 0 ltac:(lia) S'). rewrite G in REP. tauto.
    + cbn [andb].
      destruct (gloop ostate obits onx (onx (negb (be_val b =? 0)) st b (length pre)) (length pre + 8) bs (Some b) 0) as [B r] eqn:G.
      unfold rep_bits_opt.
      destruct (Z.eqb_spec rc 0) as [->|NZ]; cbn [negb].
      * cbn [app]. exact (EMIT s E HS).
      * split. { exact (proj1 (EMIT s E HS)). }
        apply lsem_seq. { apply oadd_repeat_ok; auto. lia. }
        intros s' S'. exact (proj2 (EMIT s' _ S')).
Qed.
End Comp.


Theorem bf_compress_out iaddr oaddr inp out olen :
  is_bytes inp -> is_bytes out -> 0 <= olen <= lenZ out -> iaddr mod 8 = 0 -> oaddr mod 8 = 0 ->
  lenZ inp mod 8 = 0 -> inp <> [] ->
  let z := opt_out inp in
  (lenZ z <= olen /\ exists m, optsw842_compress_bf over e iaddr oaddr inp out olen = Done (0, lenZ z, m) /\
       firstn (length z) m = z /\ bmem (olen / 8) out m) \/
  (olen < lenZ z /\ exists m, optsw842_compress_bf over e iaddr oaddr inp out olen = Done (- ENOSPC, 0, m) /\ bmem (olen / 8) out m).
Proof.
  intros Hinp Hout Hcap HA HO HM HN z.
  set (cap := olen / 8).
  assert (PZ : lenZ z = 8 * ((lenZ (opt_bits inp) + 63) / 64)) by apply opt_out_length.
  assert (CZ : lenZ z <= olen <-> (lenZ (opt_bits inp) + 63) / 64 <= cap).
  { rewrite PZ. unfold cap. split; intros.
    - apply Z.div_le_lower_bound; lia.
    - pose proof (Z.mul_div_le olen 8 ltac:(lia)). lia. }
  unfold optsw842_compress_bf. rewrite HM, HA, HO. change (negb (0 =? 0)) with false. cbn [orb]. cbv iota.
  assert (LN : 0 < lenZ inp). { destruct inp; [congruence|]. rewrite lenZ_cons. pose proof (lenZ_nonneg inp). lia. }
  assert (L8 : 8 <= lenZ inp). { pose proof (Z.div_mod (lenZ inp) 8 ltac:(lia)). lia. }
  pose proof (bsw_open cap olen out Hout Hcap eq_refl) as W0.
  pose proof (blocks_tail inp) as BT. pose proof (blocks_len inp) as BLn. pose proof (blocks_count inp) as BC.
  assert (TN : tail_of inp = []).
  { apply length_zero_iff_nil. rewrite tail_length. apply Nat2Z.inj. rewrite Nat2Z.inj_mod. exact HM. }
  rewrite TN, app_nil_r in BT.
  rewrite load64_ok by lia. rewrite bind_done. change (Z.to_nat 0) with 0%nat.
  set (b0 := slice 0 8 inp).
  assert (B0 : is_bytes b0) by now apply is_bytes_slice.
  assert (LR : last_rel e None (u64 (Z.lnot (native_val e b0))) (blocks_of inp)).
  { unfold last_rel. unfold blocks_of. destruct (length inp / 8)%nat as [|q] eqn:Q. { cbn. auto. }
    cbn [seq map]. change (8 * 0)%nat with 0%nat. fold b0. apply lnot_neq; auto. apply slice_length. unfold lenZ in L8. lia. }
  pose proof (bcomp_loop_ok cap out inp Hinp (blocks_of inp) [] ostate_init (stream_open out olen) [] None _ 0
    BT BLn (ex_intro _ 0%nat eq_refl) odict_init LR ltac:(lia) W0) as L.
  change (length (@nil Z)) with 0%nat in L. change (lenZ (@nil Z)) with 0 in L. rewrite <- BT in L. rewrite BC in L.
  replace (length inp / 8)%nat with (Z.to_nat (lenZ inp / 8)) in L
      by (unfold lenZ; rewrite <- (Nat2Z.id (length inp / 8)), Nat2Z.inj_div; reflexivity).
  unfold opt_bits, gbits in *. unfold z, opt_out, opt_bits, gbits in *. clear z.
  destruct (gloop ostate obits onx ostate_init 0 (blocks_of inp) None 0) as [B r]. destruct L as [R L].
  set (F := B ++ rep_bits_opt r ++ bits_of 5 30 ++ bits_of 32 (crc32 inp)) in *.
  assert (LF : lenZ F = lenZ B + lenZ (rep_bits_opt r) + 37) by (unfold F; rewrite !lenZ_app, !lenZ_bits_of; lia).
  set (z := pack (pad F)) in *.
  pose proof (Z.div_mod (lenZ F + 63) 64 ltac:(lia)) as DMF. pose proof (Z.mod_pos_bound (lenZ F + 63) 64 ltac:(lia)) as MPF.
  (* the case of an exception *)
  assert (FAIL : forall s, 64 * cap < lenZ F -> bmem cap out (s_mem s) ->
    (lenZ z <= olen /\ (exists m, Done (- ENOSPC, 0, s_mem s) = Done (0, lenZ z, m) /\ firstn (length z) m = z /\ bmem cap out m)) \/
    (olen < lenZ z /\ (exists m, Done (- ENOSPC, 0, s_mem s) = Done (- ENOSPC, 0, m) /\ bmem cap out m))).
  { intros s HF HB. right. split; [lia|]. eauto. }
  pose proof (lenZ_nonneg (rep_bits_opt r)) as RN.
  destruct L as [(FT & s1 & -> & S1)|(FT & s1 & k & -> & S1)]; rewrite bind_done.
  2: { rewrite bind_done. rewrite lenZ_nil in FT. apply FAIL; auto. lia. }
  cbn [app] in S1.
  assert (TAIL : sem cap out B (rep_bits_opt r ++ bits_of 5 30 ++ bits_of 32 (crc32 inp))
    (andthen (if negb (r =? 0) then oadd_repeat_template e s1 r else Done (true, s1)) (fun s2 =>
         andthen (oadd_end_template e s2) (fun s3 =>
           crc <- crc32_be e iaddr 0 inp (lenZ inp) ;; stream_write_bits e s3 crc CRC_BITS)))).
  { apply sem_seq.
    - unfold rep_bits_opt. destruct (Z.eqb_spec r 0); cbn [negb].
      + left. rewrite lenZ_nil, app_nil_r. split; [pose proof S1 as [? ? ? ? ? ? ? ? ? ? ?]; lia|]. eauto.
      + apply oadd_repeat_ok; auto. lia.
    - intros s2 S2. apply sem_seq.
      + apply (sem_write e cap out s2 _ OP_END OP_BITS S2); unfold OP_BITS, OP_END; lia.
      + intros s3 S3. rewrite (crc32_be_spec e inp Hinp iaddr (lenZ inp) ltac:(lia)), bind_done.
        replace (firstn (Z.to_nat (lenZ inp)) inp) with inp by (unfold lenZ; rewrite Nat2Z.id; symmetry; apply firstn_all).
        pose proof (crc32_R inp) as CR. unfold CrcProofs.R in CR.
        apply (sem_write e cap out s3 _ (crc32 inp) CRC_BITS S3); unfold CRC_BITS; lia. }
  assert (SPLIT : forall ra : sres, (andthen ra (stream_flush e)) = (andthen ra (stream_flush e))) by reflexivity.
  assert (ASSOC : andthen (if negb (r =? 0) then oadd_repeat_template e s1 r else Done (true, s1)) (fun s2 =>
         andthen (oadd_end_template e s2) (fun s3 =>
           crc <- crc32_be e iaddr 0 inp (lenZ inp) ;; andthen (stream_write_bits e s3 crc CRC_BITS) (stream_flush e)))
     = andthen (andthen (if negb (r =? 0) then oadd_repeat_template e s1 r else Done (true, s1)) (fun s2 =>
         andthen (oadd_end_template e s2) (fun s3 =>
           crc <- crc32_be e iaddr 0 inp (lenZ inp) ;; stream_write_bits e s3 crc CRC_BITS))) (stream_flush e)).
  { clear TAIL. unfold andthen. destruct (if negb (r =? 0) then _ else _) as [[[|] s2]| |]; cbn [bind]; auto.
    destruct (oadd_end_template e s2) as [[[|] s3]| |]; cbn [bind]; auto.
    destruct (crc32_be e iaddr 0 inp (lenZ inp)); cbn [bind]; auto. }
  rewrite ASSOC. clear ASSOC SPLIT.
  destruct TAIL as [(F1 & s2 & -> & S2)|(F1 & s2 & -> & S2)]; unfold andthen; rewrite !bind_done.
  2: { apply FAIL; auto. rewrite !lenZ_app, !lenZ_bits_of in F1. lia. }
  fold F in S2.
  destruct (stream_flush_ok e cap out s2 F S2) as [(F2 & s3 & -> & S3 & Z3)|(F2 & s3 & -> & S3)]; rewrite bind_done.
  - set (k := Z.to_nat ((64 - lenZ F mod 64) mod 64)) in *.
    pose proof S3 as [_ _ _ PT _ PL ML MB DN _ _]. rewrite Z3 in PL.
    assert (KP : F ++ repeat false k = pad F).
    { unfold pad. f_equal. f_equal. rewrite lenZ_app in PL. unfold lenZ in PL at 2. rewrite repeat_length in PL.
      unfold k in *. unfold padded_size. pose proof (Z.mod_pos_bound (64 - lenZ F mod 64) 64 ltac:(lia)). lia. }
    assert (LZ : lenZ z = 8 * s_ptr s3).
    { rewrite PZ. rewrite lenZ_app in PL. unfold lenZ in PL at 2. rewrite repeat_length in PL.
      unfold k in PL. pose proof (Z.mod_pos_bound (64 - lenZ F mod 64) 64 ltac:(lia)). lia. }
    left. split. { apply CZ. lia. } exists (s_mem s3). unfold stream_size. rewrite <- LZ. split; [reflexivity|].
    split; [|eapply bsw_bmem; eauto].
    apply bytes_bits_inj. { now apply is_bytes_firstn. } { apply pack_bytes. }
    replace (length z) with (Z.to_nat (8 * s_ptr s3)) by (unfold lenZ in LZ; lia). rewrite DN, KP.
    rewrite firstn_all2. 2: { rewrite <- KP. unfold lenZ in PL. lia. }
    symmetry. apply pack_bits. pose proof (pad_length F) as P. unfold lenZ in P.
    apply Nat2Z.inj. rewrite Nat2Z.inj_mod, P. change (Z.of_nat 8) with 8. rewrite Z.mul_comm, Z.mod_mul; lia.
  - apply FAIL; auto. pose proof (Z.mod_pos_bound (64 - lenZ F mod 64) 64 ltac:(lia)).
    pose proof (Z.div_mod (lenZ F) 64 ltac:(lia)). pose proof (Z.mod_pos_bound (lenZ F) 64 ltac:(lia)).
    rewrite Z2Nat.id in F2 by lia.
    destruct (Z.eq_dec (lenZ F mod 64) 0) as [E0|E0].
    + rewrite E0 in F2. change ((64 - 0) mod 64) with 0 in F2. lia.
    + rewrite Z.mod_small in F2 by lia. lia.
Qed.

(** unaligned and rejected calls go the same way *)
Lemma bf_compress_same iaddr oaddr inp out olen :
  is_bytes inp -> is_bytes out -> 0 <= olen <= lenZ out ->
  observed (optsw842_compress_bf over e iaddr oaddr inp out olen) = observed (optsw842_compress e iaddr oaddr inp out olen).
Proof.
  intros Hi Hb Hl.
  destruct (Z.eqb_spec (lenZ inp mod 8) 0) as [M|M];
    [|unfold optsw842_compress_bf, optsw842_compress; apply Z.eqb_neq in M; rewrite M; reflexivity].
  destruct (Z.eqb_spec (iaddr mod 8) 0) as [A|A].
  2:{ unfold optsw842_compress_bf, optsw842_compress. rewrite M. apply Z.eqb_neq in A. rewrite A. reflexivity. }
  destruct (Z.eqb_spec (oaddr mod 8) 0) as [O|O].
  2:{ unfold optsw842_compress_bf, optsw842_compress. rewrite M. apply Z.eqb_neq in O. rewrite O, orb_true_r. reflexivity. }
  destruct inp as [|b inp'].
  { unfold optsw842_compress_bf, optsw842_compress. rewrite A, O. reflexivity. }
  set (inp := b :: inp') in *. assert (NE : inp <> []) by discriminate.
  pose proof (bf_compress_out iaddr oaddr inp out olen Hi Hb Hl A O M NE) as X.
  pose proof (optsw842_compress_out e iaddr oaddr inp out olen Hi Hb Hl A O M NE) as Y.
  cbv zeta in X, Y. set (z := opt_out inp) in *.
  destruct X as [(L & m & -> & F & _)|(L & m & -> & _)]; destruct Y as [(L' & m' & -> & F' & _)|(L' & m' & -> & _)]; try lia; cbn [observed].
  - unfold lenZ. rewrite !Nat2Z.id, F, F'. reflexivity.
  - reflexivity.
Qed.
End BF.
