(** optsw842_compress emits the ideal bits of OptIdeal. *)
From Coq Require Import ZArith List Bool Lia.
From Verif Require Import SpecBits SpecCrc Spec842 CBase BitsLemmas CrcModel CrcProofs OpcodesTable
  SerialCompModel SerialWriter SerialDict SerialIdeal SerialComp SerialValid SerialFacts
  OptCompModel OptWriter OptDict GenLoop OptIdeal.
Import ListNotations.
Open Scope Z_scope.

Lemma find_facts pre st blk : odict_ok pre st -> length blk = 8%nat -> forall v ix, ofind st blk = (v, ix) ->
  (forall i, (i < 7)%nat -> 0 <= nth i ix 0) /\
  (forall b n, lk_pos b n = true -> nth (vslot b n) ix 0 < 2 ^ Z.of_nat (index_bits n)).
Proof.
  intros H Lb v ix EF. destruct (ofind_ok pre st blk H Lb) as (v' & ix' & _ & EF' & L1 & L2 & K).
  rewrite EF in EF'. apply pair_inj in EF'. destruct EF' as [<- <-].
  assert (R : forall b n, lk_pos b n = true -> 0 <= nth (vslot b n) ix 0 < 2 ^ Z.of_nat (index_bits n)).
  { intros b n LK. destruct (K b n LK) as [K0 K1]. destruct (nth (vslot b n) v false).
    - destruct (K1 eq_refl) as (k & Lt & _). apply latest_range in Lt.
      + replace (2 ^ Z.of_nat (index_bits n)) with (Z.of_nat (2 ^ index_bits n)); auto.
        rewrite Nat2Z.inj_pow. reflexivity.
      + apply Nat.neq_0_lt_0, Nat.pow_nonzero. lia.
    - rewrite K0; auto. pose proof (pow2_nat_pos (index_bits n)). lia. }
  split; [|intros b n LK; now apply R].
  intros i Hi. destruct i as [|[|[|[|[|[|[|]]]]]]]; [| | | | | | |lia].
  - exact (proj1 (R 0%nat 2%nat eq_refl)).
  - exact (proj1 (R 2%nat 2%nat eq_refl)).
  - exact (proj1 (R 4%nat 2%nat eq_refl)).
  - exact (proj1 (R 6%nat 2%nat eq_refl)).
  - exact (proj1 (R 0%nat 4%nat eq_refl)).
  - exact (proj1 (R 4%nat 4%nat eq_refl)).
  - exact (proj1 (R 0%nat 8%nat eq_refl)).
Qed.

Lemma obits_len pre st b : odict_ok pre st -> length b = 8%nat -> lenZ (obits st b) <= 69.
Proof.
  intros H Lb. unfold obits. destruct (ofind_ok pre st b H Lb) as (v & ix & _ & -> & L1 & L2 & K).
  destruct (oop_ok v L1) as (_ & OR & _). destruct (op_ok _ OR) as (_ & _ & AL & _ & W & _).
  rewrite lenZ_app, lenZ_bits_of, gacts_bits_len by lia. lia.
Qed.
Lemma obits_stream sw pre st b q bs x rest : is_bytes pre -> is_bytes b -> length b = 8%nat -> odict_ok pre st ->
  length pre = (8 * q)%nat -> stream sw (pre ++ b) bs x rest -> stream sw pre (obits st b ++ bs) x rest.
Proof.
  intros Hpre Hb Lb H Hq HS. unfold obits. destruct (ofind_ok pre st b H Lb) as (v & ix & _ & EF & L1 & L2 & K). rewrite EF.
  destruct (oop_ok v L1) as (_ & OR & VO). destruct (op_ok _ OR) as (T & SZ & AL & AP & W & _).
  destruct (find_facts pre st b H Lb v ix EF) as [IX0 _].
  rewrite <- app_assoc. eapply st_template; [|exact T| |exact HS]. { lia. }
  pose proof (gacts_args (olook v ix) b pre Hb Lb (olook_refers pre st b q v ix H Hpre Hb Lb Hq EF) (oacts (oop v)) 0 bs SZ ltac:(lia)) as G.
  cbn [firstn] in G. rewrite app_nil_r in G. apply G. now apply vacts_gacts.
Qed.

Definition opt_bits (x : list Z) : list bool := gbits ostate obits onx ostate_init x.
Definition opt_out (x : list Z) : list Z := pack (pad (opt_bits x)).

Lemma onx_inv : forall c pre s b q, length pre = (8 * q)%nat -> odict_ok pre s -> length b = 8%nat -> is_bytes b ->
  odict_ok (pre ++ b) (onx c s b (length pre)).
Proof. intros. eapply onx_ok; eauto. Qed.

Lemma opt_bits_stream sw x rest : is_bytes x -> (length x mod 8 = 0)%nat ->
  stream sw [] (opt_bits x ++ rest) x (bits_of 32 (crc32 x) ++ rest).
Proof.
  intros. apply (gbits_stream ostate obits onx odict_ok onx_inv); auto using odict_init.
  intros. eapply obits_stream; eauto.
Qed.
Lemma opt_bits_len x : is_bytes x -> (length x mod 8 = 0)%nat -> lenZ (opt_bits x) <= 69 * (lenZ x / 8) + 37.
Proof.
  intros. apply (gbits_len ostate obits onx odict_ok onx_inv); auto using odict_init. intros. eapply obits_len; eauto.
Qed.
Lemma opt_out_bits x : bytes_bits (opt_out x) = pad (opt_bits x).
Proof.
  apply pack_bits. pose proof (pad_length (opt_bits x)) as P. unfold lenZ in P.
  apply Nat2Z.inj. rewrite Nat2Z.inj_mod, P. change (Z.of_nat 8) with 8. rewrite Z.mul_comm, Z.mod_mul; lia.
Qed.
Lemma opt_out_length x : lenZ (opt_out x) = padded_size (opt_bits x).
Proof.
  unfold opt_out, lenZ. rewrite pack_length. pose proof (pad_length (opt_bits x)) as P. unfold lenZ in P.
  rewrite Nat2Z.inj_div, P. change (Z.of_nat 8) with 8. rewrite Z.mul_comm, Z.div_mul; lia.
Qed.
Lemma opt_out_bytes x : is_bytes (opt_out x). Proof. apply pack_bytes. Qed.
Theorem opt_out_valid sw x : is_bytes x -> (length x mod 8 = 0)%nat -> valid_842 sw (opt_out x) x.
Proof. intros. unfold valid_842. rewrite opt_out_bits. unfold pad. eexists. now apply opt_bits_stream. Qed.

Section Comp.
Variable e : endian.
Variables (cap : Z) (m0 : list Z).

Lemma oprocess_next_ok inp pos blk pre st s E : is_bytes inp -> (pos + 8 <= length inp)%nat -> blk = slice pos 8 inp ->
  odict_ok pre st -> bsw cap m0 s E ->
  exists ok s', oprocess_next e s inp (Z.of_nat pos) st (odata blk) = Done (ok, s', set_hashes st (ohash (odata blk))) /\
    sem cap m0 E (obits st blk) (Done (ok, s')).
Proof.
  intros Hi Hp Hb H HS. pose proof (blk_len inp pos blk Hp Hb) as LB.
  destruct (ofind_ok pre st blk H LB) as (v & ix & EF & EF' & L1 & L2 & K).
  destruct (find_facts pre st blk H LB v ix EF') as [IX0 IXB].
  destruct (oop_ok v L1) as (ET & OR & VO). destruct (op_ok _ OR) as (T & SZ & AL & AP & W & _).
  assert (G : gacts_ok (olook v ix) 0 (oacts (oop v)) = true) by now apply vacts_gacts.
  pose proof (oadd_template_ok e inp pos blk Hi Hp Hb v ix L2 IX0 IXB cap m0 s E (oop v) HS OR G) as A.
  unfold oprocess_next. rewrite EF, bind_done, ET, bind_done. unfold obits. rewrite EF'.
  destruct A as [(F & s' & EQ & A)|(F & s' & EQ & A)]; rewrite EQ, bind_done; do 2 eexists; (split; [reflexivity|]); [left|right]; eauto.
Qed.
Lemma oadd_repeat_ok s E rc : bsw cap m0 s E -> 1 <= rc <= 64 -> sem cap m0 E (rep_bits rc) (oadd_repeat_template e s rc).
Proof.
  intros HS Hr. unfold oadd_repeat_template, rep_bits.
  assert (U : u8 (rc - 1) = rc - 1) by (unfold u8; apply Z.mod_small; lia). rewrite U.
  change (Z.shiftl OP_REPEAT REPEAT_BITS) with (0x1b * 2 ^ 6). rewrite lor_disjoint by lia.
  change (2 ^ 6) with (2 ^ Z.of_nat 6). rewrite <- bits_of_concat by (change (2 ^ Z.of_nat 6) with 64; lia).
  apply (sem_write e cap m0 s E _ 11 HS); [lia|]. change (2 ^ Z.of_nat 6) with 64. lia.
Qed.

Definition lsem (E B : list bool) (r : Z) (o : outcome (bool * bitstream * Z)) : Prop :=
  (lenZ E + lenZ B < 64 * (cap + 1) /\ exists s', o = Done (true, s', r) /\ bsw cap m0 s' (E ++ B)) \/
  (64 * (cap + 1) <= lenZ E + lenZ B /\ exists s' k, o = Done (false, s', k) /\ bmem cap m0 (s_mem s')).
(** an emission followed by the rest of the loop *)
Lemma lsem_seq E B1 B2 r (ra : sres) (k : bitstream -> outcome (bool * bitstream * Z)) : sem cap m0 E B1 ra ->
  (forall s', bsw cap m0 s' (E ++ B1) -> lsem (E ++ B1) B2 r (k s')) ->
  lsem E (B1 ++ B2) r ('(ok, s') <- ra ;; if ok : bool then k s' else Done (false, s', 0)).
Proof.
  intros [(F & s' & -> & W)|(F & s' & -> & W)] Hk; rewrite bind_done.
  - destruct (Hk s' W) as [(F2 & s2 & -> & W2)|(F2 & s2 & i & -> & W2)]; [left|right]; rewrite !lenZ_app in *; (split; [lia|]).
    + eexists; split; eauto. now rewrite app_assoc.
    + eauto.
  - right. rewrite lenZ_app. pose proof (lenZ_nonneg B2). split; [lia|]. eauto.
Qed.

Lemma ocomp_loop_ok inp : is_bytes inp ->
  forall blocks pre st s E last lastZ rc,
  inp = pre ++ concat blocks -> Forall (fun b => length b = 8%nat) blocks ->
  (exists q, length pre = (8 * q)%nat) -> odict_ok pre st -> last_rel e last lastZ blocks -> 0 <= rc <= 63 ->
  bsw cap m0 s E ->
  let '(B, r) := gloop ostate obits onx st (length pre) blocks last rc in
  0 <= r <= 63 /\
  lsem E B r (ocomp_loop e (length blocks) inp s st (lenZ pre) (lenZ (concat blocks)) lastZ rc).
Proof.
  intros Hinp blocks. induction blocks as [|b bs IH]; intros pre st s E last lastZ rc Hi Hlen [q Hq] Hst Hlast Hrc HS.
  - cbn [gloop concat length ocomp_loop]. split; [lia|]. left. rewrite lenZ_nil.
    pose proof HS as [? ? ? ? ? ? ? ? ? ? ?]. split; [lia|].
    change (0 >? 7) with false. cbv iota. exists s. split; [reflexivity|]. now rewrite app_nil_r.
  - pose proof (Forall_inv Hlen) as Lb. pose proof (Forall_inv_tail Hlen) as Hlen'. cbv beta in Lb.
    cbn [concat] in *.
    assert (Hb : b = slice (length pre) 8 inp).
    { rewrite Hi. rewrite slice_app_r by lia. rewrite Nat.sub_diag. rewrite slice_app_l by lia.
      unfold slice. cbn [skipn]. symmetry. apply firstn_all2. lia. }
    assert (Bb : is_bytes b) by (rewrite Hb; now apply is_bytes_slice).
    assert (LI : (length pre + 8 <= length inp)%nat) by (rewrite Hi, !app_length; lia).
    assert (Hi' : inp = (pre ++ b) ++ concat bs) by (rewrite Hi, <- !app_assoc; reflexivity).
    cbn [length ocomp_loop gloop].
    assert (LB8 : lenZ b = 8) by (unfold lenZ; lia).
    rewrite !lenZ_app, LB8. set (rest := lenZ (concat bs)) in *.
    assert (0 <= rest) by apply lenZ_nonneg.
    rewrite Z.gtb_ltb. destruct (Z.ltb_spec 7 (8 + rest)); [|lia].
    rewrite load64_ok by (unfold lenZ; lia). rewrite bind_done.
    change (Z.to_nat (lenZ pre)) with (Z.to_nat (Z.of_nat (length pre))). rewrite Nat2Z.id, <- Hb.
    rewrite !(lenZ_of pre).
    rewrite (oget_next_data_ok e inp (length pre) b Hinp LI Hb), bind_done.
    replace (8 + rest - 8) with rest by lia.
    set (next := native_val e b) in *.
    assert (EQL : (next =? lastZ) = same last b).
    { unfold last_rel in Hlast. destruct last as [l|]; cbn [same].
      - destruct Hlast as (-> & Ll & Bl). apply native_val_eq; auto. congruence.
      - now apply Z.eqb_neq. }
    assert (LR : last_rel e (Some b) next bs) by (cbn; auto).
    assert (Q' : exists q', length (pre ++ b) = (8 * q')%nat) by (exists (S q); rewrite app_length; lia).
    assert (LP : length (pre ++ b) = (length pre + 8)%nat) by (rewrite app_length; lia).
    assert (LPZ : lenZ (pre ++ b) = Z.of_nat (length pre) + 8) by (unfold lenZ; lia).
    (* the end of the iteration, at any stream, choice and repeat count *)
    assert (REP : forall c s1 E1 rc1, 0 <= rc1 <= 63 -> bsw cap m0 s1 E1 ->
      let '(B, r) := gloop ostate obits onx (onx c st b (length pre)) (length pre + 8) bs (Some b) rc1 in
      0 <= r <= 63 /\
      lsem E1 B r (st' <- oupdate_hashtables (if c then set_hashes st (ohash (odata b)) else st) (odata b) (Z.of_nat (length pre)) ;;
        ocomp_loop e (length bs) inp s1 st' (Z.of_nat (length pre) + 8) rest next rc1)).
    { intros c s1 E1 rc1 R1 S1. destruct (onx_ok c pre st b q Hq Hst Lb) as [-> Hst']. rewrite bind_done.
      specialize (IH (pre ++ b) (onx c st b (length pre)) s1 E1 (Some b) next rc1 Hi' Hlen' Q' Hst' LR R1 S1).
      rewrite LP, LPZ in IH. exact IH. }
    (* emission of a block *)
    assert (EMIT : forall s1 E1, bsw cap m0 s1 E1 ->
      let '(B, r) := gloop ostate obits onx (onx (negb (be_val b =? 0)) st b (length pre)) (length pre + 8) bs (Some b) 0 in
      0 <= r <= 63 /\
      lsem E1 (gblk ostate obits st b ++ B) r
        (if next =? 0 then
          '(ok, s') <- oadd_zeros_template e s1 ;;
          if ok : bool then 
            (st' <- oupdate_hashtables st (odata b) (Z.of_nat (length pre)) ;;
             ocomp_loop e (length bs) inp s' st' (Z.of_nat (length pre) + 8) rest next 0) else Done (false, s', 0)
        else
          '(ok, s', st') <- oprocess_next e s1 inp (Z.of_nat (length pre)) st (odata b) ;;
          if ok : bool then 
            (st' <- oupdate_hashtables st' (odata b) (Z.of_nat (length pre)) ;;
             ocomp_loop e (length bs) inp s' st' (Z.of_nat (length pre) + 8) rest next 0) else Done (false, s', 0))).
    { intros s1 E1 S1. unfold next at 1. rewrite native_val_0 by auto. unfold gblk.
      destruct (be_val b =? 0); cbn [negb].
      - specialize (REP false). cbn iota in REP.
        destruct (gloop ostate obits onx (onx false st b (length pre)) (length pre + 8) bs (Some b) 0) as [B r] eqn:G.
        split. { specialize (REP s1 E1 0 ltac:(lia) S1). rewrite G in REP. tauto. }
        apply lsem_seq.
        + apply (sem_write e cap m0 s1 E1 OP_ZEROS OP_BITS S1); unfold OP_BITS, OP_ZEROS; lia.
        + intros s' S'. specialize (REP s' _ 0 ltac:(lia) S'). rewrite G in REP. tauto.
      - specialize (REP true). cbn iota in REP.
        destruct (gloop ostate obits onx (onx true st b (length pre)) (length pre + 8) bs (Some b) 0) as [B r] eqn:G.
        split. { specialize (REP s1 E1 0 ltac:(lia) S1). rewrite G in REP. tauto. }
        destruct (oprocess_next_ok inp (length pre) b pre st s1 E1 Hinp LI Hb Hst S1) as (ok & s' & EQ & SM).
        rewrite EQ, bind_done.
        destruct SM as [(F & s2 & X & W)|(F & s2 & X & W)]; injection X as -> ->.
        + specialize (REP s2 _ 0 ltac:(lia) W). rewrite G in REP. destruct REP as [_ REP].
          destruct REP as [(F2 & s3 & -> & W2)|(F2 & s3 & i & -> & W2)]; [left|right]; rewrite !lenZ_app in *; (split; [lia|]).
          * eexists; split; eauto. now rewrite app_assoc.
          * eauto.
        + right. rewrite lenZ_app. pose proof (lenZ_nonneg B). split; [lia|]. eauto. }
    rewrite EQL. destruct (same last b) eqn:SM.
    + assert (U : u8 (rc + 1) = rc + 1) by (unfold u8; apply Z.mod_small; lia). rewrite U. cbn [andb].
      change REPEAT_BITS_MAX with 63.
      specialize (REP false). cbn iota in REP.
      destruct (Z.leb_spec (rc + 1) 63).
      * apply REP; auto. lia.
      * destruct (Z.eqb_spec (rc + 1) 0); [lia|]. cbn [negb].
        destruct (gloop ostate obits onx (onx false st b (length pre)) (length pre + 8) bs (Some b) 0) as [B r] eqn:G.
        split. { specialize (REP s E 0 ltac:(lia) HS). rewrite G in REP. tauto. }
        apply lsem_seq. { apply oadd_repeat_ok; auto. lia. }
        intros s' S'. specialize (REP s' _ 0 ltac:(lia) S'). rewrite G in REP. tauto.
    + cbn [andb].
      destruct (gloop ostate obits onx (onx (negb (be_val b =? 0)) st b (length pre)) (length pre + 8) bs (Some b) 0) as [B r] eqn:G.
      unfold rep_bits_opt.
      destruct (Z.eqb_spec rc 0) as [->|NZ]; cbn [negb].
      * cbn [app]. exact (EMIT s E HS).
      * split. { exact (proj1 (EMIT s E HS)). }
        apply lsem_seq. { apply oadd_repeat_ok; auto. lia. }
        intros s' S'. exact (proj2 (EMIT s' _ S')).
Qed.
End Comp.

Lemma lnot_neq e b : is_bytes b -> length b = 8%nat -> native_val e b <> u64 (Z.lnot (native_val e b)).
Proof.
  intros B0 L8.
  assert (R : 0 <= native_val e b < 2 ^ 64).
  { pose proof (be_val_bound b B0) as X. pose proof (be_val_bound (rev b) (is_bytes_rev _ B0)) as Y.
    unfold lenZ in *. rewrite rev_length in Y. rewrite L8 in *. unfold native_val. destruct e; assumption. }
  unfold u64.
  assert (Z.lnot (native_val e b) = - native_val e b - 1) as -> by (unfold Z.lnot; lia).
  replace (- native_val e b - 1) with ((2 ^ 64 - 1 - native_val e b) + (-1) * 2 ^ 64) by lia.
  rewrite Z.mod_add by lia. rewrite Z.mod_small by lia. intros X.
  assert (2 * native_val e b = 2 ^ 64 - 1) by lia. lia.
Qed.

Theorem optsw842_compress_out e iaddr oaddr inp out olen :
  is_bytes inp -> is_bytes out -> 0 <= olen <= lenZ out -> iaddr mod 8 = 0 -> oaddr mod 8 = 0 ->
  lenZ inp mod 8 = 0 -> inp <> [] ->
  let z := opt_out inp in
  (lenZ z <= olen /\ exists m, optsw842_compress e iaddr oaddr inp out olen = Done (0, lenZ z, m) /\
       firstn (length z) m = z /\ bmem (olen / 8) out m) \/
  (olen < lenZ z /\ exists m, optsw842_compress e iaddr oaddr inp out olen = Done (- ENOSPC, 0, m) /\ bmem (olen / 8) out m).
Proof.
  intros Hinp Hout Hcap HA HO HM HN z.
  set (cap := olen / 8).
  assert (PZ : lenZ z = 8 * ((lenZ (opt_bits inp) + 63) / 64)) by apply opt_out_length.
  assert (CZ : lenZ z <= olen <-> (lenZ (opt_bits inp) + 63) / 64 <= cap).
  { rewrite PZ. unfold cap. split; intros.
    - apply Z.div_le_lower_bound; lia.
    - pose proof (Z.mul_div_le olen 8 ltac:(lia)). lia. }
  unfold optsw842_compress. rewrite HM, HA, HO. change (negb (0 =? 0)) with false. cbn [orb]. cbv iota.
  assert (LN : 0 < lenZ inp). { destruct inp; [congruence|]. rewrite lenZ_cons. pose proof (lenZ_nonneg inp). lia. }
  assert (L8 : 8 <= lenZ inp). { pose proof (Z.div_mod (lenZ inp) 8 ltac:(lia)). lia. }
  pose proof (bsw_open cap olen out Hout Hcap eq_refl) as W0.
  pose proof (blocks_tail inp) as BT. pose proof (blocks_len inp) as BLn. pose proof (blocks_count inp) as BC.
  assert (TN : tail_of inp = []).
  { apply length_zero_iff_nil. rewrite tail_length. apply Nat2Z.inj. rewrite Nat2Z.inj_mod. exact HM. }
  rewrite TN, app_nil_r in BT.
  rewrite load64_ok by lia. rewrite bind_done. change (Z.to_nat 0) with 0%nat.
  set (b0 := slice 0 8 inp).
  assert (B0 : is_bytes b0) by now apply is_bytes_slice.
  assert (LR : last_rel e None (u64 (Z.lnot (native_val e b0))) (blocks_of inp)).
  { unfold last_rel. unfold blocks_of. destruct (length inp / 8)%nat as [|q] eqn:Q. { cbn. auto. }
    cbn [seq map]. change (8 * 0)%nat with 0%nat. fold b0. apply lnot_neq; auto. apply slice_length. unfold lenZ in L8. lia. }
  pose proof (ocomp_loop_ok e cap out inp Hinp (blocks_of inp) [] ostate_init (stream_open out olen) [] None _ 0
    BT BLn (ex_intro _ 0%nat eq_refl) odict_init LR ltac:(lia) W0) as L.
  change (length (@nil Z)) with 0%nat in L. change (lenZ (@nil Z)) with 0 in L. rewrite <- BT in L. rewrite BC in L.
  replace (length inp / 8)%nat with (Z.to_nat (lenZ inp / 8)) in L
      by (unfold lenZ; rewrite <- (Nat2Z.id (length inp / 8)), Nat2Z.inj_div; reflexivity).
  unfold opt_bits, gbits in *. unfold z, opt_out, opt_bits, gbits in *. clear z.
  destruct (gloop ostate obits onx ostate_init 0 (blocks_of inp) None 0) as [B r]. destruct L as [R L].
  set (F := B ++ rep_bits_opt r ++ bits_of 5 30 ++ bits_of 32 (crc32 inp)) in *.
  assert (LF : lenZ F = lenZ B + lenZ (rep_bits_opt r) + 37) by (unfold F; rewrite !lenZ_app, !lenZ_bits_of; lia).
  set (z := pack (pad F)) in *.
  pose proof (Z.div_mod (lenZ F + 63) 64 ltac:(lia)) as DMF. pose proof (Z.mod_pos_bound (lenZ F + 63) 64 ltac:(lia)) as MPF.
  (* the case of an exception *)
  assert (FAIL : forall s, 64 * cap < lenZ F -> bmem cap out (s_mem s) ->
    (lenZ z <= olen /\ (exists m, Done (- ENOSPC, 0, s_mem s) = Done (0, lenZ z, m) /\ firstn (length z) m = z /\ bmem cap out m)) \/
    (olen < lenZ z /\ (exists m, Done (- ENOSPC, 0, s_mem s) = Done (- ENOSPC, 0, m) /\ bmem cap out m))).
  { intros s HF HB. right. split; [lia|]. eauto. }
  pose proof (lenZ_nonneg (rep_bits_opt r)) as RN.
  destruct L as [(FT & s1 & -> & S1)|(FT & s1 & k & -> & S1)]; rewrite bind_done.
  2: { rewrite bind_done. rewrite lenZ_nil in FT. apply FAIL; auto. lia. }
  cbn [app] in S1.
  assert (TAIL : sem cap out B (rep_bits_opt r ++ bits_of 5 30 ++ bits_of 32 (crc32 inp))
    (andthen (if negb (r =? 0) then oadd_repeat_template e s1 r else Done (true, s1)) (fun s2 =>
         andthen (oadd_end_template e s2) (fun s3 =>
           crc <- crc32_be e iaddr 0 inp (lenZ inp) ;; stream_write_bits e s3 crc CRC_BITS)))).
  { apply sem_seq.
    - unfold rep_bits_opt. destruct (Z.eqb_spec r 0); cbn [negb].
      + left. rewrite lenZ_nil, app_nil_r. split; [pose proof S1 as [? ? ? ? ? ? ? ? ? ? ?]; lia|]. eauto.
      + apply oadd_repeat_ok; auto. lia.
    - intros s2 S2. apply sem_seq.
      + apply (sem_write e cap out s2 _ OP_END OP_BITS S2); unfold OP_BITS, OP_END; lia.
      + intros s3 S3. rewrite (crc32_be_spec e inp Hinp iaddr (lenZ inp) ltac:(lia)), bind_done.
        replace (firstn (Z.to_nat (lenZ inp)) inp) with inp by (unfold lenZ; rewrite Nat2Z.id; symmetry; apply firstn_all).
        pose proof (crc32_R inp) as CR. unfold CrcProofs.R in CR.
        apply (sem_write e cap out s3 _ (crc32 inp) CRC_BITS S3); unfold CRC_BITS; lia. }
  assert (SPLIT : forall ra : sres, (andthen ra (stream_flush e)) = (andthen ra (stream_flush e))) by reflexivity.
  assert (ASSOC : andthen (if negb (r =? 0) then oadd_repeat_template e s1 r else Done (true, s1)) (fun s2 =>
         andthen (oadd_end_template e s2) (fun s3 =>
           crc <- crc32_be e iaddr 0 inp (lenZ inp) ;; andthen (stream_write_bits e s3 crc CRC_BITS) (stream_flush e)))
     = andthen (andthen (if negb (r =? 0) then oadd_repeat_template e s1 r else Done (true, s1)) (fun s2 =>
         andthen (oadd_end_template e s2) (fun s3 =>
           crc <- crc32_be e iaddr 0 inp (lenZ inp) ;; stream_write_bits e s3 crc CRC_BITS))) (stream_flush e)).
  { clear TAIL. unfold andthen. destruct (if negb (r =? 0) then _ else _) as [[[|] s2]| |]; cbn [bind]; auto.
    destruct (oadd_end_template e s2) as [[[|] s3]| |]; cbn [bind]; auto.
    destruct (crc32_be e iaddr 0 inp (lenZ inp)); cbn [bind]; auto. }
  rewrite ASSOC. clear ASSOC SPLIT.
  destruct TAIL as [(F1 & s2 & -> & S2)|(F1 & s2 & -> & S2)]; unfold andthen; rewrite !bind_done.
  2: { apply FAIL; auto. rewrite !lenZ_app, !lenZ_bits_of in F1. lia. }
  fold F in S2.
  destruct (stream_flush_ok e cap out s2 F S2) as [(F2 & s3 & -> & S3 & Z3)|(F2 & s3 & -> & S3)]; rewrite bind_done.
  - set (k := Z.to_nat ((64 - lenZ F mod 64) mod 64)) in *.
    pose proof S3 as [_ _ _ PT _ PL ML MB DN _ _]. rewrite Z3 in PL.
    assert (KP : F ++ repeat false k = pad F).
    { unfold pad. f_equal. f_equal. rewrite lenZ_app in PL. unfold lenZ in PL at 2. rewrite repeat_length in PL.
      unfold k in *. unfold padded_size. pose proof (Z.mod_pos_bound (64 - lenZ F mod 64) 64 ltac:(lia)). lia. }
    assert (LZ : lenZ z = 8 * s_ptr s3).
    { rewrite PZ. rewrite lenZ_app in PL. unfold lenZ in PL at 2. rewrite repeat_length in PL.
      unfold k in PL. pose proof (Z.mod_pos_bound (64 - lenZ F mod 64) 64 ltac:(lia)). lia. }
    left. split. { apply CZ. lia. } exists (s_mem s3). unfold stream_size. rewrite <- LZ. split; [reflexivity|].
    split; [|eapply bsw_bmem; eauto].
    apply bytes_bits_inj. { now apply is_bytes_firstn. } { apply pack_bytes. }
    replace (length z) with (Z.to_nat (8 * s_ptr s3)) by (unfold lenZ in LZ; lia). rewrite DN, KP.
    rewrite firstn_all2. 2: { rewrite <- KP. unfold lenZ in PL. lia. }
    symmetry. apply pack_bits. pose proof (pad_length F) as P. unfold lenZ in P.
    apply Nat2Z.inj. rewrite Nat2Z.inj_mod, P. change (Z.of_nat 8) with 8. rewrite Z.mul_comm, Z.mod_mul; lia.
  - apply FAIL; auto. pose proof (Z.mod_pos_bound (64 - lenZ F mod 64) 64 ltac:(lia)).
    pose proof (Z.div_mod (lenZ F) 64 ltac:(lia)). pose proof (Z.mod_pos_bound (lenZ F) 64 ltac:(lia)).
    rewrite Z2Nat.id in F2 by lia.
    destruct (Z.eq_dec (lenZ F mod 64) 0) as [E0|E0].
    + rewrite E0 in F2. change ((64 - 0) mod 64) with 0 in F2. lia.
    + rewrite Z.mod_small in F2 by lia. lia.
Qed.
