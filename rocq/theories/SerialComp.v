(** sw842_compress refines the ideal encoder of SerialIdeal. *)
From Coq Require Import ZArith List Bool Lia.
From Verif Require Import SpecBits SpecCrc Spec842 CBase BitsLemmas CrcModel CrcProofs
  SerialCompModel SerialWriter SerialDict SerialIdeal.
Import ListNotations.
Open Scope Z_scope.

Section Comp.
Variable e : endian.

Lemma row_op_range i : (i < 26)%nat -> 0 <= row_op i < 2 ^ 5.
Proof.
  intros H. assert (A : forallb (fun i => (0 <=? row_op i) && (row_op i <? 2 ^ 5)) (seq 0 26) = true) by (vm_compute; reflexivity).
  rewrite forallb_forall in A. specialize (A i). rewrite in_seq in A. specialize (A ltac:(lia)).
  apply andb_true_iff in A. lia.
Qed.

Lemma process_next_ok inp pos blk pre ds cap m0 w E :
  is_bytes inp -> (pos + 8 <= length inp)%nat -> blk = slice pos 8 inp -> dicts_ok pre ds -> wr cap m0 w E ->
  emits 64 cap m0 E (tmpl_bits ds blk) (process_next e w inp (Z.of_nat pos) ds (block_data blk)).
Proof.
  intros Hinp Hpos Hblk Hds Hw. unfold process_next.
  change (Z.to_nat (OPS_MAX - 1)) with 25%nat.
  cbv zeta. set (ix0 := mkIdx _ _ _).
  destruct (find_template_ok inp pos blk Hpos Hblk pre ds Hds 25 0 ix0) as (ix & Hf & I1 & A1 & D1);
    [lia| |].
  { do 7 eexists. split; [reflexivity|]. unfold ent. auto 20. }
  change (Z.of_nat 0) with 0 in Hf. rewrite Hf, bind_done.
  unfold add_template, tmpl_bits. assert (CB : (choose 25 0 ds blk <= 0 + 25)%nat) by (eapply choose_bound; eauto).
  set (i := choose 25 0 ds blk) in *.
  destruct (Z.of_nat i >=? OPS_MAX) eqn:G; [unfold OPS_MAX in G; apply Z.geb_le in G; lia|].
  rewrite Nat2Z.id. cbv zeta. fold (row_op i). fold (row_cols i).
  apply emits_seq.
  - change 5%nat with (Z.to_nat OP_BITS). apply add_bits_emits; auto; unfold OP_BITS; try lia.
    apply row_op_range. lia.
  - intros w' W'.
    destruct (add_ops_ok e inp pos blk Hinp Hpos Hblk pre ds Hds ix cap m0 (row_cols i) 0 w' _
       (wf_rows i ltac:(lia)) D1 A1 I1 W') as [(F & w2 & H & W2)|(F & w2 & E2 & b2 & H & W2 & L2 & R2)];
    change (Z.of_nat 0) with 0 in H; rewrite H, bind_done.
    + left. split; auto. exists w2. split; auto.
    + right. split; auto. exists w2, E2. auto.
Qed.

Lemma add_zeros_ok cap m0 w E : wr cap m0 w E -> emits 64 cap m0 E (bits_of 5 0x1c) (add_zeros_template e w).
Proof.
  intros. change 5%nat with (Z.to_nat OP_BITS). apply add_bits_emits; auto; unfold OP_BITS, OP_ZEROS; try lia.
Qed.
Lemma add_end_ok cap m0 w E : wr cap m0 w E -> emits 64 cap m0 E (bits_of 5 0x1e) (add_end_template e w).
Proof.
  intros. change 5%nat with (Z.to_nat OP_BITS). apply add_bits_emits; auto; unfold OP_BITS, OP_END; try lia.
Qed.
Lemma add_repeat_ok cap m0 w E rc : 1 <= rc <= 64 -> wr cap m0 w E ->
  emits 6 cap m0 E (rep_bits rc) (add_repeat_template e w rc).
Proof.
  intros Hrc Hw. unfold add_repeat_template, REPEAT_BITS_MAX.
  destruct (Z.eqb_spec rc 0); [lia|]. destruct (rc - 1 >? _) eqn:G; [apply Z.gtb_lt in G; cbn in G; lia|].
  unfold rep_bits. apply emits_seq.
  - change 5%nat with (Z.to_nat OP_BITS). apply add_bits_emits; auto; unfold OP_BITS, OP_REPEAT; try lia.
  - intros w' W'. apply emits_ret_id. change 6%nat with (Z.to_nat REPEAT_BITS).
    apply add_bits_emits; auto; unfold REPEAT_BITS; try lia. 
Qed.
Lemma emits_weaken M M' cap m0 E B r : M <= M' -> emits M cap m0 E B r -> emits M' cap m0 E B r.
Proof.
  intros HM [H|(F & w' & E' & -> & W & L & Rm)]; [now left|right].
  split; auto. exists w', E'. split; auto. split; auto. lia.
Qed.

Lemma add_short_bytes_ok inp cap m0 k : is_bytes inp -> forall pos w E, (pos + k <= length inp)%nat -> wr cap m0 w E ->
  emits 64 cap m0 E (bytes_bits (slice pos k inp)) (add_short_bytes e k w inp (Z.of_nat pos)).
Proof.
  intros Hinp. induction k; intros pos w E Hk Hw; cbn [add_short_bytes].
  - apply emits_nil. auto.
  - rewrite load8_ok by (unfold lenZ; lia). rewrite bind_done, Nat2Z.id.
    replace (S k) with (1 + k)%nat by lia. rewrite slice_plus.
    rewrite bytes_bits_app. apply emits_seq.
    + rewrite <- (bits_of_be_val (slice pos 1 inp)) by now apply is_bytes_slice.
      rewrite slice_length by lia. change (8 * 1)%nat with (Z.to_nat 8).
      apply add_bits_emits; auto; try lia.
      pose proof (be_val_bound (slice pos 1 inp) (is_bytes_slice _ _ _ Hinp)) as R.
      unfold lenZ in R. rewrite slice_length in R by lia. exact R.
    + intros w' W'. replace (Z.of_nat pos + 1) with (Z.of_nat (pos + 1)) by lia. apply IHk; auto. lia.
Qed.
Lemma add_short_ok inp cap m0 pos k w E : is_bytes inp -> (1 <= k <= 7)%nat -> (pos + k <= length inp)%nat -> wr cap m0 w E ->
  emits 64 cap m0 E (bits_of 5 0x1d ++ bits_of 3 (Z.of_nat k) ++ bytes_bits (slice pos k inp))
    (add_short_data_template e w inp (Z.of_nat pos) (Z.of_nat k)).
Proof.
  intros Hinp Hk Hp Hw. unfold add_short_data_template, SHORT_DATA_BITS_MAX.
  destruct (Z.eqb_spec (Z.of_nat k) 0); [lia|]. destruct (Z.of_nat k >? _) eqn:G; [apply Z.gtb_lt in G; cbn in G; lia|].
  cbn [orb]. apply emits_seq.
  - change 5%nat with (Z.to_nat OP_BITS). apply add_bits_emits; auto; unfold OP_BITS, OP_SHORT_DATA; try lia.
  - intros w' W'. apply emits_seq.
    + change 3%nat with (Z.to_nat SHORT_DATA_BITS). apply add_bits_emits; auto; unfold SHORT_DATA_BITS; try lia.
    + intros w2 W2. rewrite Nat2Z.id. now apply add_short_bytes_ok.
Qed.

(** * States: on track, or doomed to run out of space *)
Definition St (cap : Z) (m0 : list Z) (w : writer) (E : list bool) : Prop :=
  wr cap m0 w E \/ (8 * cap < lenZ E /\ exists E', wr cap m0 w E' /\ 8 * cap < lenZ E' + 6).
Definition held (cap : Z) (m0 : list Z) (w : writer) : Prop := exists E, wr cap m0 w E.

Lemma St_emit M cap m0 w E B r : St cap m0 w E ->
  (forall E', wr cap m0 w E' -> emits M cap m0 E' B r) ->
  (exists w', r = Done (0, w') /\ St cap m0 w' (E ++ B)) \/
  (8 * cap < lenZ E + lenZ B /\ exists w', r = Done (- ENOSPC, w') /\ held cap m0 w').
Proof.
  intros HS Hr. pose proof (lenZ_nonneg B). destruct HS as [W|(L & E' & W & R)].
  - destruct (Hr E W) as [(F & w' & -> & W')|(F & w' & E' & -> & W' & L & Rm)].
    + left. exists w'. split; auto. now left.
    + right. split; auto. exists w'. split; auto. now exists E'.
  - destruct (Hr E' W) as [(F & w' & -> & W')|(F & w' & E2 & -> & W' & L' & Rm)].
    + left. exists w'. split; auto. right. rewrite lenZ_app. split; [lia|]. exists (E' ++ B). rewrite lenZ_app. split; auto. lia.
    + right. split; [lia|]. exists w'. split; auto. now exists E2.
Qed.
(** A failed repeat emission whose result the caller ignores. *)
Lemma St_ignore cap m0 w E B r : St cap m0 w E ->
  (forall E', wr cap m0 w E' -> emits 6 cap m0 E' B r) ->
  exists ret w', r = Done (ret, w') /\ St cap m0 w' (E ++ B).
Proof.
  intros HS Hr. pose proof (lenZ_nonneg B). destruct HS as [W|(L & E' & W & R)].
  - destruct (Hr E W) as [(F & w' & -> & W')|(F & w' & E' & -> & W' & L & Rm)].
    + exists 0, w'. split; auto. now left.
    + do 2 eexists. split; [reflexivity|]. right. rewrite lenZ_app. split; [lia|]. exists E'. split; auto.
  - destruct (Hr E' W) as [(F & w' & -> & W')|(F & w' & E2 & -> & W' & L' & Rm)].
    + do 2 eexists. split; [reflexivity|]. right. rewrite lenZ_app. split; [lia|]. exists (E' ++ B). rewrite lenZ_app. split; auto. lia.
    + do 2 eexists. split; [reflexivity|]. right. rewrite lenZ_app. split; [lia|]. exists E2. split; auto.
Qed.
(** An emission of at least six bits succeeds only on track. *)
Lemma St_strict M cap m0 w E B r : St cap m0 w E -> 6 <= lenZ B ->
  (forall E', wr cap m0 w E' -> emits M cap m0 E' B r) ->
  (exists w', r = Done (0, w') /\ wr cap m0 w' (E ++ B)) \/
  (8 * cap < lenZ E + lenZ B /\ exists w', r = Done (- ENOSPC, w') /\ held cap m0 w').
Proof.
  intros HS HB Hr. destruct HS as [W|(L & E' & W & R)].
  - destruct (Hr E W) as [(F & w' & -> & W')|(F & w' & E' & -> & W' & L & Rm)]; [left; eauto|right].
    split; auto. exists w'. split; auto. now exists E'.
  - destruct (Hr E' W) as [(F & w' & -> & W')|(F & w' & E2 & -> & W' & L' & Rm)]; [lia|right].
    split; [lia|]. exists w'. split; auto. now exists E2.
Qed.

(** * The main loop *)
Lemma rev_repeat {A} (x : A) n : rev (repeat x n) = repeat x n.
Proof.
  induction n; auto. cbn [repeat rev]. rewrite IHn. clear. induction n; auto. cbn [repeat app]. now f_equal.
Qed.
Lemma native_val_0 b : is_bytes b -> (native_val e b =? 0) = (be_val b =? 0).
Proof.
  intros Hb.
  assert (Z0 : native_val e (repeat 0 (length b)) = 0 /\ be_val (repeat 0 (length b)) = 0).
  { assert (V : forall n, be_val (repeat 0 n) = 0).
    { intros n. unfold be_val. induction n; auto. }
    split; auto. unfold native_val. destruct e; auto. rewrite rev_repeat. auto. }
  assert (BR : is_bytes (repeat 0 (length b))) by (apply is_bytes_repeat; unfold is_byte; lia).
  destruct Z0 as [N0 V0].
  destruct (Z.eqb_spec (native_val e b) 0) as [E0|NE]; destruct (Z.eqb_spec (be_val b) 0) as [E1|NE1]; auto; exfalso.
  - apply NE1. rewrite <- V0. f_equal. apply (native_val_inj e); auto. now rewrite repeat_length. now rewrite E0, N0.
  - apply NE. rewrite <- N0. f_equal.
    rewrite <- (be_bytes_be_val b Hb), <- (be_bytes_be_val (repeat 0 (length b)) BR), E1, V0 at 1.
    now rewrite repeat_length.
Qed.
Lemma native_val_eq a b : is_bytes a -> is_bytes b -> length a = length b ->
  (native_val e a =? native_val e b) = (be_val a =? be_val b).
Proof.
  intros Ha Hb HL.
  destruct (Z.eqb_spec (native_val e a) (native_val e b)) as [E0|NE]; destruct (Z.eqb_spec (be_val a) (be_val b)) as [E1|NE1]; auto; exfalso.
  - apply NE1. f_equal. now apply (native_val_inj e).
  - apply NE. f_equal. rewrite <- (be_bytes_be_val a Ha), <- (be_bytes_be_val b Hb). now rewrite E1, HL.
Qed.

Definition last_rel (last : option (list Z)) (lastZ : Z) (blocks : list (list Z)) : Prop :=
  match last with
  | Some l => lastZ = native_val e l /\ length l = 8%nat /\ is_bytes l
  | None => match blocks with [] => True | b :: _ => native_val e b <> lastZ end
  end.

Lemma lenZ_of {A} (l : list A) : lenZ l = Z.of_nat (length l). Proof. reflexivity. Qed.

Lemma comp_loop_ok cap m0 inp : is_bytes inp ->
  forall blocks pre tail ds w E last lastZ rc,
  inp = pre ++ concat blocks ++ tail -> Forall (fun b => length b = 8%nat) blocks -> (length tail < 8)%nat ->
  (exists q, length pre = (8 * q)%nat) -> dicts_ok pre ds -> last_rel last lastZ blocks -> 0 <= rc <= 63 ->
  St cap m0 w E ->
  let '(B, r) := ideal_loop ds (length pre) blocks last rc in
  0 <= r <= 63 /\
  ((exists w', comp_loop e (length blocks) inp w ds (lenZ pre) (lenZ (concat blocks ++ tail)) lastZ rc
      = Done (None, w', lenZ inp - lenZ tail, lenZ tail, r) /\ St cap m0 w' (E ++ B)) \/
   (8 * cap < lenZ E + lenZ B /\ exists w' p i k,
     comp_loop e (length blocks) inp w ds (lenZ pre) (lenZ (concat blocks ++ tail)) lastZ rc
      = Done (Some (- ENOSPC), w', p, i, k) /\ held cap m0 w')).
Proof.
  intros Hinp blocks. induction blocks as [|b bs IH]; intros pre tail ds w E last lastZ rc Hi Hlen Htail [q Hq] Hds Hlast Hrc HS.
  - cbn [ideal_loop concat app length comp_loop]. split; [lia|]. left. exists w. split.
    + rewrite Z.gtb_ltb. destruct (Z.ltb_spec 7 (lenZ tail)). { unfold lenZ in *. lia. }
      subst inp. cbn [concat app] in *. rewrite lenZ_app. do 5 f_equal. lia.
    + now rewrite app_nil_r.
  - inversion Hlen as [|? ? Lb Hlen']; subst x l.
    cbn [concat] in *. rewrite <- app_assoc in *.
    assert (Hb : slice (length pre) 8 inp = b).
    { rewrite Hi. rewrite slice_app_r by lia. rewrite Nat.sub_diag. rewrite slice_app_l by lia.
      unfold slice. cbn [skipn]. apply firstn_all2. lia. }
    assert (Bb : is_bytes b) by (rewrite <- Hb; now apply is_bytes_slice).
    assert (LI : (length pre + 8 <= length inp)%nat) by (rewrite Hi, !app_length; lia).
    assert (Hi' : inp = (pre ++ b) ++ concat bs ++ tail) by (rewrite Hi, <- !app_assoc; reflexivity).
    destruct (update_ok pre ds b q Hq Hds Lb) as (ds' & Hup & Hds').
    assert (ND : next_dicts ds b (length pre) = ds') by (unfold next_dicts; now rewrite Hup).
    cbn [length comp_loop ideal_loop]. rewrite ND.
    assert (LB8 : lenZ b = 8) by (unfold lenZ; lia).
    rewrite !lenZ_app, LB8. rewrite <- lenZ_app. set (rest := lenZ (concat bs ++ tail)) in *.
    assert (0 <= rest) by apply lenZ_nonneg.
    rewrite Z.gtb_ltb. destruct (Z.ltb_spec 7 (8 + rest)); [|lia].
    rewrite load64_ok by (unfold lenZ; lia). rewrite bind_done.
    change (Z.to_nat (lenZ pre)) with (Z.to_nat (Z.of_nat (length pre))). rewrite Nat2Z.id, Hb.
    rewrite !(lenZ_of pre).
    rewrite (get_next_data_ok e inp (length pre) b Hinp LI (eq_sym Hb)), bind_done.
    replace (8 + rest - 8) with rest by lia.
    set (next := native_val e b) in *.
    assert (EQL : (next =? lastZ) = same last b).
    { unfold last_rel in Hlast. destruct last as [l|]; cbn [same].
      - destruct Hlast as (-> & Ll & Bl). apply native_val_eq; auto. congruence.
      - now apply Z.eqb_neq. }
    assert (LR : last_rel (Some b) next bs) by (cbn; auto).
    assert (Q' : exists q', length (pre ++ b) = (8 * q')%nat) by (exists (S q); rewrite app_length; lia).
    assert (LP : length (pre ++ b) = (length pre + 8)%nat) by (rewrite app_length; lia).
    assert (LPZ : lenZ (pre ++ b) = Z.of_nat (length pre) + 8) by (unfold lenZ; lia).
    (* the tail of the iteration, at any state and repeat count *)
    assert (REP : forall w1 E1 rc1, 0 <= rc1 <= 63 -> St cap m0 w1 E1 ->
      let '(B, r) := ideal_loop ds' (length pre + 8) bs (Some b) rc1 in
      0 <= r <= 63 /\
      ((exists w', (ds'0 <- update_hashtables ds (block_data b) (Z.of_nat (length pre)) ;;
           comp_loop e (length bs) inp w1 ds'0 (Z.of_nat (length pre) + 8) rest next rc1)
        = Done (None, w', lenZ inp - lenZ tail, lenZ tail, r) /\ St cap m0 w' (E1 ++ B)) \/
       (8 * cap < lenZ E1 + lenZ B /\ exists w' p i k,
         (ds'0 <- update_hashtables ds (block_data b) (Z.of_nat (length pre)) ;;
           comp_loop e (length bs) inp w1 ds'0 (Z.of_nat (length pre) + 8) rest next rc1)
         = Done (Some (- ENOSPC), w', p, i, k) /\ held cap m0 w'))).
    { intros w1 E1 rc1 R1 S1. rewrite Hup, bind_done.
      specialize (IH (pre ++ b) tail ds' w1 E1 (Some b) next rc1 Hi' Hlen' Htail Q' Hds' LR R1 S1).
      rewrite LP, LPZ in IH. exact IH. }
    (* emission of a block *)
    assert (EMIT : forall w1 E1, St cap m0 w1 E1 ->
      let '(B, r) := ideal_loop ds' (length pre + 8) bs (Some b) 0 in
      0 <= r <= 63 /\
      ((exists w', ('(ret, w') <- (if next =? 0 then add_zeros_template e w1 else process_next e w1 inp (Z.of_nat (length pre)) ds (block_data b)) ;;
          if negb (ret =? 0) then Done (Some ret, w', Z.of_nat (length pre), 8 + rest, 0) else
          (ds'0 <- update_hashtables ds (block_data b) (Z.of_nat (length pre)) ;;
           comp_loop e (length bs) inp w' ds'0 (Z.of_nat (length pre) + 8) rest next 0))
        = Done (None, w', lenZ inp - lenZ tail, lenZ tail, r) /\ St cap m0 w' (E1 ++ blk_bits ds b ++ B)) \/
       (8 * cap < lenZ E1 + lenZ (blk_bits ds b ++ B) /\ exists w' p i k,
         ('(ret, w') <- (if next =? 0 then add_zeros_template e w1 else process_next e w1 inp (Z.of_nat (length pre)) ds (block_data b)) ;;
          if negb (ret =? 0) then Done (Some ret, w', Z.of_nat (length pre), 8 + rest, 0) else
          (ds'0 <- update_hashtables ds (block_data b) (Z.of_nat (length pre)) ;;
           comp_loop e (length bs) inp w' ds'0 (Z.of_nat (length pre) + 8) rest next 0))
         = Done (Some (- ENOSPC), w', p, i, k) /\ held cap m0 w'))).
    { intros w1 E1 S1.
      assert (EM : forall E', wr cap m0 w1 E' -> emits 64 cap m0 E' (blk_bits ds b)
         (if next =? 0 then add_zeros_template e w1 else process_next e w1 inp (Z.of_nat (length pre)) ds (block_data b))).
      { intros E' W. unfold next, blk_bits. rewrite native_val_0 by auto. destruct (be_val b =? 0).
        - now apply add_zeros_ok.
        - eapply process_next_ok; eauto. }
      destruct (St_emit 64 cap m0 w1 E1 _ _ S1 EM) as [(w' & -> & S')|(F & w' & -> & H')]; rewrite bind_done.
      - change (negb (0 =? 0)) with false. cbv iota.
        pose proof (REP w' _ 0 ltac:(lia) S') as G.
        destruct (ideal_loop ds' (length pre + 8) bs (Some b) 0) as [B r]. destruct G as [G0 G]. split; [exact G0|].
        destruct G as [(w2 & G1 & G2)|(F & G2)].
        + left. exists w2. split; auto. now rewrite app_assoc.
        + right. rewrite !lenZ_app in *. split; [lia|exact G2].
      - change (negb (- ENOSPC =? 0)) with true. cbv iota.
        pose proof (REP w1 _ 0 ltac:(lia) S1) as G.
        destruct (ideal_loop ds' (length pre + 8) bs (Some b) 0) as [B r]. destruct G as [G0 _]. split; [exact G0|].
        right. rewrite lenZ_app. pose proof (lenZ_nonneg B). split; [lia|]. do 4 eexists. split; [reflexivity|exact H']. }
    rewrite EQL.
    destruct (same last b) eqn:SM.
    + (* equal to the previous block *)
      assert (U : u8 (rc + 1) = rc + 1) by (unfold u8; apply Z.mod_small; lia).
      rewrite U. change REPEAT_BITS_MAX with 63.
      destruct (Z.leb_spec (rc + 1) 63).
      * cbn [andb]. apply REP; auto. lia.
      * cbn [andb]. destruct (Z.eqb_spec (rc + 1) 0); [lia|]. cbn [negb].
        destruct (St_ignore cap m0 w E (rep_bits (rc + 1)) (add_repeat_template e w (rc + 1)) HS) as (ret & w' & -> & S').
        { intros. apply add_repeat_ok; auto. lia. }
        rewrite bind_done.
        pose proof (REP w' _ 0 ltac:(lia) S') as G.
        destruct (ideal_loop ds' (length pre + 8) bs (Some b) 0) as [B r]. destruct G as [G0 G]. split; [exact G0|].
        destruct G as [(w2 & G1 & G2)|(F & G2)].
        -- left. exists w2. split; auto. now rewrite app_assoc.
        -- right. rewrite !lenZ_app in *. split; [lia|exact G2].
    + cbn [andb]. unfold rep_bits_opt. destruct (Z.eqb_spec rc 0) as [->|NZ]; cbn [negb app].
      * pose proof (EMIT w E HS) as G.
        destruct (ideal_loop ds' (length pre + 8) bs (Some b) 0) as [B r]. exact G.
      * destruct (St_ignore cap m0 w E (rep_bits rc) (add_repeat_template e w rc) HS) as (ret & w' & -> & S').
        { intros. apply add_repeat_ok; auto. lia. }
        rewrite bind_done.
        pose proof (EMIT w' _ S') as G.
        destruct (ideal_loop ds' (length pre + 8) bs (Some b) 0) as [B r]. destruct G as [G0 G]. split; [exact G0|].
        destruct G as [(w2 & G1 & G2)|(F & G2)].
        -- left. exists w2. split; auto. now rewrite app_assoc.
        -- right. rewrite !lenZ_app in *. split; [lia|exact G2].
Qed.

(** * Padding and the final result *)
Definition mem_ok (cap : Z) (m0 m : list Z) : Prop :=
  length m = length m0 /\ is_bytes m /\ skipn (Z.to_nat cap) m = skipn (Z.to_nat cap) m0.
Lemma wr_mem_ok cap m0 w E : wr cap m0 w E -> mem_ok cap m0 (w_mem w).
Proof. intros []. repeat split; auto. Qed.
Lemma held_mem_ok cap m0 w : held cap m0 w -> mem_ok cap m0 (w_mem w).
Proof. intros [E H]. eapply wr_mem_ok; eauto. Qed.

Definition padded_size (E : list bool) : Z := 8 * ((lenZ E + 63) / 64).
Definition pad (E : list bool) : list bool := E ++ repeat false (Z.to_nat (8 * padded_size E - lenZ E)).
Lemma padded_ge E : lenZ E <= 8 * padded_size E < lenZ E + 64.
Proof. unfold padded_size. pose proof (Z.div_mod (lenZ E + 63) 64). pose proof (Z.mod_pos_bound (lenZ E + 63) 64). lia. Qed.

Lemma comp_finish_ok cap m0 w E : wr cap m0 w E ->
  (padded_size E <= cap /\ padded_size E <= UINT_MAX ->
     exists m, comp_finish cap w = Done (0, padded_size E, m) /\
       bytes_bits (firstn (Z.to_nat (padded_size E)) m) = pad E /\ mem_ok cap m0 m) /\
  (cap < padded_size E \/ UINT_MAX < padded_size E -> exists m, comp_finish cap w = Done (- ENOSPC, 0, m) /\ mem_ok cap m0 m).
Proof.
  intros Hw. unfold comp_finish.
  pose proof (wr_bitlen _ _ _ _ Hw) as BL. pose proof (wr_bit _ _ _ _ Hw) as Hb. pose proof (wr_pos _ _ _ _ Hw) as Hp.
  pose proof (wr_olen _ _ _ _ Hw) as OL. pose proof (wr_fit _ _ _ _ Hw) as FT. pose proof (wr_cap _ _ _ _ Hw) as CP.
  pose proof (wr_bits _ _ _ _ Hw) as WB. pose proof (wr_len _ _ _ _ Hw) as WL.
  set (w1 := if negb (w_bit w =? 0) then mkWriter (w_mem w) (w_pos w + 1) (w_olen w - 1) 0 else w).
  assert (M1 : w_mem w1 = w_mem w) by (unfold w1; destruct (w_bit w =? 0); reflexivity).
  assert (P1 : 8 * w_pos w1 = lenZ E + (8 - w_bit w) mod 8).
  { unfold w1. destruct (Z.eqb_spec (w_bit w) 0) as [H0|H0]; cbn [negb w_pos].
    - rewrite H0 in *. change ((8 - 0) mod 8) with 0. lia.
    - rewrite Z.mod_small by lia. lia. }
  assert (O1 : w_olen w1 = cap - w_pos w1).
  { unfold w1. destruct (Z.eqb_spec (w_bit w) 0) as [H0|H0]; cbn [negb w_pos w_olen]; lia. }
  assert (MB : 0 <= (8 - w_bit w) mod 8 < 8) by (apply Z.mod_pos_bound; lia).
  assert (C1 : w_pos w1 <= cap) by lia.
  assert (B1 : bytes_bits (firstn (Z.to_nat (w_pos w1)) (w_mem w)) = E ++ repeat false (Z.to_nat ((8 - w_bit w) mod 8))).
  { rewrite bytes_bits_firstn, <- WB. f_equal. unfold lenZ in *. lia. }
  clearbody w1. rewrite M1, O1. replace (cap - (cap - w_pos w1)) with (w_pos w1) by lia.
  set (pd := (8 - w_pos w1 mod 8) mod 8).
  pose proof (Z.div_mod (w_pos w1) 8 ltac:(lia)) as DM. pose proof (Z.mod_pos_bound (w_pos w1) 8 ltac:(lia)) as MB8.
  assert (PD : w_pos w1 + pd = padded_size E /\ 0 <= pd < 8).
  { unfold padded_size, pd.
    pose proof (Z.div_mod (lenZ E + 63) 64 ltac:(lia)). pose proof (Z.mod_pos_bound (lenZ E + 63) 64 ltac:(lia)).
    destruct (Z.eq_dec (w_pos w1 mod 8) 0) as [Z0|Z0].
    - rewrite Z0. change ((8 - 0) mod 8) with 0. lia.
    - rewrite Z.mod_small by lia. lia. }
  destruct PD as [PD PB]. clearbody pd.
  assert (MO : mem_ok cap m0 (w_mem w)) by (eapply wr_mem_ok; eauto).
  assert (TOP : forall m, mem_ok cap m0 m -> bytes_bits (firstn (Z.to_nat (padded_size E)) m) = pad E -> padded_size E <= cap ->
    (padded_size E <= cap /\ padded_size E <= UINT_MAX ->
       exists m', (if padded_size E >? UINT_MAX then Done (- ENOSPC, 0, m) else Done (0, padded_size E, m)) = Done (0, padded_size E, m') /\
       bytes_bits (firstn (Z.to_nat (padded_size E)) m') = pad E /\ mem_ok cap m0 m') /\
    (cap < padded_size E \/ UINT_MAX < padded_size E ->
       exists m', (if padded_size E >? UINT_MAX then Done (- ENOSPC, 0, m) else Done (0, padded_size E, m)) = Done (- ENOSPC, 0, m') /\ mem_ok cap m0 m')).
  { intros m Hm HB HC. rewrite Z.gtb_ltb. destruct (Z.ltb_spec UINT_MAX (padded_size E)); split; intros; try lia; eauto. }
  destruct (Z.eqb_spec pd 0) as [Z0|NZ]; cbn [negb].
  - rewrite bind_done. rewrite ?O1. replace (cap - (cap - w_pos w1)) with (padded_size E) by lia. rewrite ?M1.
    apply TOP; auto; [|lia]. replace (padded_size E) with (w_pos w1) by lia. rewrite B1. unfold pad. do 3 f_equal. lia.
  - rewrite Z.gtb_ltb. destruct (Z.ltb_spec (cap - w_pos w1) pd) as [LT|GE].
    + rewrite bind_done. rewrite ?M1. split; intros; [lia|eauto].
    + rewrite store_bytes_ok.
      2: lia. 2: { unfold lenZ in *. rewrite repeat_length. lia. }
      rewrite !bind_done. cbn [w_olen w_mem]. replace (cap - (cap - w_pos w1 - pd)) with (padded_size E) by lia.
      assert (LM : (Z.to_nat (w_pos w1) + length (repeat 0%Z (Z.to_nat pd)) <= length (w_mem w))%nat).
      { rewrite repeat_length. unfold lenZ in *. lia. }
      apply TOP; [| |lia].
      * destruct MO as (A1 & A2 & A3). split; [rewrite splice_length by exact LM; exact A1|]. split.
        { apply splice_is_bytes; auto. apply is_bytes_repeat. unfold is_byte; lia. }
        rewrite splice_skipn; auto. rewrite repeat_length. lia.
      * replace (Z.to_nat (padded_size E)) with (Z.to_nat (w_pos w1) + length (repeat 0%Z (Z.to_nat pd)))%nat
          by (rewrite repeat_length; lia).
        rewrite splice_written by auto. rewrite bytes_bits_app, B1, bytes_bits_zeros. unfold pad.
        rewrite <- app_assoc. f_equal. rewrite <- repeat_app. f_equal. lia.
Qed.

(** * The whole function *)
Definition comp_result (cap : Z) (m0 : list Z) (E : list bool) (r : outcome (Z * Z * list Z)) : Prop :=
  (padded_size E <= cap /\ padded_size E <= UINT_MAX ->
     exists m, r = Done (0, padded_size E, m) /\
       bytes_bits (firstn (Z.to_nat (padded_size E)) m) = pad E /\ mem_ok cap m0 m) /\
  (cap < padded_size E \/ UINT_MAX < padded_size E ->
     exists m, r = Done (- ENOSPC, 0, m) /\ mem_ok cap m0 m).

Lemma comp_tail_ok cap m0 addr inp w pos E : is_bytes inp -> (pos <= length inp)%nat -> (length inp - pos < 8)%nat ->
  St cap m0 w E ->
  comp_result cap m0 (E ++ short_bits (skipn pos inp) ++ bits_of 5 0x1e ++ bits_of 32 (crc32 inp))
    (comp_tail e addr inp cap w (Z.of_nat pos) (lenZ inp - Z.of_nat pos)).
Proof.
  intros Hinp Hp Hr HS. unfold comp_tail.
  set (k := (length inp - pos)%nat). assert (Hk : lenZ inp - Z.of_nat pos = Z.of_nat k) by (unfold lenZ; lia).
  rewrite Hk.
  assert (FAIL : forall (B : list bool) w', 8 * cap < lenZ E + lenZ B ->
     (exists X, short_bits (skipn pos inp) ++ bits_of 5 0x1e ++ bits_of 32 (crc32 inp) = B ++ X) -> held cap m0 w' ->
     comp_result cap m0 (E ++ short_bits (skipn pos inp) ++ bits_of 5 0x1e ++ bits_of 32 (crc32 inp)) (Done (- ENOSPC, 0, w_mem w'))).
  { intros B w' F [X ->] Hh. pose proof (padded_ge (E ++ B ++ X)) as PG. rewrite !lenZ_app in PG. pose proof (lenZ_nonneg X).
    split; intros; [lia|]. eexists. split; [reflexivity|]. now apply held_mem_ok. }
  assert (SH : exists r1, (if Z.of_nat k >? 0 then add_short_data_template e w inp (Z.of_nat pos) (u8 (Z.of_nat k)) else Done (0, w)) = r1 /\
    forall E', wr cap m0 w E' -> emits 64 cap m0 E' (short_bits (skipn pos inp)) r1).
  { eexists. split; [reflexivity|]. intros E' W. unfold short_bits. rewrite skipn_length. fold k.
    rewrite Z.gtb_ltb. destruct (Nat.eqb_spec k 0) as [K0|K0].
    - rewrite K0. cbn. now apply emits_nil.
    - destruct (Z.ltb_spec 0 (Z.of_nat k)); [|lia].
      assert (u8 (Z.of_nat k) = Z.of_nat k) as -> by (unfold u8; apply Z.mod_small; lia).
      replace (skipn pos inp) with (slice pos k inp) by (unfold slice; apply firstn_all2; rewrite skipn_length; lia).
      apply add_short_ok; auto; lia. }
  destruct SH as (r1 & -> & SH).
  destruct (St_emit 64 cap m0 w E _ _ HS SH) as [(w1 & -> & S1)|(F & w1 & -> & H1)]; rewrite bind_done.
  2: { change (negb (- ENOSPC =? 0)) with true. cbv iota. apply (FAIL (short_bits (skipn pos inp))); auto. eauto. }
  change (negb (0 =? 0)) with false. cbv iota.
  destruct (St_emit 64 cap m0 w1 _ _ _ S1 (fun E' W => add_end_ok cap m0 w1 E' W)) as [(w2 & -> & S2)|(F & w2 & -> & H2)]; rewrite bind_done.
  2: { change (negb (- ENOSPC =? 0)) with true. cbv iota. apply (FAIL (short_bits (skipn pos inp) ++ bits_of 5 0x1e)); auto.
       - rewrite !lenZ_app in *. lia.
       - eexists. rewrite <- app_assoc. reflexivity. }
  change (negb (0 =? 0)) with false. cbv iota.
  rewrite crc32_be_spec by (auto; unfold lenZ; lia). rewrite bind_done.
  rewrite firstn_all2 by (unfold lenZ; lia).
  destruct (St_strict 64 cap m0 w2 _ (bits_of 32 (crc32 inp)) (add_bits e w2 (crc32 inp) CRC_BITS) S2) as [(w3 & -> & W3)|(F & w3 & -> & H3)]; [| |rewrite bind_done..].
  { rewrite lenZ_bits_of. lia. }
  { intros E' W. change 32%nat with (Z.to_nat CRC_BITS). apply add_bits_emits; auto; unfold CRC_BITS; try lia. apply crc32_R. }
  2: { change (negb (- ENOSPC =? 0)) with true. cbv iota. apply (FAIL (short_bits (skipn pos inp) ++ bits_of 5 0x1e ++ bits_of 32 (crc32 inp))); auto.
       - rewrite !lenZ_app in *. lia.
       - exists []. now rewrite app_nil_r. }
  change (negb (0 =? 0)) with false. cbv iota. rewrite <- !app_assoc in W3.
  exact (comp_finish_ok _ _ _ _ W3).
Qed.

Lemma concat_blocks (x : list Z) n : forall s, (8 * (s + n) <= length x)%nat ->
  concat (map (fun k => slice (8 * k) 8 x) (seq s n)) = slice (8 * s) (8 * n) x.
Proof.
  induction n; intros s Hn; cbn [seq map concat].
  - reflexivity.
  - rewrite IHn by lia. replace (8 * S n)%nat with (8 + 8 * n)%nat by lia. rewrite slice_plus. do 2 f_equal. lia.
Qed.
Lemma blocks_tail x : x = concat (blocks_of x) ++ tail_of x.
Proof.
  unfold blocks_of, tail_of. pose proof (Nat.div_mod (length x) 8 ltac:(lia)).
  rewrite concat_blocks by lia. unfold slice. cbn [Nat.mul skipn]. now rewrite firstn_skipn.
Qed.
Lemma blocks_len x : Forall (fun b => length b = 8%nat) (blocks_of x).
Proof.
  unfold blocks_of. apply Forall_forall. intros b Hb. apply in_map_iff in Hb. destruct Hb as (k & <- & Hk).
  apply in_seq in Hk. pose proof (Nat.div_mod (length x) 8 ltac:(lia)). apply slice_length. lia.
Qed.
Lemma blocks_count x : length (blocks_of x) = (length x / 8)%nat.
Proof. unfold blocks_of. now rewrite map_length, seq_length. Qed.
Lemma tail_len x : (length (tail_of x) = length x mod 8)%nat.
Proof. unfold tail_of. rewrite skipn_length. pose proof (Nat.div_mod (length x) 8 ltac:(lia)). lia. Qed.

Theorem sw842_compress_ideal addr inp out olen :
  is_bytes inp -> is_bytes out -> 0 <= olen <= lenZ out ->
  comp_result olen out (ideal_bits inp) (sw842_compress e addr inp out olen).
Proof.
  intros Hinp Hout Hcap. unfold sw842_compress, ideal_bits.
  pose proof (wr_init olen out Hout Hcap) as W0.
  pose proof (blocks_tail inp) as BT. pose proof (blocks_len inp) as BLn. pose proof (blocks_count inp) as BC.
  pose proof (tail_len inp) as TL. pose proof (Nat.div_mod (length inp) 8 ltac:(lia)) as DM.
  pose proof (Nat.mod_upper_bound (length inp) 8 ltac:(lia)) as MU.
  destruct (Z.ltb_spec (lenZ inp) 8) as [LT|GE].
  - assert (L0 : (length inp / 8 = 0)%nat) by (apply Nat.div_small; unfold lenZ in LT; lia).
    unfold blocks_of, tail_of. rewrite L0. cbn [seq map ideal_loop app]. change (8 * 0)%nat with 0%nat.
    unfold rep_bits_opt. change (0 =? 0) with true. cbn [app].
    pose proof (comp_tail_ok olen out addr inp (mkWriter out 0 olen 0) 0 [] Hinp ltac:(lia) ltac:(unfold lenZ in LT; lia) (or_introl W0)) as T.
    change (Z.of_nat 0) with 0 in T. rewrite Z.sub_0_r in T. exact T.
  - rewrite load64_ok by lia. rewrite bind_done. change (Z.to_nat 0) with 0%nat.
    set (b0 := slice 0 8 inp).
    assert (B0 : is_bytes b0) by now apply is_bytes_slice.
    assert (LR : last_rel None (u64 (Z.lnot (native_val e b0))) (blocks_of inp)).
    { unfold last_rel. unfold blocks_of. destruct (length inp / 8)%nat as [|q] eqn:Q. { cbn. auto. }
      cbn [seq map]. change (8 * 0)%nat with 0%nat. fold b0.
      assert (R : 0 <= native_val e b0 < 2 ^ 64).
      { pose proof (be_val_bound b0 B0) as X. pose proof (be_val_bound (rev b0) (is_bytes_rev _ B0)) as Y.
        unfold lenZ in *. rewrite rev_length in Y. unfold b0 in X at 3, Y at 3. rewrite slice_length in X, Y by lia.
        unfold native_val. destruct e; assumption. }
      unfold u64.
      assert (Z.lnot (native_val e b0) = - native_val e b0 - 1) as -> by (unfold Z.lnot; lia).
      replace (- native_val e b0 - 1) with ((2 ^ 64 - 1 - native_val e b0) + (-1) * 2 ^ 64) by lia.
      rewrite Z.mod_add by lia. rewrite Z.mod_small by lia. intros X.
      assert (2 * native_val e b0 = 2 ^ 64 - 1) by lia. lia. }
    pose proof (comp_loop_ok olen out inp Hinp (blocks_of inp) [] (tail_of inp) init_dicts (mkWriter out 0 olen 0) [] None _ 0
      BT BLn ltac:(lia) (ex_intro _ 0%nat eq_refl) dicts_ok_init LR ltac:(lia) (or_introl W0)) as L.
    change (length (@nil Z)) with 0%nat in L. change (lenZ (@nil Z)) with 0 in L. rewrite <- BT in L. rewrite BC in L.
    replace (length inp / 8)%nat with (Z.to_nat (lenZ inp / 8)) in L
      by (unfold lenZ; rewrite <- (Nat2Z.id (length inp / 8)), Nat2Z.inj_div; reflexivity).
    destruct (ideal_loop init_dicts 0 (blocks_of inp) None 0) as [B r]. destruct L as [R L].
    destruct L as [(w1 & -> & S1)|(F & w1 & p & i & k & -> & H1)]; rewrite bind_done.
    + cbn [app] in S1.
      assert (TP : lenZ inp - lenZ (tail_of inp) = Z.of_nat (8 * (length inp / 8))) by (unfold lenZ; lia).
      assert (RT : forall w2, St olen out w2 (B ++ rep_bits_opt r) ->
        comp_result olen out (B ++ rep_bits_opt r ++ short_bits (tail_of inp) ++ bits_of 5 0x1e ++ bits_of 32 (crc32 inp))
         (comp_tail e addr inp olen w2 (lenZ inp - lenZ (tail_of inp)) (lenZ (tail_of inp)))).
      { intros w2 S2. rewrite app_assoc.
        pose proof (comp_tail_ok olen out addr inp w2 (8 * (length inp / 8)) _ Hinp ltac:(lia) ltac:(lia) S2) as T.
        rewrite <- TP in T. replace (lenZ inp - (lenZ inp - lenZ (tail_of inp))) with (lenZ (tail_of inp)) in T by lia.
        exact T. }
      unfold rep_bits_opt in *. destruct (Z.eqb_spec r 0) as [R0|R0]; cbn [negb].
      * rewrite bind_done. change (negb (0 =? 0)) with false. cbv iota. apply RT. now rewrite app_nil_r.
      * destruct (St_emit 6 olen out w1 B (rep_bits r) (add_repeat_template e w1 r) S1) as [(w2 & -> & S2)|(F & w2 & -> & H2)].
        { intros. apply add_repeat_ok; auto. lia. }
        -- rewrite bind_done. change (negb (0 =? 0)) with false. cbv iota. now apply RT.
        -- rewrite bind_done. change (negb (- ENOSPC =? 0)) with true. cbv iota.
           match goal with |- comp_result _ _ ?X _ => pose proof (padded_ge X) as PG end.
           rewrite !lenZ_app in PG. pose proof (lenZ_nonneg (short_bits (tail_of inp))). rewrite !lenZ_bits_of in PG.
           split; intros; [lia|]. eexists. split; [reflexivity|]. now apply held_mem_ok.
    + match goal with |- comp_result _ _ ?X _ => pose proof (padded_ge X) as PG end.
      rewrite !lenZ_app in PG. rewrite lenZ_nil in F.
      pose proof (lenZ_nonneg (short_bits (tail_of inp))). pose proof (lenZ_nonneg (rep_bits_opt r)). rewrite !lenZ_bits_of in PG.
      split; intros; [lia|]. eexists. split; [reflexivity|]. now apply held_mem_ok.
Qed.
End Comp.
