(** A capacity-free description of the bits the serial compressor emits, and the
    proof that sw842_compress emits exactly those bits. *)
From Coq Require Import ZArith List Bool Lia.
From Verif Require Import SpecBits SpecCrc Spec842 CBase BitsLemmas CrcModel CrcProofs
  SerialCompModel SerialWriter SerialDict.
Import ListNotations.
Open Scope Z_scope.

(** * The ideal encoder *)
Definition dict_of (ds : dicts) (n : nat) : dict :=
  match n with 8%nat => dict8 ds | 4%nat => dict4 ds | _ => dict2 ds end.
Definition lookup (ds : dicts) (blk : list Z) (b n : nat) : Z :=
  find_index (dict_of ds n) (be_val (slice b n blk)).
Definition act_len (a : action) : nat := match a with D n => n | I n => n end.
Definition act_bits (ds : dicts) (blk : list Z) (b : nat) (a : action) : list bool :=
  match a with
  | D n => bytes_bits (slice b n blk)
  | I n => bits_of (index_bits n) (lookup ds blk b n)
  end.
Fixpoint acts_bits (ds : dicts) (blk : list Z) (b : nat) (acts : list action) : list bool :=
  match acts with
  | [] => []
  | a :: r => act_bits ds blk b a ++ acts_bits ds blk (b + act_len a) r
  end.
Definition act_ok (ds : dicts) (blk : list Z) (b : nat) (a : action) : bool :=
  match a with D _ => true | I n => lookup ds blk b n >=? 0 end.
Fixpoint acts_ok (ds : dicts) (blk : list Z) (b : nat) (acts : list action) : bool :=
  match acts with
  | [] => true
  | a :: r => act_ok ds blk b a && acts_ok ds blk (b + act_len a) r
  end.

Definition col_acts (t : Z) : list action :=
  if t =? D2 then [D 2] else if t =? D4 then [D 4] else if t =? D8 then [D 8]
  else if t =? I2 then [I 2] else if t =? I4 then [I 4] else if t =? I8 then [I 8] else [].
Definition row_cols (i : nat) : list Z := firstn 4 (nth i comp_ops []).
Definition row_acts (i : nat) : list action := flat_map col_acts (row_cols i).
Definition row_op (i : nat) : Z := nth 4 (nth i comp_ops []) 0.

Fixpoint choose (k i : nat) (ds : dicts) (blk : list Z) : nat :=
  match k with
  | O => i
  | S k' => if acts_ok ds blk 0 (row_acts i) then i else choose k' (S i) ds blk
  end.
Definition tmpl_bits (ds : dicts) (blk : list Z) : list bool :=
  let i := choose 25 0 ds blk in bits_of 5 (row_op i) ++ acts_bits ds blk 0 (row_acts i).
Definition blk_bits (ds : dicts) (blk : list Z) : list bool :=
  if be_val blk =? 0 then bits_of 5 0x1c else tmpl_bits ds blk.
Definition rep_bits (rc : Z) : list bool := bits_of 5 0x1b ++ bits_of 6 (rc - 1).
Definition rep_bits_opt (rc : Z) : list bool := if rc =? 0 then [] else rep_bits rc.
Definition same (last : option (list Z)) (b : list Z) : bool :=
  match last with Some l => be_val b =? be_val l | None => false end.

Definition next_dicts (ds : dicts) (b : list Z) (pos : nat) : dicts :=
  match update_hashtables ds (block_data b) (Z.of_nat pos) with Done d => d | _ => ds end.

Fixpoint ideal_loop (ds : dicts) (pos : nat) (blocks : list (list Z)) (last : option (list Z)) (rc : Z)
  : list bool * Z :=
  match blocks with
  | [] => ([], rc)
  | b :: bs =>
    let ds' := next_dicts ds b pos in
    if same last b then
      if rc + 1 <=? 63 then ideal_loop ds' (pos + 8) bs (Some b) (rc + 1)
      else let '(B, r) := ideal_loop ds' (pos + 8) bs (Some b) 0 in (rep_bits (rc + 1) ++ B, r)
    else
      let '(B, r) := ideal_loop ds' (pos + 8) bs (Some b) 0 in
      (rep_bits_opt rc ++ blk_bits ds b ++ B, r)
  end.

Definition blocks_of (x : list Z) : list (list Z) :=
  map (fun k => slice (8 * k) 8 x) (seq 0 (length x / 8)).
Definition tail_of (x : list Z) : list Z := skipn (8 * (length x / 8)) x.
Definition short_bits (t : list Z) : list bool :=
  if (length t =? 0)%nat then [] else bits_of 5 0x1d ++ bits_of 3 (Z.of_nat (length t)) ++ bytes_bits t.

Definition ideal_bits (x : list Z) : list bool :=
  let '(B, r) := ideal_loop init_dicts 0 (blocks_of x) None 0 in
  B ++ rep_bits_opt r ++ short_bits (tail_of x) ++ bits_of 5 0x1e ++ bits_of 32 (crc32 x).

(** * Sequencing of emissions *)
Definition emits (M cap : Z) (m0 : list Z) (E B : list bool) (r : outcome (Z * writer)) : Prop :=
  (lenZ E + lenZ B <= 8 * cap /\ exists w', r = Done (0, w') /\ wr cap m0 w' (E ++ B)) \/
  (8 * cap < lenZ E + lenZ B /\ exists w' E', r = Done (- ENOSPC, w') /\ wr cap m0 w' E' /\
     lenZ E <= lenZ E' /\ 8 * cap < lenZ E' + M).

Lemma lenZ_bits_of n d : lenZ (bits_of n d) = Z.of_nat n.
Proof. unfold lenZ. now rewrite bits_of_length. Qed.

Lemma add_bits_emits e M cap m0 w E d n : wr cap m0 w E -> 1 <= n <= 64 -> n <= M -> 0 <= d < 2 ^ n ->
  emits M cap m0 E (bits_of (Z.to_nat n) d) (add_bits e w d n).
Proof.
  intros Hw Hn HM Hd. destruct (add_bits_ok e cap m0 w E d n Hw Hn Hd) as [(F & w' & -> & W)|(F & w' & E' & -> & W & L & Rm)].
  - left. rewrite lenZ_bits_of. split; [lia|]. eauto.
  - right. rewrite lenZ_bits_of. split; [lia|]. exists w', E'. split; [reflexivity|]. split; [exact W|lia].
Qed.

Lemma emits_seq M cap m0 E B1 B2 r1 (k : writer -> outcome (Z * writer)) :
  emits M cap m0 E B1 r1 ->
  (forall w', wr cap m0 w' (E ++ B1) -> emits M cap m0 (E ++ B1) B2 (k w')) ->
  emits M cap m0 E (B1 ++ B2)
    ('(ret, w1) <- r1 ;; if negb (ret =? 0) then Done (ret, w1) else k w1).
Proof.
  intros [(F & w' & -> & W)|(F & w' & E' & -> & W & L & Rm)] Hk; rewrite bind_done.
  - change (negb (0 =? 0)) with false. cbv iota.
    destruct (Hk w' W) as [(F2 & w2 & -> & W2)|(F2 & w2 & E2 & -> & W2 & L2 & R2)].
    + left. rewrite !lenZ_app in *. split; [lia|]. exists w2. split; auto. now rewrite app_assoc.
    + right. rewrite !lenZ_app in *. split; [lia|]. exists w2, E2. pose proof (lenZ_nonneg B1). split; [reflexivity|]. split; [exact W2|lia].
  - change (negb (- ENOSPC =? 0)) with true. cbv iota.
    right. rewrite !lenZ_app. pose proof (lenZ_nonneg B2). split; [lia|]. exists w', E'. auto.
Qed.

Lemma emits_nil M cap m0 w E : wr cap m0 w E -> emits M cap m0 E [] (Done (0, w)).
Proof.
  intros Hw. left. rewrite lenZ_nil. pose proof (wr_fit _ _ _ _ Hw). split; [lia|].
  exists w. split; auto. now rewrite app_nil_r.
Qed.
Lemma emits_ret_id M cap m0 E B r : emits M cap m0 E B r ->
  emits M cap m0 E B ('(ret, w1) <- r ;; if negb (ret =? 0) then Done (ret, w1) else Done (0, w1)).
Proof.
  intros H. rewrite <- (app_nil_r B). apply emits_seq; auto. intros. now apply emits_nil.
Qed.

(** * Templates *)
Section Tmpl.
Variables (e : endian) (inp : list Z) (pos : nat) (blk : list Z).
Hypothesis Hinp : is_bytes inp.
Hypothesis Hpos : (pos + 8 <= length inp)%nat.
Hypothesis Hblk : blk = slice pos 8 inp.

Lemma blk_bytes : is_bytes blk.
Proof. subst blk. now apply is_bytes_slice. Qed.
Lemma blk_len : length blk = 8%nat.
Proof. subst blk. apply slice_length. lia. Qed.
Lemma slice_slice {A} p n q m (l : list A) : (q + m <= n)%nat -> slice q m (slice p n l) = slice (p + q) m l.
Proof.
  intros. unfold slice. rewrite skipn_firstn_comm, firstn_firstn_le by lia. now rewrite skipn_add.
Qed.
Lemma blk_slice q m : (q + m <= 8)%nat -> slice q m blk = slice (pos + q) m inp.
Proof. intros. subst blk. now apply slice_slice. Qed.

Lemma get64_ok : get_input64 e inp (Z.of_nat pos) = Done (be_val blk).
Proof.
  unfold get_input64. rewrite load64_ok by (unfold lenZ; lia). rewrite bind_done, Nat2Z.id, <- Hblk.
  f_equal. apply swap_native64; auto using blk_bytes, blk_len.
Qed.
Lemma get32_ok q : (q + 4 <= 8)%nat -> get_input32 e inp (Z.of_nat pos + Z.of_nat q) = Done (be_val (slice q 4 blk)).
Proof.
  intros. unfold get_input32. rewrite load32_ok by (unfold lenZ; lia). rewrite bind_done.
  replace (Z.to_nat (Z.of_nat pos + Z.of_nat q)) with (pos + q)%nat by lia.
  rewrite <- blk_slice by lia. f_equal. apply swap_native32. apply slice_length. rewrite blk_len. lia.
  apply is_bytes_slice, blk_bytes.
Qed.
Lemma get16_ok q : (q + 2 <= 8)%nat -> get_input16 e inp (Z.of_nat pos + Z.of_nat q) = Done (be_val (slice q 2 blk)).
Proof.
  intros. unfold get_input16. rewrite load16_ok by (unfold lenZ; lia). rewrite bind_done.
  replace (Z.to_nat (Z.of_nat pos + Z.of_nat q)) with (pos + q)%nat by lia.
  rewrite <- blk_slice by lia. f_equal. apply swap_native16. apply slice_length. rewrite blk_len. lia.
  apply is_bytes_slice, blk_bytes.
Qed.
Lemma get_next_data_ok : get_next_data e inp (Z.of_nat pos) = Done (block_data blk).
Proof.
  unfold get_next_data. rewrite get64_ok, bind_done.
  pose proof (get32_ok 0) as G0. pose proof (get32_ok 4) as G4. pose proof (get16_ok 0) as H0.
  pose proof (get16_ok 2) as H2. pose proof (get16_ok 4) as H4. pose proof (get16_ok 6) as H6.
  change (Z.of_nat 0) with 0 in *. change (Z.of_nat 2) with 2 in *. change (Z.of_nat 4) with 4 in *. change (Z.of_nat 6) with 6 in *.
  rewrite Z.add_0_r in *.
  rewrite G0, bind_done, G4, bind_done, H0, bind_done, H2, bind_done, H4, bind_done, H6, bind_done by lia.
  reflexivity.
Qed.

(** Columns that make sense at byte offset [b] of a block. *)
Definition wf_col (t b : Z) : bool :=
  (t =? I8) && (b =? 0) || (t =? D8) && (b =? 0)
  || (t =? I4) && (b =? 0) || (t =? I4) && (b =? 4)
  || (t =? D4) && (b =? 0) || (t =? D4) && (b =? 2) || (t =? D4) && (b =? 4)
  || (t =? I2) && (b =? 0) || (t =? I2) && (b =? 2) || (t =? I2) && (b =? 4) || (t =? I2) && (b =? 6)
  || (t =? D2) && (b =? 0) || (t =? D2) && (b =? 2) || (t =? D2) && (b =? 4) || (t =? D2) && (b =? 6)
  || (t =? N0) && (b =? 8).
Fixpoint wf_row (ts : list Z) (b : Z) : bool :=
  match ts with
  | [] => b =? 8
  | t :: r => wf_col t b && wf_row r (b + Z.land t OP_AMOUNT)
  end.
Lemma wf_rows i : (i < 26)%nat -> wf_row (row_cols i) 0 = true.
Proof using. clear -i.
  intros H. assert (A : forallb (fun i => wf_row (row_cols i) 0) (seq 0 26) = true) by (vm_compute; reflexivity).
  rewrite forallb_forall in A. apply A. apply in_seq. lia.
Qed.
Lemma wf_col_cases t b : wf_col t b = true ->
  (t, b) = (I8, 0) \/ (t, b) = (D8, 0) \/ (t, b) = (I4, 0) \/ (t, b) = (I4, 4) \/
  (t, b) = (D4, 0) \/ (t, b) = (D4, 2) \/ (t, b) = (D4, 4) \/
  (t, b) = (I2, 0) \/ (t, b) = (I2, 2) \/ (t, b) = (I2, 4) \/ (t, b) = (I2, 6) \/
  (t, b) = (D2, 0) \/ (t, b) = (D2, 2) \/ (t, b) = (D2, 4) \/ (t, b) = (D2, 6) \/ (t, b) = (N0, 8).
Proof.
  unfold wf_col. rewrite !orb_true_iff, !andb_true_iff, !Z.eqb_eq.
  intros H. repeat destruct H as [H|H]; destruct H as [-> ->]; auto 20.
Qed.

(** Index arrays: every entry is either not yet looked up or the lookup result. *)
Variables (pre : list Z) (ds : dicts).
Hypothesis Hds : dicts_ok pre ds.

Definition ent (a : Z) (b n : nat) : Prop := a = INDEX_NOT_CHECKED \/ a = lookup ds blk b n.
Definition ix_ok (ix : idx) : Prop :=
  exists a8 a40 a44 a20 a22 a24 a26,
    ix = mkIdx [a8] [a40; a44] [a20; a22; a24; a26] /\
    ent a8 0 8 /\ ent a40 0 4 /\ ent a44 4 4 /\ ent a20 0 2 /\ ent a22 2 2 /\ ent a24 4 2 /\ ent a26 6 2.
(** The entry used by an index action at offset [b]. *)
Definition entry (ix : idx) (b n : nat) : Z :=
  match n with
  | 8%nat => nth 0 (index8 ix) 0
  | 4%nat => nth (b / 4) (index4 ix) 0
  | _ => nth (b / 2) (index2 ix) 0
  end.
Definition done_at (ix : idx) (b : nat) (a : action) : Prop :=
  match a with D _ => True | I n => entry ix b n = lookup ds blk b n end.
Fixpoint done_all (ix : idx) (b : nat) (acts : list action) : Prop :=
  match acts with [] => True | a :: r => done_at ix b a /\ done_all ix (b + act_len a) r end.
Definition slots : list (nat * nat) := [(0, 8); (0, 4); (4, 4); (0, 2); (2, 2); (4, 2); (6, 2)]%nat.
(** [ix'] keeps every looked-up entry of [ix]. *)
Definition keeps (ix ix' : idx) : Prop :=
  forall b n, In (b, n) slots -> entry ix b n = lookup ds blk b n -> entry ix' b n = lookup ds blk b n.

Lemma lookup_range b n : (n = 8 \/ n = 4 \/ n = 2)%nat ->
  -1 <= lookup ds blk b n < 2 ^ Z.of_nat (index_bits n).
Proof.
  intros Hn. unfold lookup. destruct Hds as [O8 O4 O2].
  destruct Hn as [-> |[-> | ->]]; cbn [dict_of index_bits].
  - destruct (find_index_spec 256 _ _ (be_val (slice b 8 blk)) ltac:(lia) O8) as [[H (k & L & _)]|[-> _]]; [|cbn; lia].
    apply latest_range in L; [|lia]. cbn in *. lia.
  - destruct (find_index_spec 512 _ _ (be_val (slice b 4 blk)) ltac:(lia) O4) as [[H (k & L & _)]|[-> _]]; [|cbn; lia].
    apply latest_range in L; [|lia]. cbn in *. lia.
  - destruct (find_index_spec 256 _ _ (be_val (slice b 2 blk)) ltac:(lia) O2) as [[H (k & L & _)]|[-> _]]; [|cbn; lia].
    apply latest_range in L; [|lia]. cbn in *. lia.
Qed.

Lemma check_ent t v a i k b n : (n = 8 \/ n = 4 \/ n = 2)%nat ->
  lookup ds blk b n = find_index t v -> nth k a 0 = i -> ent i b n -> (k < length a)%nat ->
  forall dv, nth k dv 0 = v -> (k < length dv)%nat ->
  check_index t dv a (Z.of_nat k)
  = Done (lookup ds blk b n >=? 0, firstn k a ++ lookup ds blk b n :: skipn (S k) a).
Proof.
  intros Hn E Hi He Hk dv Hd Hkd. unfold check_index.
  rewrite aget_ok by (unfold lenZ; lia). rewrite bind_done, Nat2Z.id, Hi.
  pose proof (lookup_range b n Hn) as LR.
  destruct He as [-> | ->].
  - rewrite Z.eqb_refl, aget_ok by (unfold lenZ; lia). rewrite bind_done, Nat2Z.id, Hd, <- E.
    rewrite aset_ok by (unfold lenZ; lia). rewrite bind_done, Nat2Z.id. reflexivity.
  - destruct (Z.eqb_spec (lookup ds blk b n) INDEX_NOT_CHECKED) as [EQ|_]; [unfold INDEX_NOT_CHECKED in EQ; lia|].
    f_equal. f_equal. rewrite <- Hi. clear -Hk. revert k Hk. induction a; intros k Hk. { cbn in Hk; lia. }
    destruct k; auto. cbn [nth firstn skipn app]. f_equal. apply IHa. cbn in Hk; lia.
Qed.

Lemma whole_blk : slice 0 8 blk = blk.
Proof. unfold slice. cbn [skipn]. apply firstn_all2. rewrite blk_len. lia. Qed.

Ltac KEEPS := intros b n S X; unfold slots in S; cbn [In] in S;
  repeat (destruct S as [S|S]; [injection S as <- <-; first [exact X|reflexivity]|]); destruct S.
Lemma check_ops_ok ts : forall b ix, ix_ok ix -> wf_row ts (Z.of_nat b) = true ->
  exists ix', check_ops ds (block_data blk) ix ts (Z.of_nat b)
     = Done (acts_ok ds blk b (flat_map col_acts ts), ix') /\ ix_ok ix' /\ keeps ix ix' /\
     (acts_ok ds blk b (flat_map col_acts ts) = true -> done_all ix' b (flat_map col_acts ts)).
Proof.
  induction ts as [|t ts IH]; intros b ix Hix Hwf.
  - exists ix. cbn. repeat split; auto. intros ? ? ? H; exact H.
  - cbn [wf_row] in Hwf. apply andb_true_iff in Hwf. destruct Hwf as [Hc Hr].
    (* data and padding columns *)
    assert (SKIP : forall k a, (Z.land t OP_ACTION_INDEX =? 0) = true -> col_acts t = a -> (a = [] \/ exists n, a = [D n]) ->
        fold_right (fun x s => act_len x + s)%nat 0%nat a = k -> Z.land t OP_AMOUNT = Z.of_nat k ->
      exists ix', check_ops ds (block_data blk) ix (t :: ts) (Z.of_nat b)
       = Done (acts_ok ds blk b (flat_map col_acts (t :: ts)), ix') /\ ix_ok ix' /\ keeps ix ix' /\
       (acts_ok ds blk b (flat_map col_acts (t :: ts)) = true -> done_all ix' b (flat_map col_acts (t :: ts)))).
    { intros k a Hi Ha Hsh Hk Ham. cbn [check_ops flat_map]. rewrite Hi, Ham. cbn [negb]. rewrite Ha.
      rewrite <- Nat2Z.inj_add in *. rewrite Ham, <- Nat2Z.inj_add in Hr.
      destruct (IH (b + k)%nat ix Hix Hr) as (ix' & -> & I1 & K1 & D1).
      exists ix'.
      destruct Hsh as [-> | [n ->]]; cbn [fold_right act_len app acts_ok act_ok andb done_all done_at] in *; subst k.
      - rewrite Nat.add_0_r in *. auto.
      - rewrite Nat.add_0_r in *. auto 10. }
    (* index columns *)
    assert (IDX : forall n k t' dv a (setix : list Z -> idx),
        (n = 8 \/ n = 4 \/ n = 2)%nat -> In (b, n) slots -> col_acts t = [I n] -> Z.land t OP_AMOUNT = Z.of_nat n ->
        dict_of ds n = t' -> nth k dv 0 = be_val (slice b n blk) -> (k < length dv)%nat ->
        ent (nth k a 0) b n -> (k < length a)%nat ->
        ix_ok (setix (firstn k a ++ lookup ds blk b n :: skipn (S k) a)) ->
        keeps ix (setix (firstn k a ++ lookup ds blk b n :: skipn (S k) a)) ->
        entry (setix (firstn k a ++ lookup ds blk b n :: skipn (S k) a)) b n = lookup ds blk b n ->
        check_ops ds (block_data blk) ix (t :: ts) (Z.of_nat b) =
          ('(m, ix') <- ('(m, a0) <- check_index t' dv a (Z.of_nat k) ;; Done (Some m, setix a0)) ;;
           match m with
           | Some true => check_ops ds (block_data blk) ix' ts (Z.of_nat b + Z.land t OP_AMOUNT)
           | _ => Done (false, ix')
           end) ->
      exists ix', check_ops ds (block_data blk) ix (t :: ts) (Z.of_nat b)
       = Done (acts_ok ds blk b (flat_map col_acts (t :: ts)), ix') /\ ix_ok ix' /\ keeps ix ix' /\
       (acts_ok ds blk b (flat_map col_acts (t :: ts)) = true -> done_all ix' b (flat_map col_acts (t :: ts)))).
    { intros n k t' dv a setix Hn Hsl Ha Ham Ht Hdv Hkd He Hka Hok Hkeep Hent ->.
      rewrite (check_ent t' (be_val (slice b n blk)) a (nth k a 0) k b n) by (auto; unfold lookup; congruence).
      rewrite !bind_done. cbn [flat_map]. rewrite Ha. cbn [app acts_ok act_ok act_len].
      set (ix1 := setix _) in *.
      destruct (lookup ds blk b n >=? 0) eqn:LK.
      - rewrite Ham, <- Nat2Z.inj_add in *.
        destruct (IH (b + n)%nat ix1 Hok Hr) as (ix' & -> & I1 & K1 & D1).
        exists ix'. split; [reflexivity|]. split; [auto|]. split. { intros b' n' S X. auto. }
        intros T. cbn [done_all done_at act_len]. split. { apply K1; auto. } auto.
      - exists ix1. split; [reflexivity|]. repeat split; auto. cbn [andb]. intros; discriminate. }
    destruct Hix as (a8 & a40 & a44 & a20 & a22 & a24 & a26 & Eix & Hix).
    destruct Hix as (T8 & T40 & T44 & T20 & T22 & T24 & T26).
    assert (IXS : ix_ok ix) by (exists a8, a40, a44, a20, a22, a24, a26; auto 10).
    pose proof (wf_col_cases _ _ Hc) as CC.
    assert (CB : forall t0 k, (t, Z.of_nat b) = (t0, Z.of_nat k) -> t = t0 /\ b = k).
    { intros t0 k X. injection X as -> X. split; auto. lia. }
    change 0 with (Z.of_nat 0) in CC. change 2 with (Z.of_nat 2) in CC. change 4 with (Z.of_nat 4) in CC.
    change 6 with (Z.of_nat 6) in CC. change 8 with (Z.of_nat 8) in CC.
    repeat destruct CC as [CC|CC]; apply CB in CC; destruct CC as [Et Eb].
    + (* I8 at 0 *) apply (IDX 8%nat 0%nat (dict8 ds) [data8 (block_data blk)] [a8] (fun a => mkIdx a (index4 ix) (index2 ix)));
        subst t b ix; auto; cbn [nth length data8 data4 data2 block_data firstn app skipn index8 index4 index2]; try lia;
        try (now unfold slots; cbn [In]; auto 10); try (now rewrite whole_blk); try KEEPS; try reflexivity.
      exists (lookup ds blk 0 8), a40, a44, a20, a22, a24, a26. unfold ent in *. auto 12.
    + apply (SKIP 8%nat [D 8]); subst t; eauto.
    + (* I4 at 0 *) apply (IDX 4%nat 0%nat (dict4 ds) (data4 (block_data blk)) [a40; a44] (fun a => mkIdx (index8 ix) a (index2 ix)));
        subst t b ix; auto; cbn [nth length data8 data4 data2 block_data firstn app skipn index8 index4 index2]; try lia;
        try (now unfold slots; cbn [In]; auto 10); try (now rewrite whole_blk); try KEEPS; try reflexivity.
      exists a8, (lookup ds blk 0 4), a44, a20, a22, a24, a26. unfold ent in *. auto 12.
    + (* I4 at 4 *) apply (IDX 4%nat 1%nat (dict4 ds) (data4 (block_data blk)) [a40; a44] (fun a => mkIdx (index8 ix) a (index2 ix)));
        subst t b ix; auto; cbn [nth length data8 data4 data2 block_data firstn app skipn index8 index4 index2]; try lia;
        try (now unfold slots; cbn [In]; auto 10); try (now rewrite whole_blk); try KEEPS; try reflexivity.
      exists a8, a40, (lookup ds blk 4 4), a20, a22, a24, a26. unfold ent in *. auto 12.
    + apply (SKIP 4%nat [D 4]); subst t; eauto.
    + apply (SKIP 4%nat [D 4]); subst t; eauto.
    + apply (SKIP 4%nat [D 4]); subst t; eauto.
    + (* I2 at 0 *) apply (IDX 2%nat 0%nat (dict2 ds) (data2 (block_data blk)) [a20; a22; a24; a26] (fun a => mkIdx (index8 ix) (index4 ix) a));
        subst t b ix; auto; cbn [nth length data8 data4 data2 block_data firstn app skipn index8 index4 index2]; try lia;
        try (now unfold slots; cbn [In]; auto 10); try (now rewrite whole_blk); try KEEPS; try reflexivity.
      exists a8, a40, a44, (lookup ds blk 0 2), a22, a24, a26. unfold ent in *. auto 12.
    + (* I2 at 2 *) apply (IDX 2%nat 1%nat (dict2 ds) (data2 (block_data blk)) [a20; a22; a24; a26] (fun a => mkIdx (index8 ix) (index4 ix) a));
        subst t b ix; auto; cbn [nth length data8 data4 data2 block_data firstn app skipn index8 index4 index2]; try lia;
        try (now unfold slots; cbn [In]; auto 10); try (now rewrite whole_blk); try KEEPS; try reflexivity.
      exists a8, a40, a44, a20, (lookup ds blk 2 2), a24, a26. unfold ent in *. auto 12.
    + (* I2 at 4 *) apply (IDX 2%nat 2%nat (dict2 ds) (data2 (block_data blk)) [a20; a22; a24; a26] (fun a => mkIdx (index8 ix) (index4 ix) a));
        subst t b ix; auto; cbn [nth length data8 data4 data2 block_data firstn app skipn index8 index4 index2]; try lia;
        try (now unfold slots; cbn [In]; auto 10); try (now rewrite whole_blk); try KEEPS; try reflexivity.
      exists a8, a40, a44, a20, a22, (lookup ds blk 4 2), a26. unfold ent in *. auto 12.
    + (* I2 at 6 *) apply (IDX 2%nat 3%nat (dict2 ds) (data2 (block_data blk)) [a20; a22; a24; a26] (fun a => mkIdx (index8 ix) (index4 ix) a));
        subst t b ix; auto; cbn [nth length data8 data4 data2 block_data firstn app skipn index8 index4 index2]; try lia;
        try (now unfold slots; cbn [In]; auto 10); try (now rewrite whole_blk); try KEEPS; try reflexivity.
      exists a8, a40, a44, a20, a22, a24, (lookup ds blk 6 2). unfold ent in *. auto 12.
    + apply (SKIP 2%nat [D 2]); subst t; eauto.
    + apply (SKIP 2%nat [D 2]); subst t; eauto.
    + apply (SKIP 2%nat [D 2]); subst t; eauto.
    + apply (SKIP 2%nat [D 2]); subst t; eauto.
    + apply (SKIP 0%nat []); subst t; eauto.
Qed.

Lemma choose_bound k : forall i, (choose k i ds blk <= i + k)%nat.
Proof using. clear Hinp Hpos Hblk Hds. induction k; intros i; cbn [choose]; [lia|]. destruct acts_ok; [lia|]. specialize (IHk (S i)). lia. Qed.

Lemma find_template_ok k : forall i ix, (i + k = 25)%nat -> ix_ok ix ->
  exists ix', find_template k ds (block_data blk) ix (Z.of_nat i) = Done (Z.of_nat (choose k i ds blk), ix') /\
    ix_ok ix' /\ acts_ok ds blk 0 (row_acts (choose k i ds blk)) = true /\ done_all ix' 0 (row_acts (choose k i ds blk)).
Proof.
  induction k; intros i ix Hi Hix; cbn [find_template choose].
  - replace i with 25%nat by lia. exists ix. split; [reflexivity|]. split; [exact Hix|]. split; [reflexivity|]. cbn. auto.
  - unfold check_template. unfold OPS_MAX.
    destruct (Z.of_nat i >=? 26) eqn:G; [apply Z.geb_le in G; lia|].
    rewrite Nat2Z.id. fold (row_cols i).
    destruct (check_ops_ok (row_cols i) 0 ix Hix (wf_rows i ltac:(lia))) as (ix' & Hc & I1 & K1 & D1).
    change (Z.of_nat 0) with 0 in Hc. rewrite Hc, bind_done. fold (row_acts i) in *.
    destruct (acts_ok ds blk 0 (row_acts i)) eqn:AO.
    + exists ix'. auto.
    + replace (Z.of_nat i + 1) with (Z.of_nat (S i)) by lia. apply IHk; auto. lia.
Qed.

(** ** Emitting the columns *)
Definition emits3 (M cap : Z) (m0 : list Z) (E B : list bool) (r : outcome (Z * writer * Z)) : Prop :=
  (lenZ E + lenZ B <= 8 * cap /\ exists w', r = Done (0, w', 8) /\ wr cap m0 w' (E ++ B)) \/
  (8 * cap < lenZ E + lenZ B /\ exists w' E' b', r = Done (- ENOSPC, w', b') /\ wr cap m0 w' E' /\
     lenZ E <= lenZ E' /\ 8 * cap < lenZ E' + M).

Lemma emits3_col M cap m0 E B1 B2 r1 b (k : writer -> outcome (Z * writer * Z)) :
  emits M cap m0 E B1 r1 ->
  (forall w', wr cap m0 w' (E ++ B1) -> emits3 M cap m0 (E ++ B1) B2 (k w')) ->
  emits3 M cap m0 E (B1 ++ B2)
    ('(inv, ret, w1) <- ('(ret, w1) <- r1 ;; Done (false, ret, w1)) ;;
     if negb (ret =? 0) then Done (ret, w1, b) else if inv : bool then Done (- EINVAL, w1, b) else k w1).
Proof.
  intros [(F & w' & -> & W)|(F & w' & E' & -> & W & L & Rm)] Hk; rewrite !bind_done.
  - change (negb (0 =? 0)) with false. cbv iota.
    destruct (Hk w' W) as [(F2 & w2 & -> & W2)|(F2 & w2 & E2 & b2 & -> & W2 & L2 & R2)].
    + left. rewrite !lenZ_app in *. split; [lia|]. exists w2. split; auto. now rewrite app_assoc.
    + right. rewrite !lenZ_app in *. split; [lia|]. exists w2, E2, b2. pose proof (lenZ_nonneg B1).
      split; [reflexivity|]. split; [exact W2|lia].
  - change (negb (- ENOSPC =? 0)) with true. cbv iota.
    right. rewrite !lenZ_app. pose proof (lenZ_nonneg B2). split; [lia|]. exists w', E', b. auto.
Qed.

Lemma be_val_slice_range q m : (q + m <= 8)%nat -> 0 <= be_val (slice q m blk) < 2 ^ (8 * Z.of_nat m).
Proof.
  intros. pose proof (be_val_bound (slice q m blk) (is_bytes_slice _ _ _ blk_bytes)) as R.
  unfold lenZ in R. rewrite slice_length in R by (rewrite blk_len; lia). exact R.
Qed.
Lemma bytes_bits_be q m : (q + m <= 8)%nat -> bytes_bits (slice q m blk) = bits_of (8 * m) (be_val (slice q m blk)).
Proof.
  intros. symmetry. rewrite <- (slice_length q m blk) at 1 by (rewrite blk_len; lia).
  apply bits_of_be_val. apply is_bytes_slice, blk_bytes.
Qed.

Lemma add_ops_ok ix cap m0 ts : forall b w E, wf_row ts (Z.of_nat b) = true ->
  done_all ix b (flat_map col_acts ts) -> acts_ok ds blk b (flat_map col_acts ts) = true -> ix_ok ix ->
  wr cap m0 w E ->
  emits3 64 cap m0 E (acts_bits ds blk b (flat_map col_acts ts))
    (add_ops e w inp (Z.of_nat pos) (block_data blk) ix ts (Z.of_nat b)).
Proof.
  induction ts as [|t ts IH]; intros b w E Hwf Hdone Hacts Hix Hw.
  - cbn in *. apply Z.eqb_eq in Hwf. left. rewrite lenZ_nil. pose proof (wr_fit _ _ _ _ Hw). split; [lia|].
    exists w. rewrite Hwf, app_nil_r. auto.
  - cbn [wf_row] in Hwf. apply andb_true_iff in Hwf. destruct Hwf as [Hc Hr].
    assert (COL : forall (a : action) v,
       col_acts t = [a] -> Z.land t OP_AMOUNT = Z.of_nat (act_len a) ->
       act_bits ds blk b a = bits_of (length (act_bits ds blk b a)) v ->
       (1 <= length (act_bits ds blk b a) <= 64)%nat ->
       0 <= v < 2 ^ Z.of_nat (length (act_bits ds blk b a)) ->
       add_ops e w inp (Z.of_nat pos) (block_data blk) ix (t :: ts) (Z.of_nat b) =
        ('(inv, ret, w1) <- ('(ret, w1) <- add_bits e w v (Z.of_nat (length (act_bits ds blk b a))) ;; Done (false, ret, w1)) ;;
         if negb (ret =? 0) then Done (ret, w1, Z.of_nat b) else if inv : bool then Done (- EINVAL, w1, Z.of_nat b)
         else add_ops e w1 inp (Z.of_nat pos) (block_data blk) ix ts (Z.of_nat b + Z.land t OP_AMOUNT)) ->
       emits3 64 cap m0 E (acts_bits ds blk b (flat_map col_acts (t :: ts)))
         (add_ops e w inp (Z.of_nat pos) (block_data blk) ix (t :: ts) (Z.of_nat b))).
    { intros a v Ha Ham Hbits Hlen Hv ->. cbn [flat_map] in *. rewrite Ha in *. cbn [app acts_bits].
      rewrite Ham, <- Nat2Z.inj_add in *. cbn [app done_all acts_ok] in Hdone, Hacts.
      destruct Hdone as [_ Hdone]. apply andb_true_iff in Hacts. destruct Hacts as [_ Hacts].
      apply emits3_col.
      - rewrite Hbits at 1. rewrite <- (Nat2Z.id (length (act_bits ds blk b a))) at 1.
        apply add_bits_emits; auto; lia.
      - intros w' W'. apply IH; auto. }
    assert (DAT : forall n, (n = 8 \/ n = 4 \/ n = 2)%nat -> (b + n <= 8)%nat ->
       let a := D n in
       act_bits ds blk b a = bits_of (length (act_bits ds blk b a)) (be_val (slice b n blk)) /\
       length (act_bits ds blk b a) = (8 * n)%nat /\ 0 <= be_val (slice b n blk) < 2 ^ Z.of_nat (8 * n)).
    { intros n Hn Hbn. cbn [act_bits]. rewrite bytes_bits_be by lia. rewrite bits_of_length.
      split; auto. split; auto. rewrite Nat2Z.inj_mul. apply be_val_slice_range; lia. }
    assert (IDX : forall n, (n = 8 \/ n = 4 \/ n = 2)%nat -> col_acts t = [I n] ->
       let a := I n in
       act_bits ds blk b a = bits_of (length (act_bits ds blk b a)) (lookup ds blk b n) /\
       length (act_bits ds blk b a) = index_bits n /\ 0 <= lookup ds blk b n < 2 ^ Z.of_nat (index_bits n) /\
       entry ix b n = lookup ds blk b n /\ u64 (lookup ds blk b n) = lookup ds blk b n).
    { intros n Hn Ha. cbn [act_bits]. rewrite bits_of_length. split; auto. split; auto.
      cbn [flat_map] in *. rewrite Ha in *. cbn [app acts_ok done_all act_ok done_at] in *.
      apply andb_true_iff in Hacts. destruct Hacts as [G _]. apply Z.geb_le in G.
      pose proof (lookup_range b n Hn). split; [lia|]. split; [tauto|].
      unfold u64. apply Z.mod_small. split; [lia|]. apply Z.lt_trans with (2 ^ Z.of_nat (index_bits n)); [lia|].
      destruct Hn as [-> | [-> | ->]]; reflexivity. }
    pose proof Hix as Hix'. destruct Hix as (a8 & a40 & a44 & a20 & a22 & a24 & a26 & Eix & _).
    pose proof (wf_col_cases _ _ Hc) as CC.
    assert (CB : forall t0 k, (t, Z.of_nat b) = (t0, Z.of_nat k) -> t = t0 /\ b = k).
    { intros t0 k X. injection X as -> X. split; auto. lia. }
    change 0 with (Z.of_nat 0) in CC. change 2 with (Z.of_nat 2) in CC. change 4 with (Z.of_nat 4) in CC.
    change 6 with (Z.of_nat 6) in CC. change 8 with (Z.of_nat 8) in CC.
    Ltac fin H1 H2 H3 := repeat match goal with |- context [length (act_bits ?a ?b ?c ?d)] => rewrite H2 end;
      first [exact H1 | exact H3 | cbn; lia | idtac].
    Ltac data_col DAT COL n := let D1 := fresh in let D2 := fresh in let D3 := fresh in
      destruct (DAT n ltac:(lia) ltac:(lia)) as (D1 & D2 & D3); subst;
      eapply COL with (a := D n); [reflexivity|reflexivity|exact D1|rewrite D2; lia|rewrite D2; exact D3|rewrite D2].
    Ltac idx_col IDX COL n := let D1 := fresh in let D2 := fresh in let D3 := fresh in let D4 := fresh in let D5 := fresh in
      subst; destruct (IDX n ltac:(lia) eq_refl) as (D1 & D2 & D3 & D4 & D5);
      eapply COL with (a := I n); [reflexivity|reflexivity|exact D1|rewrite D2; cbn; lia|rewrite D2; exact D3|rewrite D2];
      cbn [entry index8 index4 index2] in D4; rewrite <- D5, <- D4.
    repeat destruct CC as [CC|CC]; apply CB in CC; destruct CC as [Et Eb].
    + idx_col IDX COL 8%nat. reflexivity.
    + data_col DAT COL 8%nat. rewrite whole_blk. reflexivity.
    + idx_col IDX COL 4%nat. reflexivity.
    + idx_col IDX COL 4%nat. reflexivity.
    + data_col DAT COL 4%nat. reflexivity.
    + data_col DAT COL 4%nat. cbn [add_ops].
      change (Z.land D4 OP_AMOUNT =? OP_AMOUNT_8) with false. change (Z.land D4 OP_AMOUNT =? OP_AMOUNT_4) with true.
      change ((Z.of_nat 2 =? 2) && negb (Z.land D4 OP_ACTION_DATA =? 0)) with true. cbv iota.
      pose proof (get32_ok 2 ltac:(lia)) as G. change (Z.of_nat 2) with 2 in *. rewrite G, bind_done. reflexivity.
    + data_col DAT COL 4%nat. reflexivity.
    + idx_col IDX COL 2%nat. reflexivity.
    + idx_col IDX COL 2%nat. reflexivity.
    + idx_col IDX COL 2%nat. reflexivity.
    + idx_col IDX COL 2%nat. reflexivity.
    + data_col DAT COL 2%nat. reflexivity.
    + data_col DAT COL 2%nat. reflexivity.
    + data_col DAT COL 2%nat. reflexivity.
    + data_col DAT COL 2%nat. reflexivity.
    + subst t b. cbn [flat_map]. change (col_acts N0) with (@nil action) in *. cbn [app].
      change (add_ops e w inp (Z.of_nat pos) (block_data blk) ix (N0 :: ts) (Z.of_nat 8))
        with (add_ops e w inp (Z.of_nat pos) (block_data blk) ix ts (Z.of_nat 8)).
      apply IH; auto.
Qed.
End Tmpl.
