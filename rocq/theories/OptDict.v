(** The hash tables and rolling fifos of the optimized compressor against the
    input processed so far. *)
From Coq Require Import ZArith List Bool Lia.
From Verif Require Import SpecBits SpecCrc Spec842 CBase BitsLemmas CrcModel SerialCompModel SerialWriter SerialDict OptCompModel.
Import ListNotations.
Open Scope Z_scope.

Definition odata (b : list Z) : list Z :=
  [be_val (slice 0 2 b); be_val (slice 2 2 b); be_val (slice 4 2 b); be_val (slice 6 2 b);
   be_val (slice 0 4 b); be_val (slice 4 4 b); be_val b].

Record fifo_ok (N : nat) (h : list Z) (f : list (option Z)) : Prop := mkFifoOk {
  fo_len : length f = N;
  fo_nth : forall i k, latest N (length h) i k -> nth (Z.to_nat i) f None = Some (nth k h 0) }.
Definition entry_ok (N c : nat) (x : Z) : Prop := x = -1 \/ exists k, latest N c x k.
Definition table_ok (N c M : nat) (t : list Z) : Prop := length t = M /\ Forall (entry_ok N c) t.

Lemma fifo_init N : fifo_ok N [] (repeat None N).
Proof. constructor. { apply repeat_length. } intros i k [_ H]. cbn in H. lia. Qed.
Lemma table_init N M : table_ok N 0 M (repeat (-1) M).
Proof. split. { apply repeat_length. } apply Forall_forall. intros x Hx. apply repeat_spec in Hx. left; auto. Qed.

Lemma fset_ok N h f v : (0 < N)%nat -> fifo_ok N h f ->
  exists f', fset f (Z.of_nat (length h mod N)) v = Done f' /\ fifo_ok N (h ++ [v]) f'.
Proof.
  intros HN [L F]. pose proof (Nat.mod_upper_bound (length h) N ltac:(lia)) as M.
  unfold fset. destruct (Z.leb_spec 0 (Z.of_nat (length h mod N))); [|lia].
  destruct (Z.ltb_spec (Z.of_nat (length h mod N)) (lenZ f)); [|unfold lenZ in *; lia]. cbn [andb].
  eexists; split; [reflexivity|]. rewrite Nat2Z.id.
  constructor. { rewrite upd_length by lia. auto. }
  intros i k Hk. rewrite app_length in Hk. cbn [length] in Hk. rewrite Nat.add_1_r in Hk.
  apply latest_S in Hk; auto. destruct Hk as [[-> ->]|[Hk NE]].
  - rewrite Nat2Z.id, nth_upd_same by lia. rewrite app_nth2, Nat.sub_diag by lia. reflexivity.
  - pose proof (latest_range _ _ _ _ HN Hk). rewrite nth_upd_other by lia. rewrite (F i k Hk). f_equal.
    destruct Hk as [_ Hk]. rewrite app_nth1 by lia. reflexivity.
Qed.
Lemma fget_ok N h f i k : (0 < N)%nat -> fifo_ok N h f -> latest N (length h) i k -> fget f i = Done (nth k h 0).
Proof.
  intros HN [L F] Hk. pose proof (latest_range _ _ _ _ HN Hk). unfold fget.
  destruct (Z.leb_spec 0 i); [|lia]. destruct (Z.ltb_spec i (lenZ f)); [|unfold lenZ in *; lia]. cbn [andb].
  now rewrite (F i k Hk).
Qed.

Lemma entry_S N c x : (0 < N)%nat -> entry_ok N c x -> entry_ok N (S c) x.
Proof.
  intros HN [->|[k Hk]]; [left; auto|]. right. destruct (Z.eq_dec x (Z.of_nat (c mod N))) as [->|NE].
  - exists c. apply latest_S; auto.
  - exists k. apply latest_S; auto.
Qed.
Lemma table_S N c M t : (0 < N)%nat -> table_ok N c M t -> table_ok N (S c) M t.
Proof. intros HN [L F]. split; auto. revert F. apply Forall_impl. intros x. now apply entry_S. Qed.
Lemma table_add N c M t d : (0 < N)%nat -> table_ok N c M t -> table_ok N (c + d) M t.
Proof. intros HN. induction d; intros. { now rewrite Nat.add_0_r. } rewrite Nat.add_succ_r. apply table_S; auto. Qed.
Lemma Forall_firstn' {A} (P : A -> Prop) n l : Forall P l -> Forall P (firstn n l).
Proof. revert l. induction n; intros [|x l] H; cbn; auto. inversion H; auto. Qed.
Lemma Forall_skipn' {A} (P : A -> Prop) n l : Forall P l -> Forall P (skipn n l).
Proof. revert l. induction n; intros [|x l] H; cbn [skipn]; auto. inversion H; auto. Qed.
Lemma Forall_upd {A} (P : A -> Prop) l i v : Forall P l -> P v -> Forall P (firstn i l ++ v :: skipn (S i) l).
Proof.
  intros H Hv. apply Forall_app. split. { now apply Forall_firstn'. } constructor; auto. now apply Forall_skipn'.
Qed.
Lemma tset_ok N c M t h x : (0 < N)%nat -> table_ok N c M t -> 0 <= h < Z.of_nat M -> entry_ok N c x ->
  exists t', aset t h x = Done t' /\ table_ok N c M t'.
Proof.
  intros HN [L F] Hh Hx. rewrite aset_ok by (unfold lenZ; lia). eexists; split; [reflexivity|].
  split. { rewrite upd_length by lia. auto. } now apply Forall_upd.
Qed.
(** an entry just written, seen after the remaining entries of the block *)
Lemma entry_new N c d : (0 < N)%nat -> (0 < d <= N)%nat -> entry_ok N (c + d) (Z.of_nat (c mod N)).
Proof. intros HN Hd. right. exists c. split; auto. lia. Qed.
Lemma entry_new' N c d n : (0 < N)%nat -> (n < d <= N)%nat -> entry_ok N (c + d) (Z.of_nat ((c + n) mod N)).
Proof. intros HN Hd. right. exists (c + n)%nat. split; auto. lia. Qed.

Definition hashes_ok (h : list Z) : Prop :=
  (forall i, (i < 4)%nat -> 0 <= nth i h 0 < Z.of_nat 1024) /\
  (forall i, (i = 4 \/ i = 5)%nat -> 0 <= nth i h 0 < Z.of_nat 2048) /\ 0 <= nth 6 h 0 < Z.of_nat 1024.

Record odict_ok (pre : list Z) (st : ostate) : Prop := mkODictOk {
  od_f2 : fifo_ok 256 (items 2 pre) (o_f16 st);
  od_f4 : fifo_ok 512 (items 4 pre) (o_f32 st);
  od_f8 : fifo_ok 256 (items 8 pre) (o_f64 st);
  od_t2 : table_ok 256 (length pre / 2) 1024 (o_t16 st);
  od_t4 : table_ok 512 (length pre / 4) 2048 (o_t32 st);
  od_t8 : table_ok 256 (length pre / 8) 1024 (o_t64 st);
  od_h : hashes_ok (o_hashes st) }.

Lemma odict_init : odict_ok [] ostate_init.
Proof.
  constructor.
  - exact (fifo_init 256).
  - exact (fifo_init 512).
  - exact (fifo_init 256).
  - exact (table_init 256 1024).
  - exact (table_init 512 2048).
  - exact (table_init 256 1024).
  - split; [|split].
    + intros i Hi. do 4 (destruct i as [|i]; [cbn; lia|]). lia.
    + intros i [->| ->]; cbn; lia.
    + cbn; lia.
Qed.

Lemma hash1_range bits v : 0 <= bits <= 64 -> 0 <= hash1 bits v < 2 ^ bits.
Proof.
  intros. unfold hash1, u64. rewrite Z.shiftr_div_pow2 by lia.
  pose proof (Z.mod_pos_bound (PRIME64 * v) (2 ^ 64) ltac:(lia)).
  split. { apply Z.div_pos; [lia|]. apply Z.pow_pos_nonneg; lia. }
  apply Z.div_lt_upper_bound; [apply Z.pow_pos_nonneg; lia|]. rewrite <- Z.pow_add_r by lia.
  replace (64 - bits + bits) with 64 by lia. lia.
Qed.
Lemma ohash_ok d : hashes_ok (ohash d).
Proof.
  assert (H16 : forall v, 0 <= hash1 DICT16_BITS v < Z.of_nat 1024) by (intros; apply (hash1_range 10); lia).
  assert (H32 : forall v, 0 <= hash1 DICT32_BITS v < Z.of_nat 2048) by (intros; apply (hash1_range 11); lia).
  assert (H64 : forall v, 0 <= hash1 DICT64_BITS v < Z.of_nat 1024) by (intros; apply (hash1_range 10); lia).
  split; [|split].
  - intros i Hi. do 4 (destruct i as [|i]; [apply H16|]). lia.
  - intros i [->| ->]; apply H32.
  - apply H64.
Qed.
Lemma set_hashes_ok pre st h : odict_ok pre st -> hashes_ok h -> odict_ok pre (set_hashes st h).
Proof. intros [] H. constructor; auto. Qed.

(** One look-up: never undefined; a hit names the most recent occupant of a slot
    and that occupant equals the data. *)
Lemma ofind1_ok N h M t f hv v : (0 < N)%nat -> fifo_ok N h f -> table_ok N (length h) M t -> 0 <= hv < Z.of_nat M ->
  exists b ix, ofind1 t f hv v = Done (b, ix) /\
    (b = true -> exists k, latest N (length h) ix k /\ nth k h 0 = v) /\ (b = false -> ix = 0).
Proof.
  intros HN HF [L T] Hh. unfold ofind1. rewrite aget_ok by (unfold lenZ; lia). rewrite bind_done.
  set (x := nth (Z.to_nat hv) t 0).
  assert (X : entry_ok N (length h) x). { rewrite Forall_forall in T. apply T. apply nth_In. lia. }
  rewrite Z.geb_leb. destruct X as [->|[k Hk]].
  - exists false, 0. split; [reflexivity|]. split; [discriminate|auto].
  - pose proof (latest_range _ _ _ _ HN Hk). destruct (Z.leb_spec 0 x); [|lia].
    rewrite (fget_ok N h f x k HN HF Hk), !bind_done. cbn [andb].
    destruct (Z.eqb_spec (nth k h 0) v).
    + exists true, x. split; [reflexivity|]. split; [eauto|discriminate].
    + exists false, 0. split; [reflexivity|]. split; [discriminate|auto].
Qed.

Lemma oupdate_ok pre st b q : length pre = (8 * q)%nat -> odict_ok pre st -> length b = 8%nat ->
  exists st', oupdate_hashtables st (odata b) (Z.of_nat (length pre)) = Done st' /\ odict_ok (pre ++ b) st'.
Proof.
  intros HP [F2 F4 F8 T2 T4 T8 (H2 & H4 & H8)] HB.
  destruct (block_items b HB) as (I8' & I4' & I2').
  unfold oupdate_hashtables, odata. cbn [nth].
  assert (IX : forall d n N sh, (0 < n)%nat -> Z.of_nat n = 2 ^ sh -> 0 <= sh ->
     (exists c, 8 = c * n)%nat -> (exists g, N = (8 / n) * g)%nat -> (0 < N)%nat -> (d < 8 / n)%nat ->
     Z.shiftr (Z.of_nat (length pre)) sh mod Z.of_nat N + Z.of_nat d = Z.of_nat ((length pre / n + d) mod N)).
  { intros. eapply mod_idx; eauto. }
  change (Z.shiftl 1 I8_BITS) with (Z.of_nat 256).
  change (Z.shiftl 1 I4_BITS) with (Z.of_nat 512).
  change (Z.shiftl 1 I2_BITS) with (Z.of_nat 256).
  pose proof (IX 0%nat 8%nat 256%nat 3 ltac:(lia) eq_refl ltac:(lia) ltac:(exists 1%nat; reflexivity) ltac:(exists 256%nat; reflexivity) ltac:(lia) ltac:(cbn; lia)) as X8.
  pose proof (IX 0%nat 4%nat 512%nat 2 ltac:(lia) eq_refl ltac:(lia) ltac:(exists 2%nat; reflexivity) ltac:(exists 256%nat; reflexivity) ltac:(lia) ltac:(cbn; lia)) as X40.
  pose proof (IX 1%nat 4%nat 512%nat 2 ltac:(lia) eq_refl ltac:(lia) ltac:(exists 2%nat; reflexivity) ltac:(exists 256%nat; reflexivity) ltac:(lia) ltac:(cbn; lia)) as X41.
  pose proof (IX 0%nat 2%nat 256%nat 1 ltac:(lia) eq_refl ltac:(lia) ltac:(exists 4%nat; reflexivity) ltac:(exists 64%nat; reflexivity) ltac:(lia) ltac:(cbn; lia)) as X20.
  pose proof (IX 1%nat 2%nat 256%nat 1 ltac:(lia) eq_refl ltac:(lia) ltac:(exists 4%nat; reflexivity) ltac:(exists 64%nat; reflexivity) ltac:(lia) ltac:(cbn; lia)) as X21.
  pose proof (IX 2%nat 2%nat 256%nat 1 ltac:(lia) eq_refl ltac:(lia) ltac:(exists 4%nat; reflexivity) ltac:(exists 64%nat; reflexivity) ltac:(lia) ltac:(cbn; lia)) as X22.
  pose proof (IX 3%nat 2%nat 256%nat 1 ltac:(lia) eq_refl ltac:(lia) ltac:(exists 4%nat; reflexivity) ltac:(exists 64%nat; reflexivity) ltac:(lia) ltac:(cbn; lia)) as X23.
  change (Z.of_nat 0) with 0 in *. change (Z.of_nat 1) with 1 in *. change (Z.of_nat 2) with 2 in *. change (Z.of_nat 3) with 3 in *.
  rewrite Z.add_0_r, Nat.add_0_r in X8, X40, X20.
  rewrite X40 in X41. rewrite X20 in X21, X22, X23.
  rewrite X8, X40, X20. rewrite X41, X21, X22, X23. clear X8 X40 X41 X20 X21 X22 X23 IX.
  assert (HN : (0 < 256)%nat) by lia. assert (HN5 : (0 < 512)%nat) by lia.
  assert (L8 := items_length 8 pre). assert (L4 := items_length 4 pre). assert (L2 := items_length 2 pre).
  destruct (fset_ok 256 _ _ (be_val (slice 0 2 b)) HN F2) as (f20 & E20 & G20).
  rewrite L2 in E20. rewrite E20, bind_done.
  destruct (fset_ok 256 _ _ (be_val (slice 2 2 b)) HN G20) as (f21 & E21 & G21).
  rewrite app_length, L2 in E21. cbn [length] in E21. rewrite E21, bind_done.
  destruct (fset_ok 256 _ _ (be_val (slice 4 2 b)) HN G21) as (f22 & E22 & G22).
  rewrite !app_length, L2 in E22. cbn [length] in E22.
  replace (length pre / 2 + 1 + 1)%nat with (length pre / 2 + 2)%nat in E22 by lia.
  rewrite E22, bind_done.
  destruct (fset_ok 256 _ _ (be_val (slice 6 2 b)) HN G22) as (f23 & E23 & G23).
  rewrite !app_length, L2 in E23. cbn [length] in E23.
  replace (length pre / 2 + 1 + 1 + 1)%nat with (length pre / 2 + 3)%nat in E23 by lia.
  rewrite E23, bind_done.
  destruct (fset_ok 512 _ _ (be_val (slice 0 4 b)) HN5 F4) as (f40 & E40 & G40).
  rewrite L4 in E40. rewrite E40, bind_done.
  destruct (fset_ok 512 _ _ (be_val (slice 4 4 b)) HN5 G40) as (f41 & E41 & G41).
  rewrite app_length, L4 in E41. cbn [length] in E41. rewrite E41, bind_done.
  destruct (fset_ok 256 _ _ (be_val b) HN F8) as (f8 & E8 & G8).
  rewrite L8 in E8. rewrite E8, bind_done.
  (* tables *)
  assert (D2 : (length (pre ++ b) / 2 = length pre / 2 + 4)%nat).
  { rewrite app_length, HB. replace (length pre + 8)%nat with (length pre + 4 * 2)%nat by lia. apply Nat.div_add. lia. }
  assert (D4 : (length (pre ++ b) / 4 = length pre / 4 + 2)%nat).
  { rewrite app_length, HB. replace (length pre + 8)%nat with (length pre + 2 * 4)%nat by lia. apply Nat.div_add. lia. }
  assert (D8 : (length (pre ++ b) / 8 = length pre / 8 + 1)%nat).
  { rewrite app_length, HB. replace (length pre + 8)%nat with (length pre + 1 * 8)%nat by lia. apply Nat.div_add. lia. }
  apply (table_add _ _ _ _ 4 HN) in T2. apply (table_add _ _ _ _ 2 HN5) in T4. apply (table_add _ _ _ _ 1 HN) in T8.
  rewrite <- D2 in T2. rewrite <- D4 in T4. rewrite <- D8 in T8.
  assert (N2 : forall n, (n < 4)%nat -> entry_ok 256 (length (pre ++ b) / 2) (Z.of_nat ((length pre / 2 + n) mod 256))).
  { intros. rewrite D2. apply entry_new'; lia. }
  assert (N4 : forall n, (n < 2)%nat -> entry_ok 512 (length (pre ++ b) / 4) (Z.of_nat ((length pre / 4 + n) mod 512))).
  { intros. rewrite D4. apply entry_new'; lia. }
  assert (N8 : entry_ok 256 (length (pre ++ b) / 8) (Z.of_nat (length pre / 8 mod 256))).
  { rewrite D8. apply entry_new; lia. }
  pose proof (N2 0%nat ltac:(lia)) as N20. rewrite Nat.add_0_r in N20.
  pose proof (N4 0%nat ltac:(lia)) as N40. rewrite Nat.add_0_r in N40.
  destruct (tset_ok _ _ _ _ (nth 0 (o_hashes st) 0) _ HN T2 (H2 0%nat ltac:(lia)) N20) as (t20 & -> & T20). rewrite bind_done.
  destruct (tset_ok _ _ _ _ (nth 1 (o_hashes st) 0) _ HN T20 (H2 1%nat ltac:(lia)) (N2 1%nat ltac:(lia))) as (t21 & -> & T21). rewrite bind_done.
  destruct (tset_ok _ _ _ _ (nth 2 (o_hashes st) 0) _ HN T21 (H2 2%nat ltac:(lia)) (N2 2%nat ltac:(lia))) as (t22 & -> & T22). rewrite bind_done.
  destruct (tset_ok _ _ _ _ (nth 3 (o_hashes st) 0) _ HN T22 (H2 3%nat ltac:(lia)) (N2 3%nat ltac:(lia))) as (t23 & -> & T23). rewrite bind_done.
  destruct (tset_ok _ _ _ _ (nth 4 (o_hashes st) 0) _ HN5 T4 (H4 4%nat ltac:(auto)) N40) as (t40 & -> & T40). rewrite bind_done.
  destruct (tset_ok _ _ _ _ (nth 5 (o_hashes st) 0) _ HN5 T40 (H4 5%nat ltac:(auto)) (N4 1%nat ltac:(lia))) as (t41 & -> & T41). rewrite bind_done.
  destruct (tset_ok _ _ _ _ (nth 6 (o_hashes st) 0) _ HN T8 H8 N8) as (t8 & -> & T8'). rewrite bind_done.
  eexists; split; [reflexivity|].
  constructor; cbn [o_hashes o_t16 o_t32 o_t64 o_f16 o_f32 o_f64]; auto.
  - rewrite (items_app 2 pre b (4 * q)) by lia. rewrite I2'. cbn [data2 block_data].
    rewrite <- !app_assoc in G23. exact G23.
  - rewrite (items_app 4 pre b (2 * q)) by lia. rewrite I4'. cbn [data4 block_data].
    rewrite <- app_assoc in G41. exact G41.
  - rewrite (items_app 8 pre b q) by lia. now rewrite I8'.
  - split; auto.
Qed.
