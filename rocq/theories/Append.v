(** What appending data does to the compressed size: lemmas behind C108. *)
From Coq Require Import ZArith List Bool Lia.
From Verif Require Import SpecBits SpecCrc Spec842 SpecCalls CBase BitsLemmas SerialCompModel SerialDict SerialIdeal SerialComp SerialValid SerialFacts
  SerialProps OptCompModel OptDict GenLoop OptIdeal OptComp OptProps.
Import ListNotations.
Open Scope Z_scope.

Definition pending (rc : Z) : Z := if rc =? 0 then 0 else 11.
Lemma rep_opt_pending rc : lenZ (rep_bits_opt rc) = pending rc.
Proof. unfold rep_bits_opt, pending. destruct (rc =? 0); [reflexivity|apply rep_bits_len]. Qed.
Lemma pending_range rc : 0 <= pending rc <= 11.
Proof. unfold pending. destruct (rc =? 0); lia. Qed.
Lemma pending_pos rc : 0 < rc -> pending rc = 11.
Proof. unfold pending. intros. destruct (Z.eqb_spec rc 0); lia. Qed.

(** ** sw842_compress *)
Lemma ideal_app a b : forall ds pos last rc, 0 <= rc -> exists ds' pos' last' r,
  0 <= r /\ exists A, ideal_loop ds pos a last rc = (A, r) /\
  ideal_loop ds pos (a ++ b) last rc = (A ++ fst (ideal_loop ds' pos' b last' r), snd (ideal_loop ds' pos' b last' r)).
Proof.
  induction a as [|x a IH]; intros ds pos last rc H.
  - exists ds, pos, last, rc. split; auto. exists []. split; [reflexivity|]. cbn [app]. now destruct (ideal_loop ds pos b last rc).
  - cbn [app ideal_loop]. destruct (same last x).
    + destruct (rc + 1 <=? 63).
      * apply IH. lia.
      * destruct (IH (next_dicts ds x pos) (pos + 8)%nat (Some x) 0 ltac:(lia)) as (ds' & pos' & last' & r & R & A & -> & ->).
        exists ds', pos', last', r. split; auto. eexists. split; [reflexivity|]. now rewrite app_assoc.
    + destruct (IH (next_dicts ds x pos) (pos + 8)%nat (Some x) 0 ltac:(lia)) as (ds' & pos' & last' & r & R & A & -> & ->).
      exists ds', pos', last', r. split; auto. eexists. split; [reflexivity|]. now rewrite !app_assoc.
Qed.
Lemma ideal_cost b : Forall (fun x => length x = 8%nat) b -> forall ds pos last rc, 0 <= rc ->
  pending rc <= lenZ (fst (ideal_loop ds pos b last rc)) + pending (snd (ideal_loop ds pos b last rc)) <= pending rc + 69 * lenZ b.
Proof.
  induction 1 as [|x b Hx Hb IH]; intros ds pos last rc H.
  - cbn [ideal_loop fst snd]. unfold lenZ. cbn [length]. lia.
  - cbn [ideal_loop]. rewrite lenZ_cons. destruct (same last x).
    + destruct (rc + 1 <=? 63).
      * specialize (IH (next_dicts ds x pos) (pos + 8)%nat (Some x) (rc + 1) ltac:(lia)). rewrite (pending_pos (rc + 1)) in IH by lia. pose proof (pending_range rc). lia.
      * specialize (IH (next_dicts ds x pos) (pos + 8)%nat (Some x) 0 ltac:(lia)). change (pending 0) with 0 in IH.
        destruct (ideal_loop _ _ b _ 0) as [B r]. cbn [fst snd] in *. rewrite lenZ_app, rep_bits_len. pose proof (pending_range rc). lia.
    + specialize (IH (next_dicts ds x pos) (pos + 8)%nat (Some x) 0 ltac:(lia)). change (pending 0) with 0 in IH.
      destruct (ideal_loop _ _ b _ 0) as [B r]. cbn [fst snd] in *. rewrite !lenZ_app, rep_opt_pending. pose proof (blk_bits_len ds x Hx). pose proof (lenZ_nonneg (blk_bits ds x)). lia.
Qed.

Lemma whole_blocks (x : list Z) : (length x mod 8 = 0)%nat -> length x = (8 * (length x / 8))%nat.
Proof. intros H. pose proof (Nat.div_mod (length x) 8 ltac:(lia)). lia. Qed.
Lemma div_app (x y : list Z) : (length x mod 8 = 0)%nat -> (length (x ++ y) / 8 = length x / 8 + length y / 8)%nat.
Proof.
  intros H. rewrite app_length, (whole_blocks x H) at 1. rewrite Nat.add_comm, Nat.mul_comm, Nat.div_add by lia. lia.
Qed.
Lemma tail_of_app x y : (length x mod 8 = 0)%nat -> tail_of (x ++ y) = tail_of y.
Proof.
  intros H. unfold tail_of. rewrite div_app by auto. rewrite skipn_app. rewrite skipn_all2 by (rewrite (whole_blocks x H) at 1; lia).
  cbn [app]. f_equal. pose proof (whole_blocks x H). lia.
Qed.
Lemma blocks_of_app x y : (length x mod 8 = 0)%nat -> blocks_of (x ++ y) = blocks_of x ++ blocks_of y.
Proof.
  intros H. unfold blocks_of. rewrite div_app by auto. rewrite seq_app, map_app. pose proof (whole_blocks x H) as W. f_equal.
  - apply map_ext_in. intros k K. apply in_seq in K. unfold slice. rewrite skipn_app, firstn_app, skipn_length.
    replace (8 - (length x - 8 * k))%nat with 0%nat by lia. cbn [firstn]. now rewrite app_nil_r.
  - assert (G : forall n s, map (fun k => slice (8 * k) 8 (x ++ y)) (seq (length x / 8 + s) n) = map (fun k => slice (8 * k) 8 y) (seq s n)).
    { induction n as [|n IH]; intros s; [reflexivity|]. cbn [seq map]. f_equal.
      - unfold slice. rewrite skipn_app. rewrite skipn_all2 by lia. cbn [app]. do 2 f_equal. lia.
      - rewrite <- IH. do 2 f_equal. lia. }
    rewrite <- G. do 2 f_equal. lia.
Qed.

Definition added (n : Z) : Z := 69 * (n / 8) + (if n mod 8 =? 0 then 0 else 8 + 8 * (n mod 8)).
Lemma lenZ_blocks y : lenZ (blocks_of y) = lenZ y / 8.
Proof. unfold blocks_of, lenZ. rewrite map_length, seq_length, Nat2Z.inj_div. reflexivity. Qed.
Lemma lenZ_short y : lenZ (short_bits (tail_of y)) = if lenZ y mod 8 =? 0 then 0 else 8 + 8 * (lenZ y mod 8).
Proof.
  unfold short_bits. rewrite tail_length.
  assert (M : lenZ y mod 8 = Z.of_nat (length y mod 8)) by (unfold lenZ; now rewrite Nat2Z.inj_mod). rewrite M.
  destruct (Nat.eqb_spec (length y mod 8) 0) as [->|N]; [reflexivity|].
  destruct (Z.eqb_spec (Z.of_nat (length y mod 8)) 0); [lia|].
  rewrite !lenZ_app, !lenZ_bits_of. unfold lenZ. rewrite bytes_bits_length, tail_length. lia.
Qed.
Lemma ideal_bits_app x y : (length x mod 8 = 0)%nat ->
  lenZ (ideal_bits x) <= lenZ (ideal_bits (x ++ y)) <= lenZ (ideal_bits x) + added (lenZ y).
Proof.
  intros H. unfold ideal_bits. rewrite blocks_of_app, tail_of_app by auto.
  destruct (ideal_app (blocks_of x) (blocks_of y) init_dicts 0 None 0 ltac:(lia)) as (ds & pos & last & r & R & A & -> & ->).
  pose proof (ideal_cost (blocks_of y) (blocks_len y) ds pos last r R) as C. destruct (ideal_loop ds pos (blocks_of y) last r) as [B q]. cbn [fst snd] in C |- *.
  assert (T : short_bits (tail_of x) = []). { unfold short_bits. rewrite tail_length, H. reflexivity. }
  rewrite T. rewrite !lenZ_app, !lenZ_bits_of, !rep_opt_pending, lenZ_short. rewrite lenZ_blocks in C. unfold added. rewrite lenZ_nil.
  pose proof (Z.mod_pos_bound (lenZ y) 8 ltac:(lia)). destruct (lenZ y mod 8 =? 0); lia.
Qed.

(** ** optsw842_compress *)
Section Gen.
Variable St : Type.
Variable bits : St -> list Z -> list bool.
Variable nx : bool -> St -> list Z -> nat -> St.
Variable Inv : list Z -> St -> Prop.
Hypothesis Inv_nx : forall c pre s b q, length pre = (8 * q)%nat -> Inv pre s -> length b = 8%nat -> is_bytes b ->
  Inv (pre ++ b) (nx c s b (length pre)).
Hypothesis bits_len : forall pre s b, Inv pre s -> length b = 8%nat -> lenZ (bits s b) <= 69.
Let loop := gloop St bits nx.
Let ok (b : list Z) := length b = 8%nat /\ is_bytes b.

Lemma gen_app a b : Forall ok a -> forall pre s last rc, 0 <= rc -> (exists q, length pre = (8 * q)%nat) -> Inv pre s ->
  exists pre' s' last' r, 0 <= r /\ (exists q, length pre' = (8 * q)%nat) /\ Inv pre' s' /\ exists A, loop s (length pre) a last rc = (A, r) /\
  loop s (length pre) (a ++ b) last rc = (A ++ fst (loop s' (length pre') b last' r), snd (loop s' (length pre') b last' r)).
Proof.
  unfold loop. induction 1 as [|x a [Lx Bx] Ha IH]; intros pre s last rc H [q Hq] I0.
  - exists pre, s, last, rc. split; auto. split; eauto. split; auto. exists []. split; [reflexivity|]. cbn [app]. now destruct (gloop St bits nx s (length pre) b last rc).
  - cbn [app gloop].
    assert (LP : (length pre + 8)%nat = length (pre ++ x)) by (rewrite app_length; lia).
    assert (IH' : forall c rc, 0 <= rc -> exists pre' s' last' r, 0 <= r /\ (exists q, length pre' = (8 * q)%nat) /\ Inv pre' s' /\ exists A,
      gloop St bits nx (nx c s x (length pre)) (length pre + 8) a (Some x) rc = (A, r) /\
      gloop St bits nx (nx c s x (length pre)) (length pre + 8) (a ++ b) (Some x) rc = (A ++ fst (gloop St bits nx s' (length pre') b last' r), snd (gloop St bits nx s' (length pre') b last' r))).
    { intros c rc' H'. rewrite LP. apply IH; auto; [exists (S q); lia|]. eapply Inv_nx; eauto. }
    destruct (same last x).
    + destruct (rc + 1 <=? 63).
      * apply IH'. lia.
      * destruct (IH' false 0 ltac:(lia)) as (pre' & s' & last' & r & R & Q & I' & A & -> & ->).
        exists pre', s', last', r. split; auto. split; auto. split; auto. eexists. split; [reflexivity|]. now rewrite app_assoc.
    + destruct (IH' (negb (be_val x =? 0)) 0 ltac:(lia)) as (pre' & s' & last' & r & R & Q & I' & A & -> & ->).
      exists pre', s', last', r. split; auto. split; auto. split; auto. eexists. split; [reflexivity|]. now rewrite !app_assoc.
Qed.
Lemma gen_cost b : Forall ok b -> forall pre s last rc, 0 <= rc -> (exists q, length pre = (8 * q)%nat) -> Inv pre s ->
  pending rc <= lenZ (fst (loop s (length pre) b last rc)) + pending (snd (loop s (length pre) b last rc)) <= pending rc + 69 * lenZ b.
Proof.
  unfold loop. induction 1 as [|x b [Lx Bx] Hb IH]; intros pre s last rc H [q Hq] I0.
  - cbn [gloop fst snd]. unfold lenZ. cbn [length]. lia.
  - cbn [gloop]. rewrite lenZ_cons.
    assert (LP : (length pre + 8)%nat = length (pre ++ x)) by (rewrite app_length; lia).
    assert (IH' : forall c rc, 0 <= rc -> let p := gloop St bits nx (nx c s x (length pre)) (length pre + 8) b (Some x) rc in
      pending rc <= lenZ (fst p) + pending (snd p) <= pending rc + 69 * lenZ b).
    { intros c rc' H'. cbv zeta. rewrite LP. apply IH; auto; [exists (S q); lia|]. eapply Inv_nx; eauto. }
    cbv zeta in IH'. pose proof (pending_range rc). destruct (same last x).
    + destruct (rc + 1 <=? 63).
      * specialize (IH' false (rc + 1) ltac:(lia)). rewrite (pending_pos (rc + 1)) in IH' by lia. lia.
      * specialize (IH' false 0 ltac:(lia)). change (pending 0) with 0 in IH'.
        destruct (gloop _ _ _ _ _ b _ 0) as [B r]. cbn [fst snd] in *. rewrite lenZ_app, rep_bits_len. lia.
    + specialize (IH' (negb (be_val x =? 0)) 0 ltac:(lia)). change (pending 0) with 0 in IH'.
      destruct (gloop _ _ _ _ _ b _ 0) as [B r]. cbn [fst snd] in *. rewrite !lenZ_app, rep_opt_pending.
      assert (GB : lenZ (gblk St bits s x) <= 69). { unfold gblk. destruct (_ =? _). { rewrite lenZ_bits_of. lia. } eapply bits_len; eauto. }
      pose proof (lenZ_nonneg (gblk St bits s x)). lia.
Qed.
Lemma gen_bits_app s0 x y : Inv [] s0 -> is_bytes x -> is_bytes y -> (length x mod 8 = 0)%nat ->
  lenZ (gbits St bits nx s0 x) <= lenZ (gbits St bits nx s0 (x ++ y)) <= lenZ (gbits St bits nx s0 x) + 69 * (lenZ y / 8).
Proof.
  intros HI Hx Hy H. unfold gbits. rewrite blocks_of_app by auto.
  destruct (gen_app (blocks_of x) (blocks_of y) (blocks_bytes x Hx) [] s0 None 0 ltac:(lia) (ex_intro _ 0%nat eq_refl) HI) as (pre & s & last & r & R & Q & I' & A & E1 & E2).
  unfold loop in E1, E2. change (length (@nil Z)) with 0%nat in E1, E2. rewrite E1, E2.
  pose proof (gen_cost (blocks_of y) (blocks_bytes y Hy) pre s last r R Q I') as C. unfold loop in C.
  destruct (gloop St bits nx s (length pre) (blocks_of y) last r) as [B q]. cbn [fst snd] in C |- *.
  rewrite !lenZ_app, !lenZ_bits_of, !rep_opt_pending. rewrite lenZ_blocks in C. lia.
Qed.
End Gen.
Lemma opt_bits_app x y : is_bytes x -> is_bytes y -> (length x mod 8 = 0)%nat ->
  lenZ (opt_bits x) <= lenZ (opt_bits (x ++ y)) <= lenZ (opt_bits x) + 69 * (lenZ y / 8).
Proof. intros. apply (gen_bits_app ostate obits onx odict_ok onx_inv obits_len); auto using odict_init. Qed.

(** ** The calls *)
Lemma words_mono a b : a <= b -> 8 * ((a + 63) / 64) <= 8 * ((b + 63) / 64).
Proof. intros. apply Z.mul_le_mono_nonneg_l; [lia|]. apply Z.div_le_mono; lia. Qed.
Lemma padded_bounds E F k : lenZ E <= lenZ F <= lenZ E + k -> padded_size E <= padded_size F <= words64 (8 * padded_size E + k).
Proof.
  intros [H1 H2]. unfold padded_size, words64. split; [now apply words_mono|]. apply words_mono. fold (padded_size E). pose proof (padded_ge E). lia.
Qed.
