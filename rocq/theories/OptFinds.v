(** The size of the output of the optimized compressor: lemmas behind PropFinds.v. *)
From Coq Require Import ZArith List Bool Lia.
From Verif Require Import SpecBits SpecCrc Spec842 SpecCalls SpecOptimal SpecFinds CBase BitsLemmas CrcModel
  SerialCompModel SerialWriter SerialDict SerialIdeal SerialComp SerialValid SerialFacts
  OptCompModel OptWriter OptDict GenLoop OptIdeal OptComp OptCheapest.
Import ListNotations.
Open Scope Z_scope.

Lemma num_be b : num b = be_val b. Proof. reflexivity. Qed.

(** * Tables *)
Lemma last_in_snoc es v s x : last_in (es ++ [(v, s)]) x = if s =? x then Some (length es) else last_in es x.
Proof.
  induction es as [|[v' s'] es IH]; cbn [app last_in length].
  - reflexivity.
  - rewrite IH. destruct (Z.eqb_spec s x); [reflexivity|]. reflexivity.
Qed.
Lemma last_in_lt es x k : last_in es x = Some k -> (k < length es)%nat.
Proof.
  revert k. induction es as [|[v' s'] es IH]; intros k H; cbn [last_in length] in *; [discriminate|].
  destruct (last_in es x) as [j|].
  - injection H as <-. specialize (IH j eq_refl). lia.
  - destruct (s' =? x); [|discriminate]. injection H as <-. lia.
Qed.
Lemma Done_inj {A} (a b : A) : Done a = Done b -> a = b. Proof. congruence. Qed.
Definition tbl (N M : nat) (es : list (Z * Z)) (t : list Z) : Prop :=
  length t = M /\ forall s, 0 <= s < Z.of_nat M ->
    nth (Z.to_nat s) t 0 = match last_in es s with Some k => Z.of_nat (k mod N) | None => -1 end.
Lemma tbl_init N M : tbl N M [] (repeat (-1) M).
Proof.
  split. { apply repeat_length. } intros s Hs. cbn [last_in].
  rewrite (nth_indep _ 0 (-1)) by (rewrite repeat_length; lia). apply nth_repeat.
Qed.
Lemma tbl_set N M es t v s i t' : tbl N M es t -> 0 <= s < Z.of_nat M -> i = Z.of_nat (length es mod N) ->
  aset t s i = Done t' -> tbl N M (es ++ [(v, s)]) t'.
Proof.
  intros [L T] Hs -> A. rewrite aset_ok in A by (unfold lenZ; lia). apply Done_inj in A. subst t'.
  split. { rewrite upd_length by lia. exact L. }
  intros x Hx. rewrite last_in_snoc. destruct (Z.eqb_spec s x) as [->|NE].
  - apply nth_upd_same. lia.
  - rewrite nth_upd_other by lia. now apply T.
Qed.
Lemma now_latest N c k : (0 < N)%nat -> (k < c)%nat -> latest N c (Z.of_nat (k mod N)) (now_at N c k).
Proof.
  intros HN Hk. unfold now_at, latest.
  pose proof (Nat.div_mod (c - 1 - k) N ltac:(lia)) as D. pose proof (Nat.mod_upper_bound (c - 1 - k) N ltac:(lia)) as M.
  split; [|nia]. f_equal. rewrite Nat.mul_comm, Nat.mod_add by lia. reflexivity.
Qed.
Definition hit (N : nat) (es : list (Z * Z)) (s v : Z) : bool :=
  match last_in es s with Some k => nth (now_at N (length es) k) (map fst es) 0 =? v | None => false end.
Lemma ofind1_exact N M es t f s v : (0 < N)%nat -> fifo_ok N (map fst es) f -> tbl N M es t -> 0 <= s < Z.of_nat M ->
  exists ix, ofind1 t f s v = Done (hit N es s v, ix).
Proof.
  intros HN HF [L T] Hs. unfold ofind1, hit. rewrite aget_ok by (unfold lenZ; lia). rewrite bind_done.
  rewrite (T s Hs), Z.geb_leb. destruct (last_in es s) as [k|] eqn:E.
  - pose proof (last_in_lt _ _ _ E) as K. pose proof (now_latest N (length es) k HN K) as LT.
    rewrite <- (map_length fst) in LT at 1. destruct (Z.leb_spec 0 (Z.of_nat (k mod N))); [|lia].
    rewrite map_length in LT. rewrite (fget_ok N (map fst es) f _ (now_at N (length es) k) HN HF) by (rewrite map_length; exact LT).
    rewrite !bind_done. cbn [andb]. eauto.
  - change (0 <=? -1) with false. cbv iota. rewrite bind_done. cbn [andb]. eauto.
Qed.

(** * Slots *)
Lemma slot_hash n v : slot n v = hash1 (if (n =? 4)%nat then 11 else 10) v.
Proof.
  unfold slot, hash1, u64, PRIME64. rewrite Z.shiftr_div_pow2 by (destruct (n =? 4)%nat; lia). destruct (n =? 4)%nat; reflexivity.
Qed.
Lemma slot_range n v : 0 <= slot n v < Z.of_nat (if (n =? 4)%nat then 2048 else 1024).
Proof. rewrite slot_hash. destruct (n =? 4)%nat; [apply (hash1_range 11)|apply (hash1_range 10)]; lia. Qed.
Lemma found_hit n h v : found n h v = hit (places n) (entered n h) (slot n v) v.
Proof. reflexivity. Qed.
Lemma ohash_slots b : ohash (odata b) = [slot 2 (num (slice 0 2 b)); slot 2 (num (slice 2 2 b)); slot 2 (num (slice 4 2 b)); slot 2 (num (slice 6 2 b));
  slot 4 (num (slice 0 4 b)); slot 4 (num (slice 4 4 b)); slot 8 (num b)].
Proof. rewrite !slot_hash. reflexivity. Qed.
Lemma entered_snoc n h b f : entered n (h ++ [(b, f)]) = entered n h ++ combine (pieces_of n b) (map (slot n) (pieces_of n f)).
Proof. unfold entered. rewrite map_app, concat_app. cbn [map concat fst snd]. now rewrite app_nil_r. Qed.

(** * The state *)
Record exact (pre : list Z) (st : ostate) (h : history) (key : list Z) : Prop := mkExact {
  ex_ok : odict_ok pre st;
  ex_2 : map fst (entered 2 h) = items 2 pre;
  ex_4 : map fst (entered 4 h) = items 4 pre;
  ex_8 : map fst (entered 8 h) = items 8 pre;
  ex_t2 : tbl 256 1024 (entered 2 h) (o_t16 st);
  ex_t4 : tbl 512 2048 (entered 4 h) (o_t32 st);
  ex_t8 : tbl 256 1024 (entered 8 h) (o_t64 st);
  ex_key : o_hashes st = ohash (odata key) }.
Lemma exact_init : exact [] ostate_init [] (repeat 0 8).
Proof.
  constructor; try reflexivity.
  - exact odict_init.
  - exact (tbl_init 256 1024).
  - exact (tbl_init 512 2048).
  - exact (tbl_init 256 1024).
Qed.
Lemma bind_inv {A B} (a : outcome A) (f : A -> outcome B) b : bind a f = Done b -> exists x, a = Done x /\ f x = Done b.
Proof. destruct a; try discriminate. rewrite bind_done. eauto. Qed.

Lemma exact_len pre st h key n q : (n = 2 \/ n = 4 \/ n = 8)%nat -> exact pre st h key -> length pre = (8 * q)%nat ->
  length (entered n h) = (length pre / n)%nat.
Proof.
  intros Hn X Hq. rewrite <- (map_length fst). destruct X as [_ E2 E4 E8 _ _ _ _].
  destruct Hn as [->|[->| ->]]; rewrite ?E2, ?E4, ?E8; apply items_length.
Qed.
Lemma items_block n b : length b = 8%nat -> (n = 2 \/ n = 4 \/ n = 8)%nat -> items n b = pieces_of n b.
Proof. intros L [->|[->| ->]]; unfold items, pieces_of; rewrite L; reflexivity. Qed.
Lemma map_fst_combine {A B} (a : list A) (b : list B) : length a = length b -> map fst (combine a b) = a.
Proof. revert b. induction a as [|x a IH]; intros [|y b] H; try discriminate; [reflexivity|]. cbn. now rewrite IH by (cbn in H; lia). Qed.

Lemma exact_upd pre st h key b q : length pre = (8 * q)%nat -> exact pre st h key -> length b = 8%nat -> length key = 8%nat ->
  forall st', oupdate_hashtables st (odata b) (Z.of_nat (length pre)) = Done st' -> exact (pre ++ b) st' (h ++ [(b, key)]) key.
Proof.
  intros Hq X Lb Lk st' U.
  pose proof X as [OK E2 E4 E8 T2 T4 T8 HK].
  destruct (oupdate_ok pre st b q Hq OK Lb) as (st'' & U' & OK'). rewrite U in U'. injection U' as <-.
  pose proof (exact_len pre st h key 2 q ltac:(auto) X Hq) as N2.
  pose proof (exact_len pre st h key 4 q ltac:(auto) X Hq) as N4.
  pose proof (exact_len pre st h key 8 q ltac:(auto) X Hq) as N8.
  unfold oupdate_hashtables in U.
  assert (IX : forall d n N sh, (0 < n)%nat -> Z.of_nat n = 2 ^ sh -> 0 <= sh ->
     (exists c, 8 = c * n)%nat -> (exists g, N = (8 / n) * g)%nat -> (0 < N)%nat -> (d < 8 / n)%nat ->
     Z.shiftr (Z.of_nat (length pre)) sh mod Z.of_nat N + Z.of_nat d = Z.of_nat ((length pre / n + d) mod N)).
  { intros. eapply mod_idx; eauto. }
  change (Z.shiftl 1 I8_BITS) with (Z.of_nat 256) in U.
  change (Z.shiftl 1 I4_BITS) with (Z.of_nat 512) in U.
  change (Z.shiftl 1 I2_BITS) with (Z.of_nat 256) in U.
  set (i8 := Z.shiftr (Z.of_nat (length pre)) 3 mod Z.of_nat 256) in *.
  set (i4 := Z.shiftr (Z.of_nat (length pre)) 2 mod Z.of_nat 512) in *.
  set (i2 := Z.shiftr (Z.of_nat (length pre)) 1 mod Z.of_nat 256) in *.
  assert (J8 : i8 = Z.of_nat ((length pre / 8) mod 256)).
  { pose proof (IX 0%nat 8%nat 256%nat 3 ltac:(lia) eq_refl ltac:(lia) ltac:(exists 1%nat; reflexivity) ltac:(exists 256%nat; reflexivity) ltac:(lia) ltac:(cbn; lia)) as J.
    fold i8 in J. rewrite Nat.add_0_r, Z.add_0_r in J. exact J. }
  assert (J4 : forall d, (d < 2)%nat -> i4 + Z.of_nat d = Z.of_nat ((length pre / 4 + d) mod 512)).
  { intros d Hd. apply (IX d 4%nat 512%nat 2 ltac:(lia) eq_refl ltac:(lia) ltac:(exists 2%nat; reflexivity) ltac:(exists 256%nat; reflexivity) ltac:(lia)). cbn; lia. }
  assert (J2 : forall d, (d < 4)%nat -> i2 + Z.of_nat d = Z.of_nat ((length pre / 2 + d) mod 256)).
  { intros d Hd. apply (IX d 2%nat 256%nat 1 ltac:(lia) eq_refl ltac:(lia) ltac:(exists 4%nat; reflexivity) ltac:(exists 64%nat; reflexivity) ltac:(lia)). cbn; lia. }
  pose proof (J2 0%nat ltac:(lia)) as J20. pose proof (J2 1%nat ltac:(lia)) as J21. pose proof (J2 2%nat ltac:(lia)) as J22. pose proof (J2 3%nat ltac:(lia)) as J23.
  pose proof (J4 0%nat ltac:(lia)) as J40. pose proof (J4 1%nat ltac:(lia)) as J41.
  change (Z.of_nat 0) with 0 in *. change (Z.of_nat 1) with 1 in *. change (Z.of_nat 2) with 2 in *. change (Z.of_nat 3) with 3 in *.
  rewrite Z.add_0_r in *.
  rewrite HK, ohash_slots in U. cbn [nth odata] in U.
  repeat (apply bind_inv in U; let H := fresh "U" in let x := fresh "x" in destruct U as (x & H & U)).
  apply Done_inj in U. subst st'. cbn [o_t16 o_t32 o_t64 o_hashes] in *.
  assert (S2 : forall v, 0 <= slot 2 v < Z.of_nat 1024) by (intros; apply (slot_range 2)).
  assert (S4 : forall v, 0 <= slot 4 v < Z.of_nat 2048) by (intros; apply (slot_range 4)).
  assert (S8 : forall v, 0 <= slot 8 v < Z.of_nat 1024) by (intros; apply (slot_range 8)).
  assert (IA : forall n, (n = 2 \/ n = 4 \/ n = 8)%nat -> items n (pre ++ b) = items n pre ++ pieces_of n b).
  { intros n Hn. rewrite <- (items_block n b Lb Hn). assert (QN : exists c, length pre = (c * n)%nat) by (destruct Hn as [->|[->| ->]]; [exists (4 * q)%nat|exists (2 * q)%nat|exists q]; lia).
    destruct QN as [c QN]. eapply items_app; [exact QN|lia]. }
  assert (MF : forall n, (n = 2 \/ n = 4 \/ n = 8)%nat -> map fst (entered n h) = items n pre -> map fst (entered n (h ++ [(b, key)])) = items n (pre ++ b)).
  { intros n Hn E. rewrite entered_snoc, map_app, E, (IA n Hn). f_equal. apply map_fst_combine. unfold pieces_of. now rewrite !map_length. }
  constructor; auto; rewrite ?entered_snoc.
  - cbn [o_t16].
    change (combine (pieces_of 2 b) (map (slot 2) (pieces_of 2 key))) with
      ([(num (slice 0 2 b), slot 2 (num (slice 0 2 key)))] ++ [(num (slice 2 2 b), slot 2 (num (slice 2 2 key)))] ++
       [(num (slice 4 2 b), slot 2 (num (slice 4 2 key)))] ++ [(num (slice 6 2 b), slot 2 (num (slice 6 2 key)))]).
    rewrite !app_assoc.
    eapply tbl_set; [eapply tbl_set; [eapply tbl_set; [eapply tbl_set; [exact T2|apply S2| |exact U7]|apply S2| |exact U8]|apply S2| |exact U9]|apply S2| |exact U10];
      rewrite ?app_length, N2; cbn [length].
    + now rewrite <- (Nat.add_0_r (length pre / 2)).
    + exact J21.
    + rewrite <- !Nat.add_assoc. exact J22.
    + rewrite <- !Nat.add_assoc. exact J23.
  - cbn [o_t32].
    change (combine (pieces_of 4 b) (map (slot 4) (pieces_of 4 key))) with
      ([(num (slice 0 4 b), slot 4 (num (slice 0 4 key)))] ++ [(num (slice 4 4 b), slot 4 (num (slice 4 4 key)))]).
    rewrite !app_assoc.
    eapply tbl_set; [eapply tbl_set; [exact T4|apply S4| |exact U11]|apply S4| |exact U12]; rewrite ?app_length, N4; cbn [length].
    + now rewrite <- (Nat.add_0_r (length pre / 4)).
    + exact J41.
  - cbn [o_t64].
    assert (E : forall l : list Z, length l = 8%nat -> slice 0 8 l = l) by (intros l Hl; unfold slice; cbn [skipn]; apply firstn_all2; lia).
    change (combine (pieces_of 8 b) (map (slot 8) (pieces_of 8 key))) with [(num (slice 0 8 b), slot 8 (num (slice 0 8 key)))].
    rewrite !E by auto. eapply tbl_set; [exact T8|apply S8| |exact U13]. now rewrite N8.
  - cbn [o_hashes]. now rewrite ohash_slots.
Qed.
Lemma exact_key pre st h key b : exact pre st h key -> exact pre (set_hashes st (ohash (odata b))) h b.
Proof. intros []. constructor; auto. apply set_hashes_ok; auto. apply ohash_ok. Qed.
Lemma exact_nx (c : bool) pre st h key b q : length pre = (8 * q)%nat -> exact pre st h key -> length b = 8%nat -> length key = 8%nat ->
  let key' := if c then b else key in exact (pre ++ b) (onx c st b (length pre)) (h ++ [(b, key')]) key'.
Proof.
  intros Hq X Lb Lk key'. pose proof (ex_ok _ _ _ _ X) as OK.
  destruct (onx_ok c pre st b q Hq OK Lb) as [U _].
  eapply exact_upd; [exact Hq| |exact Lb| |exact U].
  - unfold key'. destruct c; [eapply exact_key; eauto|exact X].
  - unfold key'. destruct c; auto.
Qed.

(** * One block *)
Lemma ofind_exact pre st h key b : exact pre st h key -> length b = 8%nat ->
  fst (ofind st b) = [found_at h b 0 2; found_at h b 2 2; found_at h b 4 2; found_at h b 6 2; found_at h b 0 4; found_at h b 4 4; found_at h b 0 8].
Proof.
  intros X Lb. apply (exact_key _ _ _ _ b) in X. destruct X as [[F2 F4 F8 _ _ _ _] E2 E4 E8 T2 T4 T8 HK].
  unfold ofind, ofind_index. set (st' := set_hashes st (ohash (odata b))) in *.
  rewrite HK, ohash_slots. cbn [nth odata]. rewrite <- E2 in F2. rewrite <- E4 in F4. rewrite <- E8 in F8.
  assert (X2 : forall v, exists ix, ofind1 (o_t16 st') (o_f16 st') (slot 2 v) v = Done (found 2 h v, ix)).
  { intros v. rewrite found_hit. apply (ofind1_exact 256 1024); auto; [lia|]. apply (slot_range 2). }
  assert (X4 : forall v, exists ix, ofind1 (o_t32 st') (o_f32 st') (slot 4 v) v = Done (found 4 h v, ix)).
  { intros v. rewrite found_hit. apply (ofind1_exact 512 2048); auto; [lia|]. apply (slot_range 4). }
  assert (X8 : forall v, exists ix, ofind1 (o_t64 st') (o_f64 st') (slot 8 v) v = Done (found 8 h v, ix)).
  { intros v. rewrite found_hit. apply (ofind1_exact 256 1024); auto; [lia|]. apply (slot_range 8). }
  change be_val with num.
  destruct (X2 (num (slice 0 2 b))) as [i0 ->]. destruct (X2 (num (slice 2 2 b))) as [i1 ->].
  destruct (X2 (num (slice 4 2 b))) as [i2 ->]. destruct (X2 (num (slice 6 2 b))) as [i3 ->].
  destruct (X4 (num (slice 0 4 b))) as [i4 ->]. destruct (X4 (num (slice 4 4 b))) as [i5 ->].
  destruct (X8 (num b)) as [i6 ->]. rewrite !bind_done. cbn [fst].
  unfold found_at. replace (slice 0 8 b) with b; [reflexivity|]. symmetry. unfold slice; cbn [skipn]. apply firstn_all2. lia.
Qed.
Lemma acts_size_width acts : acts_width acts = Z.of_nat (acts_size acts).
Proof.
  induction acts as [|a acts IH]; [reflexivity|]. change (acts_width (a :: acts)) with (act_width a + acts_width acts). rewrite IH.
  destruct a; cbn [acts_size act_width]; lia.
Qed.
Lemma shortest_spec avail op acts : template op = Some acts -> usable avail 0 acts = true -> (acts_size acts <= 64)%nat ->
  (forall op' acts', template op' = Some acts' -> usable avail 0 acts' = true -> (acts_size acts <= acts_size acts')%nat) ->
  shortest avail = Z.of_nat (acts_size acts).
Proof.
  intros T U B M. unfold shortest. pose proof (template_range _ _ T) as R.
  set (step := fun (op : nat) (m : Z) => _).
  assert (G : forall l, (forall k, In k l -> (k < 26)%nat) -> Z.of_nat (acts_size acts) <= fold_right step 64 l /\
    (In (Z.to_nat op) l -> fold_right step 64 l <= Z.of_nat (acts_size acts))).
  { induction l as [|k l IH]; intros Hl; cbn [fold_right In].
    - split; [lia|tauto].
    - destruct IH as [I1 I2]. { intros j Hj. apply Hl. now right. }
      set (m := fold_right step 64 l) in *. unfold step.
      destruct (template (Z.of_nat k)) as [a|] eqn:TK.
      + destruct (usable avail 0 a) eqn:UK.
        * pose proof (M _ _ TK UK). split; [lia|]. intros [->|I]; [|specialize (I2 I); lia].
          rewrite Z2Nat.id, T in TK by lia. injection TK as <-. lia.
        * split; [lia|]. intros [->|I]; [|auto]. rewrite Z2Nat.id, T in TK by lia. injection TK as <-. congruence.
      + split; [lia|]. intros [->|I]; [|auto]. rewrite Z2Nat.id, T in TK by lia. discriminate. }
  destruct (G (seq 0 26)) as [G1 G2]. { intros k Hk. apply in_seq in Hk. lia. }
  specialize (G2 ltac:(apply in_seq; lia)). lia.
Qed.
Lemma obits_size pre st h key b : exact pre st h key -> length b = 8%nat -> lenZ (obits st b) = 5 + shortest (found_at h b).
Proof.
  intros X Lb. unfold obits. destruct (ofind_ok pre st b (ex_ok _ _ _ _ X) Lb) as (v & ix & _ & EF & L1 & L2 & K).
  pose proof (ofind_exact _ _ _ _ _ X Lb) as FV. rewrite EF in FV |- *. cbn [fst] in FV.
  destruct (oop_ok v L1) as (GT & OR & _). destruct (op_ok _ OR) as (T & _ & AL & _ & W & _).
  rewrite lenZ_app, lenZ_bits_of, gacts_bits_len by lia.
  destruct (cheapest (found_at h b)) as (op & acts & GT' & T' & U & M). rewrite <- FV, GT in GT'. apply Done_inj in GT'. subst op.
  rewrite T in T'. injection T' as <-. rewrite acts_size_width in *.
  rewrite (shortest_spec _ _ _ T U) by (auto; lia). reflexivity.
Qed.

(** * All blocks *)
Lemma rep_opt_size r : 0 <= r <= 63 -> lenZ (rep_bits_opt r) = 11 * ((r + 63) / 64).
Proof.
  intros H. unfold rep_bits_opt. destruct (Z.eqb_spec r 0) as [->|]; [reflexivity|].
  rewrite rep_bits_len. replace (r + 63) with (r - 1 + 1 * 64) by lia. rewrite Z.div_add, Z.div_small by lia. lia.
Qed.
Lemma repeats_split k r : repeats (64 * k + r) = 11 * k + repeats r.
Proof. unfold repeats. replace (64 * k + r + 63) with (r + 63 + k * 64) by lia. rewrite Z.div_add by lia. lia. Qed.
Lemma gloop_size blocks : Forall (fun b => length b = 8%nat) blocks -> forall pre st h key last rc k,
  (exists q, length pre = (8 * q)%nat) -> exact pre st h key -> length key = 8%nat -> 0 <= rc <= 63 ->
  let '(B, r) := gloop ostate obits onx st (length pre) blocks last rc in
  lenZ B + lenZ (rep_bits_opt r) + 11 * k = blocks_size h key last (64 * k + rc) blocks.
Proof.
  induction 1 as [|b bs Lb Hbs IH]; intros pre st h key last rc k [q Hq] X Lk Hrc; cbn [gloop blocks_size].
  - rewrite rep_opt_size, repeats_split by lia. unfold repeats. rewrite lenZ_nil. lia.
  - assert (LP : (length pre + 8)%nat = length (pre ++ b)) by (rewrite app_length; lia).
    assert (IH' : forall (c : bool) rc1 k1, 0 <= rc1 <= 63 ->
      let '(B, r) := gloop ostate obits onx (onx c st b (length pre)) (length pre + 8) bs (Some b) rc1 in
      let key' := if c then b else key in
      lenZ B + lenZ (rep_bits_opt r) + 11 * k1 = blocks_size (h ++ [(b, key')]) key' (Some b) (64 * k1 + rc1) bs).
    { intros c rc1 k1 R1. rewrite LP. apply IH; auto.
      - exists (S q). lia.
      - now apply (exact_nx c pre st h key b q).
      - destruct c; auto. }
    assert (SM : match last with Some l => num l =? num b | None => false end = same last b).
    { destruct last; [|reflexivity]. cbn [same]. rewrite Z.eqb_sym. reflexivity. }
    rewrite SM. destruct (same last b).
    + destruct (Z.leb_spec (rc + 1) 63).
      * specialize (IH' false (rc + 1) k ltac:(lia)). cbv zeta iota in IH'. replace (64 * k + rc + 1) with (64 * k + (rc + 1)) by lia. exact IH'.
      * specialize (IH' false 0 (k + 1) ltac:(lia)). cbv zeta iota in IH'.
        destruct (gloop _ _ _ _ _ bs _ 0) as [B r]. rewrite lenZ_app, rep_bits_len.
        replace (64 * k + rc + 1) with (64 * (k + 1) + 0) by lia. lia.
    + change (num b) with (be_val b). pose proof (rep_opt_size rc Hrc) as RO. fold (repeats rc) in RO.
      specialize (IH' (negb (be_val b =? 0)) 0 0 ltac:(lia)). cbv zeta in IH'.
      destruct (gloop _ _ _ _ _ bs _ 0) as [B r]. rewrite !lenZ_app, RO, repeats_split. unfold gblk.
      destruct (be_val b =? 0); cbn [negb] in IH'; cbv iota in IH'.
      * rewrite lenZ_bits_of. change (64 * 0 + 0) with 0 in IH'. lia.
      * rewrite (obits_size _ _ _ _ _ X Lb). change (64 * 0 + 0) with 0 in IH'. lia.
Qed.
Theorem opt_bits_size x : (length x mod 8 = 0)%nat -> lenZ (opt_bits x) = opt_size x.
Proof.
  intros Hm. unfold opt_bits, gbits, opt_size. fold (blocks_of x).
  assert (LB : Forall (fun b => length b = 8%nat) (blocks_of x)) by apply blocks_len.
  pose proof (gloop_size _ LB [] ostate_init [] (repeat 0 8) None 0 0 (ex_intro _ 0%nat eq_refl) exact_init eq_refl ltac:(lia)) as G.
  change (length (@nil Z)) with 0%nat in G. destruct (gloop ostate obits onx ostate_init 0 (blocks_of x) None 0) as [B r].
  rewrite !lenZ_app, !lenZ_bits_of. change (64 * 0 + 0) with 0 in G. lia.
Qed.
Lemma opt_size_out x : (length x mod 8 = 0)%nat -> lenZ (opt_out x) = words64 (opt_size x).
Proof. intros H. rewrite opt_out_length, <- opt_bits_size by auto. unfold padded_size, words64. lia. Qed.

(** * A recent block is found *)
Definition dup (l : list (list Z)) : history := map (fun b => (b, b)) l.
Lemma shortest_le avail op acts : template op = Some acts -> usable avail 0 acts = true -> shortest avail <= Z.of_nat (acts_size acts).
Proof.
  intros T U. unfold shortest. pose proof (template_range _ _ T) as R. set (step := fun (op : nat) (m : Z) => _).
  assert (G : forall l, In (Z.to_nat op) l -> fold_right step 64 l <= Z.of_nat (acts_size acts)).
  { induction l as [|k l IH]; intros I; [destruct I|]. cbn [fold_right]. set (m := fold_right step 64 l) in *. unfold step.
    destruct I as [->|I].
    - rewrite Z2Nat.id, T, U by lia. lia.
    - specialize (IH I). destruct (template (Z.of_nat k)); [destruct (usable avail 0 l0)|]; lia. }
  apply G, in_seq. lia.
Qed.
Lemma shortest_64 avail : shortest avail <= 64.
Proof. apply (shortest_le avail 0 [D 8]); reflexivity. Qed.
Lemma last_in_none es s : ~ In s (map snd es) -> last_in es s = None.
Proof.
  induction es as [|[v s'] es IH]; intros H; [reflexivity|]. cbn [last_in]. rewrite IH by (intros X; apply H; cbn; auto).
  destruct (Z.eqb_spec s' s); [|reflexivity]. exfalso. apply H. cbn; auto.
Qed.
Lemma last_in_split es1 v s es2 : ~ In s (map snd es2) -> last_in (es1 ++ (v, s) :: es2) s = Some (length es1).
Proof.
  intros H. induction es1 as [|[v' s'] es1 IH]; cbn [app last_in length].
  - rewrite last_in_none by auto. now rewrite Z.eqb_refl.
  - now rewrite IH.
Qed.
Definition all8 (h : history) : Prop := Forall (fun bf => length (fst bf) = 8%nat /\ length (snd bf) = 8%nat) h.
Lemma entered8 h : all8 h -> entered 8 h = map (fun bf => (num (fst bf), slot 8 (num (snd bf)))) h.
Proof.
  induction 1 as [|[b f] h [L1 L2] H IH]; [reflexivity|]. unfold entered in *. cbn [map concat fst snd] in *. rewrite IH.
  change (pieces_of 8 b) with [num (slice 0 8 b)]. change (pieces_of 8 f) with [num (slice 0 8 f)].
  assert (E : forall l : list Z, length l = 8%nat -> slice 0 8 l = l) by (intros l Hl; unfold slice; cbn [skipn]; apply firstn_all2; lia).
  rewrite !E by auto. reflexivity.
Qed.
(** A block is found if it was entered in its own slot and none of the blocks since, at most 255, was entered in that slot. *)
Lemma found_recent h1 b h2 : all8 (h1 ++ (b, b) :: h2) -> (length h2 < 256)%nat ->
  ~ In (slot 8 (num b)) (map (fun bf => slot 8 (num (snd bf))) h2) -> found_at (h1 ++ (b, b) :: h2) b 0 8 = true.
Proof.
  intros H8 L2 NI. unfold found_at, found. rewrite (entered8 _ H8).
  assert (Lb : length b = 8%nat). { apply Forall_app in H8. destruct H8 as [_ H8]. inversion H8 as [|? ? [X _] _]; exact X. }
  replace (slice 0 8 b) with b by (symmetry; unfold slice; cbn [skipn]; apply firstn_all2; lia).
  rewrite map_app. cbn [map fst snd]. rewrite last_in_split by (rewrite map_map; exact NI).
  rewrite !app_length, !map_length. cbn [length]. rewrite map_length.
  assert (NA : now_at (places 8) (length h1 + S (length h2)) (length h1) = length h1).
  { unfold now_at. change (places 8) with 256%nat. rewrite Nat.div_small by lia. lia. }
  rewrite NA. rewrite map_app, app_nth2; rewrite !map_length; [|lia]. rewrite Nat.sub_diag. cbn [map nth fst]. apply Z.eqb_refl.
Qed.

(** * Periodic data *)
Lemma concat_len8 (L : list (list Z)) : Forall (fun b => length b = 8%nat) L -> length (concat L) = (8 * length L)%nat.
Proof. induction 1 as [|b L Lb H IH]; [reflexivity|]. cbn [concat length]. rewrite app_length, IH. lia. Qed.
Lemma blocks_concat (L : list (list Z)) : Forall (fun b => length b = 8%nat) L -> blocks_of (concat L) = L.
Proof.
  intros H. unfold blocks_of.
  assert (LL : length (concat L) = (length L * 8)%nat).
  { induction H as [|b L Lb H IH]; [reflexivity|]. cbn [concat length]. rewrite app_length, IH. lia. }
  rewrite LL, Nat.div_mul by lia. clear LL. induction H as [|b L Lb H IH]; [reflexivity|].
  cbn [concat length seq map]. f_equal.
  - rewrite Nat.mul_0_r. unfold slice. cbn [skipn]. rewrite firstn_app, Lb, Nat.sub_diag, firstn_O, app_nil_r. apply firstn_all2. lia.
  - rewrite <- seq_shift, map_map. rewrite <- IH at 2. apply map_ext. intros k. unfold slice. f_equal.
    replace (8 * S k)%nat with (length b + 8 * k)%nat by lia. rewrite skipn_app, skipn_all2 by lia. cbn [app]. f_equal. lia.
Qed.
Lemma firstn_S_nth {A} (l : list A) k d : (k < length l)%nat -> firstn (S k) l = firstn k l ++ [nth k l d].
Proof. revert l. induction k as [|k IH]; intros [|x l] H; cbn in H; try lia; [reflexivity|]. cbn [firstn app nth]. now rewrite <- IH by lia. Qed.
Lemma skipn_nth {A} (l : list A) k d : (k < length l)%nat -> skipn k l = nth k l d :: skipn (S k) l.
Proof. revert l. induction k as [|k IH]; intros [|x l] H; cbn in H; try lia; [reflexivity|]. cbn [skipn nth]. rewrite IH by lia. reflexivity. Qed.
Section Period.
Variables (p : list (list Z)) (m : nat).
Hypothesis H8 : Forall (fun b => length b = 8%nat /\ num b <> 0) p.
Hypothesis HP : (2 <= length p <= 256)%nat.
Hypothesis HS : NoDup (map (fun b => slot 8 (num b)) p).
Let P := length p.
Let L := concat (repeat p m).
Lemma period_len : length L = (m * P)%nat.
Proof. unfold L. clear. induction m as [|k IH]; [reflexivity|]. cbn [repeat concat]. rewrite app_length, IH. reflexivity. Qed.
Lemma period_nth i : (i < length L)%nat -> nth i L [] = nth (i mod P) p [].
Proof.
  rewrite period_len. unfold L. revert i. induction m as [|k IH]; intros i Hi; [lia|]. cbn [repeat concat].
  destruct (Nat.lt_ge_cases i P) as [H|H].
  - rewrite app_nth1 by (exact H). now rewrite Nat.mod_small.
  - rewrite app_nth2 by (exact H). fold P. rewrite IH by nia.
    replace i with (i - P + 1 * P)%nat at 2 by lia. rewrite Nat.mod_add by lia. reflexivity.
Qed.
Lemma period_all : Forall (fun b => length b = 8%nat /\ num b <> 0) L.
Proof. unfold L. clear - H8. induction m as [|k IH]; [constructor|]. cbn [repeat concat]. apply Forall_app. auto. Qed.
Lemma period_slots i j : (i < j < length L)%nat -> (j < i + P)%nat -> slot 8 (num (nth i L [])) <> slot 8 (num (nth j L [])).
Proof.
  intros Hj HW E. rewrite !period_nth in E by lia.
  pose proof (Nat.mod_upper_bound i P ltac:(lia)) as Mi. pose proof (Nat.mod_upper_bound j P ltac:(lia)) as Mj.
  assert (EQ : (i mod P = j mod P)%nat).
  { pose proof (proj1 (NoDup_nth (map (fun b => slot 8 (num b)) p) (slot 8 (num []))) HS (i mod P)%nat (j mod P)%nat) as ND.
    rewrite !map_length in ND. rewrite !(map_nth (fun b => slot 8 (num b))) in ND. apply ND; auto. }
  pose proof (Nat.div_mod i P ltac:(lia)). pose proof (Nat.div_mod j P ltac:(lia)).
  assert (i / P < j / P \/ j / P <= i / P)%nat as [C|C] by lia; nia.
Qed.
Lemma period_found j : (P <= j < length L)%nat -> found_at (dup (firstn j L)) (nth j L []) 0 8 = true.
Proof.
  intros Hj. set (i := (j - P)%nat).
  assert (EQ : nth j L [] = nth i L []).
  { rewrite !period_nth by (unfold i; lia). f_equal. unfold i. replace j with (j - P + 1 * P)%nat at 1 by lia. now rewrite Nat.mod_add by lia. }
  assert (SP : firstn j L = firstn i L ++ nth i L [] :: firstn (P - 1) (skipn (S i) L)).
  { rewrite <- (firstn_skipn i L) at 1. rewrite firstn_app, firstn_length, Nat.min_l by (unfold i; lia).
    rewrite firstn_firstn, Nat.min_r by (unfold i; lia). f_equal.
    replace (j - i)%nat with (S (P - 1)) by (unfold i; lia). rewrite (skipn_nth L i []) by (unfold i; lia). reflexivity. }
  rewrite SP. unfold dup. rewrite map_app. cbn [map]. rewrite EQ. apply found_recent.
  - assert (F : Forall (fun b : list Z => length b = 8%nat) (firstn j L)).
    { apply Forall_firstn'. eapply Forall_impl; [|exact period_all]. intros a [X _]; exact X. }
    rewrite SP in F. unfold all8. rewrite <- (map_cons (fun b : list Z => (b, b))), <- map_app. apply Forall_map.
    eapply Forall_impl; [|exact F]. cbn. auto.
  - rewrite map_length, firstn_length. lia.
  - rewrite map_map. cbn [snd]. intros I. apply in_map_iff in I. destruct I as (b & E & I).
    apply (In_nth _ _ []) in I. destruct I as (k & K & EK). rewrite firstn_length, skipn_length in K.
    rewrite nth_firstn_gen in EK by lia. rewrite nth_skipn_gen in EK. subst b.
    apply (period_slots i (S i + k)%nat); unfold i in *; lia.
Qed.
Lemma period_size k : forall j key, (j + k = length L)%nat ->
  blocks_size (dup (firstn j L)) key (if (j =? 0)%nat then None else Some (nth (j - 1) L [])) 0 (skipn j L)
    <= 13 * Z.of_nat k + 56 * Z.of_nat (P - j).
Proof.
  induction k as [|k IH]; intros j key Hk.
  - rewrite skipn_all2 by lia. cbn [blocks_size]. change (repeats 0) with 0. lia.
  - rewrite (skipn_nth L j []) by lia. cbn [blocks_size]. set (b := nth j L []).
    assert (B : length b = 8%nat /\ num b <> 0).
    { pose proof period_all as A. rewrite Forall_forall in A. apply A. apply nth_In. lia. }
    destruct B as [Lb Nb].
    assert (SM : match (if (j =? 0)%nat then None else Some (nth (j - 1) L [])) with Some l => num l =? num b | None => false end = false).
    { destruct (Nat.eqb_spec j 0); [reflexivity|]. apply Z.eqb_neq. intros E.
      apply (period_slots (j - 1) j); try lia. now rewrite E. }
    rewrite SM. destruct (Z.eqb_spec (num b) 0); [contradiction|]. change (repeats 0) with 0.
    assert (EH : dup (firstn j L) ++ [(b, b)] = dup (firstn (S j) L)).
    { rewrite (firstn_S_nth L j []) by lia. unfold dup. now rewrite map_app. }
    rewrite EH. specialize (IH (S j) b ltac:(lia)). cbn [Nat.eqb] in IH. rewrite Nat.sub_succ, Nat.sub_0_r in IH. fold b in IH.
    assert (SZ : shortest (found_at (dup (firstn j L)) b) <= 8 + 56 * Z.of_nat (P - j) - 56 * Z.of_nat (P - S j)).
    { destruct (Nat.lt_ge_cases j P).
      - pose proof (shortest_64 (found_at (dup (firstn j L)) b)). lia.
      - pose proof (shortest_le (found_at (dup (firstn j L)) b) 0x19 [I 8] eq_refl) as S8. cbn [usable acts_size] in S8.
        unfold b in S8 at 1. rewrite period_found in S8 by lia. specialize (S8 eq_refl). change (Z.of_nat (index_bits 8 + 0)) with 8 in S8. lia. }
    lia.
Qed.
Lemma period_opt_size : opt_size (concat L) <= 69 * Z.of_nat P + 13 * (Z.of_nat (length L) - Z.of_nat P) + 37 \/ m = 0%nat.
Proof.
  destruct (Nat.eq_dec m 0) as [E0|E0]; [auto|]. left. unfold opt_size.
  assert (EB : map (fun k => slice (8 * k) 8 (concat L)) (seq 0 (length (concat L) / 8)) = L).
  { fold (blocks_of (concat L)). apply blocks_concat. eapply Forall_impl; [|exact period_all]. intros a [X _]; exact X. }
  rewrite EB. pose proof (period_size (length L) 0 (repeat 0 8) ltac:(lia)) as S. cbn [Nat.eqb firstn skipn dup map] in S.
  assert ((P <= length L)%nat) by (rewrite period_len; nia). lia.
Qed.
End Period.

(** * Recurring blocks *)
Section Recur.
Variable L : list (list Z).
Hypothesis H8 : Forall (fun b => length b = 8%nat /\ is_bytes b /\ num b <> 0) L.
Variable rec : nat -> bool.
Hypothesis Hrec : forall k, rec k = true -> recurs L k.
Lemma recur_found j : recurs L j -> found_at (dup (firstn j L)) (nth j L []) 0 8 = true.
Proof.
  intros (i & Hi & HW & EQ & NS).
  assert (SP : firstn j L = firstn i L ++ nth i L [] :: firstn (j - i - 1) (skipn (S i) L)).
  { rewrite <- (firstn_skipn i L) at 1. rewrite firstn_app, firstn_length, Nat.min_l by lia.
    rewrite firstn_firstn, Nat.min_r by lia. f_equal.
    replace (j - i)%nat with (S (j - i - 1)) by lia. rewrite (skipn_nth L i []) by lia. cbn [firstn]. f_equal. f_equal. lia. }
  rewrite SP. unfold dup. rewrite map_app. cbn [map]. rewrite <- EQ. apply found_recent.
  - assert (F : Forall (fun b : list Z => length b = 8%nat) (firstn j L)).
    { apply Forall_firstn'. eapply Forall_impl; [|exact H8]. intros a [X _]; exact X. }
    rewrite SP in F. unfold all8. rewrite <- (map_cons (fun b : list Z => (b, b))), <- map_app. apply Forall_map.
    eapply Forall_impl; [|exact F]. cbn. auto.
  - rewrite map_length, firstn_length. lia.
  - rewrite map_map. cbn [snd]. intros I. apply in_map_iff in I. destruct I as (b & E & I).
    apply (In_nth _ _ []) in I. destruct I as (k & K & EK). rewrite firstn_length, skipn_length in K.
    rewrite nth_firstn_gen in EK by lia. rewrite nth_skipn_gen in EK. subst b.
    apply (NS (S i + k)%nat ltac:(lia)). rewrite E, EQ. reflexivity.
Qed.
Fixpoint costs (j k : nat) : Z := match k with O => 0 | S k => (if rec j then 13 else 69) + costs (S j) k end.
Lemma repeats_le r : 0 <= r -> repeats r <= 13 * r.
Proof.
  intros H. unfold repeats. destruct (Z.eq_dec r 0) as [->|N]; [cbn; lia|].
  assert ((r + 63) / 64 <= r). { apply Z.div_le_upper_bound; lia. } lia.
Qed.
Lemma recur_size k : forall j key last r, (j + k = length L)%nat -> 0 <= r ->
  (j = 0%nat /\ last = None \/ (0 < j)%nat /\ last = Some (nth (j - 1) L []) /\ key = nth (j - 1) L []) ->
  blocks_size (dup (firstn j L)) key last r (skipn j L) <= 13 * r + costs j k.
Proof.
  induction k as [|k IH]; intros j key last r Hk Hr HL.
  - rewrite skipn_all2 by lia. cbn [blocks_size costs]. pose proof (repeats_le r Hr). lia.
  - rewrite (skipn_nth L j []) by lia. cbn [blocks_size costs]. set (b := nth j L []).
    assert (NTH : forall i, (i < length L)%nat -> length (nth i L []) = 8%nat /\ is_bytes (nth i L []) /\ num (nth i L []) <> 0).
    { intros i Hi. pose proof H8 as A. rewrite Forall_forall in A. apply A. now apply nth_In. }
    destruct (NTH j ltac:(lia)) as (Lb & Bb & Nb). fold b in Lb, Bb, Nb.
    assert (EH : dup (firstn j L) ++ [(b, b)] = dup (firstn (S j) L)).
    { rewrite (firstn_S_nth L j []) by lia. unfold dup. now rewrite map_app. }
    assert (C13 : 13 <= (if rec j then 13 else 69)) by (destruct (rec j); lia).
    assert (IHB : forall r1, 0 <= r1 -> blocks_size (dup (firstn (S j) L)) b (Some b) r1 (skipn (S j) L) <= 13 * r1 + costs (S j) k).
    { intros r1 R1. apply IH; auto; [lia|]. right. rewrite Nat.sub_succ, Nat.sub_0_r. split; [lia|auto]. }
    destruct (match last with Some l => num l =? num b | None => false end) eqn:SM.
    + destruct HL as [[-> ->]|(Hj & -> & ->)]; [discriminate|]. apply Z.eqb_eq in SM.
      destruct (NTH (j - 1)%nat ltac:(lia)) as (Lk & Bk & _).
      assert (EB : nth (j - 1) L [] = b) by (apply be_val_inj; auto; congruence). rewrite EB, EH.
      specialize (IHB (r + 1) ltac:(lia)). lia.
    + destruct (Z.eqb_spec (num b) 0); [contradiction|]. rewrite EH. specialize (IHB 0 ltac:(lia)).
      assert (SZ : 5 + shortest (found_at (dup (firstn j L)) b) <= if rec j then 13 else 69).
      { destruct (rec j) eqn:R.
        - pose proof (shortest_le (found_at (dup (firstn j L)) b) 0x19 [I 8] eq_refl) as S8. cbn [usable acts_size] in S8.
          unfold b in S8 at 1. rewrite recur_found in S8 by auto. specialize (S8 eq_refl). change (Z.of_nat (index_bits 8 + 0)) with 8 in S8. lia.
        - pose proof (shortest_64 (found_at (dup (firstn j L)) b)). lia. }
      pose proof (repeats_le r Hr). lia.
Qed.
End Recur.
Lemma costs_count rec k : forall j, costs rec j k = 69 * Z.of_nat k - 56 * Z.of_nat (length (filter rec (seq j k))).
Proof.
  induction k as [|k IH]; intros j; [reflexivity|]. cbn [costs seq filter]. rewrite IH. destruct (rec j); cbn [length]; lia.
Qed.
Lemma recur_opt_size L K : Forall (fun b => length b = 8%nat /\ is_bytes b /\ num b <> 0) L -> NoDup K -> Forall (recurs L) K ->
  opt_size (concat L) <= 69 * (Z.of_nat (length L) - Z.of_nat (length K)) + 13 * Z.of_nat (length K) + 37.
Proof.
  intros H8 ND HK. set (rec := fun k => existsb (Nat.eqb k) K).
  assert (R : forall k, rec k = true -> recurs L k).
  { intros k E. apply existsb_exists in E. destruct E as (k' & I & E). apply Nat.eqb_eq in E. subst k'. rewrite Forall_forall in HK. auto. }
  pose proof (recur_size L H8 rec R (length L) 0 (repeat 0 8) None 0 eq_refl ltac:(lia) ltac:(auto)) as S.
  cbn [firstn skipn dup map] in S. rewrite costs_count in S.
  assert (C : (length K <= length (filter rec (seq 0 (length L))))%nat).
  { apply NoDup_incl_length; auto. intros k I. apply filter_In. split.
    - rewrite Forall_forall in HK. destruct (HK k I) as (i & Hi & _). apply in_seq. lia.
    - unfold rec. apply existsb_exists. exists k. split; auto. apply Nat.eqb_refl. }
  unfold opt_size. fold (blocks_of (concat L)). rewrite blocks_concat.
  - lia.
  - eapply Forall_impl; [|exact H8]. intros a [X _]; exact X.
Qed.

(** * A zero block hides the block before it *)
Lemma last_in_app a b s : last_in (a ++ b) s = match last_in b s with Some k => Some (length a + k)%nat | None => last_in a s end.
Proof.
  induction a as [|[v s'] a IH]; cbn [app last_in length]; [destruct (last_in b s); reflexivity|].
  rewrite IH. destruct (last_in b s); reflexivity.
Qed.
Lemma last_in_some es s : In s (map snd es) -> exists k, last_in es s = Some k.
Proof.
  induction es as [|[v s'] es IH]; intros H; [destruct H|]. cbn [last_in]. destruct (last_in es s) as [k|] eqn:E; [eauto|].
  destruct H as [H|H]; [cbn in H; subst; rewrite Z.eqb_refl; eauto|]. destruct (IH H) as [k K]. discriminate.
Qed.
Lemma shortest_none avail : (forall o n, lk_pos o n = true -> avail o n = false) -> shortest avail = 64.
Proof.
  intros H. transitivity (shortest (fun _ _ => false)); [|vm_compute; reflexivity]. unfold shortest.
  assert (G : forall l, (forall k, In k l -> (k < 26)%nat) -> 
    fold_right (fun op m => match template (Z.of_nat op) with Some acts => if usable avail 0 acts then Z.min (Z.of_nat (acts_size acts)) m else m | None => m end) 64 l =
    fold_right (fun op m => match template (Z.of_nat op) with Some acts => if usable (fun _ _ => false) 0 acts then Z.min (Z.of_nat (acts_size acts)) m else m | None => m end) 64 l).
  { induction l as [|k l IH]; intros Hl; [reflexivity|]. cbn [fold_right]. rewrite IH by (intros; apply Hl; now right).
    destruct (op_ok (Z.of_nat k)) as (T & F & _ & AP & _). { specialize (Hl k (or_introl eq_refl)). lia. }
    rewrite T, (usable_ext avail (fun _ _ => false) 0 _ AP F H). reflexivity. }
  apply G. intros k Hk. apply in_seq in Hk. lia.
Qed.
Section Hide.
Variable A : list Z.
Hypothesis LA : length A = 8%nat.
Hypothesis BA : is_bytes A.
Hypothesis NA : Forall (fun v => v <> 0) (pieces_of 2 A).
Let Z8 : list Z := repeat 0 8.
Definition hide_hist (j : nat) : history := concat (repeat [(A, A); (Z8, A)] j).
Lemma concat_repeat_S {B} (l : list B) j : concat (repeat l (S j)) = concat (repeat l j) ++ l.
Proof. induction j as [|j IH]; [cbn; now rewrite app_nil_r|]. cbn [repeat concat] in *. rewrite IH at 1. now rewrite app_assoc. Qed.
Lemma hide_piece n o : lk_pos o n = true -> In (num (slice o n A)) (pieces_of n A) /\ num (slice o n A) <> 0 /\ pieces_of n Z8 = repeat 0 (length (pieces_of n A)) /\ (length (pieces_of n A) <= places n)%nat.
Proof.
  intros H. destruct A as [|a0 [|a1 [|a2 [|a3 [|a4 [|a5 [|a6 [|a7 [|]]]]]]]]]; try discriminate.
  unfold is_bytes, is_byte in BA. rewrite !Forall_cons_iff in BA. change (Forall (fun v => v <> 0) [256 * (256 * 0 + a0) + a1; 256 * (256 * 0 + a2) + a3; 256 * (256 * 0 + a4) + a5; 256 * (256 * 0 + a6) + a7]) in NA.
  rewrite !Forall_cons_iff in NA.
  unfold lk_pos in H. destruct n as [|[|[|[|[|[|[|[|[|]]]]]]]]]; try discriminate; rewrite ?orb_true_iff, ?Nat.eqb_eq in H;
    repeat match goal with H : _ \/ _ |- _ => destruct H as [H|H] end; subst o; unfold pieces_of, places; cbn -[Z.mul Z.add];
    (split; [tauto|]); (split; [lia|]); (split; [reflexivity|lia]).
Qed.
Lemma hide_found j o n : lk_pos o n = true -> found_at (hide_hist j) A o n = false.
Proof.
  intros H. destruct (hide_piece n o H) as (I & NZ & EZ & LP). unfold found_at, found, hide_hist.
  destruct j as [|j]; [reflexivity|]. rewrite concat_repeat_S.
  set (E := entered n (concat (repeat [(A, A); (Z8, A)] j)) ++ combine (pieces_of n A) (map (slot n) (pieces_of n A))).
  set (F := combine (pieces_of n Z8) (map (slot n) (pieces_of n A))).
  assert (EE : entered n (concat (repeat [(A, A); (Z8, A)] j) ++ [(A, A); (Z8, A)]) = E ++ F).
  { set (c := concat _). change (c ++ [(A, A); (Z8, A)]) with (c ++ [(A, A)] ++ [(Z8, A)]). rewrite app_assoc, !entered_snoc. reflexivity. }
  rewrite EE. set (v := num (slice o n A)) in *.
  assert (LF : length F = length (pieces_of n A)). { unfold F. rewrite EZ, combine_length, map_length, repeat_length. lia. }
  assert (SF : map snd F = map (slot n) (pieces_of n A)).
  { unfold F. rewrite EZ. clear. induction (pieces_of n A) as [|x l IH]; [reflexivity|]. cbn. now rewrite IH. }
  assert (FF : map fst F = repeat 0 (length (pieces_of n A))).
  { unfold F. rewrite EZ. apply map_fst_combine. now rewrite repeat_length, map_length. }
  destruct (last_in_some F (slot n v)) as [k K]. { rewrite SF. now apply in_map. }
  rewrite last_in_app, K. pose proof (last_in_lt _ _ _ K) as KL. rewrite app_length.
  assert (NT : now_at (places n) (length E + length F) (length E + k) = (length E + k)%nat).
  { unfold now_at. rewrite Nat.div_small by lia. lia. }
  rewrite NT, map_app, app_nth2; rewrite map_length; [|lia].
  replace (length E + k - length E)%nat with k by lia. rewrite FF.
  replace (nth k (repeat 0 (length (pieces_of n A))) 0) with 0 by (symmetry; apply nth_repeat).
  apply Z.eqb_neq. auto.
Qed.
Lemma hide_nz : num A <> 0.
Proof.
  destruct (hide_piece 8 0 eq_refl) as (_ & N & _). replace (slice 0 8 A) with A in N; auto.
  symmetry. unfold slice; cbn [skipn]. apply firstn_all2. lia.
Qed.
Lemma hide_size k : forall j key, (j = 0%nat \/ key = A) ->
  blocks_size (hide_hist j) key (if (j =? 0)%nat then None else Some Z8) 0 (concat (repeat [A; Z8] k)) = 74 * Z.of_nat k.
Proof.
  induction k as [|k IH]; intros j key Hj; [reflexivity|]. cbn [repeat concat app]. cbn [blocks_size].
  pose proof hide_nz as NZ. change (num Z8) with 0.
  assert (SM : match (if (j =? 0)%nat then None else Some Z8) with Some l => num l =? num A | None => false end = false).
  { destruct (j =? 0)%nat; [reflexivity|]. change (num Z8) with 0. apply Z.eqb_neq. auto. }
  rewrite SM. clear SM. destruct (Z.eqb_spec (num A) 0); [contradiction|].
  rewrite (shortest_none (found_at (hide_hist j) A)) by (intros; now apply hide_found).
  change (0 =? 0) with true. cbv iota. change (repeats 0) with 0.
  assert (EH : (hide_hist j ++ [(A, A)]) ++ [(Z8, A)] = hide_hist (S j)).
  { unfold hide_hist. rewrite concat_repeat_S, <- app_assoc. reflexivity. }
  rewrite EH. specialize (IH (S j) A ltac:(auto)). cbn [Nat.eqb] in IH. rewrite IH. lia.
Qed.
Lemma hide_opt_size m : opt_size (concat (repeat (A ++ Z8) m)) = 74 * Z.of_nat m + 37.
Proof.
  assert (E : concat (repeat (A ++ Z8) m) = concat (concat (repeat [A; Z8] m))).
  { induction m as [|k IH]; [reflexivity|]. cbn [repeat concat app]. rewrite IH. now rewrite app_assoc. }
  rewrite E. unfold opt_size. fold (blocks_of (concat (concat (repeat [A; Z8] m)))). rewrite blocks_concat.
  - pose proof (hide_size m 0 (repeat 0 8) ltac:(auto)) as S. cbn [Nat.eqb] in S. change (hide_hist 0) with (@nil (list Z * list Z)) in S. rewrite S. lia.
  - clear E. induction m as [|k IH]; [constructor|]. cbn [repeat concat app]. constructor; auto.
Qed.
End Hide.
