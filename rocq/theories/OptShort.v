(** Data whose pieces do not share slots: lemmas behind PropShortest.v. *)
From Coq Require Import ZArith List Bool Lia.
From Verif Require Import SpecBits SpecCrc Spec842 SpecCalls SpecOptimal SpecFinds CBase BitsLemmas
  SerialCompModel SerialDict SerialIdeal SerialComp SerialValid SerialFacts Optimal OptFinds.
Import ListNotations.
Open Scope Z_scope.

(** No two different pieces of [n] bytes have the same slot. *)
Definition sepv (n : nat) (vs : list Z) : Prop := forall v w, In v vs -> In w vs -> slot n v = slot n w -> v = w.
Definition own (n : nat) (vs : list Z) : list (Z * Z) := map (fun v => (v, slot n v)) vs.

Lemma last_own n vs s k0 : (k0 < length vs)%nat -> slot n (nth k0 vs 0) = s ->
  exists k, last_in (own n vs) s = Some k /\ (k0 <= k < length vs)%nat /\ slot n (nth k vs 0) = s.
Proof.
  revert k0. induction vs as [|v vs IH]; intros k0 Hk E; cbn [length] in Hk; [lia|]. cbn [own map last_in]. fold (own n vs).
  destruct k0 as [|k0].
  - cbn [nth] in E. destruct (last_in (own n vs) s) as [k|] eqn:L.
    + exists (S k). split; [reflexivity|]. pose proof (last_in_lt _ _ _ L) as K. unfold own in K. rewrite map_length in K. cbn [length]. split; [lia|].
      cbn [nth]. clear IH. revert k L K. induction vs as [|w vs IH]; intros k L K; cbn [length] in K; [lia|].
      cbn [own map last_in] in L. fold (own n vs) in L. destruct (last_in (own n vs) s) as [j|] eqn:L'.
      * injection L as <-. cbn [nth]. apply IH; auto; cbn [length] in *; lia.
      * destruct (Z.eqb_spec (slot n w) s); [|discriminate]. injection L as <-. cbn [nth]. assumption.
    + rewrite E, Z.eqb_refl. exists 0%nat. split; [reflexivity|]. cbn [length nth]. split; [lia|exact E].
  - cbn [nth] in E. destruct (IH k0 ltac:(lia) E) as (k & -> & K & SS). exists (S k). split; [reflexivity|]. cbn [length nth]. split; [lia|exact SS].
Qed.
Lemma own_found n vs v : sepv n (v :: vs) -> (exists k i, latest (places n) (length vs) i k /\ nth k vs 0 = v) ->
  hit (places n) (own n vs) (slot n v) v = true.
Proof.
  intros HS (k0 & i & (_ & K0) & E). destruct (last_own n vs (slot n v) k0 ltac:(lia) ltac:(now rewrite E)) as (k & L & K & S).
  unfold hit. rewrite L. unfold own at 1. rewrite map_length.
  assert (NA : now_at (places n) (length vs) k = k). { unfold now_at. rewrite Nat.div_small by lia. lia. }
  rewrite NA. unfold own. rewrite map_map. cbn [fst]. rewrite map_id. apply Z.eqb_eq. apply HS; auto.
  - right. now apply nth_In; lia.
  - now left.
Qed.
Lemma lookup_found ds pre h b n o : (n = 2 \/ n = 4 \/ n = 8)%nat -> dicts_ok pre ds -> entered n h = own n (items n pre) ->
  sepv n (num (slice o n b) :: items n pre) -> 0 <= lookup ds b o n -> found_at h b o n = true.
Proof.
  intros Hn HD HE HS HL. unfold found_at. rewrite found_hit, HE. apply own_found; auto. unfold lookup in HL.
  assert (DO : dict_ok (places n) (items n pre) (dict_of ds n)).
  { destruct HD as [d8 d4 d2]. destruct Hn as [->|[->| ->]]; cbn [dict_of]; assumption. }
  assert (PP : (0 < places n)%nat) by (destruct Hn as [->|[->| ->]]; cbn; lia).
  destruct (find_index_spec (places n) _ _ (be_val (slice o n b)) PP DO) as [(_ & k & L & E)|(X & _)]; [|lia]. eauto.
Qed.
Lemma cost_size acts : acts_cost acts = acts_size acts.
Proof. induction acts as [|a acts IH]; [reflexivity|]. cbn [acts_cost fold_right]. fold (acts_cost acts). rewrite IH. destruct a; reflexivity. Qed.

Definition own_hist (h : history) (pre : list Z) : Prop := forall n, (n = 2 \/ n = 4 \/ n = 8)%nat -> entered n h = own n (items n pre).
Definition sep_all (x : list Z) : Prop := forall n, (n = 2 \/ n = 4 \/ n = 8)%nat -> sepv n (items n x).
Lemma items_pre n pre b t q : (n = 2 \/ n = 4 \/ n = 8)%nat -> length pre = (8 * q)%nat -> length b = 8%nat ->
  items n (pre ++ b ++ t) = items n pre ++ pieces_of n b ++ items n t.
Proof.
  intros Hn Hq Lb. rewrite <- (items_block n b Lb Hn).
  assert (QP : exists c, length pre = (c * n)%nat) by (destruct Hn as [->|[->| ->]]; [exists (4 * q)%nat|exists (2 * q)%nat|exists q]; lia).
  assert (QB : exists c, length b = (c * n)%nat) by (destruct Hn as [->|[->| ->]]; [exists 4%nat|exists 2%nat|exists 1%nat]; lia).
  destruct QP as [c1 Q1]. destruct QB as [c2 Q2]. rewrite (items_app n pre _ c1 Q1) by lia. f_equal. apply (items_app n b t c2 Q2). lia.
Qed.
Lemma piece_in n o b : (n = 2 \/ n = 4 \/ n = 8)%nat -> (exists k, o = k * n)%nat -> (o + n <= 8)%nat -> In (num (slice o n b)) (pieces_of n b).
Proof.
  intros Hn (k & ->) Ho. unfold pieces_of. apply in_map_iff. exists k. split; auto. apply in_seq.
  destruct Hn as [->|[->| ->]]; [change (8 / 2)%nat with 4%nat|change (8 / 4)%nat with 2%nat|change (8 / 8)%nat with 1%nat]; lia.
Qed.
(** The references of a template are at multiples of their size. *)
Fixpoint aligned (b : nat) (acts : list action) : bool :=
  match acts with
  | [] => (b =? 8)%nat
  | D n :: r => aligned (b + n) r
  | I n :: r => ((n =? 2) || (n =? 4) || (n =? 8))%nat && (b mod n =? 0)%nat && aligned (b + n) r
  end.
Lemma rows_aligned : forallb (fun i => aligned 0 (row_acts i)) (seq 0 26) = true. Proof. vm_compute. reflexivity. Qed.
Lemma aligned_le acts : forall b, aligned b acts = true -> (b <= 8)%nat.
Proof.
  induction acts as [|[n|n] acts IH]; intros b H; cbn [aligned] in H.
  - apply Nat.eqb_eq in H. lia.
  - apply IH in H. lia.
  - rewrite !andb_true_iff in H. destruct H as [_ H]. apply IH in H. lia.
Qed.
Lemma block_size_le pre ds h b t q : length pre = (8 * q)%nat -> dicts_ok pre ds -> own_hist h pre -> length b = 8%nat ->
  sep_all (pre ++ b ++ t) -> num b <> 0 -> 5 + shortest (found_at h b) <= lenZ (blk_bits ds b).
Proof.
  intros Hq HD HO Lb HS NZ. unfold blk_bits. change (be_val b) with (num b). destruct (Z.eqb_spec (num b) 0) as [|_]; [contradiction|].
  unfold tmpl_bits. destruct (choose_ok 25 0 ds b ltac:(lia)) as [OK CB]. set (i := choose 25 0 ds b) in *.
  destruct (row_template i ltac:(lia)) as (T & _ & LI). unfold lenZ. rewrite app_length, bits_of_length, acts_bits_cost by (auto; lia).
  rewrite cost_size.
  enough (usable (found_at h b) 0 (row_acts i) = true) as U by (pose proof (shortest_le _ _ _ T U); lia).
  pose proof rows_aligned as RA. rewrite forallb_forall in RA. specialize (RA i ltac:(apply in_seq; lia)). cbv beta in RA.
  revert RA OK. generalize 0%nat. generalize (row_acts i). induction l as [|[n|n] acts IH]; intros o RA OK; [reflexivity| |].
  - cbn [aligned acts_ok usable act_ok act_len andb] in *. auto.
  - cbn [aligned acts_ok usable act_ok act_len] in *. rewrite !andb_true_iff in RA. destruct RA as [[Hn Ho] RA]. apply andb_true_iff in OK. destruct OK as [OK1 OK2].
    assert (Hn' : (n = 2 \/ n = 4 \/ n = 8)%nat) by (rewrite !orb_true_iff, !Nat.eqb_eq in Hn; tauto).
    rewrite IH by auto. rewrite andb_true_r. apply Z.geb_le in OK1. apply (lookup_found ds pre); auto.
    intros v w Hv Hw. apply HS; auto; rewrite (items_pre n pre b t q) by auto.
    + destruct Hv as [<-|Hv]; [|apply in_or_app; auto]. apply in_or_app. right. apply in_or_app. left. apply piece_in; auto.
      * exists (o / n)%nat. apply Nat.eqb_eq in Ho. pose proof (Nat.div_mod o n ltac:(lia)). lia.
      * apply aligned_le in RA. lia.
    + destruct Hw as [<-|Hw]; [|apply in_or_app; auto]. apply in_or_app. right. apply in_or_app. left. apply piece_in; auto.
      * exists (o / n)%nat. apply Nat.eqb_eq in Ho. pose proof (Nat.div_mod o n ltac:(lia)). lia.
      * apply aligned_le in RA. lia.
Qed.
Lemma own_snoc h pre b q : length pre = (8 * q)%nat -> length b = 8%nat -> own_hist h pre -> own_hist (h ++ [(b, b)]) (pre ++ b).
Proof.
  intros Hq Lb HO n Hn. rewrite entered_snoc, (HO n Hn). rewrite <- (app_nil_r b) at 3. rewrite (items_pre n pre b [] q) by auto.
  assert (N : items n [] = []) by (destruct Hn as [->|[->| ->]]; reflexivity). rewrite N, app_nil_r. unfold own. rewrite map_app. f_equal.
  clear. induction (pieces_of n b) as [|v vs IH]; [reflexivity|]. cbn [map combine]. now rewrite IH.
Qed.
Lemma repeats_pendc k rc : 0 <= rc <= 63 -> repeats (64 * k + rc) = 11 * k + pendc rc.
Proof. intros H. rewrite repeats_split. f_equal. rewrite <- rep_bits_opt_len. symmetry. now apply rep_opt_size. Qed.
Lemma blocks_size_le blocks : forall pre ds h key last rc k q,
  Forall (fun b => length b = 8%nat /\ is_bytes b /\ num b <> 0) blocks -> length pre = (8 * q)%nat -> dicts_ok pre ds -> own_hist h pre ->
  sep_all (pre ++ concat blocks) -> 0 <= rc <= 63 ->
  match last with Some l => l = key /\ length l = 8%nat /\ is_bytes l | None => True end ->
  blocks_size h key last (64 * k + rc) blocks <= 11 * k + fin_cost ds (length pre) blocks last rc.
Proof.
  induction blocks as [|b bs IH]; intros pre ds h key last rc k q HB Hq HD HO HS Hrc HL; cbn [blocks_size].
  - rewrite fin_nil, repeats_pendc by lia. lia.
  - apply Forall_cons_iff in HB. destruct HB as ((Lb & Bb & Nb) & HB).
    assert (LP : length (pre ++ b) = (length pre + 8)%nat) by (rewrite app_length; lia).
    assert (LQ : length (pre ++ b) = (8 * (q + 1))%nat) by lia.
    pose proof (next_ok pre ds b q Hq HD Lb) as OK. pose proof (own_snoc h pre b q Hq Lb HO) as HO'.
    cbn [concat] in HS. pose proof HS as HS'. rewrite app_assoc in HS'.
    assert (SM : match last with Some l => num l =? num b | None => false end = same last b).
    { destruct last; [|reflexivity]. cbn [same]. rewrite Z.eqb_sym. reflexivity. }
    rewrite SM. destruct (same last b) eqn:SB.
    + destruct last as [l|]; [|discriminate]. destruct HL as (-> & Ll & Bl). cbn [same] in SB. apply Z.eqb_eq in SB.
      assert (key = b) as -> by (apply be_val_inj; auto; congruence).
      rewrite fin_same by apply same_refl. destruct (Z.leb_spec (rc + 1) 63).
      * replace (64 * k + rc + 1) with (64 * k + (rc + 1)) by lia. rewrite <- LP. eapply IH; eauto; lia.
      * replace (64 * k + rc + 1) with (64 * (k + 1) + 0) by lia. rewrite <- LP.
        pose proof (IH (pre ++ b) _ _ b (Some b) 0 (k + 1) _ HB LQ OK HO' HS' ltac:(lia) (conj eq_refl (conj Lb Bb))). lia.
    + destruct (Z.eqb_spec (num b) 0) as [|_]; [contradiction|]. rewrite fin_diff by auto. rewrite repeats_pendc by lia.
      pose proof (IH (pre ++ b) _ _ b (Some b) 0 0 _ HB LQ OK HO' HS' ltac:(lia) (conj eq_refl (conj Lb Bb))) as I. change (64 * 0 + 0) with 0 in I.
      rewrite LP in I. pose proof (block_size_le pre ds h b (concat bs) q Hq HD HO Lb HS Nb). lia.
Qed.
Theorem opt_le_ideal x : is_bytes x -> (length x = 8 * (length x / 8))%nat -> Forall (fun b => num b <> 0) (blocks_of x) -> sep_all x ->
  opt_size x <= lenZ (ideal_bits x).
Proof.
  intros Bx L8 NZ HS.
  assert (T0 : tail_of x = []). { unfold tail_of. rewrite <- L8. apply skipn_all. }
  pose proof (blocks_tail x) as BT. rewrite T0, app_nil_r in BT.
  assert (HB : Forall (fun b => length b = 8%nat /\ is_bytes b /\ num b <> 0) (blocks_of x)).
  { pose proof (blocks_len x) as BL. rewrite Forall_forall in *. intros b Hb. split; auto. split; auto.
    unfold blocks_of in Hb. apply in_map_iff in Hb. destruct Hb as (k & <- & _). now apply is_bytes_slice. }
  pose proof (blocks_size_le (blocks_of x) [] init_dicts [] (repeat 0 8) None 0 0 0 HB eq_refl dicts_ok_init) as G.
  unfold opt_size. fold (blocks_of x). unfold ideal_bits. unfold fin_cost in G. change (length (@nil Z)) with 0%nat in G.
  destruct (ideal_loop init_dicts 0 (blocks_of x) None 0) as [B r]. rewrite T0. rewrite !lenZ_app, !lenZ_bits_of, rep_bits_opt_len.
  change (lenZ (short_bits [])) with 0. change (64 * 0 + 0) with 0 in G.
  assert (OH : own_hist [] []). { intros n Hn. destruct Hn as [->|[->| ->]]; reflexivity. }
  cbn [app] in G. rewrite <- BT in G. specialize (G OH HS ltac:(lia) Logic.I). lia.
Qed.
