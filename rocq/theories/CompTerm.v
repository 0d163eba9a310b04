(** A measure that every step of a thread of the compression stream decreases. *)
From Coq Require Import ZArith List Bool Lia.
From Verif Require Import CBase BitsLemmas ConcLib BarrierModel SpecSync BarrierProofs StreamBlockModel CompStreamModel SpecStream CompInv CompProofs CompStep CompMain.
Import ListNotations.
Open Scope Z_scope.

(** Blocks nobody has fetched. *)
Definition unfetched (g : shared) : Z := Z.max 0 (lvo g - g_cur g) / BLOCK_SIZE.
(** How often a thread will still arrive at the barrier in this operation. *)
Definition rem (g : shared) (t : thread) : Z :=
  if negb (snd t =? g_trigger g) then KK g + 1
  else match fst t with
  | CInit => KK g + 1
  | CFetch _ lo | CEpoch _ lo _ => KK g + 1 - sh g lo
  | CArrive _ off n | CBar _ off n _ _ => KK g + 1 - (ep g off - n)
  | CWork _ off | CErr _ off | CCall _ off _ => KK g + 1 - sh g off
  | CFin _ | CFinArrive => 1
  | _ => 0
  end.
(** Steps a thread can take without arriving at the barrier and without fetching a block. *)
Definition rank (g : shared) (t : thread) : Z :=
  let b := snd t =? g_trigger g in
  match fst t with
  | CStart => if b then 4 else 25
  | CLoop => if b then 3 else 24
  | CTrig false => if b then 2 else 23
  | CTrig true => if b then 1 else 22
  | CInit => 22
  | CFetch _ _ => 21
  | CEpoch l _ o => if l <=? o then 20 else 28
  | CBar l o _ _ false => if l <=? o then 19 else 27
  | CBar l o _ _ true => if l <=? o then 18 else 26
  | CArrive l o _ => if l <=? o then 17 else 25
  | CWork _ _ => 24
  | CErr _ _ => 23
  | CCall _ _ _ => 22
  | CFin false => 15
  | CFin true => 14
  | CFinArrive => 13
  | CFinBar _ false => if b then 12 else 26
  | CFinBar _ true => if b then 11 else 25
  | CReset => 10
  | CCallback _ _ => 9
  | CExit => 0
  end.
Definition weight (n : nat) (g : shared) (t : thread) : Z := (Z.of_nat n + 5) * rem g t + rank g t.
Definition meas (n : nat) (s : cstate) : Z := 10 * unfetched (c_g s) + sumf (weight n (c_g s)) (c_thr s).

Lemma unfetched_nonneg g : 0 <= unfetched g.
Proof. unfold unfetched. apply Z.div_pos; [lia|reflexivity]. Qed.
Lemma rank_range g t : 0 <= rank g t <= 28.
Proof. destruct t as [pc lt]. unfold rank. cbn [fst snd]. destruct pc as [| |[|]| | | | | l o m g1 [|]| | | |[|]| |g1 [|]| | |]; try lia; repeat (match goal with |- context [if ?c then _ else _] => destruct c end); lia. Qed.

Definition alike (g g' : shared) : Prop := g_trigger g' = g_trigger g /\ g_size g' = g_size g /\ g_k g' = g_k g.
Lemma weight_ext n g g' t : alike g g' -> weight n g' t = weight n g t.
Proof.
  intros (A & B & C). unfold weight, rem, rank, KK, ep, sh. rewrite A, B, C. reflexivity.
Qed.
Lemma meas_upd n s i t t' g' u m tr : nth_error (c_thr s) i = Some t -> alike (c_g s) g' ->
  10 * unfetched g' + weight n (c_g s) t' + 1 <= 10 * unfetched (c_g s) + weight n (c_g s) t ->
  meas n (mkC g' (setnth i t' (c_thr s)) u m tr) + 1 <= meas n s.
Proof.
  intros Hi A H. unfold meas. cbn [c_g c_thr]. rewrite (sumf_setnth _ _ _ _ _ Hi). rewrite !(weight_ext n (c_g s) g') by auto.
  assert (E : sumf (weight n g') (c_thr s) = sumf (weight n (c_g s)) (c_thr s)).
  { clear - A. induction (c_thr s) as [|x l IH]; cbn [sumf]; [reflexivity|]. rewrite (weight_ext n (c_g s) g') by auto. lia. }
  lia.
Qed.
Lemma wake_weight n g t : weight n g (wake_bar t) <= weight n g t + 1.
Proof.
  destruct t as [pc lt]. destruct pc as [| |a| |l lo|l lo off|l off m|l off m g1 a|l off|l off|l off ok|a| |g1 a| |err pr|]; try (cbn [wake_bar]; lia).
  - cbn [wake_bar]. unfold weight, rem, rank. cbn [fst snd]. destruct a; destruct (l <=? off); lia.
  - cbn [wake_bar]. unfold weight, rem, rank. cbn [fst snd]. destruct a; destruct (lt =? g_trigger g); lia.
Qed.
Lemma wake_sum n g l : sumf (weight n g) (map wake_bar l) <= sumf (weight n g) l + Z.of_nat (length l).
Proof.
  induction l as [|t l IH]; cbn [map sumf length]; [lia|]. pose proof (wake_weight n g t). lia.
Qed.
Lemma meas_wake n s i t t' g' u m tr : length (c_thr s) = n -> nth_error (c_thr s) i = Some t -> alike (c_g s) g' -> wake_bar t = t ->
  unfetched g' = unfetched (c_g s) ->
  weight n (c_g s) t' + Z.of_nat n + 1 <= weight n (c_g s) t ->
  meas n (mkC g' (setnth i t' (map wake_bar (c_thr s))) u m tr) + 1 <= meas n s.
Proof.
  intros L Hi A WT UE H. unfold meas. cbn [c_g c_thr]. rewrite (sumf_setnth _ i t' t) by (rewrite nth_error_map, Hi; cbn; now rewrite WT). rewrite !(weight_ext n (c_g s) g') by auto.
  assert (E : sumf (weight n g') (map wake_bar (c_thr s)) = sumf (weight n (c_g s)) (map wake_bar (c_thr s))).
  { clear - A. induction (map wake_bar (c_thr s)) as [|x l IH]; cbn [sumf]; [reflexivity|]. rewrite (weight_ext n (c_g s) g') by auto. lia. }
  pose proof (wake_sum n (c_g s) (c_thr s)). rewrite E, UE. lia.
Qed.

Lemma eqb_self_prev x : 0 <= x < 2 ^ 32 -> (prev x =? x) = false.
Proof. intros H. apply Z.eqb_neq. now apply prev_neq. Qed.
Lemma same_bar_alike g b : alike g (set_bar g b).
Proof. repeat split. Qed.
Lemma alike_refl g : alike g g.
Proof. repeat split. Qed.

Lemma run_meas n s R H op tr i fail s' : Z.of_nat n < 2 ^ 32 -> running n s R H op tr -> cstep (AThread i fail) s = Some s' -> meas n s' + 1 <= meas n s.
Proof.
  intros N2 RU E. pose proof RU as [CO TR CL TH RR RH RC RM RD RE RUS RB RI RP RZ]. pose proof CO as [L G CN CL2 IT Q TG K SZ].
  cbn [cstep] in E. destruct (nth_error (c_thr s) i) as [t|] eqn:Hi; [|discriminate E].
  pose proof (Forall_nth_error _ _ _ _ TH Hi) as Ti.
  assert (LN : lenZ (c_thr s) = Z.of_nat n) by (unfold lenZ; now rewrite L). rewrite LN in E.
  pose proof (lvo_facts (c_g s) SZ) as (L1 & L2 & L3 & L4).
  destruct t as [pc lt]. unfold tstep in E. cbn [trun] in Ti.
  destruct pc as [| |a| |l lo|l lo off|l off m|l off m g1 a|l off|l off|l off ok|a| |g1 a| |err pr|]; try contradiction.
  - apply Some_inj in E. subst s'. apply meas_upd with (t := (CStart, lt)); auto using alike_refl. unfold weight, rem, rank. cbn [fst snd]. destruct (lt =? g_trigger (c_g s)); cbn [negb]; lia.
  - rewrite Q in E. apply Some_inj in E. subst s'. apply meas_upd with (t := (CLoop, lt)); auto using alike_refl. unfold weight, rem, rank. cbn [fst snd]. destruct (lt =? g_trigger (c_g s)); cbn [negb]; lia.
  - destruct a; [discriminate E|]. destruct Ti as [T1 T2]. assert (NE : (g_trigger (c_g s) =? lt) = false) by (rewrite T2, Z.eqb_sym; now apply eqb_self_prev).
    rewrite NE in E. cbn [negb orb] in E. apply Some_inj in E. subst s'. apply meas_upd with (t := (CTrig false, lt)); auto using alike_refl. unfold weight, rem, rank. cbn [fst snd]. rewrite Z.eqb_refl, (Z.eqb_sym lt), NE. cbn [negb]. lia.
  - apply Some_inj in E. subst s'. apply meas_upd with (t := (CInit, lt)); auto using alike_refl. unfold weight, rem, rank. cbn [fst snd]. destruct Ti as [-> _]. rewrite Z.eqb_refl, sh_0. cbn [negb]. lia.
  - apply Some_inj in E. subst s'. destruct Ti as (-> & -> & T3 & T4 & T5). apply meas_upd with (t := (CFetch (lvo (c_g s)) lo, g_trigger (c_g s))); auto; [repeat split|].
    assert (BC : cnt (over (gen (c_g s))) (c_thr s) <= Z.of_nat n) by (rewrite <- L; apply cnt_le).
    assert (W : u64 (g_cur (c_g s) + BLOCK_SIZE) = g_cur (c_g s) + BLOCK_SIZE).
    { unfold u64. apply Z.mod_small. pose proof (cnt_nonneg (over (gen (c_g s))) (c_thr s)). rewrite block_size in *. unfold BIG in *. lia. }
    rewrite W. unfold unfetched. change (lvo (set_cur _ _)) with (lvo (c_g s)). cbn [set_cur g_cur]. unfold weight, rem, rank. cbn [fst snd]. rewrite Z.eqb_refl. cbn [negb].
    destruct (Z.leb_spec (lvo (c_g s)) (g_cur (c_g s))) as [V|V].
    + rewrite !Z.max_l by (rewrite ?block_size; lia). lia.
    + destruct RC as (C1 & C2 & C3). destruct (jump (c_g s) op); [specialize (C3 eq_refl); lia|]. specialize (C2 eq_refl).
      assert (CM : g_cur (c_g s) mod BLOCK_SIZE = 0) by (rewrite C2; apply RH). pose proof (block_le (g_cur (c_g s)) (lvo (c_g s)) CM L2 V). rewrite !Z.max_r by lia.
      replace (lvo (c_g s) - (g_cur (c_g s) + BLOCK_SIZE)) with (lvo (c_g s) - g_cur (c_g s) + -1 * BLOCK_SIZE) by lia. rewrite Z.div_add by discriminate. lia.
  - apply Some_inj in E. subst s'. destruct Ti as (-> & -> & T3 & T4 & T5 & T6). apply meas_upd with (t := (CEpoch (lvo (c_g s)) lo off, g_trigger (c_g s))); auto using alike_refl.
    rewrite (num_epochs_eq (c_g s) (c_m s)) by (auto; lia). unfold weight, rem, rank. cbn [fst snd]. rewrite Z.eqb_refl. cbn [negb].
    replace (ep (c_g s) off - (ep (c_g s) off - sh (c_g s) lo)) with (sh (c_g s) lo) by lia. destruct (lvo (c_g s) <=? off); lia.
  - destruct Ti as (-> & T2 & T3 & T4 & T5 & T6). destruct (Z.eqb_spec m 0) as [M|M].
    + subst m. apply Some_inj in E. subst s'. apply meas_upd with (t := (CArrive l off 0, g_trigger (c_g s))); auto using alike_refl. subst l. destruct (Z.leb_spec (lvo (c_g s)) off) as [V|V]; unfold weight, rem, rank; cbn [fst snd]; rewrite Z.eqb_refl; cbn [negb].
      * rewrite (ep_over (c_g s) (c_m s)) by auto. destruct (Z.leb_spec (lvo (c_g s)) off); lia.
      * rewrite ep_valid by auto. destruct (Z.leb_spec (lvo (c_g s)) off); lia.
    + unfold bar_arrive in E. destruct (Z.eqb_spec (b_count (g_bar (c_g s)) + 1) (Z.of_nat n)) as [B|B]; cbv beta iota zeta in E; apply Some_inj in E; subst s'.
      * apply meas_wake with (t := (CArrive l off m, g_trigger (c_g s))); auto using same_bar_alike. unfold weight, rem, rank. cbn [fst snd]. rewrite Z.eqb_refl. cbn [negb]. destruct (l <=? off); lia.
      * rewrite bar_pass_self by exact IT. apply meas_upd with (t := (CArrive l off m, g_trigger (c_g s))); auto using same_bar_alike. change (unfetched (set_bar _ _)) with (unfetched (c_g s)).
        unfold weight, rem, rank. cbn [fst snd]. rewrite Z.eqb_refl. cbn [negb]. destruct (l <=? off); lia.
  - destruct a; [discriminate E|]. apply Some_inj in E. subst s'. destruct Ti as (-> & T2 & _). apply meas_upd with (t := (CBar l off m g1 false, g_trigger (c_g s))); auto using alike_refl.
    destruct (bar_pass _ _); unfold weight, rem, rank; cbn [fst snd]; rewrite Z.eqb_refl; cbn [negb]; destruct (l <=? off); lia.
  - apply Some_inj in E. subst s'. destruct Ti as (-> & T2 & _). apply meas_upd with (t := (CWork l off, g_trigger (c_g s))); auto using alike_refl. destruct fail; unfold weight, rem, rank; cbn [fst snd]; rewrite Z.eqb_refl; cbn [negb]; lia.
  - apply Some_inj in E. subst s'. destruct Ti as (-> & T2 & _). apply meas_upd with (t := (CErr l off, g_trigger (c_g s))); auto; [repeat split|].
    unfold weight, rem, rank; cbn [fst snd]; rewrite Z.eqb_refl; cbn [negb].
    match goal with |- 10 * unfetched ?gg + _ + _ <= _ => assert (X : unfetched gg = 0) end.
    { unfold unfetched. cbn [g_cur]. change (lvo (mkG _ _ _ _ _ _ _ _ _ _)) with (lvo (c_g s)). rewrite Z.max_l by lia. reflexivity. }
    rewrite X. pose proof (unfetched_nonneg (c_g s)). lia.
  - destruct RB as [RB1 RB2]. rewrite RB1 in E. apply Some_inj in E. subst s'. destruct Ti as (-> & T2 & _). apply meas_upd with (t := (CCall l off ok, g_trigger (c_g s))); auto using alike_refl. unfold weight, rem, rank; cbn [fst snd]; rewrite Z.eqb_refl; cbn [negb]; lia.
  - destruct a; [discriminate E|]. apply Some_inj in E. subst s'. destruct Ti as (-> & T2 & _). apply meas_upd with (t := (CFin false, g_trigger (c_g s))); auto using alike_refl. destruct (_ || _); unfold weight, rem, rank; cbn [fst snd]; rewrite Z.eqb_refl; cbn [negb]; lia.
  - destruct Ti as (-> & T2 & T3 & T4). unfold bar_arrive in E. destruct (Z.eqb_spec (b_count (g_bar (c_g s)) + 1) (Z.of_nat n)) as [B|B]; cbv beta iota zeta in E; apply Some_inj in E; subst s'.
    + apply meas_wake with (t := (CFinArrive, g_trigger (c_g s))); auto using same_bar_alike. unfold weight, rem, rank. destruct i; cbn [fst snd after_barrier]; rewrite Z.eqb_refl; cbn [negb]; lia.
    + rewrite bar_pass_self by exact IT. apply meas_upd with (t := (CFinArrive, g_trigger (c_g s))); auto using same_bar_alike. change (unfetched (set_bar _ _)) with (unfetched (c_g s)).
      unfold weight, rem, rank. cbn [fst snd]. rewrite Z.eqb_refl. cbn [negb]. lia.
  - destruct a; [discriminate E|]. apply Some_inj in E. subst s'. apply meas_upd with (t := (CFinBar g1 false, lt)); auto using alike_refl. rewrite bar_pass_eq by exact IT. change (b_gen (g_bar (c_g s))) with (gen (c_g s)).
    destruct (Z.eqb_spec (gen (c_g s)) g1) as [V|V]; cbn [negb].
    + unfold weight, rem, rank. cbn [fst snd]. destruct (lt =? g_trigger (c_g s)); lia.
    + destruct Ti as [[T6 _]|(T6 & T7 & T8 & T9)]; [congruence|]. destruct i as [|i]; [specialize (RZ _ Hi); cbn in RZ; congruence|]. cbn [after_barrier].
      unfold weight, rem, rank. cbn [fst snd]. destruct (lt =? g_trigger (c_g s)); cbn [negb]; lia.
Qed.
Lemma idle_meas n s i fail s' : idling n s -> cstep (AThread i fail) s = Some s' -> meas n s' + 1 <= meas n s.
Proof.
  intros ID E. pose proof ID as [CO TH ZZ CL US]. pose proof CO as [L G CN CL2 IT Q TG K SZ].
  cbn [cstep] in E. destruct (nth_error (c_thr s) i) as [t|] eqn:Hi; [|discriminate E].
  pose proof (Forall_nth_error _ _ _ _ TH Hi) as Ti. destruct t as [pc lt]. unfold tidle in Ti. cbn [fst snd] in Ti. unfold tstep in E.
  destruct pc as [| |a| |l lo|l lo off|l off m|l off m g1 a|l off|l off|l off ok|a| |g1 a| |err pr|]; try contradiction.
  - apply Some_inj in E. subst s'. apply meas_upd with (t := (CStart, lt)); auto using alike_refl. unfold weight, rem, rank. cbn [fst snd]. destruct (lt =? g_trigger (c_g s)); cbn [negb]; lia.
  - rewrite Q in E. apply Some_inj in E. subst s'. apply meas_upd with (t := (CLoop, lt)); auto using alike_refl. unfold weight, rem, rank. cbn [fst snd]. destruct (lt =? g_trigger (c_g s)); cbn [negb]; lia.
  - subst lt. destruct a; [discriminate E|]. rewrite Z.eqb_refl, Q in E. apply Some_inj in E. subst s'. apply meas_upd with (t := (CTrig false, g_trigger (c_g s))); auto using alike_refl. unfold weight, rem, rank. cbn [fst snd]. rewrite Z.eqb_refl; cbn [negb]; lia.
  - destruct Ti as (-> & -> & ->). apply Some_inj in E. subst s'. apply meas_upd with (t := (CFinBar (prev (gen (c_g s))) false, g_trigger (c_g s))); auto using alike_refl.
    destruct (bar_pass _ _); [destruct i; cbn [after_barrier]|]; unfold weight, rem, rank; cbn [fst snd]; rewrite Z.eqb_refl; cbn [negb]; lia.
Qed.
Lemma end_meas n s size op tr i fail s' : ending n s size op tr -> cstep (AThread i fail) s = Some s' -> meas n s' + 1 <= meas n s.
Proof.
  intros EN E. pose proof EN as [CO TR CL US TH OP LE EC ED]. pose proof CO as [L G CN CL2 IT Q TG K SZ].
  cbn [cstep] in E. destruct (nth_error (c_thr s) i) as [t|] eqn:Hi; [|discriminate E].
  pose proof (TH _ _ Hi) as Ti. destruct t as [pc lt]. unfold tpost in Ti. cbn [fst snd] in Ti. destruct Ti as [-> Ti]. unfold tstep in E.
  destruct pc as [| |a| |l lo|l lo off|l off m|l off m g1 a|l off|l off|l off ok|a| |g1 a| |err pr|]; try contradiction.
  - apply Some_inj in E. subst s'. apply meas_upd with (t := (CStart, g_trigger (c_g s))); auto using alike_refl. unfold weight, rem, rank. cbn [fst snd]. rewrite Z.eqb_refl; cbn [negb]; lia.
  - rewrite Q in E. apply Some_inj in E. subst s'. apply meas_upd with (t := (CLoop, g_trigger (c_g s))); auto using alike_refl. unfold weight, rem, rank. cbn [fst snd]. rewrite Z.eqb_refl; cbn [negb]; lia.
  - destruct a; [discriminate E|]. rewrite Z.eqb_refl, Q in E. apply Some_inj in E. subst s'. apply meas_upd with (t := (CTrig false, g_trigger (c_g s))); auto using alike_refl. unfold weight, rem, rank. cbn [fst snd]. rewrite Z.eqb_refl; cbn [negb]; lia.
  - destruct Ti as (-> & ->). apply Some_inj in E. subst s'. apply meas_upd with (t := (CFinBar (prev (gen (c_g s))) false, g_trigger (c_g s))); auto using alike_refl.
    destruct (bar_pass _ _); [destruct i; cbn [after_barrier]|]; unfold weight, rem, rank; cbn [fst snd]; rewrite Z.eqb_refl; cbn [negb]; lia.
  - subst i. rewrite Q in E. apply Some_inj in E. subst s'. unfold meas. cbn [c_g c_thr].
    rewrite (sumf_setnth _ _ _ _ _ Hi).
    match goal with |- 10 * unfetched ?gg + _ + _ <= _ => set (g' := gg) end.
    assert (X : unfetched g' = 0) by reflexivity. rewrite X. pose proof (unfetched_nonneg (c_g s)).
    assert (Y : sumf (weight n g') (c_thr s) = sumf (weight n (c_g s)) (c_thr s)).
    { apply Z.le_antisymm; apply sumf_le, nth_error_forall; intros k t Hk; destruct (TH k t Hk) as [T1 T2]; destruct t as [pc lt]; cbn [fst snd] in *; subst lt; unfold weight, rem, rank; cbn [fst snd];
       change (g_trigger g') with (g_trigger (c_g s)); rewrite Z.eqb_refl; cbn [negb]; destruct pc; try contradiction; lia. }
    rewrite Y. unfold weight at 2 3. unfold rem, rank. cbn [fst snd]. change (g_trigger g') with (g_trigger (c_g s)). rewrite Z.eqb_refl. cbn [negb]. lia.
  - destruct Ti as (-> & -> & ->). apply Some_inj in E. subst s'. apply meas_upd with (t := (CCallback (0 <? failures op) true, g_trigger (c_g s))); auto using alike_refl. unfold weight, rem, rank. cbn [fst snd]. rewrite Z.eqb_refl; cbn [negb]; lia.
Qed.
Lemma thread_meas n s i fail s' : Z.of_nat n < 2 ^ 32 -> cinv n s -> cstep (AThread i fail) s = Some s' -> meas n s' + 1 <= meas n s.
Proof.
  intros N2 [ID|R H op tr RU|size op tr EN] E; [eapply idle_meas; eauto|eapply run_meas; eauto|eapply end_meas; eauto].
Qed.
Lemma spurious_meas n s i s' : cstep (ASpurious i) s = Some s' -> meas n s' = meas n s + 1.
Proof.
  intros E. cbn [cstep] in E. destruct (nth_error (c_thr s) i) as [t|] eqn:Hi; [|discriminate E].
  destruct (wake_any t) as [t'|] eqn:W; [|discriminate E]. apply Some_inj in E. subst s'. unfold meas. cbn [c_g c_thr]. rewrite (sumf_setnth _ _ _ _ _ Hi).
  enough (weight n (c_g s) t' = weight n (c_g s) t + 1) by lia.
  destruct t as [pc lt]. destruct pc as [| |a| |l lo|l lo off|l off m|l off m g1 a|l off|l off|l off ok|a| |g1 a| |err pr|]; try discriminate W; destruct a; try discriminate W; cbn in W; apply Some_inj in W; subst t'; unfold weight, rem, rank; cbn [fst snd].
  - destruct (lt =? g_trigger (c_g s)); lia.
  - destruct (l <=? off); lia.
  - lia.
  - destruct (lt =? g_trigger (c_g s)); lia.
Qed.
(** Bounds of the measure. *)
Lemma KK_bound g m : kok g m -> 0 <= g_size g <= BIG -> 0 <= KK g <= g_size g / BLOCK_SIZE.
Proof.
  intros K S. split; [apply (sh_nonneg g m); auto; lia|]. unfold KK, sh. destruct (g_k g =? UINT_MAX) eqn:E; [apply Z.div_pos; [lia|reflexivity]|].
  destruct K as [[K _]|[K _]]; [apply Z.eqb_neq in E; contradiction|]. rewrite Z.shiftr_div_pow2, block_size by lia. apply Z.div_le_compat_l; [lia|]. split; [lia|]. apply Z.pow_le_mono_r; lia.
Qed.
Lemma meas_bound n s : cinv n s -> 0 <= meas n s <= 10 * (g_size (c_g s) / BLOCK_SIZE) + Z.of_nat n * ((Z.of_nat n + 5) * (g_size (c_g s) / BLOCK_SIZE + 1) + 28).
Proof.
  intros I.
  assert (CO : common n s) by (destruct I as [ID|R H op tr RU|size op tr EN]; [apply ID|apply RU|apply EN]).
  assert (CU : 0 <= g_cur (c_g s)).
  { destruct I as [ID|R H op tr RU|size op tr EN]; [destruct (id_clean _ _ ID) as [-> _]; lia|apply (ru_cur _ _ _ _ _ _ RU)|exact (proj1 (en_cur _ _ _ _ _ EN))]. }
  pose proof CO as [L G CN CL2 IT Q TG K SZ]. pose proof (KK_bound _ _ K SZ) as KB. pose proof (lvo_facts _ SZ) as (L1 & L2 & L3 & L4).
  assert (W : Forall (fun t => 0 <= weight n (c_g s) t <= (Z.of_nat n + 5) * (g_size (c_g s) / BLOCK_SIZE + 1) + 28) (c_thr s)).
  { apply nth_error_forall. intros i t Hi. pose proof (rank_range (c_g s) t).
    enough (X : 0 <= rem (c_g s) t <= KK (c_g s) + 1) by (unfold weight; nia).
    unfold rem. destruct (negb (snd t =? g_trigger (c_g s))); [lia|].
    destruct I as [ID|R H' op tr RU|size op tr EN].
    - pose proof (Forall_nth_error _ _ _ _ (id_thr _ _ ID) Hi) as Ti. unfold tidle in Ti. destruct (fst t); try contradiction; lia.
    - pose proof (Forall_nth_error _ _ _ _ (ru_thr _ _ _ _ _ _ RU) Hi) as Ti. pose proof (ru_R _ _ _ _ _ _ RU) as RR. destruct t as [pc lt]. cbn [fst trun] in *.
      assert (LS : forall lo, lo = 0 \/ lo < lvo (c_g s) -> sh (c_g s) lo <= KK (c_g s)). { intros lo A. apply (sh_mono _ (c_m s)); auto. lia. }
      destruct pc as [| |a| |l lo|l lo off|l off m|l off m g1 a|l off|l off|l off ok|a| |g1 a| |err pr|]; try contradiction; try lia.
      + destruct Ti as (T1 & T2 & T3 & T4 & T5). specialize (LS lo T4). lia.
      + destruct Ti as (T1 & T2 & T3 & T4 & T5 & _). specialize (LS lo T4). lia.
      + destruct Ti as (T1 & T2 & T3 & T4 & T5 & _). pose proof (ep_le (c_g s) (c_m s) off K). lia.
      + destruct Ti as (T1 & T2 & T3 & T4 & T5 & T6). pose proof (ep_le (c_g s) (c_m s) off K). lia.
      + destruct Ti as (T1 & T2 & T3 & T4). specialize (LS off ltac:(lia)). lia.
      + destruct Ti as (T1 & T2 & T3 & T4). specialize (LS off ltac:(lia)). lia.
      + destruct Ti as (T1 & T2 & T3 & T4). specialize (LS off ltac:(lia)). lia.
    - destruct (en_thr _ _ _ _ _ EN i t Hi) as [_ Ti]. destruct (fst t); try contradiction; lia. }
  assert (S1 : 0 <= sumf (weight n (c_g s)) (c_thr s)) by (apply sumf_nonneg; eapply Forall_impl; [|exact W]; intros t A; apply A).
  assert (S2 : sumf (weight n (c_g s)) (c_thr s) <= ((Z.of_nat n + 5) * (g_size (c_g s) / BLOCK_SIZE + 1) + 28) * Z.of_nat n).
  { pose proof (sumf_const (weight n (c_g s)) ((Z.of_nat n + 5) * (g_size (c_g s) / BLOCK_SIZE + 1) + 28) (c_thr s)) as X. rewrite L in X. apply X. eapply Forall_impl; [|exact W]. intros t A; apply A. }
  assert (U : unfetched (c_g s) <= g_size (c_g s) / BLOCK_SIZE) by (unfold unfetched; apply Z.div_le_mono; [reflexivity|lia]).
  pose proof (unfetched_nonneg (c_g s)). unfold meas. lia.
Qed.

Lemma run_bound n l : (1 <= n)%nat -> Z.of_nat n < 2 ^ 32 -> forall s s', cinv n s -> Forall (fun a => is_thread a = true \/ is_spurious a = true) l ->
  run cstep l s = Some s' -> cinv n s' /\ cnt is_thread l + meas n s' <= meas n s + cnt is_spurious l.
Proof.
  intros N1 N2. induction l as [|a l IH]; intros s s' I F E; cbn [run cnt] in *.
  - injection E as <-. split; [exact I|lia].
  - destruct (cstep a s) as [s1|] eqn:E1; [|discriminate E]. inversion F as [|? ? F1 F2]; subst.
    assert (I1 : cinv n s1).
    { destruct a as [i fail|i| | | | | |]; try (destruct F1; discriminate).
      - destruct I as [ID|R H op tr RU|size op tr EN]; [eapply idle_thread; eauto|eapply run_thread; eauto|eapply end_thread; eauto].
      - eapply spurious_inv; eauto. }
    destruct (IH s1 s' I1 F2 E) as [I2 B]. split; [exact I2|].
    destruct a as [i fail|i| | | | | |]; try (destruct F1; discriminate); cbn [is_thread is_spurious].
    + pose proof (thread_meas n s i fail s1 N2 I E1). lia.
    + pose proof (spurious_meas n s i s1 E1). lia.
Qed.
