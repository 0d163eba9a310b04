(** Every step of the compression stream preserves its invariant. *)
From Coq Require Import ZArith List Bool Lia.
From Verif Require Import CBase BitsLemmas ConcLib BarrierModel SpecSync BarrierProofs StreamBlockModel CompStreamModel SpecStream CompInv CompProofs.
Import ListNotations.
Open Scope Z_scope.

Lemma Some_inj {A} (x y : A) : Some x = Some y -> x = y.
Proof. congruence. Qed.
Lemma bar_pass_eq b g : b_intr b = false -> bar_pass b g = negb (b_gen b =? g).
Proof. intros H. unfold bar_pass. rewrite H. apply orb_false_r. Qed.
Lemma bar_pass_self b : b_intr b = false -> bar_pass b (b_gen b) = false.
Proof. intros H. rewrite bar_pass_eq by auto. now rewrite Z.eqb_refl. Qed.

Lemma block_le a b : a mod BLOCK_SIZE = 0 -> b mod BLOCK_SIZE = 0 -> a < b -> a + BLOCK_SIZE <= b.
Proof.
  intros A B L. pose proof (Z.div_mod a BLOCK_SIZE ltac:(discriminate)). pose proof (Z.div_mod b BLOCK_SIZE ltac:(discriminate)). rewrite block_size in *. lia.
Qed.

Section Run.
Variables (n : nat) (s : cstate) (R H : Z) (op tr : list event).
Hypothesis N1 : (1 <= n)%nat.
Hypothesis N2 : Z.of_nat n < 2 ^ 32.
Hypothesis RU : running n s R H op tr.
Local Notation g := (c_g s).

Lemma step_fetch i l lo lt : nth_error (c_thr s) i = Some (CFetch l lo, lt) ->
  exists H', running n (mkC (set_cur g (u64 (g_cur g + BLOCK_SIZE))) (setnth i (CEpoch l lo (g_cur g), lt) (c_thr s)) (c_user s) (c_m s) (c_trace s)) R H' op tr.
Proof.
  intros Hi. pose proof RU as [CO TR CL TH RR RH RC RM RD RE RUS RB RI RP RZ]. pose proof CO as [L G CN CL2 IT Q TG K SZ].
  pose proof (Forall_nth_error _ _ _ _ TH Hi) as Ti. cbn [trun] in Ti. destruct Ti as (T1 & T2 & T3 & T4 & T5). 
  pose proof (lvo_facts g SZ) as (L1 & L2 & L3 & L4).
  assert (BC : cnt (over (gen g)) (c_thr s) <= Z.of_nat n) by (rewrite <- L; apply cnt_le).
  assert (CB : 0 <= cnt (over (gen g)) (c_thr s)) by apply cnt_nonneg.
  assert (W : u64 (g_cur g + BLOCK_SIZE) = g_cur g + BLOCK_SIZE).
  { unfold u64. apply Z.mod_small. rewrite block_size in *. unfold BIG in *. lia. }
  assert (JE : forall c, jump (set_cur g c) op = jump g op) by reflexivity.
  exists (if jump g op then H else H + BLOCK_SIZE).
  change (c_trace s) with ([] ++ c_trace s). change op with ([] ++ op) at 2.
  eapply run_upd with (t := (CFetch l lo, lt)) (H := H); eauto; rewrite ?W; cbn [app set_cur g_cur g_bar g_error]; rewrite ?JE.
  - constructor; reflexivity.
  - cbn [waitingc fst b2z]. lia.
  - intros E. rewrite E. rewrite block_size. split; [reflexivity|lia].
  - intros lo' _ A. rewrite block_size. lia.
  - cbn [trun set_cur g_trigger]. change (CompInv.lvo (set_cur _ _)) with (CompInv.lvo g). change (sh (set_cur _ _)) with (sh g).
    repeat split; auto; try lia. intros E. rewrite E. destruct RC as (_ & RC & _). rewrite (RC E), block_size. lia.
  - destruct (jump g op); [exact RH|]. rewrite block_size. split; [lia|]. rewrite <- block_size. rewrite <- Z.add_mod_idemp_r, Z.mod_same, Z.add_0_r by discriminate. tauto.
  - destruct RC as (C1 & C2 & C3). split; [rewrite block_size; lia|]. split; intros E; rewrite ?E; [rewrite (C2 E); reflexivity|]. specialize (C3 E). rewrite block_size. lia.
  - cbn [over fst b2z]. destruct (Z.leb_spec l (g_cur g)) as [V|V]; cbn [b2z].
    + lia.
    + destruct (jump g op) eqn:E; destruct RC as (C1 & C2 & C3); [specialize (C3 eq_refl); lia|]. specialize (C2 eq_refl).
      pose proof (block_le (g_cur g) (CompInv.lvo g) ltac:(rewrite C2; tauto) L2 ltac:(lia)). rewrite block_size in *. lia.
  - intros o. cbn [inflight fst b2z]. change (delivered o []) with 0. destruct (jump g op) eqn:E; destruct RC as (C1 & C2 & C3).
    + specialize (C3 eq_refl). destruct (Z.ltb_spec (g_cur g) l); [lia|]. rewrite andb_false_r. cbn [b2z]. lia.
    + specialize (C2 eq_refl). rewrite C2 in *. subst l. unfold taken.
      destruct (Z.ltb_spec o (CompInv.lvo g)) as [A|A].
      2:{ rewrite !andb_false_r, andb_false_l. cbn [b2z]. destruct (Z.eqb_spec o H); [|cbn; lia]. subst o. destruct (Z.ltb_spec H (CompInv.lvo g)); [lia|]. cbn; lia. }
      destruct (Z.leb_spec 0 o) as [A1|A1]; [|destruct (Z.eqb_spec o H); [lia|cbn; lia]].
      destruct (Z.eqb_spec (o mod BLOCK_SIZE) 0) as [A2|A2]; [|destruct (Z.eqb_spec o H); [subst; tauto|cbn; lia]]. cbn [andb].
      destruct (Z.ltb_spec o H) as [A3|A3].
      * destruct (Z.eqb_spec o H); [lia|]. destruct (Z.ltb_spec o (H + BLOCK_SIZE)); [|rewrite block_size in *; lia]. cbn. lia.
      * destruct (Z.eqb_spec o H) as [->|NE].
        -- destruct (Z.ltb_spec H (CompInv.lvo g)); [|lia]. destruct (Z.ltb_spec H (H + BLOCK_SIZE)); [|rewrite block_size in *; lia]. cbn. lia.
        -- pose proof (block_le H o ltac:(tauto) A2 ltac:(lia)). destruct (Z.ltb_spec o (H + BLOCK_SIZE)); [lia|]. cbn. lia.
  - rewrite RE. change (failures []) with 0. cbn [failing fst b2z]. f_equal. lia.
Qed.

Lemma step_err i l off lt : nth_error (c_thr s) i = Some (CErr l off, lt) ->
  running n (mkC (mkG (g_trigger g) (g_size g) (g_cb g) BIG true (g_fin g) (g_fcb g) (g_bar g) (g_quit g) (g_k g))
     (setnth i (CCall l off false, lt) (c_thr s)) (c_user s) (c_m s) (c_trace s)) R H op tr.
Proof.
  intros Hi. pose proof RU as [CO TR CL TH RR RH RC RM RD RE RUS RB RI RP RZ]. pose proof CO as [L G CN CL2 IT Q TG K SZ].
  pose proof (Forall_nth_error _ _ _ _ TH Hi) as Ti. cbn [trun] in Ti. destruct Ti as (T1 & T2 & T3 & T4). 
  pose proof (lvo_facts g SZ) as (L1 & L2 & L3 & L4). pose proof (cnt_nonneg (over (gen g)) (c_thr s)) as CB.
  change (c_trace s) with ([] ++ c_trace s). change op with ([] ++ op) at 1.
  eapply run_upd with (t := (CErr l off, lt)) (H := H); eauto; cbn [app g_cur g_bar g_error]; unfold jump; cbn [g_error orb]; try discriminate.
  - constructor; reflexivity.
  - cbn [waitingc fst b2z]. lia.
  - intros lo. unfold BIG in *. intros [A|A] _; lia.
  - cbn [trun]. auto.
  - unfold BIG. split; [lia|]. split; [discriminate|lia].
  - cbn [over fst b2z]. rewrite block_size. lia.
  - intros o. unfold inflight. cbn [fst]. change (delivered o []) with 0. lia.
  - change (failures []) with 0. cbn [failing fst b2z]. symmetry. apply Z.ltb_lt. pose proof (cnt_nonneg failing (c_thr s)). assert (0 <= failures op) by apply cnt_nonneg. lia.
Qed.

Lemma step_call i l off ok lt : nth_error (c_thr s) i = Some (CCall l off ok, lt) ->
  running n (mkC g (setnth i (CFetch l off, lt) (c_thr s)) (c_user s) (c_m s) (EBlock off ok :: c_trace s)) R H (EBlock off ok :: op) tr.
Proof.
  intros Hi. pose proof RU as [CO TR CL TH RR RH RC RM RD RE RUS RB RI RP RZ]. pose proof CO as [L G CN CL2 IT Q TG K SZ].
  pose proof (Forall_nth_error _ _ _ _ TH Hi) as Ti. cbn [trun] in Ti. destruct Ti as (T1 & T2 & T3 & T4). 
  pose proof (lvo_facts g SZ) as (L1 & L2 & L3 & L4).
  change (EBlock off ok :: c_trace s) with ([EBlock off ok] ++ c_trace s). change (EBlock off ok :: op) with ([EBlock off ok] ++ op).
  assert (JE : jump g ([EBlock off ok] ++ op) = jump g op) by reflexivity.
  assert (IF : forall o, inflight o (CCall l off ok, lt) = (o =? off)).
  { intros o. unfold inflight. cbn [fst]. destruct (Z.ltb_spec off l); [apply andb_true_r|lia]. }
  eapply run_upd with (t := (CCall l off ok, lt)) (H := H); eauto; rewrite ?JE; auto.
  - constructor; reflexivity.
  - cbn [waitingc fst b2z]. lia.
  - intros ->. split; [reflexivity|lia].
  - cbn [trun]. repeat split; auto; try lia.
    assert (TK : taken g H off = true).
    { specialize (RD off). assert (1 <= cnt (inflight off) (c_thr s)) by (eapply cnt_one_le; [exact Hi|]; rewrite IF; apply Z.eqb_refl).
      assert (0 <= delivered off op) by apply cnt_nonneg. destruct (taken g H off); unfold b2z in RD; [reflexivity|lia]. }
    unfold taken in TK. rewrite andb_true_iff in TK. destruct TK as [_ TK]. apply Z.ltb_lt in TK.
    destruct RC as (C1 & C2 & C3). destruct (jump g op); [specialize (C3 eq_refl)|specialize (C2 eq_refl)]; lia.
  - cbn [over fst b2z]. lia.
  - intros o. rewrite IF. unfold delivered, inflight. cbn [cnt fst b2z]. unfold b2z. lia.
  - rewrite RE. unfold failures at 2. cbn [cnt failing fst b2z]. destruct ok; cbn [b2z]; f_equal; lia.
  - repeat constructor.
  - eapply run_epochs; eauto.
Qed.

(** An arrival at the barrier that is not the last one. *)
Lemma step_arrive i t t' : nth_error (c_thr s) i = Some t -> b_count (g_bar g) + 1 <> Z.of_nat n ->
  waitingc (gen g) t = false -> waitingc (gen g) t' = true -> over (gen g) t' = over (gen g) t ->
  (forall o, inflight o t' = inflight o t) -> failing t' = failing t -> zero (gen g) t' ->
  (trun g (jump g op) R H t -> trun g (jump g op) R H t') ->
  running n (mkC (set_bar g (mkBar (b_count (g_bar g) + 1) (b_gen (g_bar g)) (b_intr (g_bar g)))) (setnth i t' (c_thr s)) (c_user s) (c_m s) (c_trace s)) R H op tr.
Proof.
  intros Hi B W W' O I F ZZ T. pose proof RU as [CO TR CL TH RR RH RC RM RD RE RUS RB RI RP RZ]. 
  change (c_trace s) with ([] ++ c_trace s). change op with ([] ++ op) at 1.
  assert (SA : same g (set_bar g (mkBar (b_count (g_bar g) + 1) (b_gen (g_bar g)) (b_intr (g_bar g))))) by (constructor; reflexivity).
  eapply run_upd with (t := t) (H := H); eauto; cbn [app]; change (jump (set_bar _ _) op) with (jump g op); auto.
  - rewrite W, W'. cbn [set_bar g_bar b_count b2z]. lia.
  - cbn [set_bar g_bar b_count]. pose proof (co_lt _ _ CO).  lia.
  - intros ->. split; [reflexivity|lia].
  - eapply trun_mono; [exact SA| | |apply T; exact (Forall_nth_error _ _ _ _ TH Hi)]; auto. intros ->. split; [reflexivity|lia].
  - rewrite O. cbn [set_bar g_cur]. lia.
  - intros o. rewrite I. change (delivered o []) with 0. lia.
  - rewrite F. cbn [set_bar g_error]. rewrite RE. change (failures []) with 0. f_equal. lia.
Qed.

Lemma run_thread i fail s' : cstep (AThread i fail) s = Some s' -> cinv n s'.
Proof.
  intros E. pose proof RU as [CO TR CL TH RR RH RC RM RD RE RUS RB RI RP RZ]. pose proof CO as [L G CN CL2 IT Q TG K SZ].
  cbn [cstep] in E. destruct (nth_error (c_thr s) i) as [t|] eqn:Hi; [|discriminate E].
  pose proof (Forall_nth_error _ _ _ _ TH Hi) as Ti. 
  assert (LN : lenZ (c_thr s) = Z.of_nat n) by (unfold lenZ; now rewrite L). rewrite LN in E.
  destruct t as [pc lt]. unfold tstep in E. cbn [trun] in Ti.
  destruct pc as [| |a| |l lo|l lo off|l off m|l off m g1 a|l off|l off|l off ok|a| |g1 a| |err pr|].
  - apply Some_inj in E. subst s'. apply (ci_run _ _ R H op tr). eapply run_local; eauto.
  - rewrite Q in E. apply Some_inj in E. subst s'. apply (ci_run _ _ R H op tr). eapply run_local; eauto.
  - destruct a; [discriminate E|]. destruct Ti as [T1 T2]. assert (NE : (g_trigger g =? lt) = false).
    { apply Z.eqb_neq. intros X. symmetry in X. rewrite T2 in X. revert X. now apply prev_neq. }
    rewrite NE in E. cbn [negb orb] in E. apply Some_inj in E. subst s'. apply (ci_run _ _ R H op tr). eapply run_local; eauto. intros _.  cbn [trun]. auto.
  - apply Some_inj in E. subst s'. apply (ci_run _ _ R H op tr). eapply run_local; eauto. intros _. cbn [trun]. destruct Ti as [T1 ->]. rewrite sh_0. repeat split; auto; lia.
  - apply Some_inj in E. subst s'. destruct (step_fetch i l lo lt Hi) as [H' X]. apply (ci_run _ _ R H' op tr). exact X.
  - apply Some_inj in E. subst s'. apply (ci_run _ _ R H op tr). eapply run_local; eauto. intros _.  cbn [trun]. destruct Ti as (T1 & T2 & T3 & T4 & T5 & T6).
    pose proof (lvo_facts g SZ) as (L1 & L2 & L3 & L4).
    rewrite (num_epochs_eq g (c_m s)) by (auto; lia). rewrite T5.
    assert (R <= ep g off). { rewrite <- T5. apply (sh_mono g (c_m s)); auto. lia. }
    repeat split; auto; lia.
  - destruct Ti as (T1 & T2 & T3 & T4 & T5 & T6). destruct (Z.eqb_spec m 0) as [M|M].
    + apply Some_inj in E. subst s'. apply (ci_run _ _ R H op tr). destruct (Z.leb_spec l off) as [V|V].
      * eapply run_local; eauto.
        -- unfold over. cbn [fst]. symmetry. apply Z.leb_le. exact V.
        -- intros o. unfold inflight. cbn [fst]. destruct (Z.ltb_spec off l); [lia|]. now rewrite andb_false_r.
        -- intros _. cbn [trun]. rewrite <- T5. subst l m. rewrite (ep_over g (c_m s)) by auto. repeat split; auto; try lia; try discriminate. intros J. specialize (T6 J). lia.
      * eapply run_local; eauto.
        -- unfold over. cbn [fst]. symmetry. apply Z.leb_gt. exact V.
        -- intros _. cbn [trun]. rewrite <- T5. subst l m. rewrite ep_valid by auto. repeat split; auto; lia.
    + unfold bar_arrive in E. destruct (Z.eqb_spec (b_count (g_bar g) + 1) (Z.of_nat n)) as [B|B]; cbv beta iota zeta in E; apply Some_inj in E; subst s'.
      * apply (ci_run _ _ (R + 1) H op tr). exact (run_epoch_last n s R H op tr i l off m lt RU N2 Hi M B).
      * rewrite bar_pass_self by exact IT. apply (ci_run _ _ R H op tr). eapply step_arrive; eauto.
        -- unfold waitingc. cbn [fst]. apply Z.eqb_refl.
        -- exact Logic.I.
        -- intros _. cbn [trun]. change (b_gen _) with (gen g). split; [|split; [|split; [|split; [|split]]]]; auto; [lia|]. left. split; [reflexivity|lia].
  - destruct a; [discriminate E|]. apply Some_inj in E. subst s'. apply (ci_run _ _ R H op tr). rewrite bar_pass_eq by exact IT. change (b_gen (g_bar g)) with (gen g).
    destruct Ti as (T1 & T2 & T3 & T4 & T5 & T6). destruct (Z.eqb_spec (gen g) g1) as [V|V]; cbn [negb].
    + eapply run_local; eauto. intros _.  cbn [trun]. split; [|split; [|split; [|split; [|split]]]]; auto.
      destruct T6 as [T6|(T6 & T7 & T8)]; [left; exact T6|]. exfalso. rewrite <- V in T6. symmetry in T6. revert T6. now apply prev_neq.
    + destruct T6 as [[T6 _]|(T6 & T7 & T8)]; [congruence|].
      eapply run_local; eauto.
      * unfold waitingc. cbn [fst].  symmetry. apply Z.eqb_neq. congruence.
      * intros _.  cbn [trun]. auto 10.
  - apply Some_inj in E. subst s'. apply (ci_run _ _ R H op tr). destruct fail; eapply run_local; eauto.
  - apply Some_inj in E. subst s'. apply (ci_run _ _ R H op tr). apply step_err. exact Hi.
  - destruct RB as [RB1 RB2]. rewrite RB1 in E. apply Some_inj in E. subst s'. apply (ci_run _ _ R H (EBlock off ok :: op) tr). apply step_call. exact Hi.
  - destruct a; [discriminate E|]. apply Some_inj in E. subst s'. apply (ci_run _ _ R H op tr). rewrite Q, orb_false_r. destruct Ti as (T1 & T2 & T3 & T4).
    destruct (g_fin g) eqn:F; eapply run_local; eauto; intros _; cbn [trun]; auto.
  - destruct Ti as (T1 & T2 & T3 & T4). unfold bar_arrive in E. destruct (Z.eqb_spec (b_count (g_bar g) + 1) (Z.of_nat n)) as [B|B]; cbv beta iota zeta in E; apply Some_inj in E; subst s'.
    + apply (ci_end _ _ (g_size g) op tr). exact (run_final_last n s R H op tr i lt RU Hi B).
    + rewrite bar_pass_self by exact IT. apply (ci_run _ _ R H op tr). eapply step_arrive; eauto.
      * unfold waitingc. cbn [fst]. apply Z.eqb_refl.
      * unfold over. cbn [fst]. apply Z.eqb_refl.
      * reflexivity.
      * intros _. cbn [trun]. left. change (b_gen _) with (gen g). auto.
  - destruct a; [discriminate E|]. apply Some_inj in E. subst s'. apply (ci_run _ _ R H op tr). rewrite bar_pass_eq by exact IT. change (b_gen (g_bar g)) with (gen g).
    destruct (Z.eqb_spec (gen g) g1) as [V|V]; cbn [negb].
    + eapply run_local; eauto. intros _.  cbn [trun]. destruct Ti as [T6|(T6 & T7 & T8)]; [left; exact T6|]. exfalso. rewrite <- V in T6. symmetry in T6. revert T6. now apply prev_neq.
    + destruct Ti as [[T6 _]|(T6 & T7 & T8 & T9)]; [congruence|].
      assert (W : (g1 =? gen g) = false) by (apply Z.eqb_neq; congruence).
      destruct i as [|i]; [specialize (RZ _ Hi); cbn in RZ; congruence|].
      eapply run_local; eauto; unfold waitingc, over; cbn [fst after_barrier]; auto.
      * cbn; auto.
      * intros _. cbn [trun]. auto.
  - contradiction.
  - contradiction.
  - contradiction.
Qed.
End Run.

Lemma common_upd n s i t t' g' u tr : common n s -> nth_error (c_thr s) i = Some t -> waitingc (gen (c_g s)) t' = waitingc (gen (c_g s)) t ->
  g_bar g' = g_bar (c_g s) -> g_quit g' = g_quit (c_g s) -> g_trigger g' = g_trigger (c_g s) -> g_k g' = g_k (c_g s) -> 0 <= g_size g' <= BIG ->
  common n (mkC g' (setnth i t' (c_thr s)) u (c_m s) tr).
Proof.
  intros [L G CN CL2 IT Q TG K SZ] Hi W B QQ T KK S. constructor; cbn [c_g c_thr c_user c_m c_trace]; unfold gen; rewrite ?B, ?QQ, ?T, ?KK; auto.
  - now rewrite setnth_length.
  - rewrite (cnt_setnth _ _ _ _ _ Hi). change (b_gen (g_bar (c_g s))) with (gen (c_g s)). rewrite W, CN. lia.
  - unfold kok in *. now rewrite KK.
Qed.
Lemma nth_setnth {A} i j (x y : A) l : nth_error (setnth i x l) j = Some y -> (i = j /\ y = x) \/ (i <> j /\ nth_error l j = Some y).
Proof.
  intros H. destruct (Nat.eq_dec i j) as [->|N]; [left|right; rewrite nth_setnth_other in H; auto]. split; auto.
  revert j H. induction l as [|z l IH]; intros [|j] H; cbn [setnth nth_error] in H; try discriminate; [congruence|]. eauto.
Qed.

Lemma end_local n s size op tr i t t' : ending n s size op tr -> nth_error (c_thr s) i = Some t ->
  waitingc (gen (c_g s)) t' = waitingc (gen (c_g s)) t -> tpost (c_g s) op i t' -> (i = 0%nat -> leader (c_g s) op (Some t')) ->
  ending n (mkC (c_g s) (setnth i t' (c_thr s)) (c_user s) (c_m s) (c_trace s)) size op tr.
Proof.
  intros [CO TR CL US TH OP LE EC ED] Hi W P LD. constructor; cbn [c_g c_thr c_user c_m c_trace]; auto.
  - eapply common_upd; eauto. apply (co_size _ _ CO).
  - intros k t0 Hk. apply nth_setnth in Hk. destruct Hk as [[<- ->]|[_ Hk]]; auto.
  - destruct i as [|i].
    + rewrite (nth_setnth_same 0 t' t) by exact Hi. auto.
    + rewrite nth_setnth_other by discriminate. exact LE.
Qed.

Lemma end_thread n s size op tr i fail s' : ending n s size op tr -> cstep (AThread i fail) s = Some s' -> cinv n s'.
Proof.
  intros EN E. pose proof EN as [CO TR CL US TH OP LE EC ED]. pose proof CO as [L G CN CL2 IT Q TG K SZ].
  cbn [cstep] in E. destruct (nth_error (c_thr s) i) as [t|] eqn:Hi; [|discriminate E].
  pose proof (TH _ _ Hi) as Ti. destruct t as [pc lt]. unfold tpost in Ti. cbn [fst snd] in Ti. destruct Ti as [-> Ti]. unfold tstep in E.
  assert (LT : i = 0%nat -> leader (c_g s) op (Some (pc, g_trigger (c_g s)))) by (intros ->; exact (eq_ind _ (fun o => leader _ op o) LE _ Hi)).
  destruct pc as [| |a| |l lo|l lo off|l off m|l off m g1 a|l off|l off|l off ok|a| |g1 a| |err pr|]; try contradiction.
  - apply Some_inj in E. subst s'. apply (ci_end _ _ size op tr). eapply end_local; eauto; try tauto. split; auto.
  - rewrite Q in E. apply Some_inj in E. subst s'. apply (ci_end _ _ size op tr). eapply end_local; eauto; try tauto. split; auto.
  - destruct a; [discriminate E|]. rewrite Z.eqb_refl, Q in E. apply Some_inj in E. subst s'. apply (ci_end _ _ size op tr). eapply end_local; eauto; try tauto. split; auto.
  - destruct Ti as [-> ->]. rewrite bar_pass_eq in E by exact IT. change (b_gen (g_bar (c_g s))) with (gen (c_g s)) in E.
    assert (NE : prev (gen (c_g s)) <> gen (c_g s)) by now apply prev_neq.
    destruct (Z.eqb_spec (gen (c_g s)) (prev (gen (c_g s)))); [congruence|]. cbn [negb] in E. apply Some_inj in E. subst s'. apply (ci_end _ _ size op tr). eapply end_local; eauto.
    + unfold waitingc. destruct i; cbn [after_barrier fst]; symmetry; now apply Z.eqb_neq.
    + split; [reflexivity|]. destruct i; cbn [after_barrier fst]; auto.
    + intros ->. exact (LT eq_refl).
  - subst i. rewrite Q in E. specialize (LT eq_refl). cbn in LT. destruct LT as (F1 & F2 & F3). apply Some_inj in E. subst s'. apply (ci_end _ _ size op tr).
    constructor; cbn [c_g c_thr c_user c_m c_trace app]; auto.
    + rewrite F2, F3. eapply common_upd; eauto; try reflexivity. unfold BIG. cbn [g_size]. lia.
    + intros k t0 Hk. apply nth_setnth in Hk. destruct Hk as [[<- ->]|[_ Hk]].
      * split; cbn [snd fst g_trigger]; auto.
      * exact (TH k t0 Hk).
    + rewrite (nth_setnth_same 0 _ _ _ Hi). cbn. unfold clean. cbn. auto.
    + cbn [g_cur]. change (lvo _) with 0. rewrite block_size. unfold BIG. lia.
  - destruct Ti as (-> & -> & ->). rewrite US in E. specialize (LT eq_refl). cbn in LT. destruct LT as (F1 & F2). apply Some_inj in E. subst s'.
    apply ci_idle. constructor; cbn [c_g c_thr c_user c_m c_trace app]; auto.
    + eapply common_upd; eauto.
    + apply nth_error_forall. intros k t0 Hk. apply nth_setnth in Hk. destruct Hk as [[<- ->]|[NE Hk]]; [reflexivity|].
      specialize (TH k t0 Hk). destruct TH as [T1 T2]. destruct t0 as [pc lt]. cbn [fst snd] in *. unfold tidle. cbn [fst snd]. destruct pc; auto; try tauto; exfalso; try congruence. destruct T2; congruence.
    + intros t0 Ht. rewrite (nth_setnth_same 0 _ _ _ Hi) in Ht. injection Ht as <-. exact Logic.I.
    + left. split; [reflexivity|]. split; [exact F2|]. rewrite TR. constructor; auto.
Qed.

Lemma idle_local n s i t t' : idling n s -> nth_error (c_thr s) i = Some t ->
  waitingc (gen (c_g s)) t' = waitingc (gen (c_g s)) t -> tidle (c_g s) t' -> (i = 0%nat -> zero (gen (c_g s)) t') ->
  idling n (mkC (c_g s) (setnth i t' (c_thr s)) (c_user s) (c_m s) (c_trace s)).
Proof.
  intros [CO TH ZZ CL US] Hi W P LD. constructor; cbn [c_g c_thr c_user c_m c_trace]; auto.
  - eapply common_upd; eauto. apply (co_size _ _ CO).
  - apply Forall_setnth; auto.
  - intros t0 Hk. apply nth_setnth in Hk. destruct Hk as [[-> ->]|[_ Hk]]; auto.
Qed.
Lemma idle_thread n s i fail s' : idling n s -> cstep (AThread i fail) s = Some s' -> cinv n s'.
Proof.
  intros ID E. pose proof ID as [CO TH ZZ CL US]. pose proof CO as [L G CN CL2 IT Q TG K SZ].
  cbn [cstep] in E. destruct (nth_error (c_thr s) i) as [t|] eqn:Hi; [|discriminate E].
  pose proof (Forall_nth_error _ _ _ _ TH Hi) as Ti. destruct t as [pc lt]. unfold tidle in Ti. cbn [fst snd] in Ti. unfold tstep in E.
  destruct pc as [| |a| |l lo|l lo off|l off m|l off m g1 a|l off|l off|l off ok|a| |g1 a| |err pr|]; try contradiction.
  - subst lt. apply Some_inj in E. subst s'. apply ci_idle. eapply idle_local; eauto; try reflexivity; intros _; exact Logic.I.
  - subst lt. rewrite Q in E. apply Some_inj in E. subst s'. apply ci_idle. eapply idle_local; eauto; try reflexivity; intros _; exact Logic.I.
  - subst lt. destruct a; [discriminate E|]. rewrite Z.eqb_refl, Q in E. apply Some_inj in E. subst s'. apply ci_idle. eapply idle_local; eauto; try reflexivity; intros _; exact Logic.I.
  - destruct Ti as (-> & -> & ->). rewrite bar_pass_eq in E by exact IT. change (b_gen (g_bar (c_g s))) with (gen (c_g s)) in E.
    assert (NE : prev (gen (c_g s)) <> gen (c_g s)) by now apply prev_neq.
    destruct (Z.eqb_spec (gen (c_g s)) (prev (gen (c_g s)))); [congruence|]. cbn [negb] in E. apply Some_inj in E. subst s'. apply ci_idle.
    destruct i as [|i]; [specialize (ZZ _ Hi); cbn in ZZ; congruence|]. eapply idle_local; eauto.
    + unfold waitingc. cbn [after_barrier fst]. symmetry. now apply Z.eqb_neq.
    + reflexivity.
    + discriminate.
Qed.

(** ** The epoch setting *)
Lemma epoch_loop_eq fuel : forall k m, 0 <= k < 2 ^ 32 -> 0 <= m < 2 ^ Z.of_nat fuel ->
  epoch_loop (S fuel) k m = Some (if m =? 0 then k else u32 (k + Z.log2 m + 1)).
Proof.
  induction fuel as [|f IH]; intros k m K M.
  - cbn [epoch_loop]. change (2 ^ Z.of_nat 0) with 1 in M. assert (m = 0) by lia. subst m. reflexivity.
  - cbn [epoch_loop]. destruct (Z.ltb_spec 0 m) as [P|P].
    2:{ assert (m = 0) by lia. subst m. reflexivity. }
    change (epoch_loop (S f) (u32 (k + 1)) (Z.shiftr m 1) = Some (if m =? 0 then k else u32 (k + Z.log2 m + 1))).
    assert (SR : Z.shiftr m 1 = m / 2) by (rewrite Z.shiftr_div_pow2 by lia; reflexivity).
    rewrite IH; [|apply u32_range|].
    2:{ rewrite SR. replace (Z.of_nat (S f)) with (Z.of_nat f + 1) in M by lia. rewrite Z.pow_add_r in M by lia. change (2 ^ 1) with 2 in M.
        split; [apply Z.div_pos; lia|]. apply Z.div_lt_upper_bound; lia. }
    f_equal. destruct (Z.eqb_spec m 0); [lia|]. rewrite SR. destruct (Z.eqb_spec (m / 2) 0) as [E|E].
    + assert (m = 1). { apply Z.div_small_iff in E; lia. } subst m. change (Z.log2 1) with 0. f_equal. lia.
    + assert (2 <= m). { destruct (Z_lt_dec m 2); [|lia]. rewrite Z.div_small in E by lia. lia. }
      assert (LG : Z.log2 m = Z.log2 (m / 2) + 1).
      { rewrite <- SR. rewrite Z.log2_shiftr by lia. assert (1 <= Z.log2 m) by (change 1 with (Z.log2 2); apply Z.log2_le_mono; lia). lia. }
      rewrite LG. unfold u32. replace ((k + 1) mod 2 ^ 32 + Z.log2 (m / 2) + 1) with ((k + 1) mod 2 ^ 32 + (Z.log2 (m / 2) + 1)) by lia.
      rewrite Zplus_mod_idemp_l. f_equal. lia.
Qed.
Lemma land_pred m : 0 < m < 2 ^ 64 -> Z.land m (u64 (m - 1)) = 0 -> m = 2 ^ Z.log2 m.
Proof.
  intros M E. pose proof (Z.log2_spec m ltac:(lia)) as [L1 L2]. pose proof (Z.log2_nonneg m).
  destruct (Z.eq_dec m (2 ^ Z.log2 m)) as [A|A]; auto. exfalso.
  assert (U : u64 (m - 1) = m - 1) by (unfold u64; apply Z.mod_small; lia). rewrite U in E.
  assert (LP : Z.log2 (m - 1) = Z.log2 m) by (apply Z.log2_unique; lia).
  assert (B : Z.testbit (Z.land m (m - 1)) (Z.log2 m) = true).
  { rewrite Z.land_spec, Z.bit_log2 by lia. rewrite <- LP. rewrite Z.bit_log2; [reflexivity|]. pose proof (Z.pow_pos_nonneg 2 (Z.log2 m)). lia. }
  rewrite E, Z.testbit_0_l in B. discriminate B.
Qed.
Lemma set_epoch_ok m k : 0 <= m < 2 ^ 64 -> set_epoch m = Some k -> (k = UINT_MAX /\ m = 0) \/ (20 <= k < 64 /\ m = 2 ^ k).
Proof.
  intros M E. unfold set_epoch in E. destruct ((m mod BLOCK_SIZE =? 0) && (Z.land m (u64 (m - 1)) =? 0)) eqn:C; [|discriminate E].
  apply andb_true_iff in C. destruct C as [C1 C2]. apply Z.eqb_eq in C1. apply Z.eqb_eq in C2.
  rewrite (epoch_loop_eq 64) in E; [|unfold UINT_MAX; lia|exact M]. apply Some_inj in E. subst k.
  destruct (Z.eqb_spec m 0) as [->|NZ]; [left; auto|right].
  pose proof (land_pred m ltac:(lia) C2) as P.
  assert (L : 0 <= Z.log2 m < 64) by (split; [apply Z.log2_nonneg|apply Z.log2_lt_pow2; lia]).
  assert (E : u32 (UINT_MAX + Z.log2 m + 1) = Z.log2 m).
  { unfold u32. replace (UINT_MAX + Z.log2 m + 1) with (Z.log2 m + 1 * 2 ^ 32) by (unfold UINT_MAX; lia). rewrite Z.mod_add by lia. apply Z.mod_small. lia. }
  rewrite E. split; [|exact P]. split; [|lia].
  destruct (Z_lt_dec (Z.log2 m) 20) as [X|X]; [exfalso|lia].
  rewrite P, Z.mod_small in C1; [|split; [apply Z.pow_nonneg; lia|rewrite block_size; apply Z.pow_lt_mono_r; lia]]. lia.
Qed.

(** ** The remaining actions *)
Lemma spurious_inv n s i s' : cinv n s -> cstep (ASpurious i) s = Some s' -> cinv n s'.
Proof.
  intros I E. cbn [cstep] in E. destruct (nth_error (c_thr s) i) as [t|] eqn:Hi; [|discriminate E].
  destruct (wake_any t) as [t'|] eqn:W; [|discriminate E]. apply Some_inj in E. subst s'. destruct I as [ID|R H op tr RU|size op tr EN].
  - apply ci_idle. pose proof ID as [CO TH ZZ CL US]. pose proof (Forall_nth_error _ _ _ _ TH Hi) as Ti.
    destruct t as [pc lt]. destruct pc as [| |a| |l lo|l lo off|l off m|l off m g1 a|l off|l off|l off ok|a| |g1 a| |err pr|]; try contradiction; try discriminate W; destruct a; try discriminate W.
    + cbn in W. apply Some_inj in W. subst t'. eapply idle_local; eauto. intros _. exact Logic.I.
    + cbn in Ti. destruct Ti as (_ & Ti & _). discriminate Ti.
  - apply (ci_run _ _ R H op tr). pose proof RU as [CO TR CL TH RR RH RC RM RD RE RUS RB RI RP RZ]. pose proof (Forall_nth_error _ _ _ _ TH Hi) as Ti.
    destruct t as [pc lt]. destruct pc as [| |a| |l lo|l lo off|l off m|l off m g1 a|l off|l off|l off ok|a| |g1 a| |err pr|]; try contradiction; try discriminate W; destruct a; try discriminate W; try contradiction; cbn in W; apply Some_inj in W; subst t'.
    + eapply run_local; eauto. cbn [trun]. intros (T1 & T2 & T3 & T4 & T5 & [T6|(_ & X & _)]); [|discriminate X]. split; [|split; [|split; [|split; [|split]]]]; auto.
    + eapply run_local; eauto. cbn [trun]. intros (T1 & T2 & T3 & T4). repeat split; auto; discriminate.
    + eapply run_local; eauto. cbn [trun]. intros [T6|(_ & X & _)]; [|discriminate X]. auto.
  - apply (ci_end _ _ size op tr). pose proof EN as [CO TR CL US TH OP LE EC ED]. pose proof (TH _ _ Hi) as Ti.
    destruct t as [pc lt]. unfold tpost in Ti. cbn [fst snd] in Ti. destruct Ti as [-> Ti].
    destruct pc as [| |a| |l lo|l lo off|l off m|l off m g1 a|l off|l off|l off ok|a| |g1 a| |err pr|]; try contradiction; try discriminate W; destruct a; try discriminate W.
    + cbn in W. apply Some_inj in W. subst t'. eapply end_local; eauto; [split; auto|]. intros ->. contradiction.
    + destruct Ti as [_ Ti]. discriminate Ti.
Qed.

Lemma waitingc_wake gn t : waitingc gn (wake_trig t) = waitingc gn t.
Proof. destruct t as [[] ?]; reflexivity. Qed.
Lemma over_wake gn t : over gn (wake_trig t) = over gn t.
Proof. destruct t as [[] ?]; reflexivity. Qed.
Lemma inflight_wake o t : inflight o (wake_trig t) = inflight o t.
Proof. destruct t as [[] ?]; reflexivity. Qed.
Lemma failing_wake t : failing (wake_trig t) = failing t.
Proof. destruct t as [[] ?]; reflexivity. Qed.
Lemma zero_wake gn t : zero gn (wake_trig t) <-> zero gn t.
Proof. destruct t as [[] ?]; reflexivity. Qed.
Lemma cnt_wake (p : thread -> bool) thr : (forall t, p (wake_trig t) = p t) -> cnt p (map wake_trig thr) = cnt p thr.
Proof. intros H. rewrite cnt_map. apply cnt_ext. rewrite Forall_forall. auto. Qed.

Lemma idle_user n s : idling n s -> c_user s = UIdle \/ c_user s = UStarting.
Proof. intros [_ _ _ _ [[-> _]|[-> _]]]; auto. Qed.
Lemma run_user n s R H op tr : running n s R H op tr -> c_user s = URunning \/ c_user s = UFinalizing.
Proof. intros RU. destruct (ru_user _ _ _ _ _ _ RU) as [[-> _]|[-> _]]; auto. Qed.

Lemma user_inv n a s s' : cinv n s -> (match a with AThread _ _ | ASpurious _ | AQuit1 | AQuit2 => False | _ => True end) -> cstep a s = Some s' -> cinv n s'.
Proof.
  intros I A E. destruct a as [| |m|size| |cancel| |]; try contradiction; cbn [cstep] in E.
  - destruct (c_user s) eqn:U; try discriminate E. destruct ((0 <=? m) && (m <? 2 ^ 64)) eqn:M; [|discriminate E].
    apply andb_true_iff in M. destruct M as [M1 M2]. apply Z.leb_le in M1. apply Z.ltb_lt in M2.
    destruct (set_epoch m) as [k|] eqn:SE; [|discriminate E]. apply Some_inj in E. subst s'.
    destruct I as [ID|R H op tr RU|sz op tr EN]; [|destruct (run_user _ _ _ _ _ _ RU); congruence|pose proof (en_user _ _ _ _ _ EN); congruence].
    apply ci_idle. destruct ID as [CO TH ZZ CL US]. destruct CO as [L G CN CL2 IT Q TG K SZ]. constructor; cbn [c_g c_thr c_user c_m c_trace]; auto.
    + constructor; cbn [c_g c_thr c_user c_m c_trace]; auto. apply (set_epoch_ok m k); auto.
    + destruct US as [US|[US _]]; [|congruence]. left. rewrite U in US. exact US.
  - destruct (c_user s) eqn:U; try discriminate E. destruct ((0 <=? size) && (size <=? 2 ^ 63)) eqn:M; [|discriminate E].
    apply andb_true_iff in M. destruct M as [M1 M2]. apply Z.leb_le in M1. apply Z.leb_le in M2. apply Some_inj in E. subst s'.
    destruct I as [ID|R H op tr RU|sz op tr EN]; [|destruct (run_user _ _ _ _ _ _ RU); congruence|pose proof (en_user _ _ _ _ _ EN); congruence].
    apply ci_idle. destruct ID as [CO TH ZZ CL US]. destruct CO as [L G CN CL2 IT Q TG K SZ]. constructor; cbn [c_g c_thr c_user c_m c_trace]; auto.
    + constructor; cbn [c_g c_thr c_user c_m c_trace]; auto.
    + destruct US as [(_ & _ & US)|[US _]]; [|congruence]. right. split; [reflexivity|]. split; [reflexivity|]. exists (c_trace s). auto.
  - destruct (c_user s) eqn:U; try discriminate E. apply Some_inj in E. subst s'.
    destruct I as [ID|R H op tr RU|sz op tr EN]; [|destruct (run_user _ _ _ _ _ _ RU); congruence|pose proof (en_user _ _ _ _ _ EN); congruence].
    destruct ID as [CO TH ZZ CL US]. destruct CO as [L G CN CL2 IT Q TG K SZ]. destruct US as [[US _]|(_ & CB & tr & TR & CT)]; [congruence|].
    destruct CL as (C1 & C2 & C3 & C4). apply (ci_run _ _ 0 0 [] tr).
    assert (PT : forall t, tidle (c_g s) t -> over (gen (c_g s)) t = false /\ (forall o, inflight o t = false) /\ failing t = false).
    { intros [[] ?] T; cbn in T; try contradiction; auto. split; auto. unfold over. cbn [fst]. apply Z.eqb_neq. destruct T as [-> _]. now apply prev_neq. }
    constructor; cbn [c_g c_thr c_user c_m c_trace g_cur g_error g_fin g_cb g_fcb g_bar g_size g_quit]; auto; try lia.
    + constructor; cbn [c_g c_thr c_user c_m c_trace]; auto.
      * now rewrite map_length.
      * rewrite cnt_wake by (intros; apply waitingc_wake). exact CN.
      * apply u32_range.
    + rewrite Forall_map. eapply Forall_impl; [|exact TH]. intros [pc lt] T. unfold tidle in T. cbn [fst snd] in T.
      destruct pc; try contradiction; cbn [wake_trig trun g_trigger]; rewrite ?prev_next by exact TG; auto.
      right. change (gen _) with (gen (c_g s)). tauto.
    + split; [lia|reflexivity].
    + unfold jump. cbn [g_error]. rewrite C2. change (cancels []) with 0. cbn [orb]. split; [lia|]. split; [auto|]. discriminate.
    + rewrite C1. pose proof (cnt_nonneg (over (gen (c_g s))) (map wake_trig (c_thr s))). unfold gen in *. cbn [g_bar]. rewrite block_size. unfold BIG. lia.
    + intros o. rewrite cnt_wake by (intros; apply inflight_wake). change (delivered o []) with 0. rewrite cnt_zero.
      2:{ eapply Forall_impl; [|exact TH]. intros t T. apply (PT t T). }
      assert (X : taken (mkG (u32 (g_trigger (c_g s) + 1)) (g_size (c_g s)) (g_cb (c_g s)) (g_cur (c_g s)) (g_error (c_g s)) (g_fin (c_g s)) (g_fcb (c_g s)) (g_bar (c_g s)) (g_quit (c_g s)) (g_k (c_g s))) 0 o = false); [|rewrite X; reflexivity].
      unfold taken. destruct (Z.leb_spec 0 o), (Z.ltb_spec o 0); try lia; rewrite ?andb_false_r; reflexivity.
    + rewrite cnt_wake by apply failing_wake. change (failures []) with 0. rewrite cnt_zero; [exact C2|]. eapply Forall_impl; [|exact TH]. intros t T. apply (PT t T).
    + split; [exact CB|]. congruence.
    + intros newer older o ok X. destruct newer; discriminate X.
    + intros t Ht. rewrite nth_error_map in Ht. destruct (nth_error (c_thr s) 0) as [t0|] eqn:E0; [|discriminate Ht]. cbn [option_map] in Ht. injection Ht as <-. apply zero_wake. change (gen _) with (gen (c_g s)). auto.
  - destruct (c_user s) eqn:U; try discriminate E. apply Some_inj in E. subst s'.
    destruct I as [ID|R H op tr RU|sz op tr EN]; [destruct (idle_user _ _ ID); congruence| |pose proof (en_user _ _ _ _ _ EN); congruence].
    pose proof RU as [CO TR CL TH RR RH RC RM RD RE RUS RB RI RP RZ]. pose proof CO as [L G CN CL2 IT Q TG K SZ].
    destruct RUS as [(_ & FF & FZ)|[X _]]; [|congruence]. pose proof (lvo_facts (c_g s) SZ) as (L1 & L2 & L3 & L4).
    apply (ci_run _ _ R H (EFinalize cancel :: op) tr).
    assert (CE : cancels (EFinalize cancel :: op) = b2z cancel + cancels op) by (unfold cancels; cbn [cnt]; destruct cancel; reflexivity).
    assert (CN0 : 0 <= cancels op) by apply cnt_nonneg.
    assert (JE : forall gg, g_error gg = g_error (c_g s) -> jump gg (EFinalize cancel :: op) = jump (c_g s) op || cancel).
    { intros gg X. unfold jump. rewrite X, CE. destruct (g_error (c_g s)); [reflexivity|]. cbn [orb]. destruct cancel; cbn [b2z orb]; [|rewrite orb_false_r; reflexivity].
      rewrite orb_true_r. apply Z.ltb_lt. lia. }
    constructor; cbn [c_g c_thr c_user c_m c_trace g_cur g_error g_fin g_cb g_fcb g_bar g_size g_quit]; auto; try lia; rewrite ?JE by reflexivity.
    + constructor; cbn [c_g c_thr c_user c_m c_trace]; auto.
      * now rewrite map_length.
      * rewrite cnt_wake by (intros; apply waitingc_wake). exact CN.
    + rewrite TR. reflexivity.
    + rewrite Forall_map. eapply Forall_impl; [|exact TH]. intros [pc lt] T.
      assert (JF : jump (c_g s) op || cancel = false -> jump (c_g s) op = false) by (destruct (jump (c_g s) op); auto).
      destruct pc as [| |[|]| |l lo|l lo off|l off m|l off m g1 a|l off|l off|l off ok|a| |g1 a| |err pr|]; cbn [wake_trig trun g_trigger g_fin] in *; try contradiction;
        change (CompInv.lvo (mkG _ _ _ _ _ _ _ _ _ _)) with (CompInv.lvo (c_g s)); change (gen (mkG _ _ _ _ _ _ _ _ _ _)) with (gen (c_g s));
        change (sh (mkG _ _ _ _ _ _ _ _ _ _)) with (sh (c_g s)); change (ep (mkG _ _ _ _ _ _ _ _ _ _)) with (ep (c_g s)); change (KK (mkG _ _ _ _ _ _ _ _ _ _)) with (KK (c_g s)); auto.
      * destruct T as (T1 & T2 & T3 & T4 & T5). repeat split; auto; try lia. cbn [g_cur]. destruct cancel; [|lia]. unfold BIG in *. lia.
      * destruct T as (T1 & T2 & T3 & T4 & T5 & T6). repeat split; auto; lia.
      * destruct T as (T1 & T2 & T3 & T4 & T5 & T6). repeat split; auto; lia.
      * destruct T as (T1 & T2 & T3 & T4 & T5 & T6). split; [|split; [|split; [|split; [|split]]]]; auto.
      * destruct T as (T1 & T2 & T3 & T4). repeat split; auto; discriminate.
      * destruct T as (T1 & T2 & T3 & T4). congruence.
      * destruct T as [T|T]; [left|right; exact T]. destruct T as (T1 & T2 & T3 & T4 & T5). auto 10.
    + destruct RC as (C1 & C2 & C3). destruct cancel; [rewrite orb_true_r; split; [unfold BIG; lia|split; [discriminate|lia]]|rewrite orb_false_r; auto].
    + rewrite cnt_wake by (intros; apply over_wake). change (gen (mkG _ _ _ _ _ _ _ _ _ _)) with (gen (c_g s)). destruct cancel; [|exact RM]. pose proof (cnt_nonneg (over (gen (c_g s))) (c_thr s)). rewrite block_size. lia.
    + intros o. rewrite cnt_wake by (intros; apply inflight_wake). exact (RD o).
    + rewrite cnt_wake by apply failing_wake. exact RE.
    + right. split; [reflexivity|]. split; [reflexivity|]. unfold finalizes in *. cbn [cnt]. lia.
    + split; [tauto|reflexivity].
    + intros newer older o ok X. destruct newer as [|e newer]; [discriminate X|]. injection X as <- X. exact (RP newer older o ok X).
    + intros t Ht. rewrite nth_error_map in Ht. destruct (nth_error (c_thr s) 0) as [t0|] eqn:E0; [|discriminate Ht]. cbn [option_map] in Ht. injection Ht as <-. apply zero_wake. change (gen _) with (gen (c_g s)). auto.
Qed.
