(** Every step of the decompression stream preserves its invariant. *)
From Coq Require Import ZArith List Bool Lia.
From Verif Require Import CBase BitsLemmas ConcLib BarrierModel SpecSync BarrierProofs DecompStreamModel SpecDStream DecompInv.
Import ListNotations.
Open Scope Z_scope.

Lemma dwaiting_busy gn b t : dwaiting gn t = true -> busy b t = false.
Proof. destruct t as [[] lt]; cbn; congruence. Qed.
Lemma drun_wait g t : drun g t -> dwaiting (dgen g) t = true -> 0 <= dgen g < 2 ^ 32 ->
  exists a, t = (DBar (dgen g) a, h_trigger g) /\ h_fin g = true /\ h_queue g = [].
Proof.
  intros T W G. destruct t as [[] lt]; cbn in W; try discriminate W. apply Z.eqb_eq in W. subst. cbn in T.
  destruct T as [(_ & -> & F & Q)|(X & _)]; [eauto|]. exfalso. symmetry in X. revert X. now apply prev_neq.
Qed.
Lemma common_user n s g' u tr : dcommon n s -> h_bar g' = h_bar (d_g s) -> h_quit g' = h_quit (d_g s) -> 0 <= h_trigger g' < 2 ^ 32 ->
  dcommon n (mkD g' (d_thr s) u tr).
Proof. intros [L G CN CL2 IT Q TG] B QQ T. constructor; cbn [d_g d_thr d_user d_trace]; unfold dgen; rewrite ?B, ?QQ; auto. Qed.
Lemma common_wake n s f g' u tr : (forall gn t, dwaiting gn (f t) = dwaiting gn t) -> dcommon n s -> h_bar g' = h_bar (d_g s) -> h_quit g' = h_quit (d_g s) -> 0 <= h_trigger g' < 2 ^ 32 ->
  dcommon n (mkD g' (map f (d_thr s)) u tr).
Proof.
  intros F [L G CN CL2 IT Q TG] B QQ T. constructor; cbn [d_g d_thr d_user d_trace]; unfold dgen; rewrite ?B, ?QQ; auto.
  - now rewrite map_length.
  - rewrite cnt_map, CN. apply cnt_ext. rewrite Forall_forall. intros t _. symmetry. apply F.
Qed.
Lemma wake_trig_wait gn t : dwaiting gn (dwake_trig t) = dwaiting gn t.
Proof. now destruct t as [[] lt]. Qed.
Lemma wake_queue_wait gn t : dwaiting gn (dwake_queue t) = dwaiting gn t.
Proof. now destruct t as [[] lt]. Qed.

Definition after_events (u : duphase) (evs : list devent) : duphase :=
  match evs with [VDone _] => (match u with VFinalizing => VIdle | u => u end) | _ => u end.

(** ** During an operation *)
Section Run.
Variables (n : nat) (s : dstate) (op tr : list devent).
Hypothesis N1 : (1 <= n)%nat.
Hypothesis RU : drunning n s op tr.
Local Notation g := (d_g s).

Lemma last_arrival i lt : nth_error (d_thr s) i = Some (DArrive, lt) -> b_count (h_bar g) + 1 = Z.of_nat n ->
  dending n (mkD (set_hbar g (mkBar 0 (u32 (b_gen (h_bar g) + 1)) (b_intr (h_bar g)))) (setnth i (dafter i, lt) (map dwake_bar (d_thr s))) (d_user s) (d_trace s)) op tr.
Proof.
  intros Hi B. pose proof RU as [CO TR CL TH LE EQ ER US FC SF ZE WO SH]. pose proof CO as [L G CN CL2 IT Q TG].
  pose proof (Forall_nth_error _ _ _ _ TH Hi) as Ti. cbn in Ti. destruct Ti as (T1 & T2 & T3).
  assert (OT : forall k t, nth_error (d_thr s) k = Some t -> k <> i -> exists a, t = (DBar (dgen g) a, h_trigger g)).
  { intros k t Hk NE. pose proof (Forall_nth_error _ _ _ _ TH Hk) as Tk.
    assert (W : dwaiting (dgen g) t = true) by (apply (cnt_others _ (d_thr s) i _ Hi) with (j := k); auto; rewrite <- CN, L; exact B).
    destruct (drun_wait _ _ Tk W G) as (a & -> & _). eauto. }
  assert (BZ : forall b, cnt (busy b) (d_thr s) = 0).
  { intros b. apply cnt_zero, nth_error_forall. intros k t Hk. destruct (Nat.eq_dec k i) as [->|NE]; [rewrite Hi in Hk; injection Hk as <-; reflexivity|].
    destruct (OT k t Hk NE) as (a & ->). reflexivity. }
  assert (Hi' : nth_error (map dwake_bar (d_thr s)) i = Some (DArrive, lt)) by (rewrite nth_error_map, Hi; reflexivity).
  assert (TH' : forall k t, nth_error (setnth i (dafter i, lt) (map dwake_bar (d_thr s))) k = Some t ->
     (k = i /\ t = (dafter i, lt)) \/ (k <> i /\ t = (DBar (dgen g) false, h_trigger g))).
  { intros k t Hk. apply dnth_setnth in Hk. destruct Hk as [[-> ->]|[NE Hk]]; [left; auto|right]. split; [auto|].
    rewrite nth_error_map in Hk. destruct (nth_error (d_thr s) k) as [t0|] eqn:Hk0; [|discriminate Hk]. injection Hk as <-.
    destruct (OT k t0 Hk0 ltac:(auto)) as (a & ->). reflexivity. }
  destruct US as [(_ & US & _)|(US & _ & UF)]; [congruence|].
  constructor; cbn [d_g d_thr d_user d_trace]; auto.
  - constructor; cbn [d_g d_thr d_user d_trace]; unfold dgen; cbn [set_hbar h_bar h_quit h_trigger b_gen b_count b_intr]; auto; try lia.
    + now rewrite setnth_length, map_length.
    + apply u32_range.
    + symmetry. apply cnt_zero, nth_error_forall. intros k t Hk. destruct (TH' k t Hk) as [[-> ->]|[_ ->]]; [destruct i; reflexivity|].
      unfold dwaiting. cbn [fst]. apply Z.eqb_neq. intros X. symmetry in X. revert X. now apply next_neq.
  - intros k t Hk. unfold dpost. cbn [set_hbar h_trigger]. destruct (TH' k t Hk) as [[-> ->]|[_ ->]]; cbn [fst snd]; (split; [auto|]); [destruct i; cbn; auto|].
    split; [|reflexivity]. unfold dgen at 2. cbn [set_hbar h_bar b_gen]. symmetry. now apply prev_next.
  - cbn [set_hbar h_ptr]. constructor; auto.
    + pose proof (dfailures_nonneg op). destruct (Z.ltb_spec 0 (dfailures op)); cbn; split; intros X; try congruence; lia.
    + intros OK C b. destruct (0 <? dfailures op) eqn:E; [discriminate OK|]. specialize (EQ ER C b). rewrite BZ, T3 in EQ. change (queued b []) with 0 in EQ. lia.
  - match goal with |- dleader _ _ ?x => destruct x as [t|] eqn:H0 end.
    + destruct (TH' 0%nat t H0) as [[<- ->]|[_ ->]]; unfold dleader; cbn [dafter set_hbar h_queue h_fin h_fcb h_error]; rewrite FC; auto.
    + apply nth_error_None in H0. rewrite setnth_length, map_length in H0. lia.
Qed.

Lemma run_thread i fail s' : dstep (BThread i fail) s = Some s' -> dinv n s'.
Proof.
  intros E. pose proof RU as [CO TR CL TH LE EQ ER US FC SF ZE WO SH]. pose proof CO as [L G CN CL2 IT Q TG].
  cbn [dstep] in E. destruct (nth_error (d_thr s) i) as [t|] eqn:Hi; [|discriminate E].
  pose proof (Forall_nth_error _ _ _ _ TH Hi) as Ti. destruct t as [pc lt]. unfold dtstep in E.
  destruct pc as [| |[]|[]|b|b| |g1 []| |err pr|]; cbv beta iota zeta in E; try discriminate E; try (cbn in Ti; contradiction).
  - apply dSome_inj in E. subst s'. eapply di_run. eapply drun_local; eauto; cbn; auto; discriminate.
  - rewrite Q in E. apply dSome_inj in E. subst s'. eapply di_run. eapply drun_local; eauto; cbn; auto; discriminate.
  - (* DTrig *) cbn in Ti. subst lt. rewrite (proj2 (Z.eqb_neq _ _)) in E by (intros X; symmetry in X; revert X; now apply prev_neq). cbn [negb orb] in E.
    apply dSome_inj in E. subst s'. eapply di_run. eapply drun_local; eauto; cbn; auto; try discriminate. split; [auto|discriminate].
  - (* DQueue *) cbn in Ti. destruct (h_queue g) as [|b q] eqn:EQU.
    + rewrite Q, orb_false_r in E. destruct (h_fin g) eqn:EF.
      * apply dSome_inj in E. subst s'. eapply di_run. eapply drun_local; eauto; cbn; auto; try discriminate. rewrite EF, EQU. tauto.
      * apply dSome_inj in E. subst s'. eapply di_run. eapply drun_local; eauto; cbn; auto; try discriminate. rewrite EF. tauto.
    + rewrite Q in E. apply dSome_inj in E. subst s'. eapply di_run. refine (drun_upd n s op tr i _ _ (set_queue g q) [] RU Hi _ _ _ _ _ _ _ _ _ _ _ _ _ _ _ _ _ _ _ _ _); cbn [set_queue h_trigger h_ptr h_fin h_fcb h_bar h_quit h_queue h_error app]; auto; try reflexivity.
      * cbn. lia.
      * rewrite EQU. discriminate.
      * rewrite EQU. unfold lenZ. cbn [length]. lia.
      * cbn. tauto.
      * intros b'. specialize (LE b'). try rewrite EQU in LE. unfold queued in *. cbn [cnt] in LE. change (bz (busy b' (DQueue false, lt))) with 0. change (busy b' (DHandle b, lt)) with (b' =? b). unfold bz. lia.
      * intros X C b'. specialize (EQ X C b'). try rewrite EQU in EQ. unfold queued in *. cbn [cnt] in EQ. change (bz (busy b' (DQueue false, lt))) with 0. change (busy b' (DHandle b, lt)) with (b' =? b). unfold bz. lia.
      * discriminate.
      * left. rewrite EQU. unfold lenZ, bz, checking. cbn [length fst negb]. lia.
  - (* DHandle *) cbn in Ti. destruct fail.
    + apply dSome_inj in E. subst s'. eapply di_run. eapply drun_local; eauto; cbn; auto; discriminate.
    + apply dSome_inj in E. subst s'. eapply di_run.
      assert (HB : 1 <= cnt (busy b) (d_thr s)) by (eapply cnt_one_le; [exact Hi|]; unfold busy; cbn [fst]; apply Z.eqb_refl).
      assert (HH : forall b', handled b' ([VHandled (h_ptr g) b true] ++ op) = bz (b' =? b) + handled b' op) by reflexivity.
      refine (drun_upd n s op tr i _ _ g [VHandled (h_ptr g) b true] RU Hi _ _ _ _ _ _ _ _ _ _ _ _ _ _ _ _ _ _ _ _ _); auto; try reflexivity; try lia.
      * cbn. lia.
      * cbn. intros _. split; [exact Ti|discriminate].
      * intros b'. specialize (LE b'). rewrite HH. change (busy b' (DHandle b, lt)) with (b' =? b). change (bz (busy b' (DQueue false, lt))) with 0. lia.
      * intros X C b'. specialize (EQ X C b'). rewrite HH. change (busy b' (DHandle b, lt)) with (b' =? b). change (bz (busy b' (DQueue false, lt))) with 0. lia.
      * cbn [app]. apply so_far_handled; [exact SF|]. specialize (LE b). pose proof (queued_nonneg b (h_queue g)). lia.
      * cbn. discriminate.
      * left. cbn. lia.
  - (* DFail *) cbn in Ti. apply dSome_inj in E. subst s'. eapply di_run.
    assert (HB : 1 <= cnt (busy b) (d_thr s)) by (eapply cnt_one_le; [exact Hi|]; unfold busy; cbn [fst]; apply Z.eqb_refl).
    assert (HH : forall b', handled b' ([VHandled (h_ptr g) b false] ++ op) = bz (b' =? b) + handled b' op) by reflexivity.
    refine (drun_upd n s op tr i _ _ _ [VHandled (h_ptr g) b false] RU Hi _ _ _ _ _ _ _ _ _ _ _ _ _ _ _ _ _ _ _ _ _); cbn [h_trigger h_ptr h_fin h_fcb h_bar h_quit h_queue h_error]; auto; try reflexivity.
    + cbn. lia.
    + change (lenZ (@nil Z)) with 0. apply lenZ_nonneg.
    + cbn. intros _. split; [exact Ti|discriminate].
    + intros b'. specialize (LE b'). rewrite HH. pose proof (queued_nonneg b' (h_queue g)). change (queued b' []) with 0. change (busy b' (DFail b, lt)) with (b' =? b). change (bz (busy b' (DQueue false, lt))) with 0. lia.
    + intros X. discriminate X.
    + change (dfailures ([VHandled (h_ptr g) b false] ++ op)) with (1 + dfailures op). pose proof (dfailures_nonneg op). symmetry. apply Z.ltb_lt. lia.
    + cbn [app]. apply so_far_handled; [exact SF|]. specialize (LE b). pose proof (queued_nonneg b (h_queue g)). lia.
  - (* DArrive *) unfold bar_arrive in E. cbv zeta in E. destruct (Z.eqb_spec (b_count (h_bar g) + 1) (lenZ (d_thr s))) as [EL|NL].
    + apply dSome_inj in E. subst s'. eapply di_end. apply last_arrival; auto. unfold lenZ in EL. rewrite L in EL. exact EL.
    + rewrite dbar_pass in E by exact IT. cbn [b_gen] in E. rewrite Z.eqb_refl in E. cbn [negb] in E. apply dSome_inj in E. subst s'. eapply di_run.
      unfold lenZ in NL. rewrite L in NL. cbn in Ti. destruct Ti as (T1 & T2 & T3).
      refine (drun_upd n s op tr i _ _ _ [] RU Hi _ _ _ _ _ _ _ _ _ _ _ _ _ _ _ _ _ _ _ _ _); cbn [set_hbar h_trigger h_ptr h_fin h_fcb h_bar h_quit h_queue h_error app]; auto; try reflexivity; try lia.
      * unfold bz, dwaiting, dgen. cbn [fst b_count]. rewrite Z.eqb_refl. lia.
      * cbn [b_count]. lia.
      * intros _. cbn. left. auto.
      * intros b'. specialize (LE b'). cbn. lia.
      * intros X C b'. specialize (EQ X C b'). cbn. lia.
  - (* DBar *) rewrite dbar_pass in E by exact IT. apply dSome_inj in E. subst s'. change (b_gen (h_bar g)) with (dgen g). cbn in Ti.
    destruct Ti as [(-> & T1 & T2 & T3)|(-> & _ & T3)].
    + rewrite Z.eqb_refl. cbn [negb]. eapply di_run. eapply drun_local; eauto; try discriminate; cbn; auto.
    + rewrite (proj2 (Z.eqb_neq (dgen g) _)) by (intros X; symmetry in X; revert X; now apply prev_neq). cbn [negb].
      destruct i as [|i].
      * exfalso. specialize (ZE _ Hi). cbn in ZE. revert ZE. now apply prev_neq.
      * eapply di_run. eapply drun_local; eauto; try discriminate; cbn; auto. symmetry. apply Z.eqb_neq. now apply prev_neq.
Qed.
End Run.

(** ** Between operations *)
Lemma idle_local n s i t t' : didling n s -> nth_error (d_thr s) i = Some t -> didle (d_g s) t' -> dwaiting (dgen (d_g s)) t' = dwaiting (dgen (d_g s)) t ->
  (i = 0%nat -> dzero (dgen (d_g s)) t') -> didling n (mkD (d_g s) (setnth i t' (d_thr s)) (d_user s) (d_trace s)).
Proof.
  intros [CO TH ZE CL US] Hi I W Z. constructor; cbn [d_g d_thr d_user d_trace]; auto.
  - eapply dcommon_upd; eauto.
  - apply Forall_setnth; auto.
  - intros t0 Ht0. apply dnth_setnth in Ht0. destruct Ht0 as [[-> ->]|[_ Ht0]]; auto.
Qed.
Lemma idle_thread n s i fail s' : didling n s -> dstep (BThread i fail) s = Some s' -> dinv n s'.
Proof.
  intros ID E. pose proof ID as [CO TH ZE CL US]. pose proof CO as [L G CN CL2 IT Q TG].
  cbn [dstep] in E. destruct (nth_error (d_thr s) i) as [t|] eqn:Hi; [|discriminate E].
  pose proof (Forall_nth_error _ _ _ _ TH Hi) as Ti. destruct t as [pc lt]. unfold dtstep in E.
  destruct pc as [| |[]|[]|b|b| |g1 []| |err pr|]; cbv beta iota zeta in E; try discriminate E; try (cbn in Ti; contradiction).
  - apply dSome_inj in E. subst s'. apply di_idle. eapply idle_local; eauto. intros _. exact Logic.I.
  - rewrite Q in E. apply dSome_inj in E. subst s'. apply di_idle. eapply idle_local; eauto. intros _. exact Logic.I.
  - cbn in Ti. subst lt. rewrite Z.eqb_refl, Q in E. cbn [negb orb] in E. apply dSome_inj in E. subst s'. apply di_idle. eapply idle_local; eauto; [reflexivity|]. intros _. exact Logic.I.
  - cbn in Ti. destruct Ti as (-> & _ & ->). rewrite dbar_pass in E by exact IT. change (b_gen (h_bar (d_g s))) with (dgen (d_g s)) in E.
    rewrite (proj2 (Z.eqb_neq (dgen (d_g s)) _)) in E by (intros X; symmetry in X; revert X; now apply prev_neq). cbn [negb] in E. apply dSome_inj in E. subst s'.
    destruct i as [|i]; [exfalso; specialize (ZE _ Hi); cbn in ZE; revert ZE; now apply prev_neq|].
    apply di_idle. eapply idle_local; eauto; [reflexivity| |discriminate]. unfold dwaiting. cbn [dafter fst]. symmetry. apply Z.eqb_neq. now apply prev_neq.
Qed.

(** ** At the end of an operation *)
Lemma end_local n s op tr i t t' : dending n s op tr -> nth_error (d_thr s) i = Some t -> dpost (d_g s) op i t' -> dwaiting (dgen (d_g s)) t' = dwaiting (dgen (d_g s)) t ->
  dleader (d_g s) op (if Nat.eqb i 0 then Some t' else nth_error (d_thr s) 0) ->
  dending n (mkD (d_g s) (setnth i t' (d_thr s)) (d_user s) (d_trace s)) op tr.
Proof.
  intros [CO TR CL US TH OP LE] Hi I W Z. constructor; cbn [d_g d_thr d_user d_trace]; auto.
  - eapply dcommon_upd; eauto.
  - intros k t0 Hk. apply dnth_setnth in Hk. destruct Hk as [[-> ->]|[_ Hk]]; auto.
  - destruct i as [|i]; cbn [Nat.eqb] in Z; [now rewrite (nth_setnth_same _ _ _ _ Hi)|]. rewrite nth_setnth_other by discriminate. exact Z.
Qed.
Lemma end_thread n s op tr i fail s' : (1 <= n)%nat -> dending n s op tr -> dstep (BThread i fail) s = Some s' -> dinv n s'.
Proof.
  intros N1 EN E. pose proof EN as [CO TR CL US TH OP LE]. pose proof CO as [L G CN CL2 IT Q TG].
  cbn [dstep] in E. destruct (nth_error (d_thr s) i) as [t|] eqn:Hi; [|discriminate E].
  pose proof (TH _ _ Hi) as Ti. destruct t as [pc lt]. unfold dtstep in E. destruct Ti as [TL Ti]. cbn [fst snd] in TL, Ti.
  assert (NZ : i <> 0%nat -> (i =? 0)%nat = false) by (intros X; now apply Nat.eqb_neq).
  destruct pc as [| |[]|[]|b|b| |g1 []| |err pr|]; cbv beta iota zeta in E; try discriminate E; try (cbn in Ti; contradiction).
  - apply dSome_inj in E. subst s'. eapply di_end. eapply end_local; eauto; [split; auto|]. now rewrite NZ.
  - rewrite Q in E. apply dSome_inj in E. subst s'. eapply di_end. eapply end_local; eauto; [split; auto|]. now rewrite NZ.
  - subst lt. rewrite Z.eqb_refl, Q in E. cbn [negb orb] in E. apply dSome_inj in E. subst s'. eapply di_end. eapply end_local; eauto; [split; auto|]. now rewrite NZ.
  - destruct Ti as [-> _]. rewrite dbar_pass in E by exact IT. change (b_gen (h_bar (d_g s))) with (dgen (d_g s)) in E.
    rewrite (proj2 (Z.eqb_neq (dgen (d_g s)) _)) in E by (intros X; symmetry in X; revert X; now apply prev_neq). cbn [negb] in E. apply dSome_inj in E. subst s'.
    eapply di_end. eapply end_local; eauto.
    + split; auto. destruct i; cbn; auto.
    + unfold dwaiting. cbn [fst]. transitivity false; [now destruct i|]. symmetry. apply Z.eqb_neq. now apply prev_neq.
    + destruct i as [|i]; cbn [Nat.eqb]; [|exact LE]. rewrite Hi in LE. exact LE.
  - subst i. rewrite Q in E. apply dSome_inj in E. subst s'. rewrite Hi in LE. destruct LE as (Q0 & F0 & C0 & E0). eapply di_end with (op := op) (tr := tr).
    constructor; cbn [d_g d_thr d_user d_trace h_ptr]; auto.
    + eapply dcommon_upd; eauto.
    + intros k t0 Hk. apply dnth_setnth in Hk. destruct Hk as [[<- ->]|[NE Hk]]; [split; [exact TL|]; rewrite C0; cbn; auto|]. exact (TH _ _ Hk).
    + rewrite (nth_setnth_same _ _ _ _ Hi). repeat split; auto.
  - destruct Ti as (-> & -> & ->). cbn [app] in E. rewrite US in E. apply dSome_inj in E. subst s'. rewrite Hi in LE. cbn in LE. apply di_idle.
    constructor; cbn [d_g d_thr d_user d_trace]; auto.
    + eapply dcommon_upd; eauto.
    + apply nth_error_forall. intros k t0 Hk. apply dnth_setnth in Hk. destruct Hk as [[<- ->]|[NE Hk]]; [exact TL|]. specialize (TH _ _ Hk). destruct t0 as [pc0 lt0]. destruct TH as [T0 T1]. cbn [fst snd] in T0, T1. unfold didle. cbn [fst snd].
      destruct pc0; auto; try congruence; destruct T1 as [T1 T2]; first [now auto|congruence].
    + intros t0 Ht0. rewrite (nth_setnth_same _ _ _ _ Hi) in Ht0. injection Ht0 as <-. exact Logic.I.
    + left. split; [reflexivity|]. rewrite TR. eapply dcl_op; eauto.
Qed.

(** ** Calls of the user *)
Lemma start1_inv n s ptr s' : dinv n s -> dstep (BStart1 ptr) s = Some s' -> dinv n s'.
Proof.
  intros I E. cbn [dstep] in E. destruct (d_user s) eqn:U; try discriminate E. apply dSome_inj in E. subst s'.
  destruct I as [ID|op tr RU|op tr EN].
  - pose proof ID as [CO TH ZE CL US]. destruct US as [(_ & CLO)|(X & _)]; [|congruence]. apply di_idle. constructor; cbn [d_g d_thr d_user d_trace]; auto.
    + apply common_user; auto. apply (dco_trig _ _ CO).
    + right. split; [reflexivity|]. exists (d_trace s). cbn [h_ptr]. auto.
  - destruct (dr_user _ _ _ _ RU) as [(X & _)|(X & _)]; congruence.
  - rewrite (de_user _ _ _ _ EN) in U. discriminate U.
Qed.
Lemma start2_inv n s s' : dinv n s -> dstep BStart2 s = Some s' -> dinv n s'.
Proof.
  intros I E. cbn [dstep] in E. destruct (d_user s) eqn:U; try discriminate E. apply dSome_inj in E. subst s'.
  destruct I as [ID|op tr RU|op tr EN].
  - pose proof ID as [CO TH ZE CL US]. destruct US as [(X & _)|(_ & tr & TR & CLO)]; [congruence|]. destruct CL as (C1 & C2 & C3 & C4).
    pose proof (dco_trig _ _ CO) as TG.
    assert (TH' : Forall (fun t => drun (mkH (u32 (h_trigger (d_g s) + 1)) (h_ptr (d_g s)) (h_queue (d_g s)) (h_error (d_g s)) (h_fin (d_g s)) (h_fcb (d_g s)) (h_bar (d_g s)) (h_quit (d_g s))) (dwake_trig t) /\ (forall b, busy b t = false)) (d_thr s)).
    { eapply Forall_impl; [|exact TH]. intros [pc lt] T. unfold didle in T. cbn [fst snd] in T.
      destruct pc; try contradiction; (split; [|intros; reflexivity]); cbn; rewrite prev_next by exact TG; auto. }
    apply di_run with (op := []) (tr := tr). constructor; cbn [d_g d_thr d_user d_trace h_ptr h_error h_queue h_fin h_fcb]; auto.
    + apply common_wake; auto; [apply wake_trig_wait|]. apply u32_range.
    + rewrite Forall_map. eapply Forall_impl; [|exact TH']. cbn beta. tauto.
    + intros b. rewrite cnt_map, (cnt_zero (fun x => busy b (dwake_trig x))), C1; [cbn; lia|]. eapply Forall_impl; [|exact TH]. intros [[] lt] T; cbn in *; try contradiction; reflexivity.
    + intros _ _ b. rewrite cnt_map, (cnt_zero (fun x => busy b (dwake_trig x))), C1; [cbn; lia|]. eapply Forall_impl; [|exact TH]. intros [[] lt] T; cbn in *; try contradiction; reflexivity.
    + congruence.
    + apply so_far_nil.
    + intros t Ht. rewrite nth_error_map in Ht. destruct (nth_error (d_thr s) 0) as [t0|] eqn:H0; [|discriminate Ht]. injection Ht as <-. specialize (ZE _ eq_refl).
      destruct t0 as [[] lt]; cbn in *; auto.
    + rewrite C1. intros _. change (lenZ (@nil Z)) with 0. apply cnt_nonneg.
    + rewrite C1. cbn. lia.
  - destruct (dr_user _ _ _ _ RU) as [(X & _)|(X & _)]; congruence.
  - rewrite (de_user _ _ _ _ EN) in U. discriminate U.
Qed.
Lemma running_user n s : dinv n s -> d_user s = VRunning -> exists op tr, drunning n s op tr /\ h_fin (d_g s) = false /\ dfinalizes op = 0.
Proof.
  intros [ID|op tr RU|op tr EN] U.
  - destruct (di_user _ _ ID) as [(X & _)|(X & _)]; congruence.
  - destruct (dr_user _ _ _ _ RU) as [(_ & X & Y)|(X & _)]; [eauto|congruence].
  - rewrite (de_user _ _ _ _ EN) in U. discriminate U.
Qed.
Lemma queued_app b a c : queued b (a ++ c) = queued b a + queued b c.
Proof. unfold queued. induction a as [|x a IH]; cbn [app cnt]; lia. Qed.
Lemma lenZ_snoc {A} (l : list A) x : lenZ (l ++ [x]) = lenZ l + 1.
Proof. unfold lenZ. rewrite app_length. cbn [length]. lia. Qed.
Lemma existsb_cnt {A} p (l : list A) : existsb p l = false -> cnt p l = 0.
Proof. induction l as [|x l IH]; cbn [existsb cnt]; intros H; auto. apply orb_false_iff in H. destruct H as [-> H]. rewrite IH; auto. Qed.
Lemma push_inv n s b j s' : dinv n s -> dstep (BPush b j) s = Some s' -> dinv n s'.
Proof.
  intros I E. cbn [dstep] in E. destruct (d_user s) eqn:U; try discriminate E.
  destruct (running_user _ _ I U) as (op & tr & RU & NF & F0).
  pose proof RU as [CO TR CL TH LE EQ ER US FC SF ZE WO SH]. pose proof (dfailures_nonneg op) as DN.
  destruct (h_error (d_g s)) eqn:EE.
  - apply dSome_inj in E. subst s'. apply di_run with (op := VPush b false :: op) (tr := tr). constructor; cbn [d_g d_thr d_user d_trace]; auto.
    + apply common_user; auto. apply (dco_trig _ _ CO).
    + rewrite TR. reflexivity.
    + rewrite EE. discriminate.
    + rewrite EE, ER. reflexivity.
    + apply so_far_push; auto. split; [discriminate|]. intros X. rewrite X in ER. discriminate ER.
    + change (pushes (VPush b false :: op)) with (1 + pushes op). lia.
  - assert (DF : dfailures op = 0) by (symmetry in ER; apply Z.ltb_ge in ER; lia).
    assert (W : exists thr', notify_one j (d_thr s) = Some thr' /\ length thr' = n /\ Forall (drun (set_queue (d_g s) (h_queue (d_g s) ++ [b]))) thr' /\
       (forall gn, cnt (dwaiting gn) thr' = cnt (dwaiting gn) (d_thr s)) /\ (forall b', cnt (busy b') thr' = cnt (busy b') (d_thr s)) /\
       (forall t, nth_error thr' 0 = Some t -> dzero (dgen (d_g s)) t) /\ (0 < cnt qwaiting thr' -> lenZ (h_queue (d_g s)) + 1 <= cnt checking thr')).
    { assert (DR : forall t, drun (d_g s) t -> drun (set_queue (d_g s) (h_queue (d_g s) ++ [b])) t).
      { intros [pc lt]. unfold drun. cbn [set_queue h_trigger h_fin h_queue]. change (dgen (set_queue _ _)) with (dgen (d_g s)). destruct pc; auto; rewrite NF; intuition discriminate. }
      unfold notify_one in E |- *. destruct (existsb qwaiting (d_thr s)) eqn:EX.
      - destruct (nth_error (d_thr s) j) as [[pc lt]|] eqn:Hj; [|discriminate E]. destruct (qwaiting (pc, lt)) eqn:QW; [|discriminate E].
        eexists; split; [reflexivity|]. unfold qwaiting in QW. cbn [fst] in QW. destruct pc; try discriminate QW. subst asleep. cbn [dwake_queue].
        split; [rewrite setnth_length; apply (dco_len _ _ CO)|]. split.
        + apply Forall_setnth; [eapply Forall_impl; [apply DR|exact TH]|]. apply DR. pose proof (Forall_nth_error _ _ _ _ TH Hj) as T. cbn in T |- *. intuition discriminate.
        + split; [intros gn; rewrite (cnt_setnth _ _ _ _ _ Hj); cbn; lia|]. split; [intros b'; rewrite (cnt_setnth _ _ _ _ _ Hj); cbn; lia|]. split.
          * intros t Ht. apply dnth_setnth in Ht. destruct Ht as [[-> ->]|[_ Ht]]; [exact Logic.I|auto].
          * intros _. rewrite (cnt_setnth _ _ _ _ _ Hj). cbn. assert (1 <= cnt qwaiting (d_thr s)) by (eapply cnt_one_le; eauto). specialize (WO ltac:(lia)). lia.
      - exists (d_thr s). split; [reflexivity|]. split; [apply (dco_len _ _ CO)|]. split; [eapply Forall_impl; [apply DR|exact TH]|]. repeat split; auto.
        rewrite (existsb_cnt _ _ EX). lia. }
    destruct W as (thr' & W & W1 & W2 & W3 & W4 & W5 & W6). rewrite W in E. apply dSome_inj in E. subst s'.
    assert (AC : forall b', accepted b' (VPush b true :: op) = bz (b' =? b) + accepted b' op) by reflexivity.
    assert (QC : forall b', queued b' (h_queue (d_g s) ++ [b]) = queued b' (h_queue (d_g s)) + bz (b' =? b)).
    { intros b'. rewrite queued_app. unfold queued at 2. cbn [cnt]. unfold bz. lia. }
    apply di_run with (op := VPush b true :: op) (tr := tr). constructor; cbn [d_g d_thr d_user d_trace set_queue h_ptr h_queue h_error h_fin h_fcb]; auto.
    + destruct CO as [L G CN CL2 IT Q TG]. constructor; cbn [d_g d_thr d_user d_trace]; auto. change (dgen (set_queue (d_g s) (h_queue (d_g s) ++ [b]))) with (dgen (d_g s)). rewrite W3. exact CN.
    + rewrite TR. reflexivity.
    + intros b'. rewrite W4, AC, QC. specialize (LE b'). change (handled b' (VPush b true :: op)) with (handled b' op). lia.
    + intros X C b'. rewrite W4, AC, QC. specialize (EQ eq_refl C b'). change (handled b' (VPush b true :: op)) with (handled b' op). lia.
    + rewrite EE, ER. reflexivity.
    + apply so_far_push; auto. tauto.
    + rewrite lenZ_snoc. exact W6.
    + rewrite lenZ_snoc. change (pushes (VPush b true :: op)) with (1 + pushes op). lia.
Qed.
Lemma finalize_inv n s c s' : dinv n s -> dstep (BFinalize c) s = Some s' -> dinv n s'.
Proof.
  intros I E. cbn [dstep] in E. destruct (d_user s) eqn:U; try discriminate E.
  destruct (running_user _ _ I U) as (op & tr & RU & NF & F0).
  pose proof RU as [CO TR CL TH LE EQ ER US FC SF ZE WO SH]. apply dSome_inj in E. subst s'.
  assert (QC : forall b', 0 <= queued b' (if c then [] else h_queue (d_g s)) <= queued b' (h_queue (d_g s))).
  { intros b'. pose proof (queued_nonneg b' (h_queue (d_g s))). destruct c; [change (queued b' []) with 0|]; lia. }
  assert (BC : forall b', cnt (busy b') (map dwake_queue (d_thr s)) = cnt (busy b') (d_thr s)).
  { intros b'. rewrite cnt_map. apply cnt_ext. rewrite Forall_forall. intros [[] lt] _; reflexivity. }
  apply di_run with (op := VFinalize c :: op) (tr := tr). constructor; cbn [d_g d_thr d_user d_trace h_ptr h_queue h_error h_fin h_fcb]; auto.
  - apply common_wake; auto; [apply wake_queue_wait|]. apply (dco_trig _ _ CO).
  - rewrite TR. reflexivity.
  - rewrite Forall_map. eapply Forall_impl; [|exact TH]. intros [pc lt] T. destruct pc; cbn in *; rewrite ?NF in T; intuition (auto; discriminate).
  - intros b'. rewrite BC. specialize (LE b'). specialize (QC b'). change (handled b' (VFinalize c :: op)) with (handled b' op). change (accepted b' (VFinalize c :: op)) with (accepted b' op). lia.
  - intros X C b'. assert (C' : c = false /\ dcancels op = 0).
    { unfold dcancels in *. cbn [cnt] in C. pose proof (cnt_nonneg (fun ev => match ev with VFinalize true => true | _ => false end) op). destruct c; [lia|auto]. }
    destruct C' as [-> C']. rewrite BC. exact (EQ X C' b').
  - right. split; [reflexivity|]. split; [reflexivity|]. unfold dfinalizes in *. cbn [cnt]. lia.
  - apply so_far_finalize; auto.
  - intros t Ht. rewrite nth_error_map in Ht. destruct (nth_error (d_thr s) 0) as [t0|] eqn:H0; [|discriminate Ht]. injection Ht as <-. specialize (ZE _ eq_refl).
    destruct t0 as [[] lt]; cbn in *; auto.
  - rewrite (cnt_zero qwaiting); [lia|]. rewrite Forall_map, Forall_forall. intros [[] lt] _; reflexivity.
  - change (pushes (VFinalize c :: op)) with (pushes op). destruct c; [|exact SH]. change (lenZ (@nil Z)) with 0. apply cnt_nonneg.
Qed.

(** ** Spurious wakeups *)
Lemma spurious_inv n s i s' : dinv n s -> dstep (BSpurious i) s = Some s' -> dinv n s'.
Proof.
  intros I E. cbn [dstep] in E. destruct (nth_error (d_thr s) i) as [t|] eqn:Hi; [|discriminate E].
  destruct (dwake_any t) as [t'|] eqn:W; [|discriminate E]. apply dSome_inj in E. subst s'. destruct t as [pc lt].
  destruct I as [ID|op tr RU|op tr EN].
  - pose proof ID as [CO TH ZE CL US]. pose proof (Forall_nth_error _ _ _ _ TH Hi) as Ti. apply di_idle.
    destruct pc as [| |[]|[]|b|b| |g1 []| |err pr|]; try discriminate W; injection W as <-; cbn in Ti; try contradiction.
    + eapply idle_local; eauto. intros _. exact Logic.I.
    + destruct Ti as (_ & X & _). discriminate X.
  - pose proof RU as [CO TR CL TH LE EQ ER US FC SF ZE WO SH]. pose proof (Forall_nth_error _ _ _ _ TH Hi) as Ti. eapply di_run.
    destruct pc as [| |[]|[]|b|b| |g1 []| |err pr|]; try discriminate W; injection W as <-; cbn in Ti; try contradiction.
    + constructor; cbn [d_g d_thr d_user d_trace]; eauto.
      * eapply dcommon_upd; eauto.
      * apply Forall_setnth; auto. cbn. intuition discriminate.
      * intros b. rewrite (cnt_setnth _ _ _ _ _ Hi). specialize (LE b). cbn. lia.
      * intros X C b. rewrite (cnt_setnth _ _ _ _ _ Hi). specialize (EQ X C b). cbn. lia.
      * intros t0 Ht0. apply dnth_setnth in Ht0. destruct Ht0 as [[-> ->]|[_ Ht0]]; [exact Logic.I|auto].
      * rewrite !(cnt_setnth _ _ _ _ _ Hi). cbn. intros X. specialize (WO ltac:(lia)). lia.
    + eapply drun_local; eauto; try discriminate. cbn. intuition.
  - pose proof EN as [CO TR CL US TH OP LE]. pose proof (TH _ _ Hi) as [T0 Ti]. cbn [fst snd] in T0, Ti. eapply di_end.
    destruct pc as [| |[]|[]|b|b| |g1 []| |err pr|]; try discriminate W; injection W as <-; try contradiction.
    + eapply end_local; eauto; [split; auto|]. rewrite (proj2 (Nat.eqb_neq i 0)); auto.
    + destruct Ti as (_ & X). discriminate X.
Qed.
