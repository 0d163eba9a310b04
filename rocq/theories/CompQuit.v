(** The compression stream while it is being destroyed. *)
From Coq Require Import ZArith List Bool Lia.
From Verif Require Import CBase BitsLemmas ConcLib BarrierModel SpecSync BarrierProofs StreamBlockModel CompStreamModel SpecStream CompInv CompProofs CompStep CompMain CompTerm.
Import ListNotations.
Open Scope Z_scope.

Definition tquit (g : shared) (t : thread) : Prop :=
  match fst t with
  | CFetch l _ => l = lvo g
  | CEpoch l _ off => l = lvo g /\ 0 <= off
  | CArrive l off m => l = lvo g /\ 0 <= off /\ 0 <= m < 2 ^ 64
  | CBar l off m _ _ => l = lvo g /\ 0 <= off /\ 0 <= m < 2 ^ 64
  | CWork l off | CErr l off | CCall l off _ => l = lvo g /\ 0 <= off < lvo g
  | CCallback _ present => present = true
  | _ => True
  end.
Definition asleep (t : thread) : bool := match fst t with CTrig a | CBar _ _ _ _ a | CFin a | CFinBar _ a => a | _ => false end.
(** Threads that will not fetch a block again. *)
Definition past (t : thread) : bool :=
  match fst t with
  | CEpoch l _ o | CArrive l o _ | CBar l o _ _ _ => l <=? o
  | CFin _ | CFinArrive | CFinBar _ _ | CReset | CCallback _ _ | CLoop | CStart | CExit => true
  | _ => false
  end.
Record quitting (n : nat) (s : cstate) (H : Z) (op newer older : list event) : Prop := {
  q_len : length (c_thr s) = n;
  q_quit : g_quit (c_g s) = true;
  q_size : 0 <= g_size (c_g s) <= BIG;
  q_user : c_user s = UQuitting \/ (c_user s = UGone /\ b_intr (g_bar (c_g s)) = true /\ Forall (fun t => asleep t = false) (c_thr s) /\ lvo (c_g s) <= g_cur (c_g s));
  q_thr : Forall (tquit (c_g s)) (c_thr s);
  q_cb : 0 < lvo (c_g s) -> g_cb (c_g s) = true;
  q_H : 0 <= H /\ H mod BLOCK_SIZE = 0;
  q_cur : 0 <= g_cur (c_g s) /\ (g_cur (c_g s) < lvo (c_g s) -> g_cur (c_g s) = H);
  q_max : g_cur (c_g s) <= BIG + BLOCK_SIZE * Z.of_nat n + BLOCK_SIZE * cnt past (c_thr s);
  q_trace : c_trace s = newer ++ EQuit :: older;
  q_late : Forall late newer;
  q_dist : forall o, delivered o (newer ++ op) + cnt (inflight o) (c_thr s) = b2z (taken (c_g s) H o) }.

(** One step of a thread that may change [g_cur], [g_error] and the barrier. *)
Lemma quit_upd n s H op newer older i t t' g' evs H' : quitting n s H op newer older -> nth_error (c_thr s) i = Some t ->
  g_size g' = g_size (c_g s) -> g_quit g' = g_quit (c_g s) -> g_cb g' = g_cb (c_g s) -> b_intr (g_bar g') = b_intr (g_bar (c_g s)) ->
  tquit (c_g s) t' -> (c_user s = UGone -> asleep t' = false) -> g_cur (c_g s) <= g_cur g' \/ lvo (c_g s) <= g_cur g' ->
  (0 <= H' /\ H' mod BLOCK_SIZE = 0) -> (0 <= g_cur g' /\ (g_cur g' < lvo (c_g s) -> g_cur g' = H')) ->
  g_cur g' <= BIG + BLOCK_SIZE * Z.of_nat n + BLOCK_SIZE * (cnt past (c_thr s) - b2z (past t) + b2z (past t')) ->
  Forall late evs ->
  (forall o, delivered o evs - b2z (inflight o t) + b2z (inflight o t') = b2z (taken (c_g s) H' o) - b2z (taken (c_g s) H o)) ->
  quitting n (mkC g' (setnth i t' (c_thr s)) (c_user s) (c_m s) (evs ++ c_trace s)) H' op (evs ++ newer) older.
Proof.
  intros [QL QQ QS QU QT QC QH QR QM QE QA QD] Hi S1 S2 S3 S4 T AS CM HH CU MX LT DD.
  assert (LV : lvo g' = lvo (c_g s)) by (unfold lvo; now rewrite S1).
  assert (TQ : forall x, tquit (c_g s) x -> tquit g' x) by (intros x; unfold tquit; rewrite LV; auto).
  constructor; cbn [c_g c_thr c_user c_m c_trace]; rewrite ?LV; auto.
  - now rewrite setnth_length.
  - now rewrite S2.
  - now rewrite S1.
  - destruct QU as [QU|(U & B & AL & CC)]; [left; exact QU|right]. split; [exact U|]. split; [now rewrite S4|]. split; [apply Forall_setnth; auto|]. lia.
  - apply Forall_setnth; auto. eapply Forall_impl; [|exact QT]. auto.
  - rewrite S3. exact QC.
  - rewrite (cnt_setnth _ _ _ _ _ Hi). exact MX.
  - rewrite QE, app_assoc. reflexivity.
  - apply Forall_app; auto.
  - intros o. rewrite (cnt_setnth _ _ _ _ _ Hi), <- app_assoc, delivered_app. specialize (DD o). specialize (QD o). unfold taken in *. rewrite LV. unfold b2z in *. lia.
Qed.
(** The same without change of the shared state. *)
Lemma quit_local n s H op newer older i t t' evs : quitting n s H op newer older -> nth_error (c_thr s) i = Some t ->
  tquit (c_g s) t' -> (c_user s = UGone -> asleep t' = false) -> b2z (past t) <= b2z (past t') -> Forall late evs ->
  (forall o, delivered o evs - b2z (inflight o t) + b2z (inflight o t') = 0) ->
  quitting n (mkC (c_g s) (setnth i t' (c_thr s)) (c_user s) (c_m s) (evs ++ c_trace s)) H op (evs ++ newer) older.
Proof.
  intros Q Hi T AS P L D. eapply quit_upd; eauto.
  - lia.
  - apply (q_H _ _ _ _ _ _ Q).
  - apply (q_cur _ _ _ _ _ _ Q).
  - pose proof (q_max _ _ _ _ _ _ Q). rewrite block_size in *. lia.
  - intros o. rewrite D. lia.
Qed.
Lemma tquit_wake g t : tquit g (wake_bar t) <-> tquit g t.
Proof. destruct t as [[] ?]; reflexivity. Qed.
Lemma past_wake t : past (wake_bar t) = past t.
Proof. destruct t as [[] ?]; reflexivity. Qed.
Lemma inflight_wake_bar o t : inflight o (wake_bar t) = inflight o t.
Proof. destruct t as [[] ?]; reflexivity. Qed.
Lemma asleep_wake t : asleep t = false -> asleep (wake_bar t) = false.
Proof. destruct t as [[] ?]; auto. Qed.
Lemma cnt_wake_bar (p : thread -> bool) thr : (forall t, p (wake_bar t) = p t) -> cnt p (map wake_bar thr) = cnt p thr.
Proof. intros H. rewrite cnt_map. apply cnt_ext. rewrite Forall_forall. auto. Qed.
Lemma quit_wake n s H op newer older : quitting n s H op newer older -> quitting n (mkC (c_g s) (map wake_bar (c_thr s)) (c_user s) (c_m s) (c_trace s)) H op newer older.
Proof.
  intros [QL QQ QS QU QT QC QH QR QM QE QA QD]. constructor; cbn [c_g c_thr c_user c_m c_trace]; auto.
  - now rewrite map_length.
  - destruct QU as [QU|(U & B & AL & CC)]; [left; exact QU|right]. repeat split; auto. rewrite Forall_map. eapply Forall_impl; [|exact AL]. intros t. apply asleep_wake.
  - rewrite Forall_map. eapply Forall_impl; [|exact QT]. intros t. apply tquit_wake.
  - rewrite cnt_wake_bar by apply past_wake. exact QM.
  - intros o. rewrite cnt_wake_bar by apply inflight_wake_bar. apply QD.
Qed.
Lemma num_epochs_range g lo off : 0 <= num_epochs g lo off < 2 ^ 64.
Proof. unfold num_epochs. destruct (g_k g =? UINT_MAX); [lia|]. unfold u64. apply Z.mod_pos_bound. lia. Qed.

Lemma quit_thread n s H op newer older i fail s' : Z.of_nat n < 2 ^ 32 -> quitting n s H op newer older -> cstep (AThread i fail) s = Some s' ->
  exists H' evs, quitting n s' H' op (evs ++ newer) older.
Proof.
  intros N2 QI E. pose proof QI as [QL QQ QS QU QT QC QH QR QM QE QA QD].
  cbn [cstep] in E. destruct (nth_error (c_thr s) i) as [t|] eqn:Hi; [|discriminate E].
  pose proof (Forall_nth_error _ _ _ _ QT Hi) as Ti.
  pose proof (lvo_facts (c_g s) QS) as (L1 & L2 & L3 & L4).
  assert (IT : c_user s = UGone -> b_intr (g_bar (c_g s)) = true) by (destruct QU as [U|(U & B & _)]; congruence).
  assert (U1 : c_user s <> UFinalizing) by (destruct QU as [U|(U & _)]; congruence).
  destruct t as [pc lt]. unfold tstep in E. unfold tquit in Ti. cbn [fst] in Ti.
  destruct pc as [| |a| |l lo|l lo off|l off m|l off m g1 a|l off|l off|l off ok|a| |g1 a| |err pr|].
  - apply Some_inj in E. subst s'. exists H, []. eapply quit_local; eauto; try exact Logic.I; intros; reflexivity.
  - rewrite QQ in E. apply Some_inj in E. subst s'. exists H, []. eapply quit_local; eauto; try exact Logic.I; intros; reflexivity.
  - destruct a; [discriminate E|]. rewrite QQ, orb_true_r in E. apply Some_inj in E. subst s'. exists H, []. eapply quit_local; eauto; try exact Logic.I; intros; reflexivity.
  - apply Some_inj in E. subst s'. exists H, []. eapply quit_local; eauto; try exact Logic.I; intros; reflexivity.
  - apply Some_inj in E. subst s' l.
    assert (PN : cnt past (c_thr s) <= Z.of_nat n) by (rewrite <- QL; apply cnt_le). pose proof (cnt_nonneg past (c_thr s)) as PZ.
    assert (W : u64 (g_cur (c_g s) + BLOCK_SIZE) = g_cur (c_g s) + BLOCK_SIZE) by (unfold u64; apply Z.mod_small; rewrite block_size in *; unfold BIG in *; lia).
    rewrite W. destruct QR as [R1 R2].
    destruct (Z_lt_dec (g_cur (c_g s)) (lvo (c_g s))) as [V|V].
    + specialize (R2 V). exists (H + BLOCK_SIZE), [].
      eapply quit_upd with (t := (CFetch (lvo (c_g s)) lo, lt)) (H := H); eauto; cbn [set_cur g_size g_quit g_cb g_bar g_cur].
      * split; [reflexivity|]. lia.
      * left. rewrite block_size. lia.
      * split; [rewrite block_size; lia|]. rewrite <- Z.add_mod_idemp_r, Z.mod_same, Z.add_0_r by discriminate. tauto.
      * rewrite R2. split; [rewrite block_size; lia|auto].
      * pose proof (block_le (g_cur (c_g s)) (lvo (c_g s)) ltac:(rewrite R2; tauto) L2 V). cbn [past fst b2z]. destruct (Z.leb_spec (lvo (c_g s)) (g_cur (c_g s))); [lia|]. cbn [b2z]. rewrite block_size in *. lia.
      * intros o. change (delivered o []) with 0. unfold inflight. cbn [fst b2z]. rewrite R2 in *. destruct (Z.ltb_spec H (lvo (c_g s))); [|lia]. rewrite andb_true_r. unfold taken.
        destruct (Z.eqb_spec o H) as [->|NE]; cbn [b2z].
        -- destruct (Z.leb_spec 0 H); [|lia]. destruct (Z.eqb_spec (H mod BLOCK_SIZE) 0); [|tauto]. destruct (Z.ltb_spec H (lvo (c_g s))); [|lia].
           destruct (Z.ltb_spec H H); [lia|]. destruct (Z.ltb_spec H (H + BLOCK_SIZE)); [|rewrite block_size in *; lia]. reflexivity.
        -- destruct (Z.eqb_spec (o mod BLOCK_SIZE) 0) as [A|A]; [|rewrite !andb_false_r, !andb_false_l; reflexivity].
           destruct (Z.ltb_spec o H).
           ++ destruct (Z.ltb_spec o (H + BLOCK_SIZE)); [lia|rewrite block_size in *; lia].
           ++ pose proof (block_le H o ltac:(tauto) A ltac:(lia)). destruct (Z.ltb_spec o (H + BLOCK_SIZE)); [lia|]. lia.
    + exists H, []. eapply quit_upd with (t := (CFetch (lvo (c_g s)) lo, lt)) (H := H); eauto; cbn [set_cur g_size g_quit g_cb g_bar g_cur].
      * split; [reflexivity|]. lia.
      * left. rewrite block_size. lia.
      * rewrite block_size. lia.
      * cbn [past fst b2z]. destruct (Z.leb_spec (lvo (c_g s)) (g_cur (c_g s))); [|lia]. cbn [b2z]. lia.
      * intros o. change (delivered o []) with 0. unfold inflight. cbn [fst]. destruct (Z.ltb_spec (g_cur (c_g s)) (lvo (c_g s))); [lia|]. rewrite andb_false_r. cbn [b2z]. lia.
  - apply Some_inj in E. subst s'. exists H, []. eapply quit_local; eauto; try (intros; reflexivity).
    + unfold tquit. cbn [fst]. pose proof (num_epochs_range (c_g s) lo off). tauto.
    + intros o. change (delivered o []) with 0. unfold inflight. cbn [fst]. lia.
  - destruct Ti as (T1 & T2 & T3). destruct (Z.eqb_spec m 0) as [M|M].
    + apply Some_inj in E. subst s'. exists H, []. destruct (Z.leb_spec l off) as [V|V].
      * eapply quit_local; eauto; try (intros; reflexivity); try exact Logic.I.
        -- cbn [past fst]. destruct (l <=? off); cbn [b2z]; lia.
        -- intros o. change (delivered o []) with 0. unfold inflight. cbn [fst]. destruct (Z.ltb_spec off l); [lia|]. rewrite andb_false_r. cbn [b2z]. lia.
      * eapply quit_local; eauto; try (intros; reflexivity).
        -- split; [exact T1|]. lia.
        -- cbn [past fst]. destruct (Z.leb_spec l off); cbn [b2z]; lia.
        -- intros o. change (delivered o []) with 0. unfold inflight. cbn [fst]. lia.
    + destruct (bar_arrive (lenZ (c_thr s)) (g_bar (c_g s))) as [b last] eqn:B.
      assert (BI : b_intr b = b_intr (g_bar (c_g s))) by (unfold bar_arrive in B; cbv zeta in B; destruct (_ =? _) in B; injection B as <- _; reflexivity).
      assert (K : forall t', (t' = (CArrive l off (m - 1), lt) \/ (t' = (CBar l off (m - 1) (b_gen b) true, lt) /\ b_intr b = false)) ->
         quitting n (mkC (set_bar (c_g s) b) (setnth i t' (c_thr s)) (c_user s) (c_m s) ([] ++ c_trace s)) H op ([] ++ newer) older).
      { intros t' D. eapply quit_upd with (t := (CArrive l off m, lt)) (H := H); eauto; cbn [set_bar g_size g_quit g_cb g_bar g_cur].
        - destruct D as [->|[-> _]]; unfold tquit; cbn [fst]; repeat split; auto; lia.
        - intros U. specialize (IT U). destruct D as [->|[-> X]]; [reflexivity|congruence].
        - lia.
        - destruct D as [->|[-> _]]; cbn [past fst]; lia.
        - intros o. change (delivered o []) with 0. destruct D as [->|[-> _]]; unfold inflight; cbn [fst]; lia. }
      destruct last.
      * apply Some_inj in E. subst s'. exists H, []. change (CArrive l off (m - 1), lt) with (wake_bar (CArrive l off (m - 1), lt)). rewrite setnth_map.
        exact (quit_wake _ _ _ _ _ _ (K _ (or_introl eq_refl))).
      * apply Some_inj in E. subst s'. exists H, []. destruct (bar_pass b (b_gen b)) eqn:BP; apply K; auto. right. split; auto. unfold bar_pass in BP. apply orb_false_iff in BP. tauto.
  - destruct a; [discriminate E|]. apply Some_inj in E. subst s'. exists H, []. destruct (bar_pass _ _) eqn:BP.
    + eapply quit_local; eauto; try (intros; reflexivity).
      * intros o. change (delivered o []) with 0. unfold inflight. cbn [fst]. lia.
    + eapply quit_local; eauto.
      * intros U. unfold bar_pass in BP. apply orb_false_iff in BP. rewrite (IT U) in BP. destruct BP as [_ BP]. discriminate BP.
      * cbn [past fst]. lia.
      * intros o. change (delivered o []) with 0. unfold inflight. cbn [fst]. lia.
  - apply Some_inj in E. subst s'. exists H, []. destruct fail; (eapply quit_local; eauto; try (intros; reflexivity); intros o; change (delivered o []) with 0; unfold inflight; cbn [fst]; lia).
  - apply Some_inj in E. subst s'. exists H, []. destruct Ti as (T1 & T2).
    eapply quit_upd with (t := (CErr l off, lt)) (H := H); eauto; cbn [g_size g_quit g_cb g_bar g_cur].
    + split; auto.
    + unfold BIG in *. lia.
    + pose proof (cnt_nonneg past (c_thr s)). cbn [past fst b2z]. rewrite block_size in *. lia.
    + intros o. change (delivered o []) with 0. unfold inflight. cbn [fst]. lia.
  - destruct Ti as (T1 & T2). rewrite (QC ltac:(lia)) in E. apply Some_inj in E. subst s'. exists H, [EBlock off ok]. eapply quit_local; eauto; try (intros; reflexivity).
    + repeat constructor.
    + intros o. unfold inflight. cbn [fst]. unfold delivered. cbn [cnt]. destruct (Z.ltb_spec off l); [|lia]. rewrite andb_true_r. unfold b2z. lia.
  - destruct a; [discriminate E|]. rewrite QQ, orb_true_r in E. apply Some_inj in E. subst s'. exists H, []. eapply quit_local; eauto; try exact Logic.I; intros; reflexivity.
  - destruct (bar_arrive (lenZ (c_thr s)) (g_bar (c_g s))) as [b last] eqn:B.
    assert (BI : b_intr b = b_intr (g_bar (c_g s))) by (unfold bar_arrive in B; cbv zeta in B; destruct (_ =? _) in B; injection B as <- _; reflexivity).
    assert (K : forall t', (t' = (after_barrier i, lt) \/ (t' = (CFinBar (b_gen b) true, lt) /\ b_intr b = false)) ->
       quitting n (mkC (set_bar (c_g s) b) (setnth i t' (c_thr s)) (c_user s) (c_m s) ([] ++ c_trace s)) H op ([] ++ newer) older).
    { intros t' D. eapply quit_upd with (t := (CFinArrive, lt)) (H := H); eauto; cbn [set_bar g_size g_quit g_cb g_bar g_cur].
      - destruct D as [->|[-> _]]; [destruct i|]; exact Logic.I.
      - intros U. specialize (IT U). destruct D as [->|[-> X]]; [destruct i; reflexivity|congruence].
      - lia.
      - destruct D as [->|[-> _]]; [destruct i|]; cbn [past fst after_barrier b2z]; lia.
      - intros o. change (delivered o []) with 0. destruct D as [->|[-> _]]; [destruct i|]; cbn [inflight fst after_barrier b2z]; lia. }
    destruct last.
    + apply Some_inj in E. subst s'. exists H, [].
      assert (X : (after_barrier i, lt) = wake_bar (after_barrier i, lt)) by (destruct i; reflexivity). rewrite X, setnth_map.
      exact (quit_wake _ _ _ _ _ _ (K _ (or_introl eq_refl))).
    + apply Some_inj in E. subst s'. exists H, []. destruct (bar_pass b (b_gen b)) eqn:BP; apply K; auto. right. split; auto. unfold bar_pass in BP. apply orb_false_iff in BP. tauto.
  - destruct a; [discriminate E|]. apply Some_inj in E. subst s'. exists H, []. destruct (bar_pass _ _) eqn:BP.
    + eapply quit_local; eauto; destruct i; try exact Logic.I; intros; reflexivity.
    + eapply quit_local; eauto; try reflexivity.
      intros U. unfold bar_pass in BP. apply orb_false_iff in BP. rewrite (IT U) in BP. destruct BP as [_ BP]. discriminate BP.
  - rewrite QQ in E. apply Some_inj in E. subst s'. exists H, []. eapply quit_local; eauto; try exact Logic.I; intros; reflexivity.
  - subst pr. apply Some_inj in E. subst s'. exists H, [EDone (negb err)].
    match goal with |- quitting n (mkC _ _ ?u _ _) _ _ _ _ => assert (X : u = c_user s) by (destruct QU as [->|(-> & _)]; reflexivity); rewrite X end.
    eapply quit_local; eauto; try exact Logic.I; try (intros; reflexivity). repeat constructor.
  - discriminate E.
Qed.

Lemma tstep_size n i fail g t g' t' w evs : g_quit g = true -> tstep n i fail g t = Some (g', t', w, evs) -> g_size g' = g_size g.
Proof.
  intros Q. destruct t as [pc lt]. unfold tstep. destruct pc as [| |a| |l lo|l lo off|l off m|l off m g1 a|l off|l off|l off ok|a| |g1 a| |err pr|]; intros E.
  all: try discriminate E.
  all: rewrite ?Q in E.
  all: repeat match type of E with
    | Some _ = Some _ => injection E as <- _ _ _; reflexivity
    | (if ?c then _ else _) = _ => destruct c eqn:?
    | context [bar_arrive ?a ?b] => unfold bar_arrive in E; cbv zeta in E
    | (let '(_, _) := if ?c then _ else _ in _) = _ => destruct c
    | _ => discriminate E
    end.
Qed.
Definition dying (n : nat) (s : cstate) : Prop :=
  exists H op newer older, quitting n s H op newer older /\ history older /\
    ((exists m tr, older = op ++ EStart (g_size (c_g s)) m :: tr /\ Forall inner op) \/ (op = [] /\ g_size (c_g s) = 0)).

Lemma kept_trig t : waitingc 0 t = waitingc 0 t.
Proof. reflexivity. Qed.
Lemma past_wake2 t : past (wake_bar (wake_trig t)) = past t.
Proof. destruct t as [[] ?]; reflexivity. Qed.
Lemma inflight_wake2 o t : inflight o (wake_bar (wake_trig t)) = inflight o t.
Proof. destruct t as [[] ?]; reflexivity. Qed.
Lemma tquit_wake2 g t : tquit g t -> tquit g (wake_bar (wake_trig t)).
Proof. destruct t as [[] ?]; auto. Qed.
Lemma asleep_wake2 t : asleep (wake_bar (wake_trig t)) = false.
Proof. destruct t as [[] ?]; reflexivity. Qed.

Lemma dying_step n a s s' : Z.of_nat n < 2 ^ 32 -> dying n s -> cstep a s = Some s' -> dying n s'.
Proof.
  intros N2 (H & op & newer & older & QI & HI & RE) E. pose proof QI as [QL QQ QS QU QT QC QH QR QM QE QA QD].
  destruct a as [i fail|i|m|size| |cancel| |].
  - destruct (quit_thread n s H op newer older i fail s' N2 QI E) as (H' & evs & Q'). exists H', op, (evs ++ newer), older. split; [exact Q'|]. split; [exact HI|].
    enough (X : g_size (c_g s') = g_size (c_g s)) by (rewrite X; exact RE).
    cbn [cstep] in E. destruct (nth_error (c_thr s) i) as [t|]; [|discriminate E].
    destruct (tstep (lenZ (c_thr s)) i fail (c_g s) t) as [[[[g' t'] w] ev]|] eqn:T; [|discriminate E].
    apply Some_inj in E. subst s'. cbn [c_g]. eapply tstep_size; eauto.
  - cbn [cstep] in E. destruct (nth_error (c_thr s) i) as [t|] eqn:Hi; [|discriminate E]. destruct (wake_any t) as [t'|] eqn:W; [|discriminate E]. apply Some_inj in E. subst s'.
    exists H, op, newer, older. split; [|auto]. change (c_trace s) with ([] ++ c_trace s). change newer with ([] ++ newer).
    pose proof (Forall_nth_error _ _ _ _ QT Hi) as Ti.
    destruct t as [pc lt]. destruct pc as [| |a| |l lo|l lo off|l off m|l off m g1 a|l off|l off|l off ok|a| |g1 a| |err pr|]; try discriminate W; destruct a; try discriminate W; cbn in W; apply Some_inj in W; subst t'; eapply quit_local; eauto; try exact Logic.I; try (intros; reflexivity).
    intros o. change (delivered o []) with 0. unfold inflight. cbn [fst]. lia.
  - cbn [cstep] in E. destruct QU as [U|(U & _)]; rewrite U in E; discriminate E.
  - cbn [cstep] in E. destruct QU as [U|(U & _)]; rewrite U in E; discriminate E.
  - cbn [cstep] in E. destruct QU as [U|(U & _)]; rewrite U in E; discriminate E.
  - cbn [cstep] in E. destruct QU as [U|(U & _)]; rewrite U in E; discriminate E.
  - cbn [cstep] in E. destruct QU as [U|(U & _)]; rewrite U in E; discriminate E.
  - cbn [cstep] in E. destruct QU as [U|(U & _)]; rewrite U in E; [|discriminate E]. apply Some_inj in E. subst s'.
    pose proof (lvo_facts (c_g s) QS) as (L1 & L2 & L3 & L4).
    exists H, op, newer, older. split; [|auto]. constructor; cbn [c_g c_thr c_user c_m c_trace g_size g_quit g_cur g_bar g_cb bar_interrupt b_intr]; auto.
    + now rewrite !map_length.
    + right. split; [reflexivity|]. split; [reflexivity|]. split; [|exact L4]. rewrite map_map, Forall_map, Forall_forall. intros t _. apply asleep_wake2.
    + rewrite map_map, Forall_map. eapply Forall_impl; [|exact QT]. intros t Tt. exact (tquit_wake2 _ _ Tt).
    + unfold BIG. split; [lia|]. change (lvo (mkG _ _ _ _ _ _ _ _ _ _)) with (lvo (c_g s)). unfold BIG in *. lia.
    + pose proof (cnt_nonneg past (map wake_bar (map wake_trig (c_thr s)))). rewrite block_size. lia.
    + intros o. rewrite map_map, cnt_map. etransitivity; [|exact (QD o)]. f_equal. apply cnt_ext. rewrite Forall_forall. intros t _. apply inflight_wake2.
Qed.

Lemma dying_start n s s' : cinv n s -> cstep AQuit1 s = Some s' -> dying n s'.
Proof.
  intros I E. pose proof (inv_history n s I) as HI. cbn [cstep] in E.
  assert (X : s' = mkC (mkG (g_trigger (c_g s)) (g_size (c_g s)) (g_cb (c_g s)) (g_cur (c_g s)) (g_error (c_g s)) (g_fin (c_g s)) (g_fcb (c_g s)) (g_bar (c_g s)) true (g_k (c_g s))) (c_thr s) UQuitting (c_m s) (EQuit :: c_trace s)).
  { destruct (c_user s); try discriminate E; apply Some_inj in E; auto. }
  assert (US : c_user s <> UStarting) by (intros U; rewrite U in E; discriminate E). clear E.
  assert (ZT : forall g H o, 0 <= g_size g <= BIG -> g_size g = 0 -> taken g H o = false).
  { intros g H o S G0. pose proof (lvo_facts g S) as (A1 & _). unfold taken. destruct (Z.leb_spec 0 o), (Z.ltb_spec o (lvo g)); try lia; rewrite ?andb_false_r; reflexivity. }
  destruct I as [ID|R H op tr RU|size op tr EN].
  - pose proof ID as [CO TH ZZ CL UU]. pose proof CO as [L G CN CL2 IT Q TG K SZ]. destruct UU as [(U & S0 & C)|(U & _)]; [|contradiction].
    destruct CL as (C1 & _). pose proof (lvo_facts _ SZ) as (L1 & L2 & L3 & L4).
    exists 0, [], [], (c_trace s). subst s'. split; [|split; [exact HI|right; auto]].
    constructor; cbn [c_g c_thr c_user c_m c_trace g_size g_quit g_cur g_bar g_cb]; auto; change (lvo (mkG _ _ _ _ _ _ _ _ _ _)) with (lvo (c_g s)); try lia.
    + eapply Forall_impl; [|exact TH]. intros [[] ?]; cbn; auto; contradiction.
    + split; [lia|reflexivity].
    + pose proof (cnt_nonneg past (c_thr s)). rewrite block_size. unfold BIG. lia.
    + intros o. rewrite ZT by auto. cbn [app]. change (delivered o []) with 0. rewrite cnt_zero; [reflexivity|]. eapply Forall_impl; [|exact TH]. intros [[] ?]; cbn; auto; contradiction.
  - pose proof RU as [CO TR CL TH RR RH RC RM RD RE RUS RB RI RP RZ]. pose proof CO as [L G CN CL2 IT Q TG K SZ]. pose proof (lvo_facts _ SZ) as (L1 & L2 & L3 & L4).
    exists H, op, [], (c_trace s). subst s'. split; [|split; [exact HI|left; exists (c_m s), tr; auto]].
    constructor; cbn [c_g c_thr c_user c_m c_trace g_size g_quit g_cur g_bar g_cb app]; auto; change (lvo (mkG _ _ _ _ _ _ _ _ _ _)) with (lvo (c_g s)); try lia.
    + eapply Forall_impl; [|exact TH]. intros [pc lt] T. destruct pc as [| |a| |l lo|l lo off|l off m|l off m g1 a|l off|l off|l off ok|a| |g1 a| |err pr|]; unfold tquit; cbn [fst trun] in *; auto; try tauto; change (lvo (mkG _ _ _ _ _ _ _ _ _ _)) with (lvo (c_g s)).
      * split; [tauto|lia].
      * pose proof (ep_le (c_g s) (c_m s) off K). assert (KK (c_g s) <= BIG). { pose proof (ep_bound (c_g s) BIG SZ ltac:(unfold BIG; lia) (kok_self _ _ K)) as [_ B]. unfold ep in B. rewrite Z.min_r in B by lia. exact B. }
        repeat split; try tauto; unfold BIG in *; lia.
      * pose proof (ep_le (c_g s) (c_m s) off K). assert (KK (c_g s) <= BIG). { pose proof (ep_bound (c_g s) BIG SZ ltac:(unfold BIG; lia) (kok_self _ _ K)) as [_ B]. unfold ep in B. rewrite Z.min_r in B by lia. exact B. }
        repeat split; try tauto; unfold BIG in *; lia.
    + intros _. tauto.
    + destruct RC as (C1 & C2 & C3). split; [exact C1|]. intros V. destruct (jump (c_g s) op); [specialize (C3 eq_refl); lia|auto].
    + assert (BC : cnt (over (gen (c_g s))) (c_thr s) <= Z.of_nat n) by (rewrite <- L; apply cnt_le). pose proof (cnt_nonneg past (c_thr s)). rewrite block_size in *. lia.
  - pose proof EN as [CO TR CL UU TH OP LE EC ED]. pose proof CO as [L G CN CL2 IT Q TG K SZ]. pose proof (lvo_facts _ SZ) as (L1 & L2 & L3 & L4). destruct EC as (E1 & E2 & E3).
    assert (F0 : forall o, cnt (inflight o) (c_thr s) = 0).
    { intros o. apply cnt_zero. apply nth_error_forall. intros k t Hk. destruct (TH k t Hk) as [_ T]. clear - T. destruct t as [[] ?]; cbn [fst] in T; first [reflexivity|contradiction T]. }
    assert (TQ : Forall (tquit (c_g s)) (c_thr s)).
    { apply nth_error_forall. intros k t Hk. destruct (TH k t Hk) as [_ T]. clear - T. destruct t as [[] ?]; cbn [fst] in T; unfold tquit; cbn [fst]; first [exact Logic.I|tauto]. }
    assert (PZ : 0 <= BLOCK_SIZE * cnt past (c_thr s)) by (pose proof (cnt_nonneg past (c_thr s)); rewrite block_size; lia). pose proof (os_inner _ _ (oc_so_far _ _ _ _ OP)) as FI.
    destruct ED as [(D1 & D2 & H & H1 & H2 & D3)|S0].
    + exists H, op, [], (c_trace s). subst s'. split; [|split; [exact HI|left; exists (c_m s), tr; cbn [c_g g_size]; rewrite D1; auto]].
      constructor; cbn [c_g c_thr c_user c_m c_trace g_size g_quit g_cur g_bar g_cb app]; auto; change (lvo (mkG _ _ _ _ _ _ _ _ _ _)) with (lvo (c_g s)); try lia.
      intros o. etransitivity; [exact (f_equal (Z.add (delivered o op)) (F0 o))|]. rewrite D3, Z.add_0_r. reflexivity.
    + exists 0, [], [], (c_trace s). subst s'. split; [|split; [exact HI|right; auto]].
      constructor; cbn [c_g c_thr c_user c_m c_trace g_size g_quit g_cur g_bar g_cb app]; auto; change (lvo (mkG _ _ _ _ _ _ _ _ _ _)) with (lvo (c_g s)); try lia.
      * split; [lia|reflexivity].
      * intros o. rewrite ZT by auto. etransitivity; [exact (f_equal (Z.add (delivered o [])) (F0 o))|]. reflexivity.
Qed.
Theorem reach_all n s : (1 <= n)%nat -> Z.of_nat n < 2 ^ 32 -> reachable cstep (new_stream n) s -> (g_quit (c_g s) = false /\ cinv n s) \/ dying n s.
Proof.
  intros N1 N2 H. induction H as [|a s s' H IH E].
  - left. split; [reflexivity|now apply new_inv].
  - destruct IH as [[Q I]|D]; [|right; eapply dying_step; eauto].
    destruct (g_quit (c_g s')) eqn:Q'; [|left; split; [reflexivity|eapply step_inv; eauto]].
    right. assert (a = AQuit1); [|subst a; eapply dying_start; eauto].
    destruct a as [i fail|i|m|size| |cancel| |]; auto; exfalso; cbn [cstep] in E.
    + destruct (nth_error (c_thr s) i) as [t|]; [|discriminate E].
      destruct (tstep (lenZ (c_thr s)) i fail (c_g s) t) as [[[[g' t'] w] evs]|] eqn:T; [|discriminate E].
      apply Some_inj in E. subst s'. cbn [c_g] in Q'. rewrite (tstep_quit _ _ _ _ _ _ _ _ _ T) in Q'. congruence.
    + destruct (nth_error (c_thr s) i) as [t|]; [|discriminate E]. destruct (wake_any t); [|discriminate E]. apply Some_inj in E. subst s'. cbn in Q'. congruence.
    + destruct (c_user s); try discriminate E. destruct (_ && _); [|discriminate E]. destruct (set_epoch m); [|discriminate E]. apply Some_inj in E. subst s'. cbn in Q'. congruence.
    + destruct (c_user s); try discriminate E. destruct (_ && _); [|discriminate E]. apply Some_inj in E. subst s'. cbn in Q'. congruence.
    + destruct (c_user s); try discriminate E. apply Some_inj in E. subst s'. cbn in Q'. congruence.
    + destruct (c_user s); try discriminate E. apply Some_inj in E. subst s'. cbn in Q'. congruence.
    + destruct (c_user s); try discriminate E. apply Some_inj in E. subst s'. cbn in Q'. congruence.
Qed.

(** ** The destructor terminates *)
Definition P64 : Z := 2 ^ 64.
Definition qrank (t : thread) : Z :=
  match fst t with
  | CExit => 0
  | CLoop => 1
  | CStart | CCallback _ _ | CReset => 2
  | CFinBar _ _ => 3
  | CFinArrive => 4
  | CFin _ => 5
  | CArrive l o m => if l <=? o then 6 + 2 * m else 12 + 2 * P64 + 2 * m
  | CBar l o m _ _ => if l <=? o then 7 + 2 * m else 13 + 2 * P64 + 2 * m
  | CEpoch l _ o => if l <=? o then 7 + 2 * P64 else 13 + 4 * P64
  | CFetch _ _ => 8 + 2 * P64
  | CInit | CCall _ _ _ => 9 + 2 * P64
  | CTrig _ | CErr _ _ => 10 + 2 * P64
  | CWork _ _ => 11 + 2 * P64
  end.
Lemma qrank_wake t : qrank (wake_bar t) = qrank t.
Proof. destruct t as [[] ?]; reflexivity. Qed.
Lemma qrank_range g t : tquit g t -> 0 <= qrank t <= 13 + 4 * P64.
Proof.
  assert (P : P64 = 2 ^ 64) by reflexivity.
  destruct t as [pc lt]. unfold tquit, qrank. destruct pc; cbn [fst]; intros T; try lia; match goal with |- context [if ?c then _ else _] => destruct c end; lia.
Qed.
Lemma gone_step n s i fail s' : dying n s -> c_user s = UGone -> cstep (AThread i fail) s = Some s' -> c_user s' = UGone /\ sumf qrank (c_thr s') + 1 <= sumf qrank (c_thr s).
Proof.
  intros (H & op & newer & older & QI & _) U E. pose proof QI as [QL QQ QS QU QT QC QH QR QM QE QA QD].
  destruct QU as [X|(_ & IT & AL & CC)]; [congruence|].
  cbn [cstep] in E. destruct (nth_error (c_thr s) i) as [t|] eqn:Hi; [|discriminate E].
  pose proof (Forall_nth_error _ _ _ _ QT Hi) as Ti. pose proof (Forall_nth_error _ _ _ _ AL Hi) as Ai.
  destruct (tstep (lenZ (c_thr s)) i fail (c_g s) t) as [[[[g' t'] w] evs]|] eqn:T; [|discriminate E]. apply Some_inj in E. subst s'. cbn [c_user c_thr].
  split; [rewrite U; destruct evs as [|[] [|]]; reflexivity|].
  assert (W : sumf qrank (setnth i t' (match w with WNone => c_thr s | WBar => map wake_bar (c_thr s) end)) = sumf qrank (c_thr s) - qrank t + qrank t').
  { destruct w; [apply (sumf_setnth _ _ _ _ _ Hi)|]. rewrite (sumf_setnth _ i t' (wake_bar t)) by (rewrite nth_error_map, Hi; reflexivity). rewrite sumf_map, qrank_wake.
    assert (X : forall l, sumf (fun x => qrank (wake_bar x)) l = sumf qrank l) by (induction l as [|x l IH]; cbn [sumf]; rewrite ?qrank_wake; lia). rewrite X. reflexivity. }
  rewrite W. enough (qrank t' + 1 <= qrank t) by lia. clear W.
  assert (BP : forall g1, bar_pass (g_bar (c_g s)) g1 = true) by (intros; unfold bar_pass; rewrite IT; apply orb_true_r).
  destruct t as [pc lt]. unfold tstep in T. unfold tquit in Ti. cbn [fst] in Ti. unfold asleep in Ai. cbn [fst] in Ai.
  destruct pc as [| |a| |l lo|l lo off|l off m|l off m g1 a|l off|l off|l off ok|a| |g1 a| |err pr|]; try subst a; rewrite ?QQ, ?orb_true_r in T; try discriminate T.
  - injection T as _ <- _ _. unfold qrank. cbn [fst]. lia.
  - injection T as _ <- _ _. unfold qrank. cbn [fst]. lia.
  - injection T as _ <- _ _. unfold qrank. cbn [fst]. lia.
  - injection T as _ <- _ _. unfold qrank. cbn [fst]. lia.
  - injection T as _ <- _ _. unfold qrank; cbn [fst]. subst l. destruct (Z.leb_spec (lvo (c_g s)) (g_cur (c_g s))); lia.
  - injection T as _ <- _ _. unfold qrank; cbn [fst]. pose proof (num_epochs_range (c_g s) lo off). unfold P64. destruct (l <=? off); lia.
  - destruct (Z.eqb_spec m 0) as [M|M].
    + injection T as _ <- _ _. destruct (Z.leb_spec l off); unfold qrank; cbn [fst]; destruct (Z.leb_spec l off); unfold P64; lia.
    + assert (X : t' = (CArrive l off (m - 1), lt)).
      { unfold bar_arrive in T. cbv zeta in T. destruct (_ =? _) in T; injection T as _ <- _ _; [reflexivity|]. unfold bar_pass. cbn [b_intr b_gen]. rewrite IT, orb_true_r. reflexivity. }
      subst t'. unfold qrank; cbn [fst]. destruct (l <=? off); lia.
  - rewrite BP in T. injection T as _ <- _ _. unfold qrank; cbn [fst]. destruct (l <=? off); lia.
  - injection T as _ <- _ _. destruct fail; unfold qrank; cbn [fst]; lia.
  - injection T as _ <- _ _. unfold qrank. cbn [fst]. lia.
  - injection T as _ <- _ _. unfold qrank. cbn [fst]. lia.
  - injection T as _ <- _ _. unfold qrank. cbn [fst]. lia.
  - assert (X : t' = (after_barrier i, lt)).
    { unfold bar_arrive in T. cbv zeta in T. destruct (_ =? _) in T; injection T as _ <- _ _; [reflexivity|]. unfold bar_pass. cbn [b_intr b_gen]. rewrite IT, orb_true_r. reflexivity. }
    subst t'. destruct i; unfold qrank; cbn [after_barrier fst]; lia.
  - rewrite BP in T. injection T as _ <- _ _. destruct i; unfold qrank; cbn [after_barrier fst]; lia.
  - injection T as _ <- _ _. unfold qrank. cbn [fst]. lia.
  - injection T as _ <- _ _. unfold qrank. cbn [fst]. lia.
Qed.
Lemma gone_progress n s i t fail : dying n s -> c_user s = UGone -> nth_error (c_thr s) i = Some t -> fst t <> CExit -> exists s', cstep (AThread i fail) s = Some s'.
Proof.
  intros (H & op & newer & older & QI & _) U Hi NE. pose proof QI as [QL QQ QS QU QT QC QH QR QM QE QA QD].
  destruct QU as [X|(_ & IT & AL & CC)]; [congruence|]. pose proof (Forall_nth_error _ _ _ _ AL Hi) as Ai.
  cbn [cstep]. rewrite Hi. destruct (tstep (lenZ (c_thr s)) i fail (c_g s) t) as [[[[g' t'] w] evs]|] eqn:T; [eauto|]. exfalso.
  destruct t as [pc lt]. unfold tstep in T. unfold asleep in Ai. cbn [fst] in *.
  destruct pc as [| |a| |l lo|l lo off|l off m|l off m g1 a|l off|l off|l off ok|a| |g1 a| |err pr|]; try subst a; try discriminate T; try contradiction.
  all: repeat match type of T with
    | (if ?c then _ else _) = _ => destruct c
    | context [bar_arrive ?a ?b] => unfold bar_arrive in T; cbv zeta in T
    | (let '(_, _) := if ?c then _ else _ in _) = _ => destruct c
    | _ => discriminate T
    end.
Qed.
Lemma gone_bound n l : Z.of_nat n < 2 ^ 32 -> forall s s', dying n s -> c_user s = UGone -> run cstep l s = Some s' ->
  dying n s' /\ c_user s' = UGone /\ lenZ l + sumf qrank (c_thr s') <= sumf qrank (c_thr s).
Proof.
  intros N2. induction l as [|a l IH]; intros s s' D U E; cbn [run] in E.
  - injection E as <-. split; [exact D|]. split; [exact U|]. unfold lenZ. cbn [length]. lia.
  - destruct (cstep a s) as [s1|] eqn:E1; [|discriminate E]. pose proof (dying_step n a s s1 N2 D E1) as D1.
    assert (A : exists i fail, a = AThread i fail).
    { destruct a as [i fail|i|m|size| |cancel| |]; eauto; exfalso; cbn [cstep] in E1; try (rewrite U in E1; discriminate E1).
      destruct D as (H & op & newer & older & QI & _). destruct (q_user _ _ _ _ _ _ QI) as [X|(_ & _ & AL & _)]; [congruence|].
      destruct (nth_error (c_thr s) i) as [t|] eqn:Hi; [|discriminate E1]. pose proof (Forall_nth_error _ _ _ _ AL Hi) as Ai.
      destruct t as [pc lt]. destruct pc; try discriminate E1; unfold asleep in Ai; cbn [fst] in Ai; rewrite Ai in E1; discriminate E1. }
    destruct A as (i & fail & ->). destruct (gone_step n s i fail s1 D U E1) as [U1 R1]. destruct (IH s1 s' D1 U1 E) as (X & Y & Z). split; [exact X|]. split; [exact Y|].
    unfold lenZ in *. cbn [length]. lia.
Qed.
