(** Preservation of the invariant of the compression stream. *)
From Coq Require Import ZArith List Bool Lia.
From Verif Require Import CBase BitsLemmas ConcLib BarrierModel SpecSync BarrierProofs StreamBlockModel CompStreamModel SpecStream CompInv.
Import ListNotations.
Open Scope Z_scope.

Record same (g g' : shared) : Prop := {
  sa_trig : g_trigger g' = g_trigger g; sa_size : g_size g' = g_size g; sa_k : g_k g' = g_k g; sa_fin : g_fin g' = g_fin g;
  sa_cb : g_cb g' = g_cb g; sa_fcb : g_fcb g' = g_fcb g; sa_gen : gen g' = gen g; sa_intr : b_intr (g_bar g') = b_intr (g_bar g);
  sa_quit : g_quit g' = g_quit g }.
Lemma same_lvo g g' : same g g' -> lvo g' = lvo g.
Proof. intros S. unfold lvo. now rewrite (sa_size _ _ S). Qed.
Lemma same_sh g g' x : same g g' -> sh g' x = sh g x.
Proof. intros S. unfold sh. now rewrite (sa_k _ _ S). Qed.
Lemma same_ep g g' x : same g g' -> ep g' x = ep g x.
Proof. intros S. unfold ep. now rewrite (same_sh g g'), (sa_size _ _ S). Qed.
Lemma same_KK g g' : same g g' -> KK g' = KK g.
Proof. intros S. unfold KK. now rewrite (same_sh g g'), (sa_size _ _ S). Qed.
Lemma same_taken g g' H o : same g g' -> taken g' H o = taken g H o.
Proof. intros S. unfold taken. now rewrite (same_lvo g g'). Qed.

Lemma trun_mono g g' j j' R H H' t : same g g' -> (j' = false -> j = false /\ H <= H') ->
  (forall lo, (lo = 0 \/ lo < lvo g) -> lo <= g_cur g -> lo <= g_cur g') -> trun g j R H t -> trun g' j' R H' t.
Proof.
  intros S J C T. destruct t as [pc lt]. unfold trun in *. rewrite ?(same_lvo g g' S), ?(same_ep g g' _ S), ?(same_KK g g' S), ?(sa_trig g g' S), ?(sa_gen g g' S), ?(sa_fin g g' S).
  destruct pc as [| |[|]| | | | | l off m g1 a | | | |a| |g1 a| | |]; rewrite ?(same_sh g g' _ S), ?(same_ep g g' _ S); auto.
  - destruct T as (T1 & T2 & T3 & T4 & T5). repeat split; auto; try tauto. apply C; tauto.
  - destruct T as (T1 & T2 & T3 & T4 & T5 & T6). repeat split; auto; try tauto. intros E. destruct (J E) as [J1 J2]. specialize (T6 J1). lia.
  - destruct T as (T1 & T2 & T3 & T4 & T5 & T6). repeat split; auto; try tauto. intros E. destruct (J E) as [J1 J2]. specialize (T6 J1). lia.
  - destruct T as (T1 & T2 & T3 & T4 & T5 & T6). split; [|split; [|split; [|split; [|split]]]]; auto. intros E. destruct (J E) as [J1 J2]. specialize (T5 J1). lia.
  - destruct T as (T1 & T2 & T3 & T4). repeat split; auto; try tauto. intros E. destruct (J E) as [J1 J2]. specialize (T4 J1). lia.
  - destruct T as (T1 & T2 & T3 & T4). repeat split; auto; try tauto. intros E. destruct (J E) as [J1 J2]. specialize (T4 J1). lia.
  - destruct T as [(T1 & T2 & T3 & T4 & T5)|T]; [left|right; exact T]. repeat split; auto. intros E. destruct (J E) as [J1 J2]. specialize (T5 J1). lia.
Qed.

Lemma cnt_app {A} p (a b : list A) : cnt p (a ++ b) = cnt p a + cnt p b.
Proof. induction a as [|x a IH]; cbn [app cnt]; lia. Qed.
Lemma delivered_app o a b : delivered o (a ++ b) = delivered o a + delivered o b.
Proof. apply cnt_app. Qed.

(** The step of one thread without a wakeup and without a change of phase. *)
Lemma run_upd n s R H op tr i t t' g' evs H' :
  running n s R H op tr -> nth_error (c_thr s) i = Some t ->
  same (c_g s) g' ->
  b_count (g_bar g') = b_count (g_bar (c_g s)) - b2z (waitingc (gen (c_g s)) t) + b2z (waitingc (gen (c_g s)) t') -> b_count (g_bar g') < Z.of_nat n ->
  (jump g' (evs ++ op) = false -> jump (c_g s) op = false /\ H <= H') ->
  (forall lo, (lo = 0 \/ lo < lvo (c_g s)) -> lo <= g_cur (c_g s) -> lo <= g_cur g') ->
  trun g' (jump g' (evs ++ op)) R H' t' ->
  (0 <= H' /\ H' mod BLOCK_SIZE = 0) ->
  (0 <= g_cur g' /\ (jump g' (evs ++ op) = false -> g_cur g' = H') /\ (jump g' (evs ++ op) = true -> BIG <= g_cur g')) ->
  g_cur g' <= BIG + BLOCK_SIZE * (cnt (over (gen (c_g s))) (c_thr s) - b2z (over (gen (c_g s)) t) + b2z (over (gen (c_g s)) t')) ->
  (forall o, delivered o evs - b2z (inflight o t) + b2z (inflight o t') = b2z (taken (c_g s) H' o) - b2z (taken (c_g s) H o)) ->
  g_error g' = (0 <? failures evs + failures op + cnt failing (c_thr s) - b2z (failing t) + b2z (failing t')) ->
  Forall inner evs -> finalizes evs = 0 ->
  epochs_ordered (g_size (c_g s)) (c_m s) (evs ++ op) ->
  (zero (gen (c_g s)) t -> zero (gen (c_g s)) t') ->
  running n (mkC g' (setnth i t' (c_thr s)) (c_user s) (c_m s) (evs ++ c_trace s)) R H' (evs ++ op) tr.
Proof.
  intros RU Hi S CB LT J C T HH CU MX D ER IN FI EP ZZ. destruct RU as [CO TR CL TH RR RH RC RM RD RE RU RB RI RP RZ].
  destruct CO as [L G CN CL2 IT Q TG K SZ].
  constructor; cbn [c_g c_thr c_user c_m c_trace]; auto.
  - constructor; cbn [c_g c_thr c_user c_m c_trace].
    + now rewrite setnth_length.
    + now rewrite (sa_gen _ _ S).
    + rewrite (sa_gen _ _ S), (cnt_setnth _ _ _ _ _ Hi), CB, CN. reflexivity.
    + exact LT.
    + now rewrite (sa_intr _ _ S).
    + now rewrite (sa_quit _ _ S).
    + now rewrite (sa_trig _ _ S).
    + unfold kok in *. now rewrite (sa_k _ _ S).
    + now rewrite (sa_size _ _ S).
  - rewrite (sa_size _ _ S), TR, app_assoc. reflexivity.
  - apply Forall_setnth; [|exact T]. eapply Forall_impl; [|exact TH]. intros x. apply trun_mono; auto.
  - rewrite (sa_gen _ _ S), (cnt_setnth _ _ _ _ _ Hi). exact MX.
  - intros o. rewrite (cnt_setnth _ _ _ _ _ Hi), delivered_app, (same_taken _ _ _ _ S). specialize (D o). specialize (RD o). fold (b2z (inflight o t)). fold (b2z (inflight o t')). lia.
  - rewrite (cnt_setnth _ _ _ _ _ Hi), ER. unfold failures at 3. rewrite cnt_app. fold (failures evs) (failures op) (b2z (failing t)) (b2z (failing t')). f_equal. lia.
  - rewrite (sa_fin _ _ S). assert (E : finalizes (evs ++ op) = finalizes op) by (unfold finalizes in *; rewrite cnt_app; lia). rewrite E. exact RU.
  - rewrite (sa_fin _ _ S), (sa_fcb _ _ S), (sa_cb _ _ S). exact RB.
  - apply Forall_app; auto.
  - rewrite (sa_size _ _ S). exact EP.
  - rewrite (sa_gen _ _ S). intros t0 Ht0. destruct i as [|i].
    + rewrite (nth_setnth_same _ _ _ _ Hi) in Ht0. injection Ht0 as <-. auto.
    + rewrite nth_setnth_other in Ht0 by discriminate. auto.
Qed.

(** The same for steps that change neither the shared state nor the trace. *)
Lemma run_local n s R H op tr i t t' :
  running n s R H op tr -> nth_error (c_thr s) i = Some t ->
  waitingc (gen (c_g s)) t' = waitingc (gen (c_g s)) t -> over (gen (c_g s)) t' = over (gen (c_g s)) t ->
  (forall o, inflight o t' = inflight o t) -> failing t' = failing t ->
  (zero (gen (c_g s)) t -> zero (gen (c_g s)) t') ->
  (trun (c_g s) (jump (c_g s) op) R H t -> trun (c_g s) (jump (c_g s) op) R H t') ->
  running n (mkC (c_g s) (setnth i t' (c_thr s)) (c_user s) (c_m s) (c_trace s)) R H op tr.
Proof.
  intros RU Hi W O I F ZZ T. pose proof RU as [CO TR CL TH RR RH RC RM RD RE RUS RB RI RP RZ].
  change (c_trace s) with ([] ++ c_trace s). change op with ([] ++ op).
  eapply run_upd with (t := t) (H := H); eauto; cbn [app].
  - constructor; reflexivity.
  - rewrite W. lia.
  - apply (co_lt _ _ CO).
  - intros ->. split; [reflexivity|lia].
  - apply T. exact (Forall_nth_error _ _ _ _ TH Hi).
  - rewrite O. lia.
  - intros o. rewrite I. cbn. lia.
  - rewrite F, RE. change (failures []) with 0. f_equal. lia.
Qed.

(** ** Barriers *)
Lemma trun_wait g j R H t : trun g j R H t -> waitingc (gen g) t = true -> 0 <= gen g < 2 ^ 32 ->
  match t with
  | (CBar l off n g' a, lt) => g' = gen g /\ ep g off - n = R + 1 /\ 0 <= n
  | (CFinBar g' a, lt) => g' = gen g /\ lt = g_trigger g /\ R = KK g
  | _ => False
  end.
Proof.
  intros T W G. destruct t as [pc lt]. unfold waitingc in W. cbn [fst] in W. destruct pc; try discriminate W; cbn [trun] in T; apply Z.eqb_eq in W; subst.
  - destruct T as (T1 & T2 & T3 & T4 & T5 & [[T6 T7]|[T6 _]]); auto. exfalso. symmetry in T6. revert T6. now apply prev_neq.
  - destruct T as [(T1 & T2 & T3 & T4 & T5)|(T6 & _)]; auto. exfalso. symmetry in T6. revert T6. now apply prev_neq.
Qed.
Definition next_bar (b : barrier) : barrier := mkBar 0 (u32 (b_gen b + 1)) (b_intr b).

(** The last arrival at the barrier between two epochs. *)
Lemma run_epoch_last n s R H op tr i l off m lt :
  running n s R H op tr -> (Z.of_nat n < 2 ^ 32) -> nth_error (c_thr s) i = Some (CArrive l off m, lt) -> m <> 0 ->
  b_count (g_bar (c_g s)) + 1 = Z.of_nat n ->
  running n (mkC (set_bar (c_g s) (next_bar (g_bar (c_g s)))) (setnth i (CArrive l off (m - 1), lt) (map wake_bar (c_thr s))) (c_user s) (c_m s) (c_trace s)) (R + 1) H op tr.
Proof.
  intros RU N Hi M B. pose proof RU as [CO TR CL TH RR RH RC RM RD RE RUS RB RI RP RZ]. pose proof CO as [L G CN CL2 IT Q TG K SZ].
  pose proof (Forall_nth_error _ _ _ _ TH Hi) as Ti. cbn [trun] in Ti. destruct Ti as (T1 & T2 & T3 & T4 & T5 & T6).
  assert (OT : forall k t, nth_error (c_thr s) k = Some t -> k <> i -> match t with
    | (CBar l' off' m' g' a, lt') => g' = gen (c_g s) /\ ep (c_g s) off' - m' = R + 1 /\ lt' = g_trigger (c_g s) /\ l' = lvo (c_g s) /\ 0 <= off' /\ 0 <= m' /\ (jump (c_g s) op = false -> off' < H) | _ => False end).
  { intros k t Hk NE. pose proof (Forall_nth_error _ _ _ _ TH Hk) as Tk.
    assert (W : waitingc (gen (c_g s)) t = true) by (apply (cnt_others _ (c_thr s) i _ Hi) with (j := k); auto; rewrite <- CN, L; exact B).
    pose proof (trun_wait _ _ _ _ _ Tk W G) as X. destruct t as [pc lt']. destruct pc; try contradiction.
    - destruct X as (X1 & X2 & X3). cbn [trun] in Tk. destruct Tk as (U1 & U2 & U3 & U4 & U5 & U6). auto 10.
    - exfalso. destruct X as (X1 & X2 & X3). pose proof (ep_le (c_g s) (c_m s) off K). lia. }
  assert (TH' : forall k t, nth_error (setnth i (CArrive l off (m - 1), lt) (map wake_bar (c_thr s))) k = Some t ->
     trun (set_bar (c_g s) (next_bar (g_bar (c_g s)))) (jump (c_g s) op) (R + 1) H t /\ waitingc (u32 (gen (c_g s) + 1)) t = false).
  { intros k t Hk. destruct (Nat.eq_dec k i) as [->|NE].
    - rewrite (nth_setnth_same i _ (wake_bar (CArrive l off m, lt))) in Hk by (rewrite nth_error_map, Hi; reflexivity). injection Hk as <-. split; [|reflexivity].
      cbn [trun set_bar g_trigger]. change (lvo (set_bar _ _)) with (lvo (c_g s)). change (ep (set_bar _ _)) with (ep (c_g s)). repeat split; auto; lia.
    - rewrite nth_setnth_other in Hk by auto. rewrite nth_error_map in Hk. destruct (nth_error (c_thr s) k) as [t0|] eqn:E; [|discriminate Hk].
      cbn [option_map] in Hk. injection Hk as <-. specialize (OT k t0 E NE). destruct t0 as [pc lt']. destruct pc; try contradiction.
      destruct OT as (-> & X2 & X3 & X4 & X5 & X6 & X7). cbn [wake_bar]. split.
      + cbn [trun set_bar g_trigger]. change (CompInv.lvo (set_bar _ _)) with (CompInv.lvo (c_g s)). change (ep (set_bar _ _)) with (ep (c_g s)).
        change (gen (set_bar _ _)) with (u32 (gen (c_g s) + 1)). rewrite prev_next by exact G. split; [|split; [|split; [|split; [|split]]]]; auto.
      + unfold waitingc. cbn [fst]. apply Z.eqb_neq. intros E2. symmetry in E2. revert E2. now apply next_neq. }
  assert (CNT : forall p : thread -> bool, (forall l' off' m' g' a a' lt', p (CBar l' off' m' g' a, lt') = p (CBar l' off' m' g' a', lt')) -> p (CArrive l off (m - 1), lt) = p (CArrive l off m, lt) ->
     cnt p (setnth i (CArrive l off (m - 1), lt) (map wake_bar (c_thr s))) = cnt p (c_thr s)).
  { intros p P1 P2. change (CArrive l off (m - 1), lt) with (wake_bar (CArrive l off (m - 1), lt)). rewrite setnth_map, cnt_map.
    transitivity (cnt p (setnth i (CArrive l off (m - 1), lt) (c_thr s))).
    - apply cnt_ext. apply nth_error_forall. intros k t Hk. destruct (Nat.eq_dec k i) as [->|NE].
      + rewrite (nth_setnth_same i _ _ _ Hi) in Hk. injection Hk as <-. reflexivity.
      + rewrite nth_setnth_other in Hk by auto. specialize (OT k t Hk NE). destruct t as [pc lt']. destruct pc; try contradiction. cbn [wake_bar]. apply P1.
    - rewrite (cnt_setnth _ _ _ _ _ Hi), P2. destruct (p (CArrive l off m, lt)); lia. }
  constructor; cbn [c_g c_thr c_user c_m c_trace]; auto.
  - constructor; cbn [c_g c_thr c_user c_m c_trace]; auto.
    + now rewrite setnth_length, map_length.
    + apply u32_range.
    + cbn [set_bar g_bar next_bar b_count]. symmetry. apply cnt_zero. apply nth_error_forall. intros k t Hk. apply (TH' k t Hk).
    + cbn [set_bar g_bar next_bar b_count]. pose proof (cnt_nonneg (waitingc (gen (c_g s))) (c_thr s)). lia.
  - apply nth_error_forall. intros k t Hk. apply (TH' k t Hk).
  - lia.
  - change (g_cur (set_bar _ _)) with (g_cur (c_g s)). change (gen (set_bar _ _)) with (u32 (gen (c_g s) + 1)).
    enough (E : cnt (over (u32 (gen (c_g s) + 1))) (setnth i (CArrive l off (m - 1), lt) (map wake_bar (c_thr s))) = cnt (over (gen (c_g s))) (c_thr s)) by (rewrite E; exact RM).
    rewrite CNT by reflexivity. apply cnt_ext. apply nth_error_forall. intros k t Hk. destruct (Nat.eq_dec k i) as [->|NE].
    + rewrite Hi in Hk. injection Hk as <-. reflexivity.
    + specialize (OT k t Hk NE). destruct t as [pc lt']. destruct pc; try contradiction. reflexivity.
  - intros o. rewrite CNT by reflexivity. apply RD.
  - rewrite CNT by reflexivity. exact RE.
  - intros t Ht. destruct (TH' _ _ Ht) as [X _]. destruct (Nat.eq_dec 0 i) as [<-|NE].
    + rewrite (nth_setnth_same 0 _ (wake_bar (CArrive l off m, lt))) in Ht by (rewrite nth_error_map, Hi; reflexivity). injection Ht as <-. exact Logic.I.
    + rewrite nth_setnth_other in Ht by auto. rewrite nth_error_map in Ht. destruct (nth_error (c_thr s) 0) as [t0|] eqn:E; [|discriminate Ht].
      cbn [option_map] in Ht. injection Ht as <-. specialize (OT _ t0 E NE). destruct t0 as [pc lt']. destruct pc; try contradiction. exact Logic.I.
Qed.

Lemma taken_valid g H o : 0 <= g_size g <= BIG -> taken g H o = true -> block_offset (g_size g) o.
Proof.
  intros SZ T. pose proof (lvo_facts g SZ) as (L1 & L2 & L3 & L4). unfold taken in T. apply andb_true_iff in T. destruct T as [T T4]. apply andb_true_iff in T. destruct T as [T T3].
  apply andb_true_iff in T. destruct T as [T1 T2]. apply Z.leb_le in T1. apply Z.eqb_eq in T2. apply Z.ltb_lt in T3. split; [|split]; auto.
  pose proof (Z.div_mod o BLOCK_SIZE ltac:(discriminate)). pose proof (Z.div_mod (lvo g) BLOCK_SIZE ltac:(discriminate)). rewrite block_size in *. lia.
Qed.
Lemma valid_lvo g o : 0 <= g_size g <= BIG -> block_offset (g_size g) o -> o < lvo g.
Proof.
  intros SZ (B1 & B2 & B3). pose proof (lvo_facts g SZ) as (L1 & L2 & L3 & L4).
  pose proof (Z.div_mod o BLOCK_SIZE ltac:(discriminate)). pose proof (Z.div_mod (lvo g) BLOCK_SIZE ltac:(discriminate)). rewrite block_size in *. lia.
Qed.
Lemma valid_taken g H o : 0 <= g_size g <= BIG -> block_offset (g_size g) o -> o < H -> taken g H o = true.
Proof.
  intros SZ B L. pose proof (valid_lvo g o SZ B). destruct B as (B1 & B2 & B3). unfold taken. rewrite !andb_true_iff. rewrite Z.leb_le, Z.eqb_eq, !Z.ltb_lt. auto.
Qed.
Lemma b2z_range b : 0 <= b2z b <= 1.
Proof. destruct b; cbn; lia. Qed.
Lemma run_so_far n s R H op tr : running n s R H op tr -> op_so_far (g_size (c_g s)) op.
Proof.
  intros [CO TR CL TH RR RH RC RM RD RE RUS RB RI RP RZ]. constructor; auto.
  - intros o. specialize (RD o). pose proof (cnt_nonneg (inflight o) (c_thr s)). pose proof (b2z_range (taken (c_g s) H o)). lia.
  - intros o P. specialize (RD o). pose proof (cnt_nonneg (inflight o) (c_thr s)). apply taken_valid with (H := H); [apply (co_size _ _ CO)|]. destruct (taken (c_g s) H o); unfold b2z in RD; [auto|lia].
  - destruct RUS as [(_ & _ & ->)|(_ & _ & ->)]; lia.
Qed.

(** The last arrival at the barrier at the end of an operation. *)
Lemma run_final_last n s R H op tr i lt :
  running n s R H op tr -> nth_error (c_thr s) i = Some (CFinArrive, lt) ->
  b_count (g_bar (c_g s)) + 1 = Z.of_nat n ->
  ending n (mkC (set_bar (c_g s) (next_bar (g_bar (c_g s)))) (setnth i (after_barrier i, lt) (map wake_bar (c_thr s))) (c_user s) (c_m s) (c_trace s)) (g_size (c_g s)) op tr.
Proof.
  intros RU Hi B. pose proof RU as [CO TR CL TH RR RH RC RM RD RE RUS RB RI RP RZ]. pose proof CO as [L G CN CL2 IT Q TG K SZ].
  pose proof (Forall_nth_error _ _ _ _ TH Hi) as Ti. cbn [trun] in Ti. destruct Ti as (T1 & T2 & T3 & T4).
  assert (OT : forall k t, nth_error (c_thr s) k = Some t -> k <> i -> match t with
    | (CFinBar g' a, lt') => g' = gen (c_g s) /\ lt' = g_trigger (c_g s) | _ => False end).
  { intros k t Hk NE. pose proof (Forall_nth_error _ _ _ _ TH Hk) as Tk.
    assert (W : waitingc (gen (c_g s)) t = true) by (apply (cnt_others _ (c_thr s) i _ Hi) with (j := k); auto; rewrite <- CN, L; exact B).
    pose proof (trun_wait _ _ _ _ _ Tk W G) as X. destruct t as [pc lt']. destruct pc; try contradiction.
    - exfalso. destruct X as (X1 & X2 & X3). pose proof (ep_le (c_g s) (c_m s) off K). lia.
    - tauto. }
  assert (Z0 : forall p : thread -> bool, p (CFinArrive, lt) = false -> (forall g' a lt', p (CFinBar g' a, lt') = false) -> cnt p (c_thr s) = 0).
  { intros p P1 P2. apply cnt_zero. apply nth_error_forall. intros k t Hk. destruct (Nat.eq_dec k i) as [->|NE].
    - rewrite Hi in Hk. injection Hk as <-. exact P1.
    - specialize (OT k t Hk NE). destruct t as [pc lt']. destruct pc; try contradiction. apply P2. }
  assert (OP : op_complete (g_size (c_g s)) (c_m s) op (negb (0 <? failures op))).
  { constructor.
    - exact (run_so_far _ _ _ _ _ _ RU).
    - exact RP.
    - destruct RUS as [(_ & E & _)|(_ & _ & E)]; [congruence|exact E].
    - assert (0 <= failures op) by apply cnt_nonneg. rewrite negb_true_iff, Z.ltb_ge. split; lia.
    - intros OK C0 o BO. apply negb_true_iff in OK. rewrite (Z0 failing), Z.add_0_r, OK in RE by reflexivity.
      assert (J : jump (c_g s) op = false) by (unfold jump; rewrite RE, C0; reflexivity). specialize (T4 J).
      pose proof (valid_lvo _ _ SZ BO) as LV. specialize (RD o). rewrite (Z0 (inflight o)), (valid_taken (c_g s) H o SZ BO) in RD by (try reflexivity; lia). unfold b2z in RD. lia. }
  assert (ERR : g_error (c_g s) = (0 <? failures op)) by (rewrite RE, (Z0 failing), Z.add_0_r by reflexivity; reflexivity).
  assert (TH' : forall k t, nth_error (setnth i (after_barrier i, lt) (map wake_bar (c_thr s))) k = Some t ->
     (t = (after_barrier k, g_trigger (c_g s)) \/ t = (CFinBar (gen (c_g s)) false, g_trigger (c_g s)))).
  { intros k t Hk. destruct (Nat.eq_dec k i) as [->|NE].
    - rewrite (nth_setnth_same i _ (wake_bar (CFinArrive, lt))) in Hk by (rewrite nth_error_map, Hi; reflexivity). injection Hk as <-. rewrite T1. auto.
    - rewrite nth_setnth_other in Hk by auto. rewrite nth_error_map in Hk. destruct (nth_error (c_thr s) k) as [t0|] eqn:E; [|discriminate Hk].
      cbn [option_map] in Hk. injection Hk as <-. specialize (OT k t0 E NE). destruct t0 as [pc lt']. destruct pc; try contradiction. destruct OT as (-> & ->). right. reflexivity. }
  constructor; cbn [c_g c_thr c_user c_m c_trace]; auto.
  - constructor; cbn [c_g c_thr c_user c_m c_trace]; auto.
    + now rewrite setnth_length, map_length.
    + apply u32_range.
    + cbn [set_bar g_bar next_bar b_count]. symmetry. apply cnt_zero. apply nth_error_forall. intros k t Hk.
      destruct (TH' k t Hk) as [-> | ->]; [destruct k; reflexivity|]. unfold waitingc. cbn [fst]. apply Z.eqb_neq. intros E2. symmetry in E2. revert E2. now apply next_neq.
    + cbn [set_bar g_bar next_bar b_count]. pose proof (cnt_nonneg (waitingc (gen (c_g s))) (c_thr s)). lia.
  - destruct RUS as [(_ & E & _)|(E & _)]; [congruence|exact E].
  - intros k t Hk. destruct (TH' k t Hk) as [-> | ->]; (split; [reflexivity|]); cbn [fst]; [destruct k; cbn; auto|].
    change (gen (set_bar _ _)) with (u32 (gen (c_g s) + 1)). rewrite prev_next by exact G. auto.
  - destruct (nth_error (setnth i (after_barrier i, lt) (map wake_bar (c_thr s))) 0) as [t|] eqn:E.
    + assert (X : g_fin (c_g s) = true /\ g_fcb (c_g s) = true /\ g_error (c_g s) = (0 <? failures op)) by (destruct RB as [RB1 RB2]; rewrite RB2; auto).
      refine (eq_ind_r (fun o => leader _ op o) _ E). destruct (TH' _ _ E) as [-> | ->]; exact X.
    + apply nth_error_None in E. rewrite setnth_length, map_length in E. assert (i < length (c_thr s))%nat by (apply nth_error_Some; congruence). lia.
  - change (lvo (set_bar _ _)) with (lvo (c_g s)). cbn [set_bar g_cur]. pose proof (lvo_facts (c_g s) SZ) as (L1 & L2 & L3 & L4).
    destruct RC as (C1 & C2 & C3). split; [exact C1|]. split.
    + destruct (jump (c_g s) op); [specialize (C3 eq_refl); lia|]. rewrite (C2 eq_refl). auto.
    + assert (BC : cnt (over (gen (c_g s))) (c_thr s) <= Z.of_nat n) by (rewrite <- L; apply cnt_le). rewrite block_size in *. lia.
  - left. split; [reflexivity|]. split; [apply RB|]. exists H. split; [tauto|]. split; [tauto|]. intros o. specialize (RD o). rewrite (Z0 (inflight o)) in RD by reflexivity. rewrite Z.add_0_r in RD. exact RD.
Qed.

(** Blocks of one epoch wait for the ones before it. *)
Lemma run_epochs n s R H op tr i l off ok lt : running n s R H op tr -> nth_error (c_thr s) i = Some (CCall l off ok, lt) ->
  epochs_ordered (g_size (c_g s)) (c_m s) (EBlock off ok :: op).
Proof.
  intros RU Hi. pose proof RU as [CO TR CL TH RR RH RC RM RD RE RUS RB RI RP RZ]. pose proof CO as [L G CN CL2 IT Q TG K SZ].
  pose proof (Forall_nth_error _ _ _ _ TH Hi) as Ti. cbn [trun] in Ti. destruct Ti as (T1 & T2 & T3 & T4).
  intros newer older o ok' E j o' Hj J1 J2 BO. destruct newer as [|e newer]; cbn [app] in E.
  - injection E as <- <- <-.
    destruct K as [[K1 K2]|[K1 K2]]; [exfalso; destruct BO; rewrite K2 in *; lia|].
    assert (P : 0 < 2 ^ g_k (c_g s)) by (apply Z.pow_pos_nonneg; lia).
    assert (KU : (g_k (c_g s) =? UINT_MAX) = false) by (apply Z.eqb_neq; unfold UINT_MAX; lia).
    assert (SH : forall x, sh (c_g s) x = x / 2 ^ g_k (c_g s)) by (intros x; unfold sh; rewrite KU; apply Z.shiftr_div_pow2; lia).
    rewrite K2 in *. assert (Q1 : j <= R) by (rewrite <- T4, SH; apply Z.div_le_lower_bound; lia).
    assert (Q2 : sh (c_g s) o' < j) by (rewrite SH; apply Z.div_lt_upper_bound; lia).
    assert (OFF : taken (c_g s) H off = true).
    { specialize (RD off). assert (1 <= cnt (inflight off) (c_thr s)).
      { eapply cnt_one_le; [exact Hi|]. unfold inflight. cbn [fst]. rewrite Z.eqb_refl. cbn. apply Z.ltb_lt. lia. }
      assert (0 <= delivered off op) by apply cnt_nonneg. destruct (taken (c_g s) H off); unfold b2z in RD; [reflexivity|lia]. }
    assert (o' < H). { unfold taken in OFF. rewrite andb_true_iff in OFF. destruct OFF as [_ O2]. apply Z.ltb_lt in O2. lia. }
    specialize (RD o'). rewrite (valid_taken _ H o' SZ BO) in RD by auto.
    enough (cnt (inflight o') (c_thr s) = 0) by (unfold b2z in RD; lia).
    assert (KO : kok (c_g s) (2 ^ g_k (c_g s))) by (right; auto).
    apply cnt_zero. apply nth_error_forall. intros k t Hk. pose proof (Forall_nth_error _ _ _ _ TH Hk) as Tk.
    destruct (inflight o' t) eqn:IN; [|reflexivity]. exfalso. unfold inflight in IN.
    assert (EQ : forall x y, (o' =? x) && (x <? y) = true -> x = o' /\ x < y).
    { intros x y A. apply andb_true_iff in A. destruct A as [A1 A2]. apply Z.eqb_eq in A1. apply Z.ltb_lt in A2. auto. }
    destruct t as [pc lt']. cbn [fst] in IN. destruct pc; try discriminate IN; cbn [trun] in Tk; apply EQ in IN; destruct IN as [-> IN].
    + destruct Tk as (U1 & U2 & U3 & U4 & U5 & U6). pose proof (sh_mono (c_g s) _ last o' KO ltac:(lia)). lia.
    + destruct Tk as (U1 & U2 & U3 & U4 & U5 & U6). rewrite ep_valid in U5 by (auto; lia). lia.
    + destruct Tk as (U1 & U2 & U3 & U4 & U5 & U6). rewrite ep_valid in U6 by (auto; lia). lia.
    + destruct Tk as (U1 & U2 & U3 & U4). lia.
    + destruct Tk as (U1 & U2 & U3 & U4). lia.
    + destruct Tk as (U1 & U2 & U3 & U4). lia.
  - injection E as <- E. apply (RP newer older o ok' E j o'); auto.
Qed.
