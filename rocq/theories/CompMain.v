(** Reachable states of the compression stream satisfy the invariant; what follows for the trace. *)
From Coq Require Import ZArith List Bool Lia.
From Verif Require Import CBase BitsLemmas ConcLib BarrierModel SpecSync BarrierProofs StreamBlockModel CompStreamModel SpecStream CompInv CompProofs CompStep.
Import ListNotations.
Open Scope Z_scope.

Lemma step_inv n a s s' : (1 <= n)%nat -> Z.of_nat n < 2 ^ 32 -> cinv n s -> cstep a s = Some s' -> g_quit (c_g s') = false -> cinv n s'.
Proof.
  intros N1 N2 I E Q. destruct a as [i fail|i|m|size| |cancel| |].
  - destruct I as [ID|R H op tr RU|size op tr EN]; [eapply idle_thread; eauto|eapply run_thread; eauto|eapply end_thread; eauto].
  - eapply spurious_inv; eauto.
  - eapply user_inv; eauto. exact Logic.I.
  - eapply user_inv; eauto. exact Logic.I.
  - eapply user_inv; eauto. exact Logic.I.
  - eapply user_inv; eauto. exact Logic.I.
  - cbn [cstep] in E. destruct (c_user s); try discriminate E; apply Some_inj in E; subst s'; discriminate Q.
  - exfalso. cbn [cstep] in E. destruct I as [ID|R H op tr RU|size op tr EN].
    + destruct (idle_user _ _ ID) as [U|U]; rewrite U in E; discriminate E.
    + destruct (run_user _ _ _ _ _ _ RU) as [U|U]; rewrite U in E; discriminate E.
    + rewrite (en_user _ _ _ _ _ EN) in E; discriminate E.
Qed.
Lemma tstep_quit n i fail g t g' t' w evs : tstep n i fail g t = Some (g', t', w, evs) -> g_quit g' = g_quit g.
Proof.
  destruct t as [pc lt]. unfold tstep. destruct pc as [| |a| |l lo|l lo off|l off m|l off m g1 a|l off|l off|l off ok|a| |g1 a| |err pr|]; intros E.
  all: try discriminate E.
  all: repeat match type of E with
    | Some _ = Some _ => injection E as <- _ _ _; first [reflexivity|assumption]
    | (if ?c then _ else _) = _ => destruct c eqn:?
    | context [bar_arrive ?a ?b] => unfold bar_arrive in E; cbv zeta in E
    | (let '(_, _) := if ?c then _ else _ in _) = _ => destruct c
    | _ => discriminate E
    end.
Qed.
Lemma quit_mono a s s' : cstep a s = Some s' -> g_quit (c_g s') = false -> g_quit (c_g s) = false.
Proof.
  intros E Q. destruct a as [i fail|i|m|size| |cancel| |]; cbn [cstep] in E.
  - destruct (nth_error (c_thr s) i) as [t|]; [|discriminate E].
    destruct (tstep (lenZ (c_thr s)) i fail (c_g s) t) as [[[[g' t'] w] evs]|] eqn:T; [|discriminate E].
    apply Some_inj in E. subst s'. cbn [c_g] in Q. rewrite <- (tstep_quit _ _ _ _ _ _ _ _ _ T). exact Q.
  - destruct (nth_error (c_thr s) i) as [t|]; [|discriminate E]. destruct (wake_any t); [|discriminate E]. apply Some_inj in E. subst s'. exact Q.
  - destruct (c_user s); try discriminate E. destruct (_ && _); [|discriminate E]. destruct (set_epoch m); [|discriminate E]. apply Some_inj in E. subst s'. exact Q.
  - destruct (c_user s); try discriminate E. destruct (_ && _); [|discriminate E]. apply Some_inj in E. subst s'. exact Q.
  - destruct (c_user s); try discriminate E. apply Some_inj in E. subst s'. exact Q.
  - destruct (c_user s); try discriminate E. apply Some_inj in E. subst s'. exact Q.
  - destruct (c_user s); try discriminate E; apply Some_inj in E; subst s'; discriminate Q.
  - destruct (c_user s); try discriminate E. apply Some_inj in E. subst s'. exact Q.
Qed.
Lemma new_inv n : (1 <= n)%nat -> cinv n (new_stream n).
Proof.
  intros N. apply ci_idle. constructor; cbn [new_stream c_g c_thr c_user c_m c_trace]; auto.
  - constructor; cbn [new_stream c_g c_thr c_user c_m c_trace]; auto; cbn [g_bar g_trigger g_size gen bar_init b_gen b_count]; try lia.
    + apply repeat_length.
    + symmetry. apply cnt_zero. rewrite Forall_forall. intros t Ht. apply repeat_spec in Ht. now subst t.
    + left. auto.
    + unfold BIG. lia.
  - rewrite Forall_forall. intros t Ht. apply repeat_spec in Ht. subst t. reflexivity.
  - intros t Ht. apply nth_error_In, repeat_spec in Ht. subst t. exact Logic.I.
  - repeat split; reflexivity.
  - left. repeat split; auto. constructor.
Qed.
Theorem reach_inv n s : (1 <= n)%nat -> Z.of_nat n < 2 ^ 32 -> reachable cstep (new_stream n) s -> g_quit (c_g s) = false -> cinv n s.
Proof.
  intros N1 N2 H. induction H as [|a s s' H IH E]; intros Q; [now apply new_inv|].
  eapply step_inv; eauto. apply IH. eapply quit_mono; eauto.
Qed.
Lemma inv_history n s : cinv n s -> history (c_trace s).
Proof.
  intros [ID|R H op tr RU|size op tr EN].
  - destruct (id_user _ _ ID) as [(_ & _ & C)|(_ & _ & tr & -> & C)]; [now constructor|]. apply (hi_open _ _ []); auto.
    + constructor; auto; try (intros o; change (delivered o []) with 0; lia). change (finalizes []) with 0. lia.
    + intros newer older o ok X. destruct newer; discriminate X.
  - rewrite (ru_trace _ _ _ _ _ _ RU). apply hi_open; [apply (ru_closed _ _ _ _ _ _ RU)|eapply run_so_far; eauto|apply (ru_ep _ _ _ _ _ _ RU)].
  - rewrite (en_trace _ _ _ _ _ EN). destruct (en_op _ _ _ _ _ EN). apply hi_open; auto. apply (en_closed _ _ _ _ _ EN).
Qed.

(** ** Decomposing a history *)
Lemma split_inner op1 size1 m1 tr1 : forall op2 size2 m2 tr2, Forall inner op1 -> Forall inner op2 ->
  op1 ++ EStart size1 m1 :: tr1 = op2 ++ EStart size2 m2 :: tr2 -> op1 = op2 /\ size1 = size2 /\ m1 = m2 /\ tr1 = tr2.
Proof.
  induction op1 as [|e1 op1 IH]; intros [|e2 op2] size2 m2 tr2 F1 F2 E; cbn [app] in E.
  - injection E as -> -> ->. auto.
  - injection E as <- E. inversion F2 as [|? ? X]. destruct X.
  - injection E as -> E. inversion F1 as [|? ? X]. destruct X.
  - injection E as <- E. inversion F1; inversion F2; subst. destruct (IH op2 size2 m2 tr2) as (-> & -> & -> & ->); auto.
Qed.
Lemma inner_prefix newer ok rest : forall op size m tr, Forall inner op -> newer ++ EDone ok :: rest = op ++ EStart size m :: tr ->
  exists newer', tr = newer' ++ EDone ok :: rest.
Proof.
  induction newer as [|e newer IH]; intros [|e2 op] size m tr F E; cbn [app] in E.
  - discriminate E.
  - injection E as <- E. inversion F as [|? ? X]. destruct X.
  - injection E as -> <-. eauto.
  - injection E as -> E. inversion F; subst. eauto.
Qed.
Lemma closed_op tr : closed tr -> forall newer ok op size m older, tr = newer ++ EDone ok :: op ++ EStart size m :: older -> Forall inner op ->
  op_complete size m op ok.
Proof.
  induction 1 as [|size0 m0 op0 ok0 tr0 C IH OP]; intros newer ok op size m older E F; [destruct newer; discriminate E|].
  pose proof (os_inner _ _ (oc_so_far _ _ _ _ OP)) as FI.
  destruct newer as [|e newer]; cbn [app] in E.
  - injection E as -> E. apply split_inner in E; auto. destruct E as (-> & -> & -> & ->). exact OP.
  - injection E as <- E. symmetry in E. apply inner_prefix in E; auto. destruct E as [newer' E]. eapply IH; eauto.
Qed.
Lemma history_op tr : history tr -> forall newer ok op size m older, tr = newer ++ EDone ok :: op ++ EStart size m :: older -> Forall inner op ->
  op_complete size m op ok.
Proof.
  intros [tr0 C|size0 m0 op0 tr0 C SF EP] newer ok op size m older E F; [eapply closed_op; eauto|].
  symmetry in E. apply inner_prefix in E; [|apply (os_inner _ _ SF)]. destruct E as [newer' E]. eapply closed_op; eauto.
Qed.
Lemma so_far_suffix size m a b : op_so_far size (a ++ b) -> epochs_ordered size m (a ++ b) -> op_so_far size b /\ epochs_ordered size m b.
Proof.
  intros [F O V N] EP. split.
  - constructor.
    + apply Forall_app in F. tauto.
    + intros o. specialize (O o). rewrite delivered_app in O. assert (0 <= delivered o a) by apply cnt_nonneg. lia.
    + intros o P. apply V. rewrite delivered_app. assert (0 <= delivered o a) by apply cnt_nonneg. lia.
    + unfold finalizes in *. rewrite cnt_app in N. pose proof (cnt_nonneg (fun ev => match ev with EFinalize _ => true | _ => false end) a). lia.
  - intros newer older o ok E. apply (EP (a ++ newer) older o ok). rewrite E, app_assoc. reflexivity.
Qed.
(** What precedes a point in the middle of an operation. *)
Lemma in_middle newer : forall op size m older op0 size0 m0 tr0, Forall inner op0 -> Forall inner op ->
  newer ++ op ++ EStart size m :: older = op0 ++ EStart size0 m0 :: tr0 ->
  (size = size0 /\ m = m0 /\ exists a, op0 = a ++ op) \/ (exists newer', tr0 = newer' ++ op ++ EStart size m :: older).
Proof.
  induction newer as [|e newer IH]; intros op size m older op0 size0 m0 tr0 F0 F E; cbn [app] in E.
  - apply split_inner in E; auto. destruct E as (-> & -> & -> & ->). left. split; auto. split; auto. now exists [].
  - destruct op0 as [|e0 op0]; cbn [app] in E; injection E as -> E.
    + right. exists newer. auto.
    + inversion F0; subst. destruct (IH op size m older op0 size0 m0 tr0) as [(X & Y & a & Z)|X]; auto. left. split; auto. split; auto. exists (e0 :: a). now rewrite Z.
Qed.
Lemma closed_so_far tr : closed tr -> forall newer op size m older, tr = newer ++ op ++ EStart size m :: older -> Forall inner op ->
  op_so_far size op /\ epochs_ordered size m op.
Proof.
  induction 1 as [|size0 m0 op0 ok0 tr0 C IH OP]; intros newer op size m older E F; [destruct newer; [destruct op|]; discriminate E|].
  destruct newer as [|e newer]; cbn [app] in E.
  - destruct op as [|e op]; cbn [app] in E; [discriminate E|]. injection E as <- E. inversion F as [|? ? X]. destruct X.
  - injection E as <- E. symmetry in E. destruct OP as [SF EP _ _ _]. apply in_middle in E; [|apply (os_inner _ _ SF)|exact F].
    destruct E as [(-> & -> & a & ->)|[newer' E]]; [eapply so_far_suffix; eauto|eapply IH; eauto].
Qed.
Lemma history_so_far tr : history tr -> forall newer op size m older, tr = newer ++ op ++ EStart size m :: older -> Forall inner op ->
  op_so_far size op /\ epochs_ordered size m op.
Proof.
  intros [tr0 C|size0 m0 op0 tr0 C SF EP] newer op size m older E F; [eapply closed_so_far; eauto|].
  symmetry in E. apply in_middle in E; [|apply (os_inner _ _ SF)|exact F].
  destruct E as [(-> & -> & a & ->)|[newer' E]]; [eapply so_far_suffix; eauto|eapply closed_so_far; eauto].
Qed.

(** ** Progress *)
Definition stopped (t : thread) : bool := match fst t with CTrig true | CBar _ _ _ _ true | CFin true | CFinBar _ true | CExit => true | _ => false end.
Lemma stuck_stopped s : stuck s -> Forall (fun t => stopped t = true) (c_thr s).
Proof.
  intros ST. apply nth_error_forall. intros i t Hi. specialize (ST i false). cbn [cstep] in ST. rewrite Hi in ST.
  destruct (tstep (lenZ (c_thr s)) i false (c_g s) t) as [[[[g' t'] w] evs]|] eqn:T; [discriminate ST|].
  destruct t as [pc lt]. unfold tstep in T. destruct pc as [| |a| |l lo|l lo off|l off m|l off m g1 a|l off|l off|l off ok|a| |g1 a| |err pr|]; try discriminate T; try reflexivity; try (destruct a); try reflexivity; try discriminate T.
  all: repeat match type of T with
    | (if ?c then _ else _) = _ => destruct c
    | context [bar_arrive ?a ?b] => unfold bar_arrive in T; cbv zeta in T
    | (let '(_, _) := if ?c then _ else _ in _) = _ => destruct c
    | _ => discriminate T
    end.
Qed.
Lemma progress n s : (1 <= n)%nat -> cinv n s -> stuck s ->
  c_user s = UIdle \/ c_user s = UStarting \/ (c_user s = URunning /\ Forall (fun t => fst t = CFin true) (c_thr s)).
Proof.
  intros N1 I ST. pose proof (stuck_stopped s ST) as P. destruct I as [ID|R H op tr RU|size op tr EN].
  - destruct (idle_user _ _ ID); auto.
  - right; right. pose proof RU as [CO TR CL TH RR RH RC RM RD RE RUS RB RI RP RZ]. pose proof CO as [L G CN CL2 IT Q TG K SZ].
    set (iswait := fun t : thread => match fst t with CBar _ _ _ _ _ | CFinBar _ _ => true | _ => false end).
    assert (X : Forall (fun t => (fst t = CFin true /\ R = KK (c_g s) /\ g_fin (c_g s) = false) \/
       (waitingc (gen (c_g s)) t = true /\ (R < KK (c_g s) \/ g_fin (c_g s) = true))) (c_thr s)).
    { apply nth_error_forall. intros i t Hi. pose proof (Forall_nth_error _ _ _ _ TH Hi) as Ti. pose proof (Forall_nth_error _ _ _ _ P Hi) as Pi.
      destruct t as [pc lt]. cbn [trun] in Ti. destruct pc as [| |a| |l lo|l lo off|l off m|l off m g1 a|l off|l off|l off ok|a| |g1 a| |err pr|]; try discriminate Pi; try contradiction; destruct a; try discriminate Pi; try contradiction.
      - right. destruct Ti as (T1 & T2 & T3 & T4 & T5 & [[T6 T7]|(_ & X & _)]); [|discriminate X]. split; [unfold waitingc; cbn [fst]; apply Z.eqb_eq; exact T6|].
        left. pose proof (ep_le (c_g s) (c_m s) off K). lia.
      - left. cbn [fst]. destruct Ti as (T1 & T2 & T3 & _). auto.
      - right. destruct Ti as [(T1 & T2 & T3 & T4 & T5)|(_ & X & _)]; [|discriminate X]. split; [unfold waitingc; cbn [fst]; apply Z.eqb_eq; exact T1|]. auto. }
    assert (NA : ~ Forall (fun t => waitingc (gen (c_g s)) t = true) (c_thr s)) by (intros A; apply cnt_all in A; lia).
    assert (FF : g_fin (c_g s) = false /\ R = KK (c_g s)).
    { assert (D : {g_fin (c_g s) = false /\ R = KK (c_g s)} + {~ (g_fin (c_g s) = false /\ R = KK (c_g s))}).
      { destruct (g_fin (c_g s)); [right; intros [? _]; discriminate|]. destruct (Z.eq_dec R (KK (c_g s))); [left; auto|right; tauto]. }
      destruct D as [D|D]; auto. exfalso. apply NA. eapply Forall_impl; [|exact X]. intros t [(A1 & A2 & A3)|[A1 A2]]; [tauto|exact A1]. }
    destruct FF as [F1 F2]. destruct RUS as [(U & _)|(_ & U & _)]; [|congruence]. split; [exact U|]. eapply Forall_impl; [|exact X].
    intros t [(A1 & A2 & A3)|[A1 [A2|A2]]]; [exact A1|lia|congruence].
  - exfalso. pose proof EN as [CO TR CL US TH OP LE EC ED]. destruct (nth_error (c_thr s) 0) as [t|] eqn:H0.
    + pose proof (Forall_nth_error _ _ _ _ P H0) as P0. specialize (TH _ _ H0). destruct t as [pc lt]. destruct TH as [_ T]. cbn [fst] in T.
      destruct pc; try discriminate P0; try contradiction; destruct asleep; try discriminate P0. destruct T; discriminate.
    + apply nth_error_None in H0. pose proof (co_len _ _ CO). lia.
Qed.
(** When the threads wait for finalize() without errors, the whole input has been delivered. *)
Lemma quiescent n s R H op tr : (1 <= n)%nat -> running n s R H op tr -> Forall (fun t => fst t = CFin true) (c_thr s) -> failures op = 0 -> cancels op = 0 ->
  forall o, block_offset (g_size (c_g s)) o -> delivered o op = 1.
Proof.
  intros N1 RU A F C o BO. pose proof RU as [CO TR CL TH RR RH RC RM RD RE RUS RB RI RP RZ]. pose proof CO as [L G CN CL2 IT Q TG K SZ].
  assert (Z0 : forall p : thread -> bool, (forall lt, p (CFin true, lt) = false) -> cnt p (c_thr s) = 0).
  { intros p P1. apply cnt_zero. eapply Forall_impl; [|exact A]. intros [pc lt]. cbn [fst]. intros ->. apply P1. }
  rewrite F, (Z0 failing) in RE by reflexivity. cbn in RE.
  assert (J : jump (c_g s) op = false) by (unfold jump; rewrite RE, C; reflexivity).
  destruct (c_thr s) as [|[pc lt] thr] eqn:ET; [cbn in L; lia|]. inversion A as [|? ? A1 A2]. cbn [fst] in A1. subst pc.
  inversion TH as [|? ? T1 T2]. cbn [trun] in T1. destruct T1 as (_ & _ & _ & T1). specialize (T1 J).
  pose proof (valid_lvo _ _ SZ BO). specialize (RD o). rewrite (Z0 (inflight o)), (valid_taken _ H o SZ BO) in RD by (try reflexivity; lia). unfold b2z in RD. lia.
Qed.
