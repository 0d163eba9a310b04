(** Consequences of the invariants of the decompression stream, in the form used by PropDStream. *)
From Coq Require Import ZArith List Bool Lia.
From Verif Require Import CBase BitsLemmas ConcLib BarrierModel SpecSync BarrierProofs DecompStreamModel SpecDStream DecompInv DecompStep DecompMain DecompQuit.
Import ListNotations.
Open Scope Z_scope.

(** ** Finding an operation in the trace of a stream that is being destroyed *)
Definition dquits (l : list devent) : Z := cnt (fun ev => match ev with VQuit => true | _ => false end) l.
Lemma dquits_nonneg l : 0 <= dquits l.
Proof. apply cnt_nonneg. Qed.
Lemma dquits_app a b : dquits (a ++ b) = dquits a + dquits b.
Proof. apply dcnt_app. Qed.
Lemma dquits_cons b : dquits (VQuit :: b) = 1 + dquits b.
Proof. reflexivity. Qed.
Lemma mid_noquit op : Forall dmid op -> dquits op = 0.
Proof. intros F. apply cnt_zero. eapply Forall_impl; [|exact F]. intros [] X; try reflexivity; destruct X. Qed.
Lemma late_noquit op : Forall dlate op -> dquits op = 0.
Proof. intros F. apply cnt_zero. eapply Forall_impl; [|exact F]. intros [] X; try reflexivity; destruct X. Qed.
Lemma last_late ptr op : Forall (dlast ptr) op -> Forall dlate op.
Proof. intros F. eapply Forall_impl; [|exact F]. intros [] X; cbn in *; auto. Qed.
Lemma closed_noquit tr : dclosed tr -> dquits tr = 0.
Proof.
  induction 1 as [|p op ok tr C IH OP]; [reflexivity|]. change (dquits (VDone ok :: op ++ VStart p :: tr)) with (dquits (op ++ VStart p :: tr)).
  rewrite dquits_app, (mid_noquit _ (inner_mid _ _ (ds_inner _ _ (dc_so_far _ _ _ OP)))). exact IH.
Qed.
Lemma history_noquit tr : dhistory tr -> dquits tr = 0.
Proof.
  intros [tr0 C|p op tr0 C SF]; [now apply closed_noquit|]. rewrite dquits_app, (mid_noquit _ (inner_mid _ _ (ds_inner _ _ SF))). exact (closed_noquit _ C).
Qed.
Lemma quits_split a : forall older b older', dquits a = 0 -> dquits b = 0 -> a ++ VQuit :: older = b ++ VQuit :: older' -> a = b /\ older = older'.
Proof.
  induction a as [|e a IH]; intros older [|e2 b] older' A B E; cbn [app] in E.
  - injection E as ->. auto.
  - injection E as <- E. rewrite dquits_cons in B. pose proof (dquits_nonneg b). lia.
  - injection E as -> E. rewrite dquits_cons in A. pose proof (dquits_nonneg a). lia.
  - injection E as -> E. change (e2 :: a) with ([e2] ++ a) in A. change (e2 :: b) with ([e2] ++ b) in B. rewrite dquits_app in A, B.
    pose proof (dquits_nonneg a). pose proof (dquits_nonneg b). pose proof (dquits_nonneg [e2]). destruct (IH older b older') as [-> ->]; auto; lia.
Qed.
(** An operation is either before VQuit or the trace of the destructor begins with nothing of it. *)
Lemma quit_split newer' : forall op p older' newer older, Forall dlate newer -> Forall dmid op ->
  newer' ++ op ++ VStart p :: older' = newer ++ VQuit :: older ->
  exists newer'', older = newer'' ++ op ++ VStart p :: older'.
Proof.
  induction newer' as [|e newer' IH]; intros op p older' newer older L F E; cbn [app] in E.
  - exfalso. revert op F E. induction newer as [|e newer IHn]; intros op F E; cbn [app] in E.
    + destruct op as [|e op]; cbn [app] in E; [discriminate E|]. injection E as -> E. inversion F as [|? ? X]. destruct X.
    + inversion L as [|? ? L1 L2]; subst. destruct op as [|e2 op]; cbn [app] in E.
      * injection E as <- E. destruct L1.
      * injection E as -> E. inversion F; subst. eapply IHn; eauto.
  - destruct newer as [|e2 newer]; cbn [app] in E.
    + injection E as -> E. now exists newer'.
    + injection E as -> E. inversion L; subst. eapply IH; eauto.
Qed.
Lemma quit_split_done newer' : forall ok op p older' newer older, Forall dlate newer -> Forall dmid op ->
  newer' ++ VDone ok :: op ++ VStart p :: older' = newer ++ VQuit :: older ->
  exists newer'', older = newer'' ++ VDone ok :: op ++ VStart p :: older'.
Proof.
  induction newer' as [|e newer' IH]; intros ok op p older' newer older L F E; cbn [app] in E.
  - destruct newer as [|e newer]; cbn [app] in E; [discriminate E|]. injection E as <- E. exfalso. inversion L as [|? ? _ L2]; subst. clear L.
    revert op E F. induction newer as [|e' newer IH]; intros op E F; cbn [app] in E.
    + destruct op as [|e2 op]; cbn [app] in E; [discriminate E|]. injection E as -> E. inversion F as [|? ? X]. destruct X.
    + inversion L2; subst. destruct op as [|e2 op]; cbn [app] in E; [injection E as <- E; contradiction|]. injection E as -> E. inversion F; subst. eapply IH; eauto.
  - destruct newer as [|e2 newer]; cbn [app] in E.
    + injection E as -> E. now exists newer'.
    + injection E as -> E. inversion L; subst. eapply IH; eauto.
Qed.
Lemma dying_late n s op newer older : dquitting n s op newer older -> Forall dlate newer.
Proof. intros Q. eapply last_late, (q_late _ _ _ _ _ Q). Qed.
Lemma reach_so_far n s newer op p older : (1 <= n)%nat -> reachable dstep (new_dstream n) s ->
  d_trace s = newer ++ op ++ VStart p :: older -> Forall dmid op -> dop_so_far p op.
Proof.
  intros N1 R E F. destruct (reach_all n s N1 R) as [[_ I]|(op0 & newer0 & older0 & Q & HI & _)].
  - eapply history_so_far; eauto. eapply inv_history; eauto.
  - rewrite (q_trace _ _ _ _ _ Q) in E. symmetry in E. apply quit_split in E; auto; [|exact (dying_late _ _ _ _ _ Q)].
    destruct E as [x E]. eapply history_so_far; eauto.
Qed.
Lemma reach_op n s newer ok op p older : (1 <= n)%nat -> reachable dstep (new_dstream n) s ->
  d_trace s = newer ++ VDone ok :: op ++ VStart p :: older -> Forall dmid op -> dop_complete p op ok.
Proof.
  intros N1 R E F. destruct (reach_all n s N1 R) as [[_ I]|(op0 & newer0 & older0 & Q & HI & _)].
  - eapply history_op; eauto. eapply inv_history; eauto.
  - rewrite (q_trace _ _ _ _ _ Q) in E. symmetry in E. apply quit_split_done in E; auto; [|exact (dying_late _ _ _ _ _ Q)].
    destruct E as [x E]. eapply history_op; eauto.
Qed.
Lemma noquit_inv n s : (1 <= n)%nat -> reachable dstep (new_dstream n) s -> ~ In VQuit (d_trace s) -> dinv n s.
Proof.
  intros N1 R NQ. destruct (reach_all n s N1 R) as [[_ I]|(op0 & newer0 & older0 & Q & HI & _)]; [exact I|].
  exfalso. apply NQ. rewrite (q_trace _ _ _ _ _ Q). apply in_or_app. right. left. reflexivity.
Qed.
Lemma user_inv_quit n s : (1 <= n)%nat -> reachable dstep (new_dstream n) s -> d_user s <> VQuitting -> d_user s <> VGone -> dinv n s.
Proof.
  intros N1 R U1 U2. destruct (reach_all n s N1 R) as [[_ I]|(op0 & newer0 & older0 & Q & HI & _)]; [exact I|].
  destruct (q_user _ _ _ _ _ Q) as [X|(X & _)]; contradiction.
Qed.
Lemma inv_noquit n s : dinv n s -> ~ In VQuit (d_trace s).
Proof.
  intros I IN. pose proof (history_noquit _ (inv_history n s I)) as X. apply in_split in IN. destruct IN as (a & b & IN). rewrite IN, dquits_app, dquits_cons in X.
  pose proof (dquits_nonneg a). pose proof (dquits_nonneg b). lia.
Qed.

(** ** C36, C37 *)
Lemma c36_exactly n s newer op p older : (1 <= n)%nat -> reachable dstep (new_dstream n) s ->
  d_trace s = newer ++ VDone true :: op ++ VStart p :: older -> Forall dmid op -> dcancels op = 0 ->
  (forall b, handled b op = accepted b op) /\ (forall p' b ok, In (VHandled p' b ok) op -> p' = p /\ ok = true).
Proof.
  intros N1 R E F C. pose proof (reach_op n s _ _ _ _ _ N1 R E F) as [SF FI OK AL]. split; [apply AL; auto|].
  intros p' b ok IN. pose proof (ds_inner _ _ SF) as X. rewrite Forall_forall in X. specialize (X _ IN). cbn in X. split; [exact X|].
  assert (Z0 : dfailures op = 0) by (apply OK; reflexivity). destruct ok; auto. exfalso. apply in_split in IN. destruct IN as (l1 & l2 & ->).
  unfold dfailures in Z0. rewrite dcnt_app in Z0. cbn [cnt] in Z0.
  match type of Z0 with cnt ?f l1 + _ = _ => pose proof (cnt_nonneg f l1); pose proof (cnt_nonneg f l2) end. lia.
Qed.
Lemma c36_at_most n s newer op p older : (1 <= n)%nat -> reachable dstep (new_dstream n) s ->
  d_trace s = newer ++ op ++ VStart p :: older -> Forall dmid op ->
  (forall b, handled b op <= accepted b op) /\ (forall p' b ok, In (VHandled p' b ok) op -> p' = p).
Proof.
  intros N1 R E F. destruct (reach_so_far n s _ _ _ _ N1 R E F) as [FI O RP FS N]. split; [intros b; exact (O [] op b eq_refl)|].
  intros p' b ok IN. rewrite Forall_forall in FI. exact (FI _ IN).
Qed.
Lemma c37_history n s : (1 <= n)%nat -> reachable dstep (new_dstream n) s -> ~ In VQuit (d_trace s) -> dhistory (d_trace s).
Proof. intros N1 R NQ. eapply inv_history, noquit_inv; eauto. Qed.
Lemma c37_status n s newer ok op p older : (1 <= n)%nat -> reachable dstep (new_dstream n) s ->
  d_trace s = newer ++ VDone ok :: op ++ VStart p :: older -> Forall dmid op ->
  dfinalizes op = 1 /\ (ok = true <-> dfailures op = 0).
Proof. intros N1 R E F. destruct (reach_op n s _ _ _ _ _ N1 R E F) as [_ FI OK _]. auto. Qed.
Lemma c37_push n s newer b ok op p older : (1 <= n)%nat -> reachable dstep (new_dstream n) s ->
  d_trace s = newer ++ VPush b ok :: op ++ VStart p :: older -> Forall dmid op ->
  (ok = true <-> dfailures op = 0) /\ dfinalizes op = 0.
Proof.
  intros N1 R E F. assert (F' : Forall dmid (VPush b ok :: op)) by (constructor; [exact Logic.I|exact F]).
  destruct (reach_so_far n s newer (VPush b ok :: op) p older N1 R E F') as [FI O RP FS N]. split; [apply (RP [] b ok op eq_refl)|].
  assert (X : 0 <= dfinalizes op) by apply cnt_nonneg. destruct (Z.eq_dec (dfinalizes op) 0) as [Y|Y]; auto. exfalso.
  assert (IN : exists l1 c l2, op = l1 ++ VFinalize c :: l2).
  { clear - X Y. induction op as [|e op IH]; [contradiction Y; reflexivity|]. destruct e; try (destruct IH as (l1 & c & l2 & ->); [exact X|exact Y|eexists (_ :: l1), c, l2; reflexivity]).
    exists [], cancel, op. reflexivity. }
  destruct IN as (l1 & c & l2 & ->). specialize (FS (VPush b ok :: l1) c l2 eq_refl). unfold pushes in FS. cbn [cnt] in FS.
  match type of FS with 1 + cnt ?f l1 = _ => pose proof (cnt_nonneg f l1) end. lia.
Qed.

(** ** C38 *)
Lemma c38_progress n s : (1 <= n)%nat -> reachable dstep (new_dstream n) s -> d_user s = VFinalizing -> ~ dstuck s.
Proof.
  intros N1 R U ST. destruct (progress n s N1 (user_inv_quit n s N1 R ltac:(congruence) ltac:(congruence)) ST) as [X|[X|[X _]]]; congruence.
Qed.
Lemma dcancels_le l : dcancels l <= dfinalizes l.
Proof. unfold dcancels, dfinalizes. induction l as [|e l IH]; cbn [cnt]; [lia|]. destruct e as [| |[]| | | |]; lia. Qed.
Lemma c38_running n s op p older : (1 <= n)%nat -> reachable dstep (new_dstream n) s -> d_user s = VRunning -> dstuck s ->
  d_trace s = op ++ VStart p :: older -> Forall dmid op -> dfailures op = 0 -> forall b, handled b op = accepted b op.
Proof.
  intros N1 R U ST TR F FA b. pose proof (user_inv_quit n s N1 R ltac:(congruence) ltac:(congruence)) as I.
  destruct (progress n s N1 I ST) as [X|[X|[_ A]]]; [congruence|congruence|].
  destruct I as [ID|op0 tr RU|op0 tr EN]; [destruct (di_user _ _ ID) as [(X & _)|(X & _)]; congruence| |pose proof (de_user _ _ _ _ EN); congruence].
  rewrite (dr_trace _ _ _ _ RU) in TR. apply split_inner in TR; auto; [|eapply inner_mid, (ds_inner _ _ (dr_so_far _ _ _ _ RU))]. destruct TR as (-> & _ & _).
  eapply quiescent; eauto.
  destruct (dr_user _ _ _ _ RU) as [(_ & _ & X)|(X & _)]; [|congruence].
  pose proof (dcancels_le op). assert (0 <= dcancels op) by apply cnt_nonneg. lia.
Qed.
(** An operation in progress: the trace has no VQuit. *)
Lemma open_inv n s op p older : (1 <= n)%nat -> reachable dstep (new_dstream n) s -> d_trace s = op ++ VStart p :: older -> Forall dmid op -> dinv n s.
Proof.
  intros N1 R TR F. destruct (reach_all n s N1 R) as [[_ I]|(op0 & newer0 & older0 & Q & HI & _)]; [exact I|]. exfalso.
  rewrite (q_trace _ _ _ _ _ Q) in TR. pose proof (dying_late _ _ _ _ _ Q) as LA. clear - TR LA F. revert op TR F. induction newer0 as [|e l IH]; intros [|e2 op] TR F; cbn [app] in TR.
  - discriminate TR.
  - injection TR as <- TR. inversion F as [|? ? X]. destruct X.
  - injection TR as -> TR. inversion LA as [|? ? X]. destruct X.
  - injection TR as -> TR. inversion F; inversion LA; subst. eapply IH; eauto.
Qed.
Lemma c38_bound n s op p older l s' : (1 <= n)%nat -> reachable dstep (new_dstream n) s ->
  d_trace s = op ++ VStart p :: older -> Forall dmid op -> Forall no_dcall l -> run dstep l s = Some s' ->
  cnt is_dthread l <= 3 * pushes op + Z.of_nat n * (Z.of_nat n + 13) + cnt is_dspurious l.
Proof.
  intros N1 R TR F FL E. pose proof (open_inv n s op p older N1 R TR F) as I.
  destruct (run_bound n l N1 s s' I FL E) as [I' B]. pose proof (meas_bound n s I) as M. pose proof (meas_bound n s' I') as M'.
  enough (lenZ (h_queue (d_g s)) <= pushes op) by lia.
  assert (0 <= pushes op) by apply cnt_nonneg.
  destruct I as [ID|op0 tr RU|op0 tr EN].
  - destruct (di_clean _ _ ID) as (-> & _). exact H.
  - pose proof (dr_short _ _ _ _ RU) as X. rewrite (dr_trace _ _ _ _ RU) in TR. apply split_inner in TR; auto; [|eapply inner_mid, (ds_inner _ _ (dr_so_far _ _ _ _ RU))].
    destruct TR as (-> & _ & _). exact X.
  - pose proof (de_leader _ _ _ _ EN) as X. assert (Y : h_queue (d_g s) = []).
    { destruct (nth_error (d_thr s) 0) as [[pc lt]|]; [|destruct X]. destruct pc; cbn [dleader] in X; apply X. }
    rewrite Y. exact H.
Qed.
Lemma thread_user n l : (1 <= n)%nat -> forall s s', reachable dstep (new_dstream n) s -> d_user s = VFinalizing \/ d_user s = VIdle ->
  Forall no_dcall l -> run dstep l s = Some s' ->
  reachable dstep (new_dstream n) s' /\ (d_user s' = VFinalizing \/ d_user s' = VIdle).
Proof.
  intros N1. induction l as [|a l IH]; intros s s' R U F E; cbn [run] in E.
  - injection E as <-. auto.
  - destruct (dstep a s) as [s1|] eqn:E1; [|discriminate E]. inversion F as [|? ? F1 F2]; subst. apply (IH s1 s'); auto; [eapply re_step; eauto|].
    destruct a as [i fail|i|ptr| |b j|c| |]; try (destruct F1; discriminate); cbn [dstep] in E1.
    + destruct (nth_error (d_thr s) i) as [t|]; [|discriminate E1].
      destruct (dtstep (lenZ (d_thr s)) i fail (d_g s) t) as [[[[g' t'] w] evs]|] eqn:T; [|discriminate E1].
      apply dSome_inj in E1. subst s1. cbn [d_user]. destruct U as [-> | ->]; destruct evs as [|[] [|]]; auto.
    + destruct (nth_error (d_thr s) i) as [t|]; [|discriminate E1]. destruct (dwake_any t); [|discriminate E1]. apply dSome_inj in E1. subst s1. exact U.
Qed.
Lemma closed_head tr : dclosed tr -> tr = [] \/ exists ok rest, tr = VDone ok :: rest.
Proof. intros [|p op ok tr0 C OP]; eauto. Qed.
Lemma trace_grows a s s' : no_dcall a -> dstep a s = Some s' -> exists evs, d_trace s' = evs ++ d_trace s.
Proof.
  intros A E. destruct a as [i fail|i|ptr| |b j|c| |]; try (destruct A; discriminate); cbn [dstep] in E.
  - destruct (nth_error (d_thr s) i) as [t|]; [|discriminate E].
    destruct (dtstep (lenZ (d_thr s)) i fail (d_g s) t) as [[[[g' t'] w] evs]|] eqn:T; [|discriminate E]. apply dSome_inj in E. subst s'. exists evs. reflexivity.
  - destruct (nth_error (d_thr s) i) as [t|]; [|discriminate E]. destruct (dwake_any t); [|discriminate E]. apply dSome_inj in E. subst s'. now exists [].
Qed.
Lemma run_grows l : forall s s', Forall no_dcall l -> run dstep l s = Some s' -> exists evs, d_trace s' = evs ++ d_trace s.
Proof.
  induction l as [|a l IH]; intros s s' F E; cbn [run] in E; [injection E as <-; now exists []|]. inversion F as [|? ? F1 F2]; subst.
  destruct (dstep a s) as [s1|] eqn:E1; [|discriminate E]. destruct (trace_grows _ _ _ F1 E1) as [e1 X1]. destruct (IH _ _ F2 E) as [e2 X2]. exists (e2 ++ e1). rewrite X2, X1. apply app_assoc.
Qed.
Lemma c38_completes n s l s' : (1 <= n)%nat -> reachable dstep (new_dstream n) s -> d_user s = VFinalizing ->
  Forall no_dcall l -> run dstep l s = Some s' -> dstuck s' ->
  d_user s' = VIdle /\ exists ok rest, d_trace s' = VDone ok :: rest.
Proof.
  intros N1 R U F E ST. destruct (thread_user n l N1 s s' R (or_introl U) F E) as [R' [U'|U']].
  - exfalso. eapply c38_progress; eauto.
  - split; [exact U'|]. pose proof (user_inv_quit n s' N1 R' ltac:(congruence) ltac:(congruence)) as I.
    assert (C : dclosed (d_trace s')).
    { destruct I as [ID|op0 tr RU|op0 tr EN]; [destruct (di_user _ _ ID) as [(_ & C)|(X & _)]; [exact C|congruence]|destruct (dr_user _ _ _ _ RU) as [(X & _)|(X & _)]; congruence|pose proof (de_user _ _ _ _ EN); congruence]. }
    destruct (closed_head _ C) as [X|X]; [|exact X]. exfalso. destruct (run_grows _ _ _ F E) as [evs G]. rewrite X in G. symmetry in G. apply app_eq_nil in G. destruct G as [_ G].
    pose proof (user_inv_quit n s N1 R ltac:(congruence) ltac:(congruence)) as I0.
    destruct I0 as [ID|op0 tr RU|op0 tr EN]; [destruct (di_user _ _ ID) as [(Y & _)|(Y & _)]; congruence|rewrite (dr_trace _ _ _ _ RU) in G|rewrite (de_trace _ _ _ _ EN) in G]; destruct op0; discriminate G.
Qed.
Lemma c38_zero : exists s, reachable dstep (new_dstream 0) s /\ d_user s = VFinalizing /\ forall l s', Forall no_dcall l -> run dstep l s = Some s' -> s' = s.
Proof.
  eexists. split; [apply (run_reachable dstep [BStart1 0; BStart2; BFinalize false]); vm_compute; reflexivity|]. split; [reflexivity|].
  intros l s' F E. destruct l as [|a l]; cbn [run] in E; [now injection E|]. inversion F as [|? ? F1 F2]; subst.
  destruct a as [i fail|i|ptr| |b j|c| |]; try (destruct F1; discriminate); cbn [dstep d_thr] in E; destruct i; discriminate E.
Qed.
(** No lost wakeup. *)
Lemma c38_wakeups n s : (1 <= n)%nat -> reachable dstep (new_dstream n) s -> ~ In VQuit (d_trace s) ->
  0 < cnt sleeping (d_thr s) -> lenZ (h_queue (d_g s)) <= cnt looking (d_thr s).
Proof.
  intros N1 R NQ. pose proof (noquit_inv n s N1 R NQ) as I.
  assert (X : forall l : list dthread, cnt sleeping l = cnt qwaiting l /\ cnt looking l = cnt checking l).
  { intros l. split; apply cnt_ext; rewrite Forall_forall; intros [[| |[]|[]|b|b| |g1 []| |err pr|] lt] _; reflexivity. }
  destruct (X (d_thr s)) as [-> ->]. destruct I as [ID|op0 tr RU|op0 tr EN].
  - intros _. destruct (di_clean _ _ ID) as (-> & _). change (lenZ (@nil Z)) with 0. apply cnt_nonneg.
  - apply (dr_work _ _ _ _ RU).
  - intros P. exfalso. rewrite cnt_zero in P; [lia|]. apply nth_error_forall. intros i t Hi. destruct (de_thr _ _ _ _ EN _ _ Hi) as [_ T]. destruct t as [[] lt]; try reflexivity; destruct T.
Qed.

(** ** The destructor *)
Lemma handled_app b l1 l2 : handled b (l1 ++ l2) = handled b l1 + handled b l2.
Proof. apply dcnt_app. Qed.
Lemma handled_in b l : handled b l = 0 -> forall p ok, ~ In (VHandled p b ok) l.
Proof.
  intros Z0 p ok IN. apply in_split in IN. destruct IN as (l1 & l2 & ->). rewrite handled_app in Z0. unfold handled in Z0. cbn [cnt] in Z0. rewrite Z.eqb_refl in Z0.
  match type of Z0 with cnt ?f l1 + _ = _ => pose proof (cnt_nonneg f l1); pose proof (cnt_nonneg f l2) end. lia.
Qed.
Lemma c53_callbacks n s newer older : (1 <= n)%nat -> reachable dstep (new_dstream n) s -> d_trace s = newer ++ VQuit :: older ->
  dhistory older /\ Forall dlate newer /\
  ((forall ok, ~ In (VDone ok) newer) \/ (exists ok, newer = [VDone ok] /\ dclosed (VDone ok :: older))) /\
  (forall op p tr, older = op ++ VStart p :: tr -> Forall dmid op ->
     Forall (dlate_to p) newer /\ forall b, handled b (newer ++ op) <= accepted b op) /\
  (dclosed older -> newer = []).
Proof.
  intros N1 R TR. destruct (reach_all n s N1 R) as [[_ I]|D].
  { exfalso. pose proof (inv_noquit n s I) as X. apply X. rewrite TR. apply in_or_app. right. left. reflexivity. }
  destruct D as (op & newer' & older' & QI & HI & RE). pose proof QI as [QL QQ QU QT QA QB QD]. pose proof (dying_late _ _ _ _ _ QI) as LA.
  assert (X : newer = newer' /\ older = older').
  { apply quits_split; [|now apply late_noquit|congruence].
    assert (Y : dquits (newer ++ VQuit :: older) = 1).
    { rewrite <- TR, QT, dquits_app, dquits_cons, (late_noquit _ LA), (history_noquit _ HI). reflexivity. }
    rewrite dquits_app, dquits_cons in Y. pose proof (dquits_nonneg newer). pose proof (dquits_nonneg older). lia. }
  destruct X as [-> ->].
  assert (Z0 : op = [] -> forall b, handled b newer' = 0).
  { intros -> b. specialize (QB b). change (accepted b []) with 0 in QB. change (handled b []) with 0 in QB. pose proof (cnt_nonneg (busy b) (d_thr s)). pose proof (handled_nonneg b newer'). lia. }
  assert (DN : forall l, cnt isdone l = 0 -> forall ok, ~ In (VDone ok) l).
  { clear. induction l as [|e l IH]; cbn [cnt In]; [auto|]. intros C ok [-> |I]; pose proof (cnt_nonneg isdone l); [cbn [isdone] in C; lia|]. destruct (isdone e); [lia|eapply IH; eauto]. }
  assert (OC : forall a, dclosed older' -> older' = op ++ VStart a :: [] ++ [] -> True) by auto. clear OC.
  split; [exact HI|]. split; [exact LA|]. split; [|split].
  - destruct QD as [(A1 & A2)|[(O & -> & _)|(O & A2 & ok & -> & C)]]; [left|left|right; eauto]; auto.
  - intros op' p tr E F. destruct RE as [(tr0 & E0 & F0)| ->].
    + rewrite E in E0. apply split_inner in E0; auto. destruct E0 as (-> & -> & _). split; [exact QA|]. intros b. specialize (QB b). rewrite handled_app.
      pose proof (cnt_nonneg (busy b) (d_thr s)). lia.
    + split.
      * rewrite Forall_forall. intros e IN. rewrite Forall_forall in LA. pose proof (LA _ IN) as LE. destruct e; cbn in *; auto. exfalso. eapply handled_in; [exact (Z0 eq_refl b)|exact IN].
      * intros b. rewrite handled_app, (Z0 eq_refl). destruct (history_so_far _ HI [] op' p tr E F) as [FI O RP FS N]. exact (O [] op' b eq_refl).
  - intros C. assert (O : op = []).
    { destruct RE as [(tr0 & E0 & F0)|O]; [|exact O]. destruct op as [|e op]; auto. exfalso. destruct C as [|p1 op1 ok1 tr1 C1 OP1]; [discriminate E0|]. cbn [app] in E0.
      injection E0 as <- _. inversion F0 as [|? ? X]. destruct X. }
    assert (NH : forall p b ok, ~ In (VHandled p b ok) newer') by (intros p b ok; apply handled_in, Z0, O).
    destruct newer' as [|e newer']; auto. exfalso. inversion LA as [|? ? L1 _]; subst. destruct e; try destruct L1; [eapply NH; left; reflexivity|].
    destruct QD as [(A1 & A2)|[(_ & X & _)|(_ & A2 & ok' & E & C')]].
    + eapply DN; [exact A1|]. left. reflexivity.
    + discriminate X.
    + injection E as -> ->. inversion C' as [|p1 op1 ok1 tr1 C1 OP1 E1]; subst. pose proof (dc_fin _ _ _ OP1) as FN. pose proof (inner_mid _ _ (ds_inner _ _ (dc_so_far _ _ _ OP1))) as FM.
      destruct op1 as [|e1 op1]; [discriminate FN|]. inversion FM as [|? ? X]; subst. inversion C as [|p2 op2 ok2 tr2 C2 OP2 E2]; subst. destruct X.
Qed.
Lemma c53_terminates n s l s' : (1 <= n)%nat -> reachable dstep (new_dstream n) s -> d_user s = VGone -> run dstep l s = Some s' ->
  lenZ l <= 7 * Z.of_nat n /\ (dstuck s' -> Forall (fun t => fst t = DExit) (d_thr s')).
Proof.
  intros N1 R U E.
  assert (D : ddying n s).
  { destruct (reach_all n s N1 R) as [[_ I]|D]; [|exact D]. exfalso.
    destruct I as [ID|op tr RU|op tr EN]; [destruct (di_user _ _ ID) as [(X & _)|(X & _)]|destruct (dr_user _ _ _ _ RU)|pose proof (de_user _ _ _ _ EN)]; try congruence; intuition congruence. }
  destruct (gone_bound n l s s' D U E) as (D' & U' & B). split.
  - assert (X : forall n0 s0, ddying n0 s0 -> 0 <= sumf dqrank (d_thr s0) <= 7 * Z.of_nat n0).
    { clear. intros n s (op & newer & older & QI & _). rewrite <- (q_len _ _ _ _ _ QI). induction (d_thr s) as [|t l IH]; cbn [sumf length]; [lia|].
      pose proof (dqrank_range t). lia. }
    pose proof (X n s D). pose proof (X n s' D'). lia.
  - intros ST. apply nth_error_forall. intros i t Hi. destruct (fst t) eqn:P; auto; exfalso;
    (destruct (gone_progress n s' i t false D' U' Hi) as [s2 X]; [rewrite P; discriminate|rewrite (ST i false) in X; discriminate X]).
Qed.

(** ** With one thread the blocks are decompressed in the order of push_block *)
(** The accepted and handled blocks of the newest operation of a trace. *)
Fixpoint cacc (l : list devent) : list Z :=
  match l with [] => [] | VStart _ :: _ => [] | VPush b true :: l => cacc l ++ [b] | _ :: l => cacc l end.
Fixpoint chnd (l : list devent) : list Z :=
  match l with [] => [] | VStart _ :: _ => [] | VHandled _ b _ :: l => chnd l ++ [b] | _ :: l => chnd l end.
Definition work (t : dthread) : list Z := match fst t with DHandle b | DFail b => [b] | _ => [] end.
Definition fifo (s : dstate) : Prop :=
  exists t rest, d_thr s = [t] /\ cacc (d_trace s) = chnd (d_trace s) ++ work t ++ h_queue (d_g s) ++ rest /\
    (d_user s = VRunning -> h_error (d_g s) = false -> rest = []).
Lemma c55_fifo s : reachable dstep (new_dstream 1) s -> fifo s.
Proof.
  induction 1 as [|a s s' H IH E].
  - exists (DStart, 0), []. repeat split.
  - destruct IH as (t & rest & ET & EA & ER). destruct a as [i fail|i|ptr| |b j|c| |]; cbn [dstep] in E.
    + rewrite ET in E. destruct i as [|i]; [|destruct i; discriminate E]. cbn [nth_error] in E.
      destruct (dtstep (lenZ [t]) 0 fail (d_g s) t) as [[[[g' t'] w] evs]|] eqn:T; [|discriminate E]. apply dSome_inj in E. subst s'.
      assert (ES : setnth 0 t' (if w then map dwake_bar [t] else [t]) = [t']) by (destruct w; reflexivity). rewrite ES. clear ES.
      assert (EU : forall u, (match evs with [VDone _] => match d_user s with VFinalizing => VIdle | u => u end | _ => d_user s end) = u -> u = VRunning -> d_user s = VRunning).
      { intros u X Y. rewrite Y in X. destruct evs as [|[] []]; try exact X. destruct (d_user s); try discriminate X; auto. }
      unfold fifo. cbn [d_thr d_trace d_g d_user]. exists t'.
      enough (Q : exists rest', cacc (evs ++ d_trace s) = chnd (evs ++ d_trace s) ++ work t' ++ h_queue g' ++ rest' /\ (d_user s = VRunning -> h_error g' = false -> rest' = [])).
      { destruct Q as (rest' & Q1 & Q2). exists rest'. split; [reflexivity|]. split; [exact Q1|]. intros X. apply Q2. eapply EU; [reflexivity|exact X]. }
      clear EU. destruct t as [pc lt]. unfold dtstep in T.
      destruct pc as [| |[]|[]|b|b| |g1 []| |err pr|]; cbv beta iota zeta in T; try discriminate T.
      * injection T as <- <- <- <-. exists rest. auto.
      * injection T as <- <- <- <-. exists rest. destruct (h_quit (d_g s)); auto.
      * destruct (_ || _); injection T as <- <- <- <-; exists rest; auto.
      * destruct (h_queue (d_g s)) as [|b q] eqn:EQ.
        -- destruct (_ || _); injection T as <- <- <- <-; exists rest; rewrite EQ; auto.
        -- destruct (h_quit (d_g s)); injection T as <- <- <- <-; exists rest; [rewrite EQ; auto|]. cbn [set_queue h_queue h_error work fst]. split; [|exact ER].
           cbn [app work fst] in EA. exact EA.
      * destruct fail; injection T as <- <- <- <-; exists rest; [auto|]. split; [|exact ER]. cbn [app cacc chnd work fst] in *. rewrite <- app_assoc. exact EA.
      * injection T as <- <- <- <-. exists (h_queue (d_g s) ++ rest). cbn [h_queue h_error]. split; [|discriminate]. cbn [app cacc chnd work fst] in *. rewrite <- app_assoc. exact EA.
      * unfold bar_arrive in T. cbv zeta in T. destruct (_ =? _); [injection T as <- <- <- <-; exists rest; auto|].
        injection T as <- <- <- <-. exists rest. destruct (bar_pass _ _); auto.
      * injection T as <- <- <- <-. exists rest. destruct (bar_pass _ _); auto.
      * destruct (h_quit (d_g s)); injection T as <- <- <- <-; exists rest; [auto|]. split; [exact EA|]. intros U _. exfalso.
        (* the leader resets the flags only when the operation is being finalized *)
        pose proof (user_inv_quit 1 s ltac:(lia) H ltac:(congruence) ltac:(congruence)) as I.
        destruct I as [ID|op0 tr RU|op0 tr EN]; [destruct (di_user _ _ ID) as [(X & _)|(X & _)]; congruence| |pose proof (de_user _ _ _ _ EN); congruence].
        pose proof (dr_thr _ _ _ _ RU) as X. rewrite ET in X. inversion X as [|? ? Y]. destruct Y.
      * injection T as <- <- <- <-. exists rest. split; [|exact ER]. cbn [app]. destruct pr; exact EA.
    + rewrite ET in E. destruct i as [|i]; [|destruct i; discriminate E]. cbn [nth_error] in E. destruct (dwake_any t) as [t'|] eqn:W; [|discriminate E]. apply dSome_inj in E. subst s'.
      exists t', rest. cbn [d_thr d_trace d_g d_user setnth]. split; [reflexivity|]. split; [|exact ER]. rewrite EA. f_equal. f_equal.
      destruct t as [[| |[]|[]|b|b| |g1 []| |err pr|] lt]; try discriminate W; cbn in W; apply dSome_inj in W; subst t'; reflexivity.
    + destruct (d_user s) eqn:U; try discriminate E. apply dSome_inj in E. subst s'.
      pose proof (user_inv_quit 1 s ltac:(lia) H ltac:(congruence) ltac:(congruence)) as I.
      destruct I as [ID|op0 tr RU|op0 tr EN]; [|destruct (dr_user _ _ _ _ RU) as [(X & _)|(X & _)]; congruence|pose proof (de_user _ _ _ _ EN); congruence].
      exists t, []. cbn [d_thr d_trace d_g d_user h_queue cacc chnd app]. split; [exact ET|]. split; [|auto]. destruct (di_clean _ _ ID) as (-> & _).
      pose proof (di_thr _ _ ID) as X. rewrite ET in X. inversion X as [|? ? Y]; subst. destruct t as [[] lt]; try destruct Y; reflexivity.
    + destruct (d_user s) eqn:U; try discriminate E. apply dSome_inj in E. subst s'.
      pose proof (user_inv_quit 1 s ltac:(lia) H ltac:(congruence) ltac:(congruence)) as I.
      destruct I as [ID|op0 tr RU|op0 tr EN]; [|destruct (dr_user _ _ _ _ RU) as [(X & _)|(X & _)]; congruence|pose proof (de_user _ _ _ _ EN); congruence].
      destruct (di_user _ _ ID) as [(X & _)|(_ & tr & TR & _)]; [congruence|].
      exists (dwake_trig t), rest. unfold fifo. cbn [d_thr d_trace d_g d_user h_queue]. rewrite ET. split; [reflexivity|]. rewrite TR in *. cbn [cacc chnd app] in *.
      assert (W : work (dwake_trig t) = work t) by (destruct t as [[] lt]; reflexivity). rewrite W. split; [exact EA|]. intros _ _. destruct (work t); [|discriminate EA]. destruct (h_queue (d_g s)); [|discriminate EA]. symmetry. exact EA.
    + destruct (d_user s) eqn:U; try discriminate E. destruct (h_error (d_g s)) eqn:ERR.
      * apply dSome_inj in E. subst s'. exists t, rest. cbn [d_thr d_trace d_g d_user cacc chnd]. rewrite ERR. split; [exact ET|]. split; [exact EA|]. discriminate.
      * destruct (notify_one j (d_thr s)) as [thr'|] eqn:NO; [|discriminate E]. apply dSome_inj in E. subst s'. rewrite (ER eq_refl eq_refl) in EA.
        assert (X : exists t', thr' = [t'] /\ work t' = work t).
        { unfold notify_one in NO. rewrite ET in NO. destruct (existsb qwaiting [t]); [|injection NO as <-; eauto].
          destruct j as [|j]; [|destruct j; discriminate NO]. cbn [nth_error] in NO. destruct (qwaiting t); [|discriminate NO]. injection NO as <-. exists (dwake_queue t). split; [reflexivity|]. destruct t as [[] lt]; reflexivity. }
        destruct X as (t' & -> & W). exists t', []. cbn [d_thr d_trace d_g d_user cacc chnd set_queue h_queue]. split; [reflexivity|]. split; [|auto]. rewrite EA, W, !app_nil_r, !app_assoc. reflexivity.
    + destruct (d_user s) eqn:U; try discriminate E. apply dSome_inj in E. subst s'.
      exists (dwake_queue t), (if c then h_queue (d_g s) ++ rest else rest). cbn [d_thr d_trace d_g d_user cacc chnd h_queue]. rewrite ET. split; [reflexivity|].
      assert (W : work (dwake_queue t) = work t) by (destruct t as [[] lt]; reflexivity). rewrite W. split; [destruct c; exact EA|]. discriminate.
    + assert (X : s' = mkD (mkH (h_trigger (d_g s)) (h_ptr (d_g s)) (h_queue (d_g s)) (h_error (d_g s)) (h_fin (d_g s)) (h_fcb (d_g s)) (h_bar (d_g s)) true) (d_thr s) VQuitting (VQuit :: d_trace s)).
      { destruct (d_user s); try discriminate E; apply dSome_inj in E; auto. }
      subst s'. exists t, rest. cbn [d_thr d_trace d_g d_user cacc chnd h_queue]. split; [exact ET|]. split; [exact EA|discriminate].
    + destruct (d_user s) eqn:U; try discriminate E. apply dSome_inj in E. subst s'. rewrite ET. cbn [map].
      exists (dwake_bar (dwake_queue (dwake_trig t))), rest. cbn [d_thr d_trace d_g d_user set_hbar h_queue]. split; [reflexivity|].
      assert (W : work (dwake_bar (dwake_queue (dwake_trig t))) = work t) by (destruct t as [[] lt]; reflexivity). rewrite W. split; [exact EA|discriminate].
Qed.
Lemma cacc_op op p older : Forall dmid op -> cacc (op ++ VStart p :: older) = accepted_list op /\ chnd (op ++ VStart p :: older) = handled_list op.
Proof.
  induction 1 as [|e op M F [IH1 IH2]]; [split; reflexivity|]. destruct e as [|b []| | | | |]; try destruct M; cbn [app cacc chnd accepted_list handled_list]; rewrite ?IH1, ?IH2; split; reflexivity.
Qed.
(** The operation was the newest one at the time of its last event. *)
Lemma reach_suffix s a tr : reachable dstep (new_dstream 1) s -> d_trace s = a ++ tr -> exists s0, reachable dstep (new_dstream 1) s0 /\ d_trace s0 = tr.
Proof.
  intros R. revert a tr. induction R as [|x s s' R IH E]; intros a tr ET.
  - exists (new_dstream 1). split; [constructor|]. destruct a; [symmetry; cbn in *; congruence|discriminate ET].
  - assert (G : d_trace s' = d_trace s \/ exists e, d_trace s' = e :: d_trace s).
    { clear - E. destruct x as [i fail|i|ptr| |b j|c| |]; cbn [dstep] in E.
      - destruct (nth_error (d_thr s) i) as [t|]; [|discriminate E].
        destruct (dtstep (lenZ (d_thr s)) i fail (d_g s) t) as [[[[g' t'] w] evs]|] eqn:T; [|discriminate E]. apply dSome_inj in E. subst s'. cbn [d_trace].
        enough (evs = [] \/ exists e, evs = [e]) as [-> |[e ->]] by (cbn [app]; eauto).
        clear - T. destruct t as [pc lt]. unfold dtstep in T.
        destruct pc as [| |[]|[]|b|b| |g1 []| |err pr|].
        all: repeat match type of T with
          | Some _ = Some _ => injection T as _ _ _ <-; eauto
          | (if ?c then _ else _) = _ => destruct c eqn:?
          | context [bar_arrive ?a ?b] => unfold bar_arrive in T; cbv zeta in T
          | (let '(_, _) := if ?c then _ else _ in _) = _ => destruct c
          | match ?q with [] => _ | _ :: _ => _ end = _ => destruct q
          | _ => discriminate T
          end.
      - destruct (nth_error (d_thr s) i) as [t|]; [|discriminate E]. destruct (dwake_any t); [|discriminate E]. apply dSome_inj in E. subst s'. auto.
      - destruct (d_user s); try discriminate E. apply dSome_inj in E. subst s'. cbn [d_trace]. eauto.
      - destruct (d_user s); try discriminate E. apply dSome_inj in E. subst s'. cbn [d_trace]. eauto.
      - destruct (d_user s); try discriminate E. destruct (h_error _); [apply dSome_inj in E; subst s'; cbn [d_trace]; eauto|]. destruct (notify_one _ _); [|discriminate E]. apply dSome_inj in E; subst s'; cbn [d_trace]; eauto.
      - destruct (d_user s); try discriminate E. apply dSome_inj in E. subst s'. cbn [d_trace]. eauto.
      - destruct (d_user s); try discriminate E; apply dSome_inj in E; subst s'; cbn [d_trace]; eauto.
      - destruct (d_user s); try discriminate E. apply dSome_inj in E. subst s'. cbn [d_trace]. eauto. }
    destruct G as [G|[e G]]; rewrite ET in G; [eapply IH; eauto|].
    destruct a as [|e' a]; [exists s'; split; [eapply re_step; eauto|exact ET]|]. cbn [app] in G. injection G as -> G. eapply IH; eauto.
Qed.
Lemma c55_order s newer op p older : reachable dstep (new_dstream 1) s -> d_trace s = newer ++ op ++ VStart p :: older -> Forall dmid op ->
  exists rest, accepted_list op = handled_list op ++ rest.
Proof.
  intros R E F. destruct (reach_suffix s newer _ R E) as (s0 & R0 & E0). destruct (c55_fifo s0 R0) as (t & rest & _ & EA & _).
  rewrite E0 in EA. destruct (cacc_op op p older F) as [A B]. rewrite A, B in EA. eauto.
Qed.
