(** Invariants of the decompression stream. *)
From Coq Require Import ZArith List Bool Lia.
From Verif Require Import CBase ConcLib BarrierModel SpecSync BarrierProofs DecompStreamModel SpecDStream.
Import ListNotations.
Open Scope Z_scope.

Lemma dSome_inj {A} (x y : A) : Some x = Some y -> x = y.
Proof. now injection 1. Qed.
Definition bz (b : bool) : Z := if b then 1 else 0.
Definition dgen (g : dshared) : Z := b_gen (h_bar g).
Definition dwaiting (gn : Z) (t : dthread) : bool := match fst t with DBar g' _ => g' =? gn | _ => false end.
(** The thread is working on block [b]. *)
Definition busy (b : Z) (t : dthread) : bool := match fst t with DHandle b' | DFail b' => b =? b' | _ => false end.
(** The thread is going to look at the queue. *)
Definition checking (t : dthread) : bool := match fst t with DQueue a => negb a | _ => false end.
Definition queued (b : Z) (q : list Z) : Z := cnt (Z.eqb b) q.

Definition drun (g : dshared) (t : dthread) : Prop :=
  let '(pc, lt) := t in
  let here := lt = h_trigger g in
  match pc with
  | DStart | DLoop | DTrig false => lt = prev (h_trigger g)
  | DQueue a => here /\ (a = true -> h_fin g = false)
  | DHandle _ | DFail _ => here
  | DArrive => here /\ h_fin g = true /\ h_queue g = []
  | DBar g' a => (g' = dgen g /\ here /\ h_fin g = true /\ h_queue g = []) \/ (g' = prev (dgen g) /\ a = false /\ lt = prev (h_trigger g))
  | DTrig true | DReset | DCallback _ _ | DExit => False
  end.
Definition didle (g : dshared) (t : dthread) : Prop :=
  match fst t with
  | DStart | DLoop | DTrig _ => snd t = h_trigger g
  | DBar g' a => g' = prev (dgen g) /\ a = false /\ snd t = h_trigger g
  | _ => False
  end.
Definition dpost (g : dshared) (op : list devent) (i : nat) (t : dthread) : Prop :=
  snd t = h_trigger g /\
  match fst t with
  | DStart | DLoop | DTrig _ => i <> 0%nat
  | DBar g' a => g' = prev (dgen g) /\ a = false
  | DReset => i = 0%nat
  | DCallback err present => i = 0%nat /\ present = true /\ err = (0 <? dfailures op)
  | _ => False
  end.
Definition dzero (gn : Z) (t : dthread) : Prop := match fst t with DBar g' _ => g' = gn | _ => True end.

Record dcommon (n : nat) (s : dstate) : Prop := {
  dco_len : length (d_thr s) = n;
  dco_gen : 0 <= dgen (d_g s) < 2 ^ 32;
  dco_count : b_count (h_bar (d_g s)) = cnt (dwaiting (dgen (d_g s))) (d_thr s);
  dco_lt : b_count (h_bar (d_g s)) < Z.of_nat n;
  dco_intr : b_intr (h_bar (d_g s)) = false;
  dco_quit : h_quit (d_g s) = false;
  dco_trig : 0 <= h_trigger (d_g s) < 2 ^ 32 }.
Record drunning (n : nat) (s : dstate) (op tr : list devent) : Prop := {
  dr_common : dcommon n s;
  dr_trace : d_trace s = op ++ VStart (h_ptr (d_g s)) :: tr;
  dr_closed : dclosed tr;
  dr_thr : Forall (drun (d_g s)) (d_thr s);
  dr_le : forall b, handled b op + cnt (busy b) (d_thr s) + queued b (h_queue (d_g s)) <= accepted b op;
  dr_eq : h_error (d_g s) = false -> dcancels op = 0 ->
          forall b, handled b op + cnt (busy b) (d_thr s) + queued b (h_queue (d_g s)) = accepted b op;
  dr_err : h_error (d_g s) = (0 <? dfailures op);
  dr_user : (d_user s = VRunning /\ h_fin (d_g s) = false /\ dfinalizes op = 0) \/ (d_user s = VFinalizing /\ h_fin (d_g s) = true /\ dfinalizes op = 1);
  dr_fcb : h_fcb (d_g s) = h_fin (d_g s);
  dr_so_far : dop_so_far (h_ptr (d_g s)) op;
  dr_zero : forall t, nth_error (d_thr s) 0 = Some t -> dzero (dgen (d_g s)) t;
  dr_work : 0 < cnt qwaiting (d_thr s) -> lenZ (h_queue (d_g s)) <= cnt checking (d_thr s);
  dr_short : lenZ (h_queue (d_g s)) <= pushes op }.
Definition dclean (g : dshared) : Prop := h_queue g = [] /\ h_error g = false /\ h_fin g = false /\ h_fcb g = false.
Record didling (n : nat) (s : dstate) : Prop := {
  di_common : dcommon n s;
  di_thr : Forall (didle (d_g s)) (d_thr s);
  di_zero : forall t, nth_error (d_thr s) 0 = Some t -> dzero (dgen (d_g s)) t;
  di_clean : dclean (d_g s);
  di_user : (d_user s = VIdle /\ dclosed (d_trace s)) \/
            (d_user s = VStarting /\ exists tr, d_trace s = VStart (h_ptr (d_g s)) :: tr /\ dclosed tr) }.
Definition dleader (g : dshared) (op : list devent) (t : option dthread) : Prop :=
  match t with
  | Some (DCallback _ _, _) => dclean g
  | Some _ => h_queue g = [] /\ h_fin g = true /\ h_fcb g = true /\ h_error g = (0 <? dfailures op)
  | None => False
  end.
Record dending (n : nat) (s : dstate) (op tr : list devent) : Prop := {
  de_common : dcommon n s;
  de_trace : d_trace s = op ++ VStart (h_ptr (d_g s)) :: tr;
  de_closed : dclosed tr;
  de_user : d_user s = VFinalizing;
  de_thr : forall i t, nth_error (d_thr s) i = Some t -> dpost (d_g s) op i t;
  de_op : dop_complete (h_ptr (d_g s)) op (negb (0 <? dfailures op));
  de_leader : dleader (d_g s) op (nth_error (d_thr s) 0) }.
Inductive dinv (n : nat) (s : dstate) : Prop :=
| di_idle : didling n s -> dinv n s
| di_run : forall op tr, drunning n s op tr -> dinv n s
| di_end : forall op tr, dending n s op tr -> dinv n s.

(** ** Adding events to an operation *)
Lemma dfailures_nonneg l : 0 <= dfailures l.
Proof. apply cnt_nonneg. Qed.
Lemma accepted_nonneg b l : 0 <= accepted b l.
Proof. apply cnt_nonneg. Qed.
Lemma handled_nonneg b l : 0 <= handled b l.
Proof. apply cnt_nonneg. Qed.
Lemma so_far_nil ptr : dop_so_far ptr [].
Proof.
  constructor; [constructor| | | |discriminate].
  - intros newer older b E. destruct newer, older; try discriminate E. discriminate.
  - intros newer b ok older E. destruct newer; discriminate E.
  - intros newer c older E. destruct newer; discriminate E.
Qed.
Lemma so_far_handled ptr op b ok : dop_so_far ptr op -> handled b op < accepted b op -> dop_so_far ptr (VHandled ptr b ok :: op).
Proof.
  intros [F O R Fi N] L. constructor.
  - constructor; [reflexivity|exact F].
  - intros newer older b' E. destruct newer as [|e newer]; cbn [app] in E; [subst older|injection E as _ E; eauto].
    specialize (O [] op b' eq_refl). unfold handled, accepted in *. cbn [cnt]. destruct (Z.eqb_spec b' b) as [-> |]; lia.
  - intros newer b' ok' older E. destruct newer as [|e newer]; cbn [app] in E; [discriminate E|injection E as _ E; eauto].
  - intros newer c older E. destruct newer as [|e newer]; cbn [app] in E; [discriminate E|injection E as <- E]. specialize (Fi _ _ _ E). exact Fi.
  - exact N.
Qed.
Lemma so_far_push ptr op b ok : dop_so_far ptr op -> dfinalizes op = 0 -> (ok = true <-> dfailures op = 0) -> dop_so_far ptr (VPush b ok :: op).
Proof.
  intros [F O R Fi N] Z0 OK. constructor.
  - constructor; [exact Logic.I|exact F].
  - intros newer older b' E. destruct newer as [|e newer]; cbn [app] in E; [subst older|injection E as _ E; eauto].
    specialize (O [] op b' eq_refl). unfold handled, accepted in *. cbn [cnt]. destruct ok, (b' =? b); lia.
  - intros newer b' ok' older E. destruct newer as [|e newer]; cbn [app] in E; [injection E as -> -> ->; exact OK|injection E as _ E; eauto].
  - intros newer c older E. destruct newer as [|e newer]; cbn [app] in E; [discriminate E|injection E as <- E]. exfalso.
    rewrite E in Z0. unfold dfinalizes in Z0. assert (X : forall l r, cnt (fun ev => match ev with VFinalize _ => true | _ => false end) (l ++ VFinalize c :: r) >= 1).
    { induction l as [|e l IH]; intros r; cbn [app cnt]; [pose proof (cnt_nonneg (fun ev => match ev with VFinalize _ => true | _ => false end) r); lia|]. specialize (IH r). destruct e; lia. }
    specialize (X newer older). lia.
  - exact N.
Qed.
Lemma so_far_finalize ptr op c : dop_so_far ptr op -> dfinalizes op = 0 -> dop_so_far ptr (VFinalize c :: op).
Proof.
  intros [F O R Fi N] Z0. constructor.
  - constructor; [exact Logic.I|exact F].
  - intros newer older b' E. destruct newer as [|e newer]; cbn [app] in E; [subst older|injection E as _ E; eauto].
    exact (O [] op b' eq_refl).
  - intros newer b' ok' older E. destruct newer as [|e newer]; cbn [app] in E; [discriminate E|injection E as _ E; eauto].
  - intros newer c' older E. destruct newer as [|e newer]; cbn [app] in E; [reflexivity|injection E as <- E]. exact (Fi _ _ _ E).
  - unfold dfinalizes in *. cbn [cnt]. lia.
Qed.

(** ** Counting *)
Lemma bz_range b : 0 <= bz b <= 1.
Proof. destruct b; cbn; lia. Qed.
Lemma queued_nonneg b q : 0 <= queued b q.
Proof. apply cnt_nonneg. Qed.
Lemma lenZ_nonneg {A} (l : list A) : 0 <= lenZ l.
Proof. unfold lenZ. lia. Qed.
Lemma dnth_setnth {A} i j (x y : A) l : nth_error (setnth i x l) j = Some y -> (i = j /\ y = x) \/ (i <> j /\ nth_error l j = Some y).
Proof.
  intros H. destruct (Nat.eq_dec i j) as [->|N]; [left|right; rewrite nth_setnth_other in H; auto]. split; auto.
  revert j H. induction l as [|z l IH]; intros [|j] H; cbn [setnth nth_error] in H; try discriminate; [congruence|]. eauto.
Qed.
Lemma dbar_pass b g : b_intr b = false -> bar_pass b g = negb (b_gen b =? g).
Proof. intros H. unfold bar_pass. now rewrite H, orb_false_r. Qed.

Lemma dcommon_upd n s i t t' g' u tr : dcommon n s -> nth_error (d_thr s) i = Some t -> dwaiting (dgen (d_g s)) t' = dwaiting (dgen (d_g s)) t ->
  h_bar g' = h_bar (d_g s) -> h_quit g' = h_quit (d_g s) -> h_trigger g' = h_trigger (d_g s) ->
  dcommon n (mkD g' (setnth i t' (d_thr s)) u tr).
Proof.
  intros [L G CN CL2 IT Q TG] Hi W B QQ T. constructor; cbn [d_g d_thr d_user d_trace]; unfold dgen; rewrite ?B, ?QQ, ?T; auto.
  - now rewrite setnth_length.
  - rewrite (cnt_setnth _ _ _ _ _ Hi). change (b_gen (h_bar (d_g s))) with (dgen (d_g s)). rewrite W, CN. lia.
Qed.

(** A step of a thread during an operation that keeps the barrier's generation. *)
Lemma drun_upd n s op tr i t t' g' evs : drunning n s op tr -> nth_error (d_thr s) i = Some t ->
  h_trigger g' = h_trigger (d_g s) -> h_ptr g' = h_ptr (d_g s) -> h_fin g' = h_fin (d_g s) -> h_fcb g' = h_fcb (d_g s) ->
  dgen g' = dgen (d_g s) -> b_intr (h_bar g') = b_intr (h_bar (d_g s)) -> h_quit g' = h_quit (d_g s) ->
  b_count (h_bar g') = b_count (h_bar (d_g s)) - bz (dwaiting (dgen (d_g s)) t) + bz (dwaiting (dgen (d_g s)) t') -> b_count (h_bar g') < Z.of_nat n ->
  (h_queue (d_g s) = [] -> h_queue g' = []) -> lenZ (h_queue g') <= lenZ (h_queue (d_g s)) ->
  (drun (d_g s) t -> drun g' t') ->
  (forall b, handled b (evs ++ op) + cnt (busy b) (d_thr s) - bz (busy b t) + bz (busy b t') + queued b (h_queue g') <= accepted b op) ->
  (h_error g' = false -> dcancels op = 0 -> forall b, handled b (evs ++ op) + cnt (busy b) (d_thr s) - bz (busy b t) + bz (busy b t') + queued b (h_queue g') = accepted b op) ->
  h_error g' = (0 <? dfailures (evs ++ op)) ->
  Forall (fun ev => match ev with VHandled _ _ _ => True | _ => False end) evs -> dop_so_far (h_ptr (d_g s)) (evs ++ op) ->
  (dzero (dgen (d_g s)) t -> dzero (dgen (d_g s)) t') ->
  (qwaiting t = false) -> (qwaiting t' = true -> h_queue g' = []) ->
  (lenZ (h_queue g') - bz (checking t') <= lenZ (h_queue (d_g s)) - bz (checking t) \/ h_queue g' = []) ->
  drunning n (mkD g' (setnth i t' (d_thr s)) (d_user s) (evs ++ d_trace s)) (evs ++ op) tr.
Proof.
  intros [CO TR CL TH LE EQ ER US FC SF ZE WO SH] Hi S1 S2 S3 S4 S5 S6 S7 BC BL QN QL T BE BQ EE EV SO ZZ W1 W2 W3.
  pose proof CO as [L G CN CL2 IT Q TG].
  assert (EV2 : forall b, accepted b (evs ++ op) = accepted b op /\ dcancels (evs ++ op) = dcancels op /\ dfinalizes (evs ++ op) = dfinalizes op /\ pushes (evs ++ op) = pushes op).
  { intros b. clear - EV. induction EV as [|e l X F IH]; [auto|]. destruct e; try contradiction. exact IH. }
  constructor; cbn [d_g d_thr d_user d_trace].
  - constructor; cbn [d_g d_thr d_user d_trace]; rewrite ?S5, ?S6, ?S7, ?S1; auto.
    + now rewrite setnth_length.
    + rewrite (cnt_setnth _ _ _ _ _ Hi), BC, CN. reflexivity.
  - rewrite S2, TR, app_assoc. reflexivity.
  - exact CL.
  - apply Forall_setnth; [|apply T; exact (Forall_nth_error _ _ _ _ TH Hi)]. eapply Forall_impl; [|exact TH]. intros [pc lt]. unfold drun. rewrite S1, S3, S5. destruct pc; auto; intuition.
  - intros b. rewrite (cnt_setnth _ _ _ _ _ Hi). destruct (EV2 b) as (-> & _). specialize (BE b). unfold bz in BE. lia.
  - intros E C b. rewrite (cnt_setnth _ _ _ _ _ Hi). destruct (EV2 b) as (-> & C2 & _). rewrite C2 in C. specialize (BQ E C b). unfold bz in BQ. lia.
  - exact EE.
  - rewrite S3. destruct (EV2 0) as (_ & _ & -> & _). exact US.
  - rewrite S4, S3. exact FC.
  - rewrite S2. exact SO.
  - rewrite S5. intros t0 Ht0. apply dnth_setnth in Ht0. destruct Ht0 as [[-> ->]|[_ Ht0]]; auto.
  - rewrite !(cnt_setnth _ _ _ _ _ Hi). rewrite W1. intros X. pose proof (cnt_nonneg checking (setnth i t' (d_thr s))) as Y. rewrite (cnt_setnth _ _ _ _ _ Hi) in Y.
    destruct (qwaiting t') eqn:W; [rewrite (W2 eq_refl); cbn; lia|]. specialize (WO ltac:(lia)). destruct W3 as [W3| ->]; [unfold bz in W3; lia|cbn; lia].
  - destruct (EV2 0) as (_ & _ & _ & ->). lia.
Qed.
Lemma drun_local n s op tr i t t' : drunning n s op tr -> nth_error (d_thr s) i = Some t ->
  dwaiting (dgen (d_g s)) t' = dwaiting (dgen (d_g s)) t -> (drun (d_g s) t -> drun (d_g s) t') -> (forall b, busy b t' = busy b t) ->
  (dzero (dgen (d_g s)) t -> dzero (dgen (d_g s)) t') -> qwaiting t = false -> (qwaiting t' = true -> h_queue (d_g s) = []) ->
  (checking t = true -> checking t' = true \/ h_queue (d_g s) = []) ->
  drunning n (mkD (d_g s) (setnth i t' (d_thr s)) (d_user s) (d_trace s)) op tr.
Proof.
  intros RU Hi W T B Z Q1 Q2 C. change (d_trace s) with ([] ++ d_trace s). change op with ([] ++ op).
  pose proof RU as [CO TR CL TH LE EQ ER US FC SF ZE WO SH].
  eapply drun_upd; eauto; cbn [app]; auto; try lia.
  - rewrite W. lia.
  - apply (dco_lt _ _ CO).
  - intros b. rewrite B. specialize (LE b). lia.
  - intros E X b. rewrite B. specialize (EQ E X b). lia.
  - destruct (checking t) eqn:K; [destruct (C eq_refl) as [-> |X]; [left; lia|right; exact X]|]. left. pose proof (bz_range (checking t')). unfold bz at 2. lia.
Qed.
