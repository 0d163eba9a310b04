(** Reachable states of the decompression stream satisfy the invariant; what follows for the trace and for progress. *)
From Coq Require Import ZArith List Bool Lia.
From Verif Require Import CBase BitsLemmas ConcLib BarrierModel SpecSync BarrierProofs DecompStreamModel SpecDStream DecompInv DecompStep.
Import ListNotations.
Open Scope Z_scope.

Lemma no_call_inv n a s s' : (1 <= n)%nat -> no_dcall a -> dinv n s -> dstep a s = Some s' -> dinv n s'.
Proof.
  intros N1 A I E. destruct a as [i fail|i|ptr| |b j|c| |]; try (destruct A; discriminate).
  - destruct I as [ID|op tr RU|op tr EN]; [eapply idle_thread; eauto|eapply run_thread; eauto|eapply end_thread; eauto].
  - eapply spurious_inv; eauto.
Qed.
Lemma step_inv n a s s' : (1 <= n)%nat -> dinv n s -> dstep a s = Some s' -> h_quit (d_g s') = false -> dinv n s'.
Proof.
  intros N1 I E Q. destruct a as [i fail|i|ptr| |b j|c| |].
  - apply (no_call_inv n (BThread i fail) s); auto. left. reflexivity.
  - apply (no_call_inv n (BSpurious i) s); auto. right. reflexivity.
  - eapply start1_inv; eauto.
  - eapply start2_inv; eauto.
  - eapply push_inv; eauto.
  - eapply finalize_inv; eauto.
  - cbn [dstep] in E. destruct (d_user s); try discriminate E; apply dSome_inj in E; subst s'; discriminate Q.
  - exfalso. cbn [dstep] in E. destruct I as [ID|op tr RU|op tr EN].
    + destruct (di_user _ _ ID) as [(U & _)|(U & _)]; rewrite U in E; discriminate E.
    + destruct (dr_user _ _ _ _ RU) as [(U & _)|(U & _)]; rewrite U in E; discriminate E.
    + rewrite (de_user _ _ _ _ EN) in E; discriminate E.
Qed.
Lemma dtstep_quit n i fail g t g' t' w evs : dtstep n i fail g t = Some (g', t', w, evs) -> h_quit g' = h_quit g.
Proof.
  destruct t as [pc lt]. unfold dtstep. destruct pc as [| |[]|[]|b|b| |g1 []| |err pr|]; intros E.
  all: try discriminate E.
  all: repeat match type of E with
    | Some _ = Some _ => injection E as <- _ _ _; first [reflexivity|assumption|symmetry; assumption]
    | (if ?c then _ else _) = _ => destruct c eqn:?
    | context [bar_arrive ?a ?b] => unfold bar_arrive in E; cbv zeta in E
    | (let '(_, _) := if ?c then _ else _ in _) = _ => destruct c
    | match ?q with [] => _ | _ :: _ => _ end = _ => destruct q
    | _ => discriminate E
    end.
Qed.
Lemma quit_step a s s' : dstep a s = Some s' -> a <> BQuit1 -> h_quit (d_g s') = h_quit (d_g s).
Proof.
  intros E NQ. destruct a as [i fail|i|ptr| |b j|c| |]; cbn [dstep] in E.
  - destruct (nth_error (d_thr s) i) as [t|]; [|discriminate E].
    destruct (dtstep (lenZ (d_thr s)) i fail (d_g s) t) as [[[[g' t'] w] evs]|] eqn:T; [|discriminate E].
    apply dSome_inj in E. subst s'. cbn [d_g]. exact (dtstep_quit _ _ _ _ _ _ _ _ _ T).
  - destruct (nth_error (d_thr s) i) as [t|]; [|discriminate E]. destruct (dwake_any t); [|discriminate E]. apply dSome_inj in E. subst s'. reflexivity.
  - destruct (d_user s); try discriminate E. apply dSome_inj in E. subst s'. reflexivity.
  - destruct (d_user s); try discriminate E. apply dSome_inj in E. subst s'. reflexivity.
  - destruct (d_user s); try discriminate E. destruct (h_error (d_g s)); [apply dSome_inj in E; subst s'; reflexivity|]. destruct (notify_one j (d_thr s)); [|discriminate E]. apply dSome_inj in E. subst s'. reflexivity.
  - destruct (d_user s); try discriminate E. apply dSome_inj in E. subst s'. reflexivity.
  - contradiction.
  - destruct (d_user s); try discriminate E. apply dSome_inj in E. subst s'. reflexivity.
Qed.
Lemma new_inv n : (1 <= n)%nat -> dinv n (new_dstream n).
Proof.
  intros N. apply di_idle. constructor; cbn [new_dstream d_g d_thr d_user d_trace]; auto.
  - constructor; cbn [new_dstream d_g d_thr d_user d_trace]; auto; cbn [h_bar h_trigger dgen bar_init b_gen b_count]; try lia.
    + apply repeat_length.
    + symmetry. apply cnt_zero. rewrite Forall_forall. intros t Ht. apply repeat_spec in Ht. now subst t.
  - rewrite Forall_forall. intros t Ht. apply repeat_spec in Ht. subst t. reflexivity.
  - intros t Ht. apply nth_error_In, repeat_spec in Ht. subst t. exact Logic.I.
  - repeat split; reflexivity.
  - left. split; auto. constructor.
Qed.
Lemma inv_history n s : dinv n s -> dhistory (d_trace s).
Proof.
  intros [ID|op tr RU|op tr EN].
  - destruct (di_user _ _ ID) as [(_ & C)|(_ & tr & -> & C)]; [now constructor|]. apply (dhi_open _ []); auto. apply so_far_nil.
  - rewrite (dr_trace _ _ _ _ RU). apply dhi_open; [apply (dr_closed _ _ _ _ RU)|apply (dr_so_far _ _ _ _ RU)].
  - rewrite (de_trace _ _ _ _ EN). destruct (de_op _ _ _ _ EN). apply dhi_open; auto. apply (de_closed _ _ _ _ EN).
Qed.

(** ** Decomposing a history *)
Notation dmid := devents.
Lemma inner_mid ptr op : Forall (dinner ptr) op -> Forall dmid op.
Proof. intros F. eapply Forall_impl; [|exact F]. intros [] X; cbn in *; auto. Qed.
Lemma split_inner op1 p1 tr1 : forall op2 p2 tr2, Forall dmid op1 -> Forall dmid op2 ->
  op1 ++ VStart p1 :: tr1 = op2 ++ VStart p2 :: tr2 -> op1 = op2 /\ p1 = p2 /\ tr1 = tr2.
Proof.
  induction op1 as [|e1 op1 IH]; intros [|e2 op2] p2 tr2 F1 F2 E; cbn [app] in E.
  - injection E as -> ->. auto.
  - injection E as <- E. inversion F2 as [|? ? X]. destruct X.
  - injection E as -> E. inversion F1 as [|? ? X]. destruct X.
  - injection E as <- E. inversion F1; inversion F2; subst. destruct (IH op2 p2 tr2) as (-> & -> & ->); auto.
Qed.
Lemma inner_prefix newer ok rest : forall op p tr, Forall dmid op -> newer ++ VDone ok :: rest = op ++ VStart p :: tr ->
  exists newer', tr = newer' ++ VDone ok :: rest.
Proof.
  induction newer as [|e newer IH]; intros [|e2 op] p tr F E; cbn [app] in E.
  - discriminate E.
  - injection E as <- E. inversion F as [|? ? X]. destruct X.
  - injection E as -> <-. eauto.
  - injection E as -> E. inversion F; subst. eauto.
Qed.
Lemma closed_op tr : dclosed tr -> forall newer ok op p older, tr = newer ++ VDone ok :: op ++ VStart p :: older -> Forall dmid op ->
  dop_complete p op ok.
Proof.
  induction 1 as [|p0 op0 ok0 tr0 C IH OP]; intros newer ok op p older E F; [destruct newer; discriminate E|].
  pose proof (inner_mid _ _ (ds_inner _ _ (dc_so_far _ _ _ OP))) as FI.
  destruct newer as [|e newer]; cbn [app] in E.
  - injection E as -> E. apply split_inner in E; auto. destruct E as (-> & -> & ->). exact OP.
  - injection E as <- E. symmetry in E. apply inner_prefix in E; auto. destruct E as [newer' E]. eapply IH; eauto.
Qed.
Lemma history_op tr : dhistory tr -> forall newer ok op p older, tr = newer ++ VDone ok :: op ++ VStart p :: older -> Forall dmid op ->
  dop_complete p op ok.
Proof.
  intros [tr0 C|p0 op0 tr0 C SF] newer ok op p older E F; [eapply closed_op; eauto|].
  symmetry in E. apply inner_prefix in E; [|eapply inner_mid, (ds_inner _ _ SF)]. destruct E as [newer' E]. eapply closed_op; eauto.
Qed.
Lemma so_far_suffix p a b : dop_so_far p (a ++ b) -> dop_so_far p b.
Proof.
  intros [F O R Fi N]. constructor.
  - apply Forall_app in F. tauto.
  - intros newer older b' ->. apply (O (a ++ newer)). apply app_assoc.
  - intros newer b' ok older ->. apply (R (a ++ newer) b'). apply app_assoc.
  - intros newer c older ->. specialize (Fi (a ++ newer) c older (app_assoc _ _ _)). unfold pushes in *. 
    assert (X : forall l, cnt (fun ev => match ev with VPush _ _ => true | _ => false end) (l ++ newer) = cnt (fun ev => match ev with VPush _ _ => true | _ => false end) l + cnt (fun ev => match ev with VPush _ _ => true | _ => false end) newer) by (induction l as [|x l IH]; cbn [app cnt]; lia).
    rewrite X in Fi. pose proof (cnt_nonneg (fun ev => match ev with VPush _ _ => true | _ => false end) newer). pose proof (cnt_nonneg (fun ev => match ev with VPush _ _ => true | _ => false end) a). lia.
  - unfold dfinalizes in *.
    assert (X : forall l, cnt (fun ev => match ev with VFinalize _ => true | _ => false end) (l ++ b) = cnt (fun ev => match ev with VFinalize _ => true | _ => false end) l + cnt (fun ev => match ev with VFinalize _ => true | _ => false end) b) by (induction l as [|x l IH]; cbn [app cnt]; lia).
    rewrite X in N. pose proof (cnt_nonneg (fun ev => match ev with VFinalize _ => true | _ => false end) a). lia.
Qed.
Lemma in_middle newer : forall op p older op0 p0 tr0, Forall dmid op0 -> Forall dmid op ->
  newer ++ op ++ VStart p :: older = op0 ++ VStart p0 :: tr0 ->
  (p = p0 /\ exists a, op0 = a ++ op) \/ (exists newer', tr0 = newer' ++ op ++ VStart p :: older).
Proof.
  induction newer as [|e newer IH]; intros op p older op0 p0 tr0 F0 F E; cbn [app] in E.
  - apply split_inner in E; auto. destruct E as (-> & -> & ->). left. split; auto. now exists [].
  - destruct op0 as [|e0 op0]; cbn [app] in E; injection E as -> E.
    + right. exists newer. auto.
    + inversion F0; subst. destruct (IH op p older op0 p0 tr0) as [(X & a & Z)|X]; auto. left. split; auto. exists (e0 :: a). now rewrite Z.
Qed.
Lemma closed_so_far tr : dclosed tr -> forall newer op p older, tr = newer ++ op ++ VStart p :: older -> Forall dmid op -> dop_so_far p op.
Proof.
  induction 1 as [|p0 op0 ok0 tr0 C IH OP]; intros newer op p older E F; [destruct newer; [destruct op|]; discriminate E|].
  destruct newer as [|e newer]; cbn [app] in E.
  - destruct op as [|e op]; cbn [app] in E; [discriminate E|]. injection E as <- E. inversion F as [|? ? X]. destruct X.
  - injection E as <- E. symmetry in E. pose proof (dc_so_far _ _ _ OP) as SF. apply in_middle in E; [|eapply inner_mid, (ds_inner _ _ SF)|exact F].
    destruct E as [(-> & a & ->)|[newer' E]]; [eapply so_far_suffix; eauto|eapply IH; eauto].
Qed.
Lemma history_so_far tr : dhistory tr -> forall newer op p older, tr = newer ++ op ++ VStart p :: older -> Forall dmid op -> dop_so_far p op.
Proof.
  intros [tr0 C|p0 op0 tr0 C SF] newer op p older E F; [eapply closed_so_far; eauto|].
  symmetry in E. apply in_middle in E; [|eapply inner_mid, (ds_inner _ _ SF)|exact F].
  destruct E as [(-> & a & ->)|[newer' E]]; [eapply so_far_suffix; eauto|eapply closed_so_far; eauto].
Qed.

(** ** Progress *)
Definition dstopped (t : dthread) : bool := match fst t with DTrig true | DQueue true | DBar _ true | DExit => true | _ => false end.
Lemma stuck_stopped s : dstuck s -> Forall (fun t => dstopped t = true) (d_thr s).
Proof.
  intros ST. apply nth_error_forall. intros i t Hi. specialize (ST i false). cbn [dstep] in ST. rewrite Hi in ST.
  destruct (dtstep (lenZ (d_thr s)) i false (d_g s) t) as [[[[g' t'] w] evs]|] eqn:T; [discriminate ST|].
  destruct t as [pc lt]. unfold dtstep in T. destruct pc as [| |[]|[]|b|b| |g1 []| |err pr|]; try discriminate T; try reflexivity.
  all: repeat match type of T with
    | (if ?c then _ else _) = _ => destruct c
    | context [bar_arrive ?a ?b] => unfold bar_arrive in T; cbv zeta in T
    | (let '(_, _) := if ?c then _ else _ in _) = _ => destruct c
    | match ?q with [] => _ | _ :: _ => _ end = _ => destruct q
    | _ => discriminate T
    end.
Qed.
Lemma progress n s : (1 <= n)%nat -> dinv n s -> dstuck s ->
  d_user s = VIdle \/ d_user s = VStarting \/ (d_user s = VRunning /\ Forall (fun t => fst t = DQueue true) (d_thr s)).
Proof.
  intros N1 I ST. pose proof (stuck_stopped s ST) as P. destruct I as [ID|op tr RU|op tr EN].
  - destruct (di_user _ _ ID) as [(U & _)|(U & _)]; auto.
  - right; right. pose proof RU as [CO TR CL TH LE EQ ER US FC SF ZE WO SH]. pose proof CO as [L G CN CL2 IT Q TG].
    assert (X : Forall (fun t => (fst t = DQueue true /\ h_fin (d_g s) = false) \/ (dwaiting (dgen (d_g s)) t = true /\ h_fin (d_g s) = true)) (d_thr s)).
    { apply nth_error_forall. intros i t Hi. pose proof (Forall_nth_error _ _ _ _ TH Hi) as Ti. pose proof (Forall_nth_error _ _ _ _ P Hi) as Pi.
      destruct t as [pc lt]. destruct pc as [| |[]|[]|b|b| |g1 []| |err pr|]; try discriminate Pi; cbn in Ti; try contradiction.
      - left. split; [reflexivity|tauto].
      - right. destruct Ti as [(-> & _ & F & _)|(_ & X & _)]; [|discriminate X]. split; [unfold dwaiting; cbn [fst]; apply Z.eqb_refl|exact F]. }
    destruct US as [(U & F & _)|(U & F & _)].
    + split; [exact U|]. eapply Forall_impl; [|exact X]. intros t [(A & _)|(_ & A)]; [exact A|congruence].
    + exfalso. assert (A : Forall (fun t => dwaiting (dgen (d_g s)) t = true) (d_thr s)) by (eapply Forall_impl; [|exact X]; intros t [(_ & A)|(A & _)]; [congruence|exact A]).
      apply cnt_all in A. lia.
  - exfalso. pose proof EN as [CO TR CL US TH OP LE]. destruct (nth_error (d_thr s) 0) as [t|] eqn:H0; [|exact LE].
    pose proof (Forall_nth_error _ _ _ _ P H0) as P0. specialize (TH _ _ H0). destruct t as [pc lt]. destruct TH as [_ T]. cbn [fst] in T.
    destruct pc; try discriminate P0; try contradiction. destruct asleep; try discriminate P0. destruct T as [_ T]. discriminate T.
Qed.
Lemma quiescent n s op tr : (1 <= n)%nat -> drunning n s op tr -> Forall (fun t => fst t = DQueue true) (d_thr s) -> dfailures op = 0 -> dcancels op = 0 ->
  forall b, handled b op = accepted b op.
Proof.
  intros N1 RU A F C b. pose proof RU as [CO TR CL TH LE EQ ER US FC SF ZE WO SH]. rewrite F in ER.
  specialize (EQ ER C b). rewrite (cnt_zero (busy b)) in EQ by (eapply Forall_impl; [|exact A]; intros [pc lt]; cbn [fst]; intros ->; reflexivity).
  assert (X : lenZ (h_queue (d_g s)) <= 0).
  { rewrite <- (cnt_zero checking (d_thr s)) by (eapply Forall_impl; [|exact A]; intros [pc lt]; cbn [fst]; intros ->; reflexivity). apply WO.
    rewrite cnt_all by (eapply Forall_impl; [|exact A]; intros [pc lt]; cbn [fst]; intros ->; reflexivity). rewrite (dco_len _ _ CO). lia. }
  destruct (h_queue (d_g s)); [|unfold lenZ in X; cbn [length] in X; lia]. change (queued b []) with 0 in EQ. lia.
Qed.

(** ** A measure *)
Definition drank (n : nat) (g : dshared) (t : dthread) : Z :=
  let b := snd t =? h_trigger g in
  let N := Z.of_nat n in
  match fst t with
  | DExit => 0
  | DTrig true => if b then 0 else 9 + N
  | DTrig false => if b then 1 else 10 + N
  | DLoop => if b then 2 else 11 + N
  | DStart => if b then 3 else 12 + N
  | DCallback _ _ => 3
  | DReset => 4
  | DBar _ true => if b then 5 else 12 + N
  | DBar _ false => if b then 6 else 13 + N
  | DArrive => 7 + N
  | DQueue true => 8 + N
  | DQueue false => 9 + N
  | DFail _ => 10 + N
  | DHandle _ => 11 + N
  end.
Definition dmeas (n : nat) (s : dstate) : Z := 3 * lenZ (h_queue (d_g s)) + sumf (drank n (d_g s)) (d_thr s).
Lemma drank_range n g t : 0 <= drank n g t <= Z.of_nat n + 13.
Proof. destruct t as [pc lt]. unfold drank. cbn [fst snd]. destruct pc as [| |[]|[]|b|b| |g1 []| |err pr|]; try lia; destruct (lt =? h_trigger g); lia. Qed.
Lemma drank_ext n g g' t : h_trigger g' = h_trigger g -> drank n g' t = drank n g t.
Proof. intros A. unfold drank. rewrite A. reflexivity. Qed.
Lemma sum_ext n g g' l : h_trigger g' = h_trigger g -> sumf (drank n g') l = sumf (drank n g) l.
Proof. intros A. induction l as [|x l IH]; cbn [sumf]; [reflexivity|]. rewrite (drank_ext n g g') by auto. lia. Qed.
Lemma wake_rank n g t : drank n g (dwake_bar t) <= drank n g t + 1.
Proof. destruct t as [[| |[]|[]|b|b| |g1 []| |err pr|] lt]; cbn [dwake_bar]; unfold drank; cbn [fst snd]; try lia. destruct (lt =? h_trigger g); lia. Qed.
Lemma wake_sum n g l : sumf (drank n g) (map dwake_bar l) <= sumf (drank n g) l + Z.of_nat (length l).
Proof. induction l as [|t l IH]; cbn [map sumf length]; [lia|]. pose proof (wake_rank n g t). lia. Qed.
Lemma dtstep_trig n i fail g t g' t' w evs : dtstep n i fail g t = Some (g', t', w, evs) -> h_trigger g' = h_trigger g /\ h_ptr g' = h_ptr g.
Proof.
  destruct t as [pc lt]. unfold dtstep. destruct pc as [| |[]|[]|b|b| |g1 []| |err pr|]; intros E.
  all: try discriminate E.
  all: repeat match type of E with
    | Some _ = Some _ => injection E as <- _ _ _; split; reflexivity
    | (if ?c then _ else _) = _ => destruct c eqn:?
    | context [bar_arrive ?a ?b] => unfold bar_arrive in E; cbv zeta in E
    | (let '(_, _) := if ?c then _ else _ in _) = _ => destruct c
    | match ?q with [] => _ | _ :: _ => _ end = _ => destruct q
    | _ => discriminate E
    end.
Qed.
(** What the invariant says about a thread, as far as the measure is concerned. *)
Definition dmok (g : dshared) (i : nat) (t : dthread) : Prop :=
  match fst t with
  | DQueue _ | DHandle _ | DFail _ | DArrive | DReset | DCallback _ _ => snd t = h_trigger g
  | DBar g' _ => snd t = h_trigger g \/ (snd t = prev (h_trigger g) /\ i <> 0%nat)
  | _ => True
  end.
Lemma inv_mok n s i t : dinv n s -> nth_error (d_thr s) i = Some t -> dmok (d_g s) i t.
Proof.
  intros [ID|op tr RU|op tr EN] Hi.
  - pose proof (Forall_nth_error _ _ _ _ (di_thr _ _ ID) Hi) as T. destruct t as [[] lt]; cbn in *; try contradiction; auto. left. tauto.
  - pose proof (Forall_nth_error _ _ _ _ (dr_thr _ _ _ _ RU) Hi) as T. destruct t as [[] lt]; cbn in *; try contradiction; auto; try tauto.
    destruct T as [T|(T & _ & X)]; [left; tauto|right]. split; [exact X|]. intros ->. pose proof (dr_zero _ _ _ _ RU _ Hi) as Z0. cbn in Z0.
    rewrite T in Z0. revert Z0. apply prev_neq. apply (dco_gen _ _ (dr_common _ _ _ _ RU)).
  - destruct (de_thr _ _ _ _ EN _ _ Hi) as [T _]. destruct t as [[] lt]; cbn in *; auto.
Qed.
Lemma inv_common n s : dinv n s -> dcommon n s.
Proof. intros [ID|op tr RU|op tr EN]; [apply ID|apply RU|apply EN]. Qed.
Lemma thread_meas n s i fail s' : dinv n s -> dstep (BThread i fail) s = Some s' -> dmeas n s' + 1 <= dmeas n s.
Proof.
  intros I E. pose proof (inv_common n s I) as [L G CN CL2 IT Q TG].
  cbn [dstep] in E. destruct (nth_error (d_thr s) i) as [t|] eqn:Hi; [|discriminate E]. pose proof (inv_mok n s i t I Hi) as M.
  destruct (dtstep (lenZ (d_thr s)) i fail (d_g s) t) as [[[[g' t'] w] evs]|] eqn:T; [|discriminate E]. apply dSome_inj in E. subst s'.
  unfold dmeas. cbn [d_g d_thr]. destruct (dtstep_trig _ _ _ _ _ _ _ _ _ T) as [TE _]. rewrite (sum_ext n (d_g s) g') by exact TE.
  assert (W : sumf (drank n (d_g s)) (setnth i t' (if w then map dwake_bar (d_thr s) else d_thr s)) <= sumf (drank n (d_g s)) (d_thr s) - drank n (d_g s) t + drank n (d_g s) t' + (if w then Z.of_nat n else 0)).
  { destruct w.
    - assert (dwake_bar t = t).
      { clear - T. destruct t as [pc lt]. unfold dtstep in T. destruct pc as [| |[]|[]|b|b| |g1 []| |err pr|]; try reflexivity. discriminate T. }
      rewrite (sumf_setnth _ i t' t) by (rewrite nth_error_map, Hi; cbn; congruence). pose proof (wake_sum n (d_g s) (d_thr s)). lia.
    - rewrite (sumf_setnth _ _ _ _ _ Hi). lia. }
  enough (3 * lenZ (h_queue g') + drank n (d_g s) t' + (if w then Z.of_nat n else 0) + 1 <= 3 * lenZ (h_queue (d_g s)) + drank n (d_g s) t) by lia. clear W.
  destruct t as [pc lt]. unfold dtstep in T. unfold dmok in M. cbn [fst snd] in M.
  destruct pc as [| |[]|[]|b|b| |g1 []| |err pr|]; cbv beta iota zeta in T; try discriminate T.
  - injection T as <- <- <- <-. unfold drank; cbn [fst snd]. destruct (lt =? h_trigger (d_g s)); lia.
  - rewrite Q in T. injection T as <- <- <- <-. unfold drank; cbn [fst snd]. destruct (lt =? h_trigger (d_g s)); lia.
  - rewrite Q, orb_false_r in T. destruct (h_trigger (d_g s) =? lt) eqn:X; cbn [negb] in T; injection T as <- <- <- <-; unfold drank; cbn [fst snd]; rewrite ?Z.eqb_refl, (Z.eqb_sym lt), X; lia.
  - subst lt. destruct (h_queue (d_g s)) as [|b q] eqn:EQ.
    + destruct (h_fin (d_g s) || h_quit (d_g s)); injection T as <- <- <- <-; rewrite EQ; unfold drank; cbn [fst snd]; lia.
    + rewrite Q in T. injection T as <- <- <- <-. cbn [set_queue h_queue]. unfold lenZ, drank; cbn [length fst snd]. lia.
  - destruct fail; injection T as <- <- <- <-; unfold drank; cbn [fst snd]; lia.
  - injection T as <- <- <- <-. cbn [h_queue]. change (lenZ (@nil Z)) with 0. pose proof (lenZ_nonneg (h_queue (d_g s))). unfold drank; cbn [fst snd]; lia.
  - subst lt. unfold bar_arrive in T. cbv zeta in T. destruct (_ =? _).
    + injection T as <- <- <- <-. cbn [set_hbar h_queue]. destruct i; unfold drank; cbn [dafter fst snd]; rewrite ?Z.eqb_refl; lia.
    + rewrite dbar_pass in T by exact IT. cbn [b_gen] in T. rewrite Z.eqb_refl in T. cbn [negb] in T. injection T as <- <- <- <-. cbn [set_hbar h_queue]. unfold drank; cbn [fst snd]; rewrite Z.eqb_refl; lia.
  - injection T as <- <- <- <-. destruct (bar_pass _ _).
    + destruct M as [M|[M1 M2]].
      * destruct i; unfold drank; cbn [dafter fst snd]; rewrite M, ?Z.eqb_refl; lia.
      * destruct i; [contradiction|]. unfold drank; cbn [dafter fst snd]. destruct (lt =? h_trigger (d_g s)); lia.
    + unfold drank; cbn [fst snd]. destruct (lt =? h_trigger (d_g s)); lia.
  - rewrite Q in T. injection T as <- <- <- <-. unfold drank; cbn [h_queue fst snd]; lia.
  - injection T as <- <- <- <-. subst lt. unfold drank; cbn [fst snd]. rewrite Z.eqb_refl. lia.
Qed.
Lemma spurious_meas n s i s' : dstep (BSpurious i) s = Some s' -> dmeas n s' = dmeas n s + 1.
Proof.
  intros E. cbn [dstep] in E. destruct (nth_error (d_thr s) i) as [t|] eqn:Hi; [|discriminate E].
  destruct (dwake_any t) as [t'|] eqn:W; [|discriminate E]. apply dSome_inj in E. subst s'. unfold dmeas. cbn [d_g d_thr]. rewrite (sumf_setnth _ _ _ _ _ Hi).
  enough (drank n (d_g s) t' = drank n (d_g s) t + 1) by lia.
  destruct t as [pc lt]. destruct pc as [| |[]|[]|b|b| |g1 []| |err pr|]; try discriminate W; cbn in W; apply dSome_inj in W; subst t'; unfold drank; cbn [fst snd]; try destruct (lt =? h_trigger (d_g s)); lia.
Qed.
Lemma meas_bound n s : dinv n s -> 0 <= dmeas n s <= 3 * lenZ (h_queue (d_g s)) + Z.of_nat n * (Z.of_nat n + 13).
Proof.
  intros I. pose proof (inv_common n s I) as [L _ _ _ _ _ _].
  assert (S1 : 0 <= sumf (drank n (d_g s)) (d_thr s)) by (apply sumf_nonneg; rewrite Forall_forall; intros t _; apply drank_range).
  assert (S2 : sumf (drank n (d_g s)) (d_thr s) <= (Z.of_nat n + 13) * Z.of_nat n).
  { pose proof (sumf_const (drank n (d_g s)) (Z.of_nat n + 13) (d_thr s)) as X. rewrite L in X. apply X. rewrite Forall_forall. intros t _. apply drank_range. }
  pose proof (lenZ_nonneg (h_queue (d_g s))). unfold dmeas. lia.
Qed.
Lemma run_bound n l : (1 <= n)%nat -> forall s s', dinv n s -> Forall no_dcall l ->
  run dstep l s = Some s' -> dinv n s' /\ cnt is_dthread l + dmeas n s' <= dmeas n s + cnt is_dspurious l.
Proof.
  intros N1. induction l as [|a l IH]; intros s s' I F E; cbn [run cnt] in *.
  - injection E as <-. split; [exact I|lia].
  - destruct (dstep a s) as [s1|] eqn:E1; [|discriminate E]. inversion F as [|? ? F1 F2]; subst.
    assert (I1 : dinv n s1) by (eapply no_call_inv; eauto).
    destruct (IH s1 s' I1 F2 E) as [I2 B]. split; [exact I2|].
    destruct a as [i fail|i|ptr| |b j|c| |]; try (destruct F1; discriminate); cbn [is_dthread is_dspurious].
    + pose proof (thread_meas n s i fail s1 I E1). lia.
    + pose proof (spurious_meas n s i s1 E1). lia.
Qed.
