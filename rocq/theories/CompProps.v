(** Consequences of the invariants of the compression stream, in the form used by PropStream. *)
From Coq Require Import ZArith List Bool Lia.
From Verif Require Import CBase BitsLemmas ConcLib BarrierModel SpecSync BarrierProofs StreamBlockModel CompStreamModel SpecStream CompInv CompProofs CompStep CompMain CompTerm CompQuit.
Import ListNotations.
Open Scope Z_scope.

(** ** Finding an operation in the trace of a stream that is being destroyed *)
Lemma quit_split newer' : forall op size m older' newer older, Forall late newer -> Forall inner op ->
  newer' ++ op ++ EStart size m :: older' = newer ++ EQuit :: older ->
  exists newer'', older = newer'' ++ op ++ EStart size m :: older'.
Proof.
  induction newer' as [|e newer' IH]; intros op size m older' newer older L F E; cbn [app] in E.
  - revert op F E. induction newer as [|e newer IHn]; intros op F E; cbn [app] in E.
    + destruct op as [|e op]; cbn [app] in E; [discriminate E|]. injection E as -> E. inversion F as [|? ? X]. destruct X.
    + inversion L as [|? ? L1 L2]; subst. destruct op as [|e2 op]; cbn [app] in E.
      * injection E as <- E. destruct L1.
      * injection E as -> E. inversion F; subst. destruct (IHn L2 op ltac:(assumption) E) as [x X]. exfalso.
        clear - E L2 F L1. revert op E F. induction newer as [|e' newer IH]; intros op E F; cbn [app] in E.
        -- destruct op as [|e2 op]; cbn [app] in E; [discriminate E|]. injection E as -> E. inversion F as [|? ? ? F2]; subst. inversion F2 as [|? ? X]. destruct X.
        -- inversion L2; subst. destruct op as [|e2 op]; cbn [app] in E; [injection E as <- E; contradiction|].
           injection E as -> E. eapply IH; eauto. inversion F as [|? ? ? F2]; subst. inversion F2; subst. constructor; auto.
  - destruct newer as [|e2 newer]; cbn [app] in E.
    + injection E as -> E. now exists newer'.
    + injection E as -> E. inversion L; subst. eapply IH; eauto.
Qed.
Lemma quit_split_done newer' : forall ok op size m older' newer older, Forall late newer -> Forall inner op ->
  newer' ++ EDone ok :: op ++ EStart size m :: older' = newer ++ EQuit :: older ->
  exists newer'', older = newer'' ++ EDone ok :: op ++ EStart size m :: older'.
Proof.
  induction newer' as [|e newer' IH]; intros ok op size m older' newer older L F E; cbn [app] in E.
  - destruct newer as [|e newer]; cbn [app] in E; [discriminate E|]. injection E as <- E. exfalso. inversion L as [|? ? _ L2]; subst. clear L.
    revert op E F. induction newer as [|e' newer IH]; intros op E F; cbn [app] in E.
    + destruct op as [|e2 op]; cbn [app] in E; [discriminate E|]. injection E as -> E. inversion F as [|? ? X]. destruct X.
    + inversion L2; subst. destruct op as [|e2 op]; cbn [app] in E; [injection E as <- E; contradiction|]. injection E as -> E. inversion F; subst. eapply IH; eauto.
  - destruct newer as [|e2 newer]; cbn [app] in E.
    + injection E as -> E. now exists newer'.
    + injection E as -> E. inversion L; subst. eapply IH; eauto.
Qed.

Lemma reach_so_far n s newer op size m older : (1 <= n)%nat -> Z.of_nat n < 2 ^ 32 -> reachable cstep (new_stream n) s ->
  c_trace s = newer ++ op ++ EStart size m :: older -> Forall inner op -> op_so_far size op /\ epochs_ordered size m op.
Proof.
  intros N1 N2 R E F. destruct (reach_all n s N1 N2 R) as [[_ I]|(H & op0 & newer0 & older0 & Q & HI & _)].
  - eapply history_so_far; eauto. eapply inv_history; eauto.
  - rewrite (q_trace _ _ _ _ _ _ Q) in E. symmetry in E. apply quit_split in E; auto; [|exact (q_late _ _ _ _ _ _ Q)].
    destruct E as [x E]. eapply history_so_far; eauto.
Qed.
Lemma reach_op n s newer ok op size m older : (1 <= n)%nat -> Z.of_nat n < 2 ^ 32 -> reachable cstep (new_stream n) s ->
  c_trace s = newer ++ EDone ok :: op ++ EStart size m :: older -> Forall inner op -> op_complete size m op ok.
Proof.
  intros N1 N2 R E F. destruct (reach_all n s N1 N2 R) as [[_ I]|(H & op0 & newer0 & older0 & Q & HI & _)].
  - eapply history_op; eauto. eapply inv_history; eauto.
  - rewrite (q_trace _ _ _ _ _ _ Q) in E. symmetry in E. apply quit_split_done in E; auto; [|exact (q_late _ _ _ _ _ _ Q)].
    destruct E as [x E]. eapply history_op; eauto.
Qed.
Lemma delivered_nonneg o l : 0 <= delivered o l.
Proof. apply cnt_nonneg. Qed.

Lemma c31_exactly n s newer op size m older : (1 <= n)%nat -> Z.of_nat n < 2 ^ 32 -> reachable cstep (new_stream n) s ->
  c_trace s = newer ++ EDone true :: op ++ EStart size m :: older -> Forall inner op -> cancels op = 0 ->
  forall o, (block_offset size o -> delivered o op = 1) /\ (~ block_offset size o -> delivered o op = 0).
Proof.
  intros N1 N2 R E F C o. pose proof (reach_op n s _ _ _ _ _ _ N1 N2 R E F) as [[OI OO OV OF] OE FI OK AL]. split; [apply AL; auto|].
  intros NB. pose proof (delivered_nonneg o op). destruct (Z.eq_dec (delivered o op) 0); auto. exfalso. apply NB, OV. lia.
Qed.
Lemma c31_at_most n s newer op size m older : (1 <= n)%nat -> Z.of_nat n < 2 ^ 32 -> reachable cstep (new_stream n) s ->
  c_trace s = newer ++ op ++ EStart size m :: older -> Forall inner op ->
  forall o, delivered o op <= 1 /\ (0 < delivered o op -> block_offset size o).
Proof. intros N1 N2 R E F o. destruct (reach_so_far n s _ _ _ _ _ N1 N2 R E F) as [[OI OO OV OF] _]. auto. Qed.
Lemma c32_complete n s newer ok op size m older : (1 <= n)%nat -> Z.of_nat n < 2 ^ 32 -> reachable cstep (new_stream n) s ->
  c_trace s = newer ++ EDone ok :: op ++ EStart size m :: older -> Forall inner op ->
  finalizes op = 1 /\ (ok = true <-> failures op = 0).
Proof. intros N1 N2 R E F. destruct (reach_op n s _ _ _ _ _ _ N1 N2 R E F) as [_ _ FI OK _]. auto. Qed.
Lemma c34_order n s newer op size m older : (1 <= n)%nat -> Z.of_nat n < 2 ^ 32 -> reachable cstep (new_stream n) s ->
  c_trace s = newer ++ op ++ EStart size m :: older -> Forall inner op ->
  forall after o ok before, op = after ++ EBlock o ok :: before ->
  forall k o', 0 <= k -> k * m <= o -> o' < k * m -> block_offset size o' -> delivered o' before = 1.
Proof. intros N1 N2 R E F after o ok before EO k o' K1 K2 K3 B. destruct (reach_so_far n s _ _ _ _ _ N1 N2 R E F) as [_ EP]. eapply EP; eauto. Qed.

(** ** Histories *)
Definition quits (l : list event) : Z := cnt (fun ev => match ev with EQuit => true | _ => false end) l.
Lemma inner_noquit op : Forall inner op -> quits op = 0.
Proof. intros F. apply cnt_zero. eapply Forall_impl; [|exact F]. intros [] X; try reflexivity; destruct X. Qed.
Lemma late_noquit op : Forall late op -> quits op = 0.
Proof. intros F. apply cnt_zero. eapply Forall_impl; [|exact F]. intros [] X; try reflexivity; destruct X. Qed.
Lemma quits_app a b : quits (a ++ b) = quits a + quits b.
Proof. apply cnt_app. Qed.
Lemma closed_noquit tr : closed tr -> quits tr = 0.
Proof.
  induction 1 as [|size m op ok tr C IH OP]; [reflexivity|]. change (quits (EDone ok :: op ++ EStart size m :: tr)) with (quits (op ++ EStart size m :: tr)).
  rewrite quits_app, (inner_noquit _ (os_inner _ _ (oc_so_far _ _ _ _ OP))). exact IH.
Qed.
Lemma history_noquit tr : history tr -> quits tr = 0.
Proof.
  intros [tr0 C|size m op tr0 C SF EP]; [now apply closed_noquit|]. rewrite quits_app, (inner_noquit _ (os_inner _ _ SF)). exact (closed_noquit _ C).
Qed.
Lemma c32_history n s : (1 <= n)%nat -> Z.of_nat n < 2 ^ 32 -> reachable cstep (new_stream n) s -> ~ In EQuit (c_trace s) -> history (c_trace s).
Proof.
  intros N1 N2 R NQ. destruct (reach_all n s N1 N2 R) as [[_ I]|(H & op0 & newer0 & older0 & Q & HI & _)]; [eapply inv_history; eauto|].
  exfalso. apply NQ. rewrite (q_trace _ _ _ _ _ _ Q). apply in_or_app. right. left. reflexivity.
Qed.

(** ** The callbacks during the destructor *)
Definition iscb (t : thread) : bool := match fst t with CCallback _ _ => true | _ => false end.
Definition isdone (ev : event) : bool := match ev with EDone _ => true | _ => false end.
Definition err_is (err : bool) (t : thread) : Prop := match fst t with CCallback e _ => e = err | _ => True end.
Definition lastdone (s : cstate) (newer older : list event) : Prop :=
  (cnt isdone newer = 0 /\ cnt iscb (c_thr s) = 0) \/
  (g_size (c_g s) = 0 /\ newer = [] /\ cnt iscb (c_thr s) = 1 /\ exists err, Forall (err_is err) (c_thr s) /\ closed (EDone (negb err) :: older)) \/
  (g_size (c_g s) = 0 /\ cnt iscb (c_thr s) = 0 /\ exists ok, newer = [EDone ok] /\ closed (EDone ok :: older)).
Lemma quits_nonneg l : 0 <= quits l.
Proof. apply cnt_nonneg. Qed.
Lemma quits_split a : forall older b older', quits a = 0 -> quits b = 0 -> a ++ EQuit :: older = b ++ EQuit :: older' -> a = b /\ older = older'.
Proof.
  induction a as [|e a IH]; intros older [|e2 b] older' A B E; cbn [app] in E.
  - injection E as ->. auto.
  - injection E as <- E. change (quits (EQuit :: b)) with (1 + quits b) in B. pose proof (quits_nonneg b). lia.
  - injection E as -> E. change (quits (EQuit :: a)) with (1 + quits a) in A. pose proof (quits_nonneg a). lia.
  - injection E as -> E. change (e2 :: a) with ([e2] ++ a) in A. change (e2 :: b) with ([e2] ++ b) in B. rewrite quits_app in A, B.
    pose proof (quits_nonneg a). pose proof (quits_nonneg b). pose proof (quits_nonneg [e2]). destruct (IH older b older') as [-> ->]; auto; lia.
Qed.
Lemma iscb_wake t : iscb (wake_bar t) = iscb t.
Proof. destruct t as [[] ?]; reflexivity. Qed.
Lemma iscb_wake2 t : iscb (wake_trig t) = iscb t.
Proof. destruct t as [[] ?]; reflexivity. Qed.
Lemma cnt_iscb_map f (l : list thread) : (forall t, iscb (f t) = iscb t) -> cnt iscb (map f l) = cnt iscb l.
Proof. intros F. rewrite cnt_map. apply cnt_ext. rewrite Forall_forall. auto. Qed.
(** With quit set, a step never enters the callback. *)
Lemma tstep_nocb n i fail g t g' t' w evs : g_quit g = true -> tstep n i fail g t = Some (g', t', w, evs) ->
  iscb t' = false /\ cnt isdone evs = (if iscb t then (if forallb isdone evs then 1 else 0) else 0) /\ (iscb t = true -> match fst t with CCallback err true => evs = [EDone (negb err)] | CCallback err false => evs = [ECrash] | _ => True end) /\ (evs = [] \/ iscb t = true \/ exists o ok, evs = [EBlock o ok] \/ evs = [ECrash]).
Proof.
  intros Q. destruct t as [pc lt]. unfold tstep. destruct pc as [| |a| |l lo|l lo off|l off m|l off m g1 a|l off|l off|l off ok|a| |g1 a| |err pr|]; intros E.
  all: try discriminate E.
  all: rewrite ?Q in E.
  all: repeat match type of E with
    | (if ?c then _ else _) = _ => destruct c eqn:?
    | context [bar_arrive ?a ?b] => unfold bar_arrive in E; cbv zeta in E
    | (let '(_, _) := if ?c then _ else _ in _) = _ => destruct c
    | Some (_, (if ?c then _ else _, _), _, _) = _ => destruct c
    | _ => discriminate E
    end.
  all: injection E as _ <- _ <-.
  all: try (destruct i; (split; [reflexivity|]); (split; [reflexivity|]); (split; [discriminate|]); auto; fail).
  all: try (split; [reflexivity|]; split; [reflexivity|]; split; [discriminate|]; auto; fail).
  all: try (destruct (bar_pass _ _); destruct i; (split; [reflexivity|]); (split; [reflexivity|]); (split; [discriminate|]); auto; fail).
  all: try (destruct fail; (split; [reflexivity|]); (split; [reflexivity|]); (split; [discriminate|]); auto; fail).
  all: try (destruct (_ || _); (split; [reflexivity|]); (split; [reflexivity|]); (split; [discriminate|]); auto; fail).
  - destruct (g_cb g); (split; [reflexivity|]); (split; [reflexivity|]); (split; [discriminate|]); right; right; exists off, ok; auto.
  - destruct pr; (split; [reflexivity|]); (split; [reflexivity|]); (split; [reflexivity|]); auto.
Qed.


Lemma err_wake e t : err_is e t -> err_is e (wake_bar t).
Proof. destruct t as [[] ?]; auto. Qed.
Lemma err_wake2 e t : err_is e t -> err_is e (wake_trig t).
Proof. destruct t as [[] ?]; auto. Qed.
Lemma taken_zero g H o : g_size g = 0 -> taken g H o = false.
Proof.
  intros G0. pose proof (lvo_facts g) as L. rewrite G0 in L. destruct L as (A1 & _); [unfold BIG; lia|]. unfold taken. destruct (Z.leb_spec 0 o), (Z.ltb_spec o (lvo g)); try lia; rewrite ?andb_false_r; reflexivity.
Qed.
Lemma dying_done_step n a s s' newer older : Z.of_nat n < 2 ^ 32 -> dying n s -> cstep a s = Some s' -> c_trace s = newer ++ EQuit :: older -> Forall late newer -> lastdone s newer older ->
  exists newer', c_trace s' = newer' ++ EQuit :: older /\ Forall late newer' /\ lastdone s' newer' older.
Proof.
  intros N2 D E TR LA LD. pose proof (dying_step n a s s' N2 D E) as D'.
  destruct D as (H & op & newer1 & older1 & QI & HI & RE). pose proof QI as [QL QQ QS QU QT QC QH QR QM QE QA QD].
  destruct (quits_split newer older newer1 older1) as [-> ->]; try (apply late_noquit; assumption); [congruence|].
  destruct a as [i fail|i|m|size| |cancel| |].
  - destruct D' as (H' & op' & newer' & older' & QI' & HI' & RE'). pose proof (q_trace _ _ _ _ _ _ QI') as QE'. pose proof (q_late _ _ _ _ _ _ QI') as QA'.
    pose proof (q_dist _ _ _ _ _ _ QI') as QD'.
    cbn [cstep] in E. destruct (nth_error (c_thr s) i) as [t|] eqn:Hi; [|discriminate E].
    destruct (tstep (lenZ (c_thr s)) i fail (c_g s) t) as [[[[g' t'] w] evs]|] eqn:T; [|discriminate E].
    pose proof (tstep_nocb _ _ _ _ _ _ _ _ _ QQ T) as (B1 & B2 & B3 & B4). pose proof (tstep_size _ _ _ _ _ _ _ _ _ QQ T) as SZ.
    apply Some_inj in E. subst s'. cbn [c_trace c_g c_thr] in *. rewrite TR, app_assoc in QE'.
    assert (QV : quits evs = 0).
    { destruct B4 as [-> |[B4|(o & ok & [-> | ->])]]; try reflexivity. specialize (B3 B4). destruct t as [[] ?]; cbn [fst] in B3; try discriminate B4. destruct present; subst evs; reflexivity. }
    destruct (quits_split _ _ _ _ ltac:(rewrite quits_app, QV, (late_noquit _ LA); reflexivity) (late_noquit _ QA') QE') as [<- <-].
    exists (evs ++ newer1). split; [rewrite TR, app_assoc; reflexivity|]. split; [exact QA'|].
    assert (CN : cnt iscb (setnth i t' (match w with WNone => c_thr s | WBar => map wake_bar (c_thr s) end)) = cnt iscb (c_thr s) - b2z (iscb t)).
    { destruct w.
      - rewrite (cnt_setnth _ _ _ _ _ Hi), B1. unfold b2z. destruct (iscb t); lia.
      - rewrite (cnt_setnth _ i t' (wake_bar t)) by (rewrite nth_error_map, Hi; reflexivity). rewrite cnt_iscb_map, B1, iscb_wake by exact iscb_wake. unfold b2z. destruct (iscb t); lia. }
    assert (ER : forall e, Forall (err_is e) (c_thr s) -> Forall (err_is e) (setnth i t' (match w with WNone => c_thr s | WBar => map wake_bar (c_thr s) end))).
    { intros e F. apply Forall_setnth; [destruct w; auto; rewrite Forall_map; eapply Forall_impl; [|exact F]; apply err_wake|]. clear - B1. destruct t' as [[] ?]; try exact Logic.I. discriminate B1. }
    assert (CB : cnt iscb (c_thr s) = 0 -> iscb t = false).
    { intros C0. destruct (iscb t) eqn:X; auto. pose proof (cnt_nonneg iscb (setnth i t' (match w with WNone => c_thr s | WBar => map wake_bar (c_thr s) end))). rewrite CN in H0. unfold b2z in H0. lia. }
    assert (NB : g_size (c_g s) = 0 -> iscb t = false -> evs = []).
    { intros G0 I0. destruct B4 as [-> |[B4|(o & ok & [-> | ->])]]; [reflexivity|congruence| |].
      - specialize (QD' o). rewrite taken_zero in QD' by congruence. rewrite !delivered_app in QD'. unfold delivered at 1 in QD'. cbn [cnt] in QD'. rewrite Z.eqb_refl in QD'.
        pose proof (delivered_nonneg o newer1). pose proof (delivered_nonneg o op'). pose proof (cnt_nonneg (inflight o) (setnth i t' (match w with WNone => c_thr s | WBar => map wake_bar (c_thr s) end))). cbn [b2z] in QD'. lia.
      - inversion QA' as [|? ? X]. destruct X. }
    unfold lastdone. cbn [c_thr c_g]. rewrite SZ, CN.
    destruct LD as [(A1 & A2)|[(G0 & -> & A2 & err & F & C)|(G0 & A2 & ok & -> & C)]].
    + left. rewrite (CB A2) in B2 |- *. unfold b2z. split; [|lia]. rewrite cnt_app. lia.
    + destruct (iscb t) eqn:IT.
      * right; right. split; [exact G0|]. split; [unfold b2z; lia|]. specialize (B3 eq_refl). pose proof (Forall_nth_error _ _ _ _ F Hi) as X.
        destruct t as [[] ?]; try discriminate IT. unfold err_is in X. cbn [fst] in *. subst error. destruct present; subst evs.
        -- exists (negb err). split; [reflexivity|exact C].
        -- inversion QA' as [|? ? X]. destruct X.
      * right; left. rewrite (NB G0 eq_refl). split; [exact G0|]. split; [reflexivity|]. split; [unfold b2z; lia|]. exists err. auto.
    + right; right. rewrite (CB A2), (NB G0 (CB A2)). split; [exact G0|]. split; [unfold b2z; lia|]. exists ok. auto.
  - cbn [cstep] in E. destruct (nth_error (c_thr s) i) as [t|] eqn:Hi; [|discriminate E]. destruct (wake_any t) as [t'|] eqn:W; [|discriminate E]. apply Some_inj in E. subst s'.
    exists newer1. split; [exact TR|]. split; [exact LA|].
    assert (X : iscb t = false /\ iscb t' = false). { destruct t as [[] ?]; try discriminate W; destruct asleep; try discriminate W; cbn in W; apply Some_inj in W; subst t'; auto. }
    destruct X as [X1 X2]. unfold lastdone in *. cbn [c_thr c_g]. rewrite (cnt_setnth _ _ _ _ _ Hi), X1, X2.
    assert (ER : forall e, Forall (err_is e) (c_thr s) -> Forall (err_is e) (setnth i t' (c_thr s))).
    { intros e F. apply Forall_setnth; auto. clear - X2. destruct t' as [[] ?]; try exact Logic.I. discriminate X2. }
    destruct LD as [(A1 & A2)|[(G0 & -> & A2 & err & F & C)|(G0 & A2 & ok & -> & C)]]; [left|right; left|right; right].
    + split; [auto|lia].
    + split; [auto|]. split; [auto|]. split; [lia|]. exists err. auto.
    + split; [auto|]. split; [lia|]. exists ok. auto.
  - cbn [cstep] in E. destruct QU as [U|(U & _)]; rewrite U in E; discriminate E.
  - cbn [cstep] in E. destruct QU as [U|(U & _)]; rewrite U in E; discriminate E.
  - cbn [cstep] in E. destruct QU as [U|(U & _)]; rewrite U in E; discriminate E.
  - cbn [cstep] in E. destruct QU as [U|(U & _)]; rewrite U in E; discriminate E.
  - cbn [cstep] in E. destruct QU as [U|(U & _)]; rewrite U in E; discriminate E.
  - cbn [cstep] in E. destruct QU as [U|(U & _)]; rewrite U in E; [|discriminate E]. apply Some_inj in E. subst s'.
    exists newer1. split; [exact TR|]. split; [exact LA|]. unfold lastdone in *. cbn [c_thr c_g g_size].
    rewrite !cnt_iscb_map by (first [exact iscb_wake|exact iscb_wake2]).
    destruct LD as [X|[(G0 & -> & A2 & err & F & C)|X]]; [left; exact X|right; left|right; right; exact X].
    split; [exact G0|]. split; [reflexivity|]. split; [exact A2|]. exists err. split; [|exact C].
    rewrite !Forall_map. eapply Forall_impl; [|exact F]. intros t X. apply err_wake, err_wake2, X.
Qed.
Lemma cinv_lastdone n s s' : cinv n s -> cstep AQuit1 s = Some s' -> c_trace s' = [] ++ EQuit :: c_trace s /\ lastdone s' [] (c_trace s).
Proof.
  intros I E. cbn [cstep] in E.
  assert (X : s' = mkC (mkG (g_trigger (c_g s)) (g_size (c_g s)) (g_cb (c_g s)) (g_cur (c_g s)) (g_error (c_g s)) (g_fin (c_g s)) (g_fcb (c_g s)) (g_bar (c_g s)) true (g_k (c_g s))) (c_thr s) UQuitting (c_m s) (EQuit :: c_trace s)).
  { destruct (c_user s); try discriminate E; apply Some_inj in E; auto. }
  clear E. subst s'. split; [reflexivity|]. unfold lastdone. cbn [c_thr c_g g_size].
  destruct I as [ID|R H op tr RU|size op tr EN].
  - left. split; [reflexivity|]. apply cnt_zero. eapply Forall_impl; [|exact (id_thr _ _ ID)]. intros [[] ?] T; try reflexivity; destruct T.
  - left. split; [reflexivity|]. apply cnt_zero. eapply Forall_impl; [|exact (ru_thr _ _ _ _ _ _ RU)]. intros [[] ?] T; try reflexivity. clear - T. unfold trun in T. cbn [fst] in T. tauto.
  - pose proof EN as [CO TR CL UU TH OP LE EC ED].
    destruct (c_thr s) as [|t0 thr] eqn:ET; [destruct LE|]. cbn [nth_error] in LE.
    assert (Z0 : cnt iscb thr = 0).
    { apply cnt_zero. apply nth_error_forall. intros k t Hk. destruct (TH (S k) t Hk) as [_ T]. clear - T. destruct t as [[] ?]; try reflexivity. cbn [fst] in T. destruct T as (X & _). discriminate X. }
    cbn [cnt]. rewrite Z0. destruct (iscb t0) eqn:I0; [|left; auto].
    right; left. destruct (TH 0%nat t0 eq_refl) as [_ T]. destruct t0 as [[] lt0]; try discriminate I0. cbn [fst leader] in *. destruct LE as [_ S0]. destruct T as (_ & -> & ->).
    split; [exact S0|]. split; [reflexivity|]. split; [reflexivity|]. exists (0 <? failures op). split.
    + constructor; [reflexivity|]. apply nth_error_forall. intros k t Hk. destruct (TH (S k) t Hk) as [_ T]. clear - T. destruct t as [[] ?]; try exact Logic.I. cbn [fst] in T. destruct T as (X & _). discriminate X.
    + rewrite TR. constructor; auto.
Qed.
Lemma reach_lastdone n s : (1 <= n)%nat -> Z.of_nat n < 2 ^ 32 -> reachable cstep (new_stream n) s ->
  (g_quit (c_g s) = false /\ cinv n s) \/ (dying n s /\ exists newer older, c_trace s = newer ++ EQuit :: older /\ Forall late newer /\ lastdone s newer older).
Proof.
  intros N1 N2 H. induction H as [|a s s' H IH E].
  - left. split; [reflexivity|now apply new_inv].
  - destruct IH as [[Q I]|(D & newer & older & TR & LA & LD)].
    + destruct (reach_all n s' N1 N2 (re_step _ _ a s s' H E)) as [X|D]; [left; exact X|right]. split; [exact D|].
      assert (a = AQuit1).
      { destruct D as (? & ? & ? & ? & QI & _). pose proof (q_quit _ _ _ _ _ _ QI) as Q'.
        destruct a as [i fail|i|m|size| |cancel| |]; auto; exfalso; cbn [cstep] in E.
        + destruct (nth_error (c_thr s) i) as [t|]; [|discriminate E].
          destruct (tstep (lenZ (c_thr s)) i fail (c_g s) t) as [[[[g' t'] w] evs]|] eqn:T; [|discriminate E].
          apply Some_inj in E. subst s'. cbn [c_g] in Q'. rewrite (tstep_quit _ _ _ _ _ _ _ _ _ T) in Q'. congruence.
        + destruct (nth_error (c_thr s) i) as [t|]; [|discriminate E]. destruct (wake_any t); [|discriminate E]. apply Some_inj in E. subst s'. cbn in Q'. congruence.
        + destruct (c_user s); try discriminate E. destruct (_ && _); [|discriminate E]. destruct (set_epoch m); [|discriminate E]. apply Some_inj in E. subst s'. cbn in Q'. congruence.
        + destruct (c_user s); try discriminate E. destruct (_ && _); [|discriminate E]. apply Some_inj in E. subst s'. cbn in Q'. congruence.
        + destruct (c_user s); try discriminate E. apply Some_inj in E. subst s'. cbn in Q'. congruence.
        + destruct (c_user s); try discriminate E. apply Some_inj in E. subst s'. cbn in Q'. congruence.
        + destruct (c_user s) eqn:U; try discriminate E. pose proof (reach_inv n s N1 N2 H Q) as I2.
          destruct I2 as [ID|R0 H0 op tr RU|size op tr EN]; [destruct (id_user _ _ ID) as [(X & _)|(X & _)]|destruct (ru_user _ _ _ _ _ _ RU)|pose proof (en_user _ _ _ _ _ EN)]; try congruence; intuition congruence. }
      subst a. destruct (cinv_lastdone n s s' I E) as [X Y]. exists [], (c_trace s). auto.
    + right. split; [eapply dying_step; eauto|]. destruct (dying_done_step n a s s' newer older N2 D E TR LA LD) as (newer' & X). exists newer', older. exact X.
Qed.

Lemma c52_callbacks n s newer older : (1 <= n)%nat -> Z.of_nat n < 2 ^ 32 -> reachable cstep (new_stream n) s -> c_trace s = newer ++ EQuit :: older ->
  history older /\ Forall late newer /\
  ((forall ok, ~ In (EDone ok) newer) \/ (exists ok, newer = [EDone ok] /\ closed (EDone ok :: older))) /\
  (forall op size m tr, older = op ++ EStart size m :: tr -> Forall inner op ->
     forall o, delivered o (newer ++ op) <= 1 /\ (0 < delivered o (newer ++ op) -> block_offset size o)) /\
  (closed older -> forall o, delivered o newer = 0).
Proof.
  intros N1 N2 R TR. destruct (reach_lastdone n s N1 N2 R) as [(_ & I)|(D & newer' & older' & TR' & LA & LD)].
  { exfalso. pose proof (history_noquit _ (inv_history n s I)) as X. rewrite TR, quits_app in X. change (quits (EQuit :: older)) with (1 + quits older) in X. pose proof (quits_nonneg newer). pose proof (quits_nonneg older). lia. }
  destruct D as (H & op & newer1 & older1 & QI & HI & RE). pose proof QI as [QL QQ QS QU QT QC QH QR QM QE QA QD].
  destruct (quits_split newer1 older1 newer' older' (late_noquit _ QA) (late_noquit _ LA) ltac:(congruence)) as [-> ->].
  assert (X : newer = newer' /\ older = older').
  { apply quits_split; [|now apply late_noquit|congruence].
    assert (Y : quits (newer ++ EQuit :: older) = 1).
    { rewrite <- TR, TR', quits_app, (late_noquit _ LA). change (quits (EQuit :: older')) with (1 + quits older'). rewrite (history_noquit _ HI). reflexivity. }
    rewrite quits_app in Y. change (quits (EQuit :: older)) with (1 + quits older) in Y. pose proof (quits_nonneg newer). pose proof (quits_nonneg older). lia. }
  destruct X as [-> ->].
  assert (TB : forall o, taken (c_g s) H o = true -> block_offset (g_size (c_g s)) o).
  { intros o T. eapply taken_valid; eauto. }
  assert (BD : forall o, delivered o (newer' ++ op) <= 1 /\ (0 < delivered o (newer' ++ op) -> block_offset (g_size (c_g s)) o)).
  { intros o. specialize (QD o). pose proof (cnt_nonneg (inflight o) (c_thr s)). destruct (taken (c_g s) H o) eqn:T; unfold b2z in QD; split; try lia. intros _. auto. }
  assert (Z0 : g_size (c_g s) = 0 -> forall o, delivered o (newer' ++ op) = 0).
  { intros G0 o. specialize (QD o). rewrite taken_zero in QD by exact G0. pose proof (cnt_nonneg (inflight o) (c_thr s)). pose proof (delivered_nonneg o (newer' ++ op)). unfold b2z in QD. lia. }
  split; [exact HI|]. split; [exact LA|]. split; [|split].
  - destruct LD as [(A1 & A2)|[(G0 & -> & _)|(G0 & A2 & ok & -> & C)]]; [left|left|right; eauto]; [|auto].
    intros ok IN. assert (F : forall l, cnt isdone l = 0 -> In (EDone ok) l -> False).
    { clear. induction l as [|e l IH]; cbn [cnt In]; [auto|]. intros C [-> |I]; pose proof (cnt_nonneg isdone l); [cbn [isdone] in C; lia|]. destruct (isdone e); [lia|auto]. }
    eapply F; eauto.
  - intros op' size m tr E F o. destruct RE as [(m0 & tr0 & E0 & F0)|(-> & G0)].
    + rewrite E in E0. apply split_inner in E0; auto. destruct E0 as (-> & -> & _ & _). apply BD.
    + destruct (history_so_far _ HI [] op' size m tr E F) as [[OI OO OV OF] _]. rewrite delivered_app. specialize (Z0 G0 o). rewrite app_nil_r in Z0. rewrite Z0. split; [apply OO|]. intros X. apply OV. exact X.
  - intros C o. destruct RE as [(m0 & tr0 & E0 & F0)|(-> & G0)]; [|specialize (Z0 G0 o); now rewrite app_nil_r in Z0].
    exfalso. destruct C as [|size1 m1 op1 ok1 tr1 C1 OP1]; [destruct op; discriminate E0|]. destruct op as [|e op]; cbn [app] in E0; [discriminate E0|].
    injection E0 as <- _. inversion F0 as [|? ? X]. destruct X.
Qed.
Lemma c52_terminates n s l s' : (1 <= n)%nat -> Z.of_nat n < 2 ^ 32 -> reachable cstep (new_stream n) s -> c_user s = UGone -> run cstep l s = Some s' ->
  lenZ l <= Z.of_nat n * (2 ^ 66 + 13) /\
  (stuck s' -> Forall (fun t => fst t = CExit) (c_thr s')).
Proof.
  intros N1 N2 R U E.
  assert (D : dying n s).
  { destruct (reach_all n s N1 N2 R) as [[_ I]|D]; [|exact D]. exfalso.
    destruct I as [ID|R0 H0 op tr RU|size op tr EN]; [destruct (id_user _ _ ID) as [(X & _)|(X & _)]|destruct (ru_user _ _ _ _ _ _ RU)|pose proof (en_user _ _ _ _ _ EN)]; try congruence; intuition congruence. }
  destruct (gone_bound n l N2 s s' D U E) as (D' & U' & B). split.
  - assert (X : forall n0 s0, dying n0 s0 -> 0 <= sumf qrank (c_thr s0) <= Z.of_nat n0 * (2 ^ 66 + 13)).
    { clear. intros n s (H & op & newer & older & QI & _). rewrite <- (q_len _ _ _ _ _ _ QI). pose proof (q_thr _ _ _ _ _ _ QI) as F. induction F as [|t l T F IH]; cbn [sumf length]; [lia|].
      pose proof (qrank_range _ _ T). change (13 + 4 * P64) with (2 ^ 66 + 13) in H0. lia. }
    pose proof (X n s D). pose proof (X n s' D'). lia.
  - intros ST. apply nth_error_forall. intros i t Hi. destruct (fst t) eqn:P; auto; exfalso;
    (destruct (gone_progress n s' i t false D' U' Hi) as [s2 X]; [rewrite P; discriminate|rewrite (ST i false) in X; discriminate X]).
Qed.

Lemma noquit_inv n s : (1 <= n)%nat -> Z.of_nat n < 2 ^ 32 -> reachable cstep (new_stream n) s -> ~ In EQuit (c_trace s) -> cinv n s.
Proof.
  intros N1 N2 R NQ. destruct (reach_all n s N1 N2 R) as [[_ I]|(H & op0 & newer0 & older0 & Q & HI & _)]; [exact I|].
  exfalso. apply NQ. rewrite (q_trace _ _ _ _ _ _ Q). apply in_or_app. right. left. reflexivity.
Qed.
Lemma user_inv_quit n s : (1 <= n)%nat -> Z.of_nat n < 2 ^ 32 -> reachable cstep (new_stream n) s -> c_user s <> UQuitting -> c_user s <> UGone -> cinv n s.
Proof.
  intros N1 N2 R U1 U2. destruct (reach_all n s N1 N2 R) as [[_ I]|(H & op0 & newer0 & older0 & Q & HI & _)]; [exact I|].
  destruct (q_user _ _ _ _ _ _ Q) as [X|(X & _)]; contradiction.
Qed.
Lemma c33_progress n s : (1 <= n)%nat -> Z.of_nat n < 2 ^ 32 -> reachable cstep (new_stream n) s -> c_user s = UFinalizing -> ~ stuck s.
Proof.
  intros N1 N2 R U ST. destruct (progress n s N1 (user_inv_quit n s N1 N2 R ltac:(congruence) ltac:(congruence)) ST) as [X|[X|[X _]]]; congruence.
Qed.
Lemma cancels_le l : cancels l <= finalizes l.
Proof. unfold cancels, finalizes. induction l as [|e l IH]; cbn [cnt]; [lia|]. destruct e as [| [] | | | |]; lia. Qed.
Lemma c33_running n s op size m older : (1 <= n)%nat -> Z.of_nat n < 2 ^ 32 -> reachable cstep (new_stream n) s -> c_user s = URunning -> stuck s ->
  c_trace s = op ++ EStart size m :: older -> Forall inner op -> failures op = 0 -> forall o, block_offset size o -> delivered o op = 1.
Proof.
  intros N1 N2 R U ST TR F FA o BO. pose proof (user_inv_quit n s N1 N2 R ltac:(congruence) ltac:(congruence)) as I.
  destruct (progress n s N1 I ST) as [X|[X|[_ A]]]; [congruence|congruence|].
  destruct I as [ID|R0 H0 op0 tr RU|size0 op0 tr EN]; [destruct (id_user _ _ ID) as [(X & _)|(X & _)]; congruence| |pose proof (en_user _ _ _ _ _ EN); congruence].
  rewrite (ru_trace _ _ _ _ _ _ RU) in TR. apply split_inner in TR; auto; [|apply (ru_inner _ _ _ _ _ _ RU)]. destruct TR as (-> & <- & _ & _).
  eapply quiescent; eauto.
  destruct (ru_user _ _ _ _ _ _ RU) as [(_ & _ & X)|(X & _)]; [|congruence].
  pose proof (cancels_le op). assert (0 <= cancels op) by apply cnt_nonneg. lia.
Qed.

(** The sizes passed to start(). *)
Definition sized (ev : event) : Prop := match ev with EStart size _ => 0 <= size <= 2 ^ 63 | _ => True end.
Lemma sizes n s : reachable cstep (new_stream n) s -> Forall sized (c_trace s).
Proof.
  induction 1 as [|a s s' H IH E]; [constructor|]. destruct a as [i fail|i|m|size| |cancel| |]; cbn [cstep] in E.
  - destruct (nth_error (c_thr s) i) as [t|]; [|discriminate E].
    destruct (tstep (lenZ (c_thr s)) i fail (c_g s) t) as [[[[g' t'] w] evs]|] eqn:T; [|discriminate E].
    apply Some_inj in E. subst s'. cbn [c_trace]. apply Forall_app. split; [|exact IH]. clear - T.
    destruct t as [pc lt]. unfold tstep in T. destruct pc as [| |a| |l lo|l lo off|l off m|l off m g1 a|l off|l off|l off ok|a| |g1 a| |err pr|].
    all: try discriminate T.
    all: repeat match type of T with
      | (if ?c then _ else _) = _ => destruct c eqn:?
      | context [bar_arrive ?a ?b] => unfold bar_arrive in T; cbv zeta in T
      | (let '(_, _) := if ?c then _ else _ in _) = _ => destruct c
      | _ => discriminate T
      end.
    all: injection T as _ _ _ <-; repeat constructor.
    + destruct (g_cb _); exact Logic.I.
    + destruct pr; exact Logic.I.
  - destruct (nth_error (c_thr s) i) as [t|]; [|discriminate E]. destruct (wake_any t); [|discriminate E]. apply Some_inj in E. subst s'. exact IH.
  - destruct (c_user s); try discriminate E. destruct (_ && _); [|discriminate E]. destruct (set_epoch m); [|discriminate E]. apply Some_inj in E. subst s'. exact IH.
  - destruct (c_user s); try discriminate E. destruct ((0 <=? size) && (size <=? 2 ^ 63)) eqn:B; [|discriminate E]. apply Some_inj in E. subst s'. constructor; [|exact IH].
    apply andb_true_iff in B. rewrite !Z.leb_le in B. exact B.
  - destruct (c_user s); try discriminate E. apply Some_inj in E. subst s'. exact IH.
  - destruct (c_user s); try discriminate E. apply Some_inj in E. subst s'. constructor; [exact Logic.I|exact IH].
  - destruct (c_user s); try discriminate E; apply Some_inj in E; subst s'; constructor; first [exact Logic.I|exact IH].
  - destruct (c_user s); try discriminate E. apply Some_inj in E. subst s'. exact IH.
Qed.
(** The size that bounds the work of the threads. *)
Lemma size_le n s op size m older : reachable cstep (new_stream n) s -> cinv n s -> c_trace s = op ++ EStart size m :: older -> Forall inner op -> 0 <= g_size (c_g s) <= size.
Proof.
  intros RE I TR F. assert (CO : common n s) by (destruct I as [ID|R H op0 tr RU|size0 op0 tr EN]; [apply ID|apply RU|apply EN]).
  pose proof (co_size _ _ CO) as [S1 S2]. split; [exact S1|].
  assert (SZ : 0 <= size).
  { pose proof (sizes n s RE) as X. rewrite TR in X. apply Forall_app in X. destruct X as [_ X]. inversion X as [|? ? Y]. apply Y. }
  destruct I as [ID|R H op0 tr RU|size0 op0 tr EN].
  - destruct (id_user _ _ ID) as [(_ & S0 & C)|(_ & _ & tr & E & C)]; [lia|].
    rewrite TR in E. change (EStart (g_size (c_g s)) (c_m s) :: tr) with ([] ++ EStart (g_size (c_g s)) (c_m s) :: tr) in E. apply split_inner in E; auto. lia.
  - rewrite (ru_trace _ _ _ _ _ _ RU) in TR. apply split_inner in TR; auto; [lia|apply (ru_inner _ _ _ _ _ _ RU)].
  - rewrite (en_trace _ _ _ _ _ EN) in TR. apply split_inner in TR; auto; [|apply (os_inner _ _ (oc_so_far _ _ _ _ (en_op _ _ _ _ _ EN)))].
    destruct TR as (_ & -> & _). destruct (en_dist _ _ _ _ _ EN) as [(X & _)|X]; lia.
Qed.
Lemma c33_bound n s op size m older l s' : (1 <= n)%nat -> Z.of_nat n < 2 ^ 32 -> reachable cstep (new_stream n) s ->
  c_trace s = op ++ EStart size m :: older -> Forall inner op ->
  Forall (fun a => is_thread a = true \/ is_spurious a = true) l -> run cstep l s = Some s' ->
  cnt is_thread l <= 10 * (size / BLOCK_SIZE) + Z.of_nat n * ((Z.of_nat n + 5) * (size / BLOCK_SIZE + 1) + 28) + cnt is_spurious l.
Proof.
  intros N1 N2 R TR F FL E.
  assert (I : cinv n s).
  { apply noquit_inv; auto. intros IN. destruct (reach_all n s N1 N2 R) as [[_ I]|(H & op0 & newer0 & older0 & Q & HI & _)].
    - pose proof (history_noquit _ (inv_history n s I)) as X. apply in_split in IN. destruct IN as (a & b & IN). rewrite IN, quits_app in X. change (quits (EQuit :: b)) with (1 + quits b) in X. pose proof (quits_nonneg a). pose proof (quits_nonneg b). lia.
    - rewrite (q_trace _ _ _ _ _ _ Q) in TR. pose proof (q_late _ _ _ _ _ _ Q) as LA. clear - TR LA F. revert op TR F. induction newer0 as [|e l IH]; intros [|e2 op] TR F; cbn [app] in TR.
      + discriminate TR. + injection TR as <- TR. inversion F as [|? ? X]. destruct X. + injection TR as -> TR. inversion LA as [|? ? X]. destruct X.
      + injection TR as -> TR. inversion F; inversion LA; subst. eapply IH; eauto. }
  pose proof (size_le n s op size m older R I TR F) as SL. destruct (run_bound n l N1 N2 s s' I FL E) as [I' B].
  pose proof (meas_bound n s I) as M. pose proof (meas_bound n s' I') as M'.
  assert (g_size (c_g s) / BLOCK_SIZE <= size / BLOCK_SIZE) by (apply Z.div_le_mono; [rewrite block_size; lia|lia]).
  assert (Z.of_nat n * ((Z.of_nat n + 5) * (g_size (c_g s) / BLOCK_SIZE + 1) + 28) <= Z.of_nat n * ((Z.of_nat n + 5) * (size / BLOCK_SIZE + 1) + 28)); [|lia].
  apply Z.mul_le_mono_nonneg_l; [lia|]. apply Z.add_le_mono_r. apply Z.mul_le_mono_nonneg_l; lia.
Qed.
(** A finalized operation that can make no more steps has ended. *)
Lemma thread_user n l : (1 <= n)%nat -> Z.of_nat n < 2 ^ 32 -> forall s s', reachable cstep (new_stream n) s -> c_user s = UFinalizing \/ c_user s = UIdle ->
  Forall (fun a => is_thread a = true \/ is_spurious a = true) l -> run cstep l s = Some s' ->
  reachable cstep (new_stream n) s' /\ (c_user s' = UFinalizing \/ c_user s' = UIdle).
Proof.
  intros N1 N2. induction l as [|a l IH]; intros s s' R U F E; cbn [run] in E.
  - injection E as <-. auto.
  - destruct (cstep a s) as [s1|] eqn:E1; [|discriminate E]. inversion F as [|? ? F1 F2]; subst. apply (IH s1 s'); auto; [eapply re_step; eauto|].
    destruct a as [i fail|i|m|size| |cancel| |]; try (destruct F1; discriminate); cbn [cstep] in E1.
    + destruct (nth_error (c_thr s) i) as [t|]; [|discriminate E1].
      destruct (tstep (lenZ (c_thr s)) i fail (c_g s) t) as [[[[g' t'] w] evs]|] eqn:T; [|discriminate E1].
      apply Some_inj in E1. subst s1. cbn [c_user]. destruct U as [-> | ->]; destruct evs as [|[] [|]]; auto.
    + destruct (nth_error (c_thr s) i) as [t|]; [|discriminate E1]. destruct (wake_any t); [|discriminate E1]. apply Some_inj in E1. subst s1. exact U.
Qed.
Lemma closed_head tr : closed tr -> tr = [] \/ exists ok rest, tr = EDone ok :: rest.
Proof. intros [|size m op ok tr0 C OP]; eauto. Qed.
Lemma trace_grows a s s' : cstep a s = Some s' -> exists evs, c_trace s' = evs ++ c_trace s.
Proof.
  intros E. destruct a as [i fail|i|m|size| |cancel| |]; cbn [cstep] in E.
  - destruct (nth_error (c_thr s) i) as [t|]; [|discriminate E].
    destruct (tstep (lenZ (c_thr s)) i fail (c_g s) t) as [[[[g' t'] w] evs]|] eqn:T; [|discriminate E]. apply Some_inj in E. subst s'. exists evs. reflexivity.
  - destruct (nth_error (c_thr s) i) as [t|]; [|discriminate E]. destruct (wake_any t); [|discriminate E]. apply Some_inj in E. subst s'. now exists [].
  - destruct (c_user s); try discriminate E. destruct (_ && _); [|discriminate E]. destruct (set_epoch m); [|discriminate E]. apply Some_inj in E. subst s'. now exists [].
  - destruct (c_user s); try discriminate E. destruct (_ && _); [|discriminate E]. apply Some_inj in E. subst s'. now exists [EStart size (c_m s)].
  - destruct (c_user s); try discriminate E. apply Some_inj in E. subst s'. now exists [].
  - destruct (c_user s); try discriminate E. apply Some_inj in E. subst s'. now exists [EFinalize cancel].
  - destruct (c_user s); try discriminate E; apply Some_inj in E; subst s'; now exists [EQuit].
  - destruct (c_user s); try discriminate E. apply Some_inj in E. subst s'. now exists [].
Qed.
Lemma run_grows l : forall s s', run cstep l s = Some s' -> exists evs, c_trace s' = evs ++ c_trace s.
Proof.
  induction l as [|a l IH]; intros s s' E; cbn [run] in E; [injection E as <-; now exists []|].
  destruct (cstep a s) as [s1|] eqn:E1; [|discriminate E]. destruct (trace_grows _ _ _ E1) as [e1 X1]. destruct (IH _ _ E) as [e2 X2]. exists (e2 ++ e1). rewrite X2, X1. apply app_assoc.
Qed.
Lemma c33_completes n s l s' : (1 <= n)%nat -> Z.of_nat n < 2 ^ 32 -> reachable cstep (new_stream n) s -> c_user s = UFinalizing ->
  Forall (fun a => is_thread a = true \/ is_spurious a = true) l -> run cstep l s = Some s' -> stuck s' ->
  c_user s' = UIdle /\ exists ok rest, c_trace s' = EDone ok :: rest.
Proof.
  intros N1 N2 R U F E ST. destruct (thread_user n l N1 N2 s s' R (or_introl U) F E) as [R' [U'|U']].
  - exfalso. eapply c33_progress; eauto.
  - split; [exact U'|]. pose proof (user_inv_quit n s' N1 N2 R' ltac:(congruence) ltac:(congruence)) as I.
    assert (C : closed (c_trace s')).
    { destruct I as [ID|R0 H0 op0 tr RU|size0 op0 tr EN]; [destruct (id_user _ _ ID) as [(_ & _ & C)|(X & _)]; [exact C|congruence]|destruct (ru_user _ _ _ _ _ _ RU) as [(X & _)|(X & _)]; congruence|pose proof (en_user _ _ _ _ _ EN); congruence]. }
    destruct (closed_head _ C) as [X|X]; [|exact X]. exfalso. destruct (run_grows _ _ _ E) as [evs G]. rewrite X in G. symmetry in G. apply app_eq_nil in G. destruct G as [_ G].
    pose proof (user_inv_quit n s N1 N2 R ltac:(congruence) ltac:(congruence)) as I0.
    destruct I0 as [ID|R0 H0 op0 tr RU|size0 op0 tr EN]; [destruct (id_user _ _ ID) as [(Y & _)|(Y & _)]; congruence|rewrite (ru_trace _ _ _ _ _ _ RU) in G|rewrite (en_trace _ _ _ _ _ EN) in G]; destruct op0; discriminate G.
Qed.
Lemma c33_zero : exists s, reachable cstep (new_stream 0) s /\ c_user s = UFinalizing /\ forall l s', Forall no_call l -> run cstep l s = Some s' -> s' = s.
Proof.
  eexists. split; [apply (run_reachable cstep [AStart1 0; AStart2; AFinalize false]); vm_compute; reflexivity|]. split; [reflexivity|].
  intros l s' F E. destruct l as [|a l]; cbn [run] in E; [now injection E|]. inversion F as [|? ? F1 F2]; subst.
  destruct a as [i fail|i|m|size| |cancel| |]; try (destruct F1; discriminate); cbn [cstep c_thr] in E; destruct i; discriminate E.
Qed.
