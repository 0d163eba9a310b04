(** The decompression stream in the sample program: what one operation looks like from outside. *)
From Coq Require Import ZArith List Bool Lia.
From Verif Require Import CBase ConcLib SpecSync BarrierModel BarrierProofs DecompStreamModel SpecDStream DecompInv DecompMain DecompQuit DecompProps.
Import ListNotations.
Open Scope Z_scope.

(** The trace of a stream that is used for one operation with the destination [p]. *)
Inductive dph := Q0 | Q1 | Q2 | Q3 | Q4.
Definition dshape (p : Z) (ph : dph) (tr : list devent) : Prop :=
  match ph with
  | Q0 => tr = []
  | Q1 => exists op, tr = op ++ [VStart p] /\ Forall devents op /\ dfinalizes op = 0 /\ dcancels op = 0
  | Q2 => exists op, tr = op ++ [VStart p] /\ Forall devents op /\ dfinalizes op = 1 /\ dcancels op = 0
  | Q3 => exists op ok, tr = VDone ok :: op ++ [VStart p] /\ dop_complete p op ok /\ dcancels op = 0
  | Q4 => exists op ok, tr = VQuit :: VDone ok :: op ++ [VStart p] /\ dop_complete p op ok /\ dcancels op = 0
  end.

Lemma dnoquit_shape p ph tr : ph <> Q4 -> dshape p ph tr -> ~ In VQuit tr.
Proof.
  assert (A : forall op, Forall devents op -> ~ In VQuit (op ++ [VStart p])).
  { intros op F H. apply in_app_or in H. destruct H as [H|[H|[]]]; [|discriminate H]. rewrite Forall_forall in F. exact (F _ H). }
  destruct ph; intros N; cbn [dshape].
  - intros ->. intros [].
  - intros (op & -> & F & _). now apply A.
  - intros (op & -> & F & _). now apply A.
  - intros (op & ok & -> & C & _) [H|H]; [discriminate H|]. revert H. apply A. eapply inner_mid. apply C.
  - contradiction.
Qed.
Lemma dtstep_events n i fail g t g' t' w evs : dtstep n i fail g t = Some (g', t', w, evs) ->
  evs = [] \/ (exists b ok, evs = [VHandled (h_ptr g) b ok] /\ (fst t = DHandle b \/ fst t = DFail b)) \/ (exists ok, evs = [VDone ok]) \/ evs = [VCrash].
Proof.
  destruct t as [pc lt]. unfold dtstep. destruct pc as [| |[]|[]|b|b| |g1 []| |err pr|]; intros E.
  all: repeat match type of E with
    | Some _ = Some _ => injection E as _ _ _ <-
    | (if ?c then _ else _) = _ => destruct c eqn:?
    | context [bar_arrive ?a ?b] => unfold bar_arrive in E; cbv zeta in E
    | (let '(_, _) := if ?c then _ else _ in _) = _ => destruct c
    | match ?q with [] => _ | _ :: _ => _ end = _ => destruct q
    | _ => discriminate E
    end; auto.
  - right; left. exists b, true. auto.
  - right; left. exists b, false. auto.
  - destruct pr; eauto.
Qed.

Lemma dcount_app {A} (f : A -> bool) l1 l2 : cnt f (l1 ++ l2) = cnt f l1 + cnt f l2.
Proof. induction l1 as [|x l1 IH]; cbn [app cnt]; [lia|]. rewrite IH. lia. Qed.

Section Next.
Variable n : nat.
Hypothesis N1 : (1 <= n)%nat.
Variable p : Z.
Notation R := (reachable dstep (new_dstream n)).

Theorem dnext_event ph d i fail g' t t' w evs : R d -> dshape p ph (d_trace d) -> nth_error (d_thr d) i = Some t ->
  dtstep (lenZ (d_thr d)) i fail (d_g d) t = Some (g', t', w, evs) ->
  evs = [] \/
  (exists b ok, evs = [VHandled p b ok] /\ (ph = Q1 \/ ph = Q2) /\ 0 < accepted b (d_trace d)) \/
  (exists ok, evs = [VDone ok] /\ ph = Q2 /\ dshape p Q3 (VDone ok :: d_trace d)).
Proof.
  intros RC SH Hi T. destruct evs as [|ev evs]; [auto|]. right.
  assert (E1 : evs = []). { destruct (dtstep_events _ _ _ _ _ _ _ _ _ T) as [X|[(b & ok & X & _)|[(ok & X)|X]]]; congruence. } subst evs.
  assert (exists d', R d' /\ d_trace d' = ev :: d_trace d) as (d' & RD' & TR).
  { eexists. split; [eapply (re_step _ _ (BThread i fail)); [exact RC|]; cbn [dstep]; rewrite Hi, T; reflexivity|reflexivity]. }
  assert (EV : (exists q b ok, ev = VHandled q b ok) \/ (exists ok, ev = VDone ok) \/ ev = VCrash).
  { destruct (dtstep_events _ _ _ _ _ _ _ _ _ T) as [X|[(b & ok & X & _)|[(ok & X)|X]]]; try discriminate X; injection X as ->; eauto. }
  destruct (match ph with Q4 => true | _ => false end) eqn:PH.
  - destruct ph; try discriminate PH. destruct SH as (op & ok & SH & OC & CA).
    destruct (c53_callbacks n d' [ev] (VDone ok :: op ++ [VStart p]) N1 RD' ltac:(rewrite TR, SH; reflexivity)) as (_ & LA & DO & _ & DE).
    assert (CL : dclosed (VDone ok :: op ++ [VStart p])) by (apply dcl_op; [constructor|exact OC]).
    discriminate (DE CL).
  - assert (PN : ph <> Q4) by (intros ->; discriminate PH). pose proof (dnoquit_shape p ph _ PN SH) as NQ.
    assert (HI : dhistory (ev :: d_trace d)).
    { rewrite <- TR. apply (inv_history n). apply noquit_inv; auto. rewrite TR. intros [X|X]; [|contradiction]. destruct EV as [(q & b & ok & ->)|[(ok & ->)| ->]]; discriminate X. }
    assert (KEY : (exists ok, ev = VDone ok /\ exists q op tr, d_trace d = op ++ VStart q :: tr /\ dclosed tr /\ dop_complete q op ok) \/
                  (exists q op tr, ev :: d_trace d = op ++ VStart q :: tr /\ dop_so_far q op)).
    { inversion HI as [tr0 CL E0|q op tr0 CL OS E0].
      - left. inversion CL as [|q op ok tr CL0 OC E1 ]. exists ok. split; [reflexivity|]. exists q, op, tr. auto.
      - right. exists q, op, tr0. auto. }
    destruct KEY as [(ok & -> & q & op & tr & E & CL & OC)|(q & op & tr & E & OS)].
    + right. exists ok. split; [reflexivity|]. pose proof (inner_mid _ _ (ds_inner _ _ (dc_so_far _ _ _ OC))) as F.
      destruct ph; cbn [dshape] in SH.
      * rewrite SH in E. destruct op; discriminate E.
      * destruct SH as (op1 & SH & F1 & FI & CA). rewrite SH in E. apply split_inner in E; auto. destruct E as (X1 & X2 & X3). subst op1 q tr. pose proof (dc_fin _ _ _ OC). lia.
      * destruct SH as (op1 & SH & F1 & FI & CA). rewrite SH in E. apply split_inner in E; auto. destruct E as (X1 & X2 & X3). subst op1 q tr. split; [reflexivity|]. exists op, ok. rewrite SH. auto.
      * destruct SH as (op1 & ok1 & SH & _). rewrite SH in E. destruct op as [|e op]; [discriminate E|]. cbn [app] in E. injection E as <- _. inversion F as [|? ? X]. destruct X.
      * contradiction.
    + left. pose proof (inner_mid _ _ (ds_inner _ _ OS)) as F.
      destruct op as [|e op]; cbn [app] in E; injection E as -> E.
      { destruct EV as [(q0 & b & ok & X)|[(ok & X)|X]]; discriminate X. }
      inversion F as [|? ? F0 F']. subst x l.
      destruct EV as [(q0 & b & ok & ->)|[(ok & ->)| ->]]; try contradiction. exists b, ok.
      pose proof (ds_inner _ _ OS) as FD. inversion FD as [|? ? FD0 _]. cbn [dinner] in FD0. subst q0.
      assert (V : 0 < accepted b op). { pose proof (ds_once _ _ OS [] _ b eq_refl) as X. unfold handled, accepted in X. cbn [cnt] in X. rewrite Z.eqb_refl in X. pose proof (handled_nonneg b op). unfold handled, accepted in *. lia. }
      assert (AC : forall o, accepted b (o ++ [VStart p]) = accepted b o). { intros o. unfold accepted. rewrite (dcount_app _ o). cbn [cnt]. lia. }
      destruct ph; cbn [dshape] in SH.
      * rewrite SH in E. destruct op; discriminate E.
      * destruct SH as (op1 & SH & F1 & FI & CA). rewrite SH in *. apply split_inner in E; auto. destruct E as (X1 & X2 & X3). subst op1 q tr. rewrite AC. auto.
      * destruct SH as (op1 & SH & F1 & FI & CA). rewrite SH in *. apply split_inner in E; auto. destruct E as (X1 & X2 & X3). subst op1 q tr. rewrite AC. auto.
      * destruct SH as (op1 & ok1 & SH & _). rewrite SH in E. destruct op as [|e op]; [discriminate E|]. cbn [app] in E. injection E as <- _. inversion F' as [|? ? X]. destruct X.
      * contradiction.
Qed.
Lemma dnext_shape ph tr b ok : (ph = Q1 \/ ph = Q2) -> dshape p ph tr -> dshape p ph (VHandled p b ok :: tr).
Proof.
  intros [-> | ->]; cbn [dshape]; intros (op & -> & F & FI & CA); exists (VHandled p b ok :: op); (split; [reflexivity|]); (split; [now constructor|]); (split; [exact FI|exact CA]).
Qed.
(** The number of a block in work. *)
Lemma handle_number ph d i b lt : R d -> dshape p ph (d_trace d) -> nth_error (d_thr d) i = Some (DHandle b, lt) -> (ph = Q1 \/ ph = Q2) /\ 0 < accepted b (d_trace d) /\ h_ptr (d_g d) = p.
Proof.
  intros RC SH Hi.
  destruct (dnext_event ph d i false _ _ _ _ _ RC SH Hi eq_refl) as [X|[(b' & ok & X & P & V)|(ok & X & _)]]; try discriminate X.
  injection X as <- <- <-. auto.
Qed.
End Next.

(** ** The stream while none of its blocks fails *)
Definition dtfine (t : dthread) : Prop := match fst t with DFail _ => False | _ => True end.
(** While it is destroyed after its operation. *)
Definition dtdrain (t : dthread) : Prop := match fst t with DHandle _ | DFail _ | DCallback _ _ => False | _ => True end.
Definition dqweight (n : nat) (t : dthread) : Z :=
  let N := Z.of_nat n in
  match fst t with
  | DExit => 0 | DLoop => 1 | DStart => 2 | DReset => 4
  | DBar _ true => 5 | DBar _ false => 6
  | DArrive => 12 + N | DQueue true => 17 + N | DQueue false => 18 + N
  | DTrig true => 19 + N | DTrig false => 20 + N
  | _ => 0
  end.
Record ddrained (n : nat) (d : dstate) : Prop := { ddn_quit : h_quit (d_g d) = true; ddn_len : length (d_thr d) = n; ddn_thr : Forall dtdrain (d_thr d) }.
Lemma ddrain_step n i fail g t g' t' w evs : h_quit g = true -> dtdrain t -> dtstep (Z.of_nat n) i fail g t = Some (g', t', w, evs) ->
  h_quit g' = true /\ dtdrain t' /\ dqweight n t' + (if w then Z.of_nat n else 0) + 1 <= dqweight n t.
Proof.
  intros Q D. destruct t as [pc lt]. unfold dtstep. destruct pc as [| |[]|[]|b|b| |g1 []| |err pr|]; intros E; cbn [dtdrain fst] in D; try contradiction; try discriminate E.
  - injection E as <- <- <- <-. split; [auto|]. split; [auto|]. unfold dqweight; cbn [fst]; lia.
  - rewrite Q in E. injection E as <- <- <- <-. split; [auto|]. split; [auto|]. unfold dqweight; cbn [fst]; lia.
  - rewrite Q, orb_true_r in E. injection E as <- <- <- <-. split; [auto|]. split; [exact Logic.I|]. unfold dqweight; cbn [fst]; lia.
  - rewrite Q, orb_true_r in E. destruct (h_queue g); injection E as <- <- <- <-; (split; [auto|]); (split; [exact Logic.I|]); unfold dqweight; cbn [fst]; lia.
  - unfold bar_arrive in E. destruct (_ =? Z.of_nat n); cbv zeta beta iota in E.
    + injection E as <- <- <- <-. split; [auto|]. split; destruct i; unfold dqweight, dtdrain; cbn [fst dafter]; auto; lia.
    + destruct (bar_pass _ _); injection E as <- <- <- <-; (split; [auto|]); split; destruct i; unfold dqweight, dtdrain; cbn [fst dafter]; auto; lia.
  - destruct (bar_pass _ _); injection E as <- <- <- <-; (split; [auto|]); split; destruct i; unfold dqweight, dtdrain; cbn [fst dafter]; auto; lia.
  - rewrite Q in E. injection E as <- <- <- <-. split; [auto|]. split; [auto|]. unfold dqweight; cbn [fst]; lia.
Qed.
Lemma dwake_drain n t : dtdrain (dwake_bar t) = dtdrain t /\ dqweight n (dwake_bar t) <= dqweight n t + 1.
Proof. destruct t as [pc lt]. unfold dqweight. destruct pc as [| |[]|[]|b|b| |g1 []| |err pr|]; (split; [reflexivity|]); cbn [dwake_bar fst]; lia. Qed.
Lemma dqweight_range n t : 0 <= dqweight n t <= Z.of_nat n + 20.
Proof. unfold dqweight. destruct (fst t) as [| |[]|[]|b|b| |g1 []| |err pr|]; lia. Qed.

Definition dmeasure (n : nat) (d : dstate) : Z := if h_quit (d_g d) then sumf (dqweight n) (d_thr d) else dmeas n d.
Definition dbound (n : nat) (k : Z) : Z := 3 * k + Z.of_nat n * (Z.of_nat n + 20).

Record dfine (n : nat) (p : Z) (ph : dph) (d : dstate) : Prop := {
  df_reach : reachable dstep (new_dstream n) d;
  df_shape : dshape p ph (d_trace d);
  df_thr : Forall dtfine (d_thr d);
  df_fail : dfailures (d_trace d) = 0;
  df_queue : lenZ (h_queue (d_g d)) <= lenZ (accepted_list (d_trace d));
  df_drain : ph = Q4 -> ddrained n d }.

Lemma dtstep_same n i fail g t g' t' w evs : dtstep n i fail g t = Some (g', t', w, evs) ->
  h_quit g' = h_quit g /\ lenZ (h_queue g') <= lenZ (h_queue g).
Proof.
  destruct t as [pc lt]. unfold dtstep. destruct pc as [| |[]|[]|b|b| |g1 []| |err pr|]; intros E.
  all: repeat match type of E with
    | Some _ = Some _ => injection E as <- _ _ _
    | (if ?c then _ else _) = _ => destruct c eqn:?
    | context [bar_arrive ?a ?b] => unfold bar_arrive in E; cbv zeta in E
    | (let '(_, _) := if ?c then _ else _ in _) = _ => destruct c
    | match ?q with [] => _ | _ :: _ => _ end = _ => destruct q eqn:?
    | _ => discriminate E
    end; cbn [set_hbar set_queue h_quit h_queue]; (split; [first [reflexivity|congruence]|]); unfold lenZ;
    repeat match goal with H : h_queue ?x = _ |- _ => rewrite H; clear H end; cbn [length]; lia.
Qed.
Lemma dtstep_fine n i g t g' t' w evs : dtfine t -> dtstep n i false g t = Some (g', t', w, evs) -> dtfine t'.
Proof.
  destruct t as [pc lt]. unfold dtstep, dtfine. destruct pc as [| |[]|[]|b|b| |g1 []| |err pr|]; cbn [fst]; intros D E; try contradiction.
  all: repeat match type of E with
    | Some (_, (if ?c then _ else _, _), _, _) = Some _ => destruct c eqn:?
    | Some (_, (dafter ?i, _), _, _) = Some _ => destruct i; cbn [dafter] in E
    | Some _ = Some _ => injection E as _ <- _ _
    | (if ?c then _ else _) = _ => destruct c eqn:?
    | context [bar_arrive ?a ?b] => unfold bar_arrive in E; cbv zeta in E
    | (let '(_, _) := if ?c then _ else _ in _) = _ => destruct c
    | match ?q with [] => _ | _ :: _ => _ end = _ => destruct q eqn:?
    | _ => discriminate E
    end; cbn [fst]; auto.
Qed.
Lemma dfine_map (P : dthread -> Prop) f l : (forall t, P (f t) = P t) -> Forall P l -> Forall P (map f l).
Proof. intros H F. rewrite Forall_forall in *. intros x IN. apply in_map_iff in IN. destruct IN as (y & <- & IN). rewrite H. auto. Qed.
Lemma dwake_fine t : dtfine (dwake_bar t) = dtfine t /\ dtfine (dwake_trig t) = dtfine t /\ dtfine (dwake_queue t) = dtfine t.
Proof. destruct t as [[] lt]; repeat split. Qed.
Lemma dwake_drain2 t : dtdrain (dwake_trig t) = dtdrain t /\ dtdrain (dwake_queue t) = dtdrain t.
Proof. destruct t as [[] lt]; repeat split. Qed.

Section Fine.
Variable n : nat.
Hypothesis N1 : (1 <= n)%nat.
Variable p : Z.
Notation fine := (dfine n p).

Lemma dfine_inv ph d : ph <> Q4 -> fine ph d -> dinv n d.
Proof. intros P F. apply noquit_inv; auto; [apply F|]. eapply dnoquit_shape; [exact P|apply F]. Qed.
Lemma dfine_quit ph d : ph <> Q4 -> fine ph d -> h_quit (d_g d) = false.
Proof. intros P F. destruct (dfine_inv ph d P F) as [ID|op tr RU|op tr EN]; [apply (di_common _ _ ID)|apply (dr_common _ _ _ _ RU)|apply (de_common _ _ _ _ EN)]. Qed.
Lemma dfine_phase ph d : fine ph d -> h_quit (d_g d) = true -> ph = Q4.
Proof. intros F Q. destruct ph; auto; exfalso; pose proof (fun H => dfine_quit _ d H F) as X; rewrite X in Q; discriminate. Qed.
Lemma dfine_bound ph d k : fine ph d -> lenZ (accepted_list (d_trace d)) <= k -> 0 <= dmeasure n d <= dbound n k.
Proof.
  intros F LK. unfold dmeasure, dbound. pose proof (df_queue _ _ _ _ F) as QL. destruct (h_quit (d_g d)) eqn:Q.
  - pose proof (dfine_phase ph d F Q) as ->. pose proof (df_drain _ _ _ _ F eq_refl) as D. pose proof (lenZ_nonneg (h_queue (d_g d))).
    split; [apply sumf_nonneg; rewrite Forall_forall; intros t _; apply dqweight_range|].
    pose proof (sumf_const (dqweight n) (Z.of_nat n + 20) (d_thr d)) as X. rewrite (ddn_len _ _ D) in X.
    assert (Y : Forall (fun x => dqweight n x <= Z.of_nat n + 20) (d_thr d)) by (rewrite Forall_forall; intros t _; apply dqweight_range). specialize (X Y). lia.
  - assert (PN : ph <> Q4) by (intros ->; rewrite (ddn_quit _ _ (df_drain _ _ _ _ F eq_refl)) in Q; discriminate Q).
    pose proof (meas_bound n d (dfine_inv ph d PN F)). nia.
Qed.

(** A step of a thread. *)
Lemma dfine_thread ph d i t g' t' w evs : fine ph d -> nth_error (d_thr d) i = Some t -> dtstep (lenZ (d_thr d)) i false (d_g d) t = Some (g', t', w, evs) ->
  exists d', dstep (BThread i false) d = Some d' /\ d_trace d' = evs ++ d_trace d /\ dmeasure n d' + 1 <= dmeasure n d /\
  ((evs = [] /\ (forall b, fst t <> DHandle b) /\ fine ph d' /\ d_user d' = d_user d) \/
   (exists b, fst t = DHandle b /\ evs = [VHandled p b true] /\ (ph = Q1 \/ ph = Q2) /\ 0 < accepted b (d_trace d) /\ fine ph d' /\ d_user d' = d_user d) \/
   (evs = [VDone true] /\ (forall b, fst t <> DHandle b) /\ ph = Q2 /\ fine Q3 d' /\ d_user d' = match d_user d with VFinalizing => VIdle | u => u end)).
Proof.
  intros F Hi T. pose proof F as [RC SH TF FA QL DR].
  assert (E : exists d', dstep (BThread i false) d = Some d' /\ d_trace d' = evs ++ d_trace d /\ d_g d' = g' /\
     d_thr d' = setnth i t' (if w then map dwake_bar (d_thr d) else d_thr d) /\
     d_user d' = match evs with [VDone _] => (match d_user d with VFinalizing => VIdle | u => u end) | _ => d_user d end).
  { eexists. cbn [dstep]. rewrite Hi, T. repeat split; reflexivity. }
  destruct E as (d' & E & TR & G & TH & US). exists d'. split; [exact E|]. split; [exact TR|].
  destruct (dtstep_same _ _ _ _ _ _ _ _ _ T) as (S1 & S2).
  assert (RC' : reachable dstep (new_dstream n) d') by (eapply re_step; eauto).
  assert (TF' : Forall dtfine (d_thr d')).
  { rewrite TH. apply Forall_setnth; [|eapply dtstep_fine; eauto; eapply Forall_nth_error; eauto]. destruct w; auto. apply dfine_map; auto. intros x. apply dwake_fine. }
  assert (DR' : forall q, (q = Q4 -> ph = Q4) -> q = Q4 -> ddrained n d').
  { intros q X1 X2. specialize (DR (X1 X2)). destruct DR as [D1 D5 D6]. unfold lenZ in T. rewrite D5 in T.
    destruct (ddrain_step n i false (d_g d) t g' t' w evs D1 (Forall_nth_error _ _ _ _ D6 Hi) T) as (A1 & A2 & A3).
    constructor; rewrite ?G; auto; rewrite TH.
    - rewrite setnth_length. destruct w; rewrite ?map_length; auto.
    - apply Forall_setnth; auto. destruct w; auto. apply dfine_map; auto. intros x. apply (dwake_drain n). }
  split.
  { unfold dmeasure. rewrite G, S1. destruct (h_quit (d_g d)) eqn:QU.
    - assert (ph = Q4) as P4'. { exact (dfine_phase ph d F QU). }
      pose proof (DR P4') as [D1 D5 D6]. unfold lenZ in T. rewrite D5 in T.
      destruct (ddrain_step n i false (d_g d) t g' t' w evs D1 (Forall_nth_error _ _ _ _ D6 Hi) T) as (A1 & A2 & A3).
      rewrite TH. destruct w.
      + rewrite (sumf_setnth _ i t' (dwake_bar t)) by (rewrite nth_error_map, Hi; reflexivity). rewrite sumf_map.
        assert (X : sumf (fun x => dqweight n (dwake_bar x)) (d_thr d) <= sumf (fun x => dqweight n x + 1) (d_thr d)) by (apply sumf_le; rewrite Forall_forall; intros x _; apply dwake_drain).
        rewrite sumf_add, D5 in X.
        assert (WT : dwake_bar t = t). { clear - T. destruct t as [pc lt]. destruct pc as [| |[]|[]|b|b| |g1 []| |err pr|]; try reflexivity; exfalso; unfold dtstep in T; discriminate T. }
        rewrite WT. lia.
      + rewrite (sumf_setnth _ _ _ _ _ Hi). lia.
    - assert (PN : ph <> Q4) by (intros P4'; rewrite (ddn_quit _ _ (DR P4')) in QU; discriminate QU).
      eapply thread_meas; eauto. eapply dfine_inv; eauto. }
  destruct (dnext_event n N1 p ph d i false g' t t' w evs RC SH Hi T) as [-> | [(b & ok & -> & P & V)|(ok & -> & P & SH3)]]; cbn [app] in TR.
  - left. split; auto. split; [|split; [|exact US]].
    + intros b HB. destruct t as [pc lt]. cbn [fst] in HB. subst pc. cbn [dtstep] in T. discriminate T.
    + constructor; rewrite ?TR, ?G; auto; [lia|apply DR'; auto].
  - right; left. destruct (dtstep_events _ _ _ _ _ _ _ _ _ T) as [X|[(b' & ok' & X & [Y|Y])|[(ok' & X)|X]]]; try discriminate X.
    + assert (ok = true) as ->. { destruct t as [pc lt]. cbn [fst] in Y. subst pc. cbn [dtstep] in T. injection T as _ _ _ _ _ <-. reflexivity. }
      injection X as X1 X2 X3. subst b'. exists b. repeat (split; [auto; fail|]). split; [|exact US]. constructor; rewrite ?TR, ?G; auto.
      * apply dnext_shape; auto.
      * cbn [accepted_list]. lia.
      * apply DR'; auto.
    + pose proof (Forall_nth_error _ _ _ _ TF Hi) as TF0. unfold dtfine in TF0. rewrite Y in TF0. contradiction.
  - right; right.
    assert (ok = true) as ->.
    { cbn [dshape] in SH3. destruct SH3 as (op & ok' & SH3 & OC & _). injection SH3 as <- SH3. apply (dc_ok _ _ _ OC).
      rewrite SH3 in FA. unfold dfailures in *. rewrite dcount_app in FA. cbn [cnt] in FA. lia. }
    split; auto. split; [|split; [auto|split; [|exact US]]].
    + intros b HB. destruct t as [pc lt]. cbn [fst] in HB. subst pc. cbn [dtstep] in T. discriminate T.
    + subst ph. constructor; rewrite ?TR, ?G; auto; [cbn [accepted_list]; lia|apply DR'; discriminate].
Qed.
Lemma dfine_spurious ph d i d' : fine ph d -> dstep (BSpurious i) d = Some d' ->
  fine ph d' /\ d_user d' = d_user d /\ d_trace d' = d_trace d /\ dmeasure n d' = dmeasure n d + 1.
Proof.
  intros F E. pose proof F as [RC SH TF FA QL DR]. pose proof (spurious_meas n d i d' E) as SM. assert (RC' : reachable dstep (new_dstream n) d') by (eapply re_step; eauto).
  cbn [dstep] in E. destruct (nth_error (d_thr d) i) as [t|] eqn:Hi; [|discriminate E]. destruct (dwake_any t) as [t'|] eqn:W; [|discriminate E]. injection E as <-.
  assert (T1 : (dtfine t -> dtfine t') /\ (dtdrain t -> dtdrain t') /\ (dtdrain t -> dqweight n t' = dqweight n t + 1)).
  { clear - W. destruct t as [pc lt]. destruct pc as [| |[]|[]|b|b| |g1 []| |err pr|]; try discriminate W; cbn in W; injection W as <-; unfold dtfine, dtdrain, dqweight; cbn [fst]; intuition lia. }
  destruct T1 as (T1 & T2 & T3). split; [|split; [reflexivity|split; [reflexivity|]]].
  - constructor; cbn [d_trace d_thr d_g]; auto.
    + apply Forall_setnth; auto. apply T1. eapply Forall_nth_error; eauto.
    + intros P. destruct (DR P) as [D1 D5 D6]. constructor; cbn [d_g d_thr]; auto; [now rewrite setnth_length|]. apply Forall_setnth; auto. apply T2. eapply Forall_nth_error; eauto.
  - unfold dmeasure. cbn [d_g d_thr]. destruct (h_quit (d_g d)) eqn:QU; [|exact SM].
    assert (ph = Q4) as P4'. { exact (dfine_phase ph d F QU). }
    destruct (DR P4') as [D1 D5 D6]. rewrite (sumf_setnth _ _ _ _ _ Hi). rewrite T3 by (eapply Forall_nth_error; eauto). lia.
Qed.

(** The calls. *)
Lemma dfine_new : fine Q0 (new_dstream n).
Proof.
  constructor; cbn; auto; try lia.
  - constructor.
  - apply Forall_forall. intros t H. apply repeat_spec in H. subst t. exact Logic.I.
  - discriminate.
Qed.
Lemma dfine_start1 d : fine Q0 d -> d_user d = VIdle -> exists d', dstep (BStart1 p) d = Some d' /\ fine Q1 d' /\ d_user d' = VStarting /\ d_trace d' = VStart p :: d_trace d.
Proof.
  intros F U. pose proof F as [RC SH TF FA QL DR].
  assert (E : exists d', dstep (BStart1 p) d = Some d' /\ d_trace d' = VStart p :: d_trace d /\ d_user d' = VStarting /\ d_thr d' = d_thr d /\ h_queue (d_g d') = h_queue (d_g d)).
  { cbn [dstep]. rewrite U. eexists. repeat split. }
  destruct E as (d' & E & TR & US & TH & QE). exists d'. split; auto. split; [|split; [exact US|exact TR]]. constructor; rewrite ?TR, ?TH, ?QE; auto.
  - eapply re_step; eauto.
  - cbn [dshape] in SH. rewrite SH. exists []. repeat split; constructor.
  - discriminate.
Qed.
Lemma dfine_start2 d : fine Q1 d -> d_user d = VStarting -> exists d', dstep BStart2 d = Some d' /\ fine Q1 d' /\ d_user d' = VRunning /\ d_trace d' = d_trace d.
Proof.
  intros F U. pose proof F as [RC SH TF FA QL DR].
  assert (E : exists d', dstep BStart2 d = Some d' /\ d_trace d' = d_trace d /\ d_user d' = VRunning /\ d_thr d' = map dwake_trig (d_thr d) /\ h_queue (d_g d') = h_queue (d_g d)).
  { cbn [dstep]. rewrite U. eexists. repeat split. }
  destruct E as (d' & E & TR & US & TH & QE). exists d'. split; auto. split; [|auto]. constructor; rewrite ?TR, ?TH, ?QE; auto.
  - eapply re_step; eauto.
  - apply dfine_map; auto. intros t. apply dwake_fine.
  - discriminate.
Qed.
Lemma dfine_push d b j d' : fine Q1 d -> d_user d = VRunning -> dstep (BPush b j) d = Some d' -> fine Q1 d' /\ d_user d' = VRunning /\ d_trace d' = VPush b true :: d_trace d.
Proof.
  intros F U E. pose proof F as [RC SH TF FA QL DR]. assert (RC' : reachable dstep (new_dstream n) d') by (eapply re_step; eauto).
  cbn [dstep] in E. rewrite U in E. pose proof SH as SH0. cbn [dshape] in SH0. destruct SH0 as (op & TE & FI & FZ & CA).
  assert (FO : dfailures op = 0). { rewrite TE in FA. unfold dfailures in *. rewrite dcount_app in FA. cbn [cnt] in FA. lia. }
  destruct (h_error (d_g d)) eqn:ER.
  - injection E as <-. destruct (c37_push n _ [] b false op p [] N1 RC') as [X _]; [cbn [d_trace app]; now rewrite TE|exact FI|]. apply X in FO. discriminate FO.
  - destruct (notify_one j (d_thr d)) as [thr|] eqn:NO; [|discriminate E]. injection E as <-. cbn [d_user d_trace]. split; [|auto].
    assert (TH : Forall dtfine thr).
    { unfold notify_one in NO. destruct (existsb qwaiting (d_thr d)); [|injection NO as <-; exact TF]. destruct (nth_error (d_thr d) j) as [t|] eqn:Hj; [|discriminate NO].
      destruct (qwaiting t); [|discriminate NO]. injection NO as <-. apply Forall_setnth; auto. pose proof (Forall_nth_error _ _ _ _ TF Hj) as X. destruct (dwake_fine t) as (_ & _ & Y). now rewrite Y. }
    constructor; cbn [d_trace d_thr d_g]; auto.
    + exists (VPush b true :: op). rewrite TE. split; [reflexivity|]. split; [now constructor|]. split; [exact FZ|exact CA].
    + cbn [set_queue h_queue accepted_list]. unfold lenZ in *. rewrite !app_length. cbn [length]. lia.
    + discriminate.
Qed.
Lemma dfine_can_push d b : d_user d = VRunning -> exists j d', dstep (BPush b j) d = Some d'.
Proof.
  intros U. destruct (h_error (d_g d)) eqn:ER; [exists 0%nat; cbn [dstep]; rewrite U, ER; eauto|].
  assert (X : exists j thr, notify_one j (d_thr d) = Some thr).
  { unfold notify_one. destruct (existsb qwaiting (d_thr d)) eqn:EX; [|exists 0%nat; eauto]. apply existsb_exists in EX. destruct EX as (t & IN & QW).
    apply In_nth_error in IN. destruct IN as [j Hj]. exists j. rewrite Hj, QW. eauto. }
  destruct X as (j & thr & X). exists j. cbn [dstep]. rewrite U, ER, X. eauto.
Qed.
Lemma dfine_finalize d : fine Q1 d -> d_user d = VRunning -> exists d', dstep (BFinalize false) d = Some d' /\ fine Q2 d' /\ d_user d' = VFinalizing /\ d_trace d' = VFinalize false :: d_trace d.
Proof.
  intros F U. pose proof F as [RC SH TF FA QL DR].
  assert (E : exists d', dstep (BFinalize false) d = Some d' /\ d_trace d' = VFinalize false :: d_trace d /\ d_user d' = VFinalizing /\ d_thr d' = map dwake_queue (d_thr d) /\ h_queue (d_g d') = h_queue (d_g d)).
  { cbn [dstep]. rewrite U. eexists. repeat split. }
  destruct E as (d' & E & TR & US & TH & QE). exists d'. split; auto. split; [|auto]. constructor; rewrite ?TR, ?TH, ?QE; auto.
  - eapply re_step; eauto.
  - cbn [dshape] in *. destruct SH as (op & -> & FI & FZ & CA). exists (VFinalize false :: op). split; [reflexivity|]. split; [now constructor|]. unfold dfinalizes, dcancels in *. cbn [cnt]. lia.
  - apply dfine_map; auto. intros t. apply dwake_fine.
  - discriminate.
Qed.
Lemma dfine_quit1 d : fine Q3 d -> d_user d = VIdle -> exists d', dstep BQuit1 d = Some d' /\ fine Q4 d' /\ d_user d' = VQuitting /\ d_trace d' = VQuit :: d_trace d.
Proof.
  intros F U. pose proof F as [RC SH TF FA QL DR]. pose proof (dfine_inv Q3 d ltac:(discriminate) F) as I.
  assert (ID : didling n d). { destruct I as [ID|op tr RU|op tr EN]; auto; [destruct (dr_user _ _ _ _ RU) as [(X & _)|(X & _)]; congruence|pose proof (de_user _ _ _ _ EN); congruence]. }
  assert (E : exists d', dstep BQuit1 d = Some d' /\ d_trace d' = VQuit :: d_trace d /\ d_user d' = VQuitting /\ d_thr d' = d_thr d /\ h_queue (d_g d') = h_queue (d_g d) /\ h_quit (d_g d') = true).
  { cbn [dstep]. rewrite U. eexists. repeat split. }
  destruct E as (d' & E & TR & US & TH & QE & QI). exists d'. split; auto. split; [|auto]. constructor; rewrite ?TR, ?TH, ?QE; auto.
  - eapply re_step; eauto.
  - cbn [dshape] in *. destruct SH as (op & ok & -> & OC & CA). eauto.
  - intros _. constructor; rewrite ?TH, ?QI; auto.
    + apply (di_common _ _ ID).
    + eapply Forall_impl; [|exact (di_thr _ _ ID)]. intros [pc lt]. unfold didle, dtdrain. cbn [fst]. destruct pc; tauto.
Qed.
Lemma dfine_quit2 d : fine Q4 d -> d_user d = VQuitting -> exists d', dstep BQuit2 d = Some d' /\ fine Q4 d' /\ d_user d' = VGone /\ d_trace d' = d_trace d.
Proof.
  intros F U. pose proof F as [RC SH TF FA QL DR]. destruct (DR eq_refl) as [D1 D5 D6].
  assert (E : exists d', dstep BQuit2 d = Some d' /\ d_trace d' = d_trace d /\ d_user d' = VGone /\ d_thr d' = map dwake_bar (map dwake_queue (map dwake_trig (d_thr d))) /\ h_queue (d_g d') = h_queue (d_g d) /\ h_quit (d_g d') = h_quit (d_g d)).
  { cbn [dstep]. rewrite U. eexists. repeat split. }
  destruct E as (d' & E & TR & US & TH & QE & QI). exists d'. split; auto. split; [|auto]. constructor; rewrite ?TR, ?TH, ?QE; auto.
  - eapply re_step; eauto.
  - repeat apply dfine_map; auto; intros t; apply dwake_fine.
  - intros _. constructor; rewrite ?TH, ?QI; auto.
    + now rewrite !map_length.
    + repeat apply dfine_map; auto; intros t; try apply dwake_drain2; apply (dwake_drain n).
Qed.

(** Some thread can take a step, or all are stuck. *)
Lemma dthread_or_stuck d : dstuck d \/ exists i t r, nth_error (d_thr d) i = Some t /\ dtstep (lenZ (d_thr d)) i false (d_g d) t = Some r.
Proof.
  assert (X : (forall i t, nth_error (d_thr d) i = Some t -> dtstep (lenZ (d_thr d)) i false (d_g d) t = None) \/ exists i t r, nth_error (d_thr d) i = Some t /\ dtstep (lenZ (d_thr d)) i false (d_g d) t = Some r).
  { assert (Y : forall l k, (forall i t, nth_error l i = Some t -> dtstep (lenZ (d_thr d)) (k + i) false (d_g d) t = None) \/ exists i t r, nth_error l i = Some t /\ dtstep (lenZ (d_thr d)) (k + i) false (d_g d) t = Some r).
    { induction l as [|t l IH]; intros k; [left; intros [|]; discriminate|].
      destruct (dtstep (lenZ (d_thr d)) k false (d_g d) t) as [r|] eqn:E; [right; exists 0%nat, t, r; rewrite Nat.add_0_r; auto|].
      destruct (IH (Datatypes.S k)) as [A|(i & t' & r & A & B)].
      - left. intros [|i] t0 H; [injection H as <-; now rewrite Nat.add_0_r|]. rewrite Nat.add_succ_r. apply (A i t0 H).
      - right. exists (Datatypes.S i), t', r. rewrite Nat.add_succ_r. auto. }
    exact (Y (d_thr d) 0%nat). }
  destruct X as [X|X]; [left|right; exact X]. intros i fail. cbn [dstep]. destruct (nth_error (d_thr d) i) as [t|] eqn:Hi; [|reflexivity]. specialize (X i t Hi).
  assert (Y : dtstep (lenZ (d_thr d)) i fail (d_g d) t = None).
  { destruct t as [pc lt]. destruct pc; try exact X; discriminate X. }
  now rewrite Y.
Qed.
End Fine.

(** Which blocks were accepted and decompressed. *)
Lemma accepted_count b tr : cnt (Z.eqb b) (accepted_list tr) = accepted b tr.
Proof. induction tr as [|e tr IH]; [reflexivity|]. unfold accepted in *. cbn [accepted_list cnt]. destruct e as [|b' []| | | | |]; rewrite ?Z.add_0_l; auto. rewrite dcount_app, IH. cbn [cnt]. lia. Qed.
Lemma handled_count b tr : cnt (Z.eqb b) (handled_list tr) = handled b tr.
Proof. induction tr as [|e tr IH]; [reflexivity|]. unfold handled in *. cbn [handled_list cnt]. destruct e; rewrite ?Z.add_0_l; auto. rewrite dcount_app, IH. cbn [cnt]. lia. Qed.
Lemma dcount_in o l : 0 < cnt (Z.eqb o) l <-> In o l.
Proof.
  induction l as [|x l IH]; cbn [cnt In]; [lia|]. pose proof (cnt_nonneg (Z.eqb o) l). destruct (Z.eqb_spec o x); [subst; split; [auto|lia]|]. rewrite Z.add_0_l, IH. intuition congruence.
Qed.
