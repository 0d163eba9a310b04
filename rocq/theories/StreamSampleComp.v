(** The compression stream in the sample program: what one operation looks like from outside. *)
From Coq Require Import ZArith List Bool Lia.
From Verif Require Import CBase ConcLib SpecSync BarrierModel BarrierProofs StreamBlockModel CompStreamModel SpecStream CompInv CompStep CompMain CompTerm CompQuit CompProps.
Import ListNotations.
Open Scope Z_scope.

(** The trace of a stream that is used for one operation on [L] bytes. *)
Inductive cph := P0 | P1 | P2 | P3 | P4.
Definition cshape (L : Z) (ph : cph) (tr : list event) : Prop :=
  match ph with
  | P0 => tr = []
  | P1 => exists op, tr = op ++ [EStart L 0] /\ Forall inner op /\ finalizes op = 0
  | P2 => exists op, tr = op ++ [EStart L 0] /\ Forall inner op /\ finalizes op = 1 /\ cancels op = 0
  | P3 => exists op ok, tr = EDone ok :: op ++ [EStart L 0] /\ op_complete L 0 op ok /\ cancels op = 0
  | P4 => exists op ok, tr = EQuit :: EDone ok :: op ++ [EStart L 0] /\ op_complete L 0 op ok /\ cancels op = 0
  end.

Lemma noquit_shape L ph tr : ph <> P4 -> cshape L ph tr -> ~ In EQuit tr.
Proof.
  assert (A : forall op, Forall inner op -> ~ In EQuit (op ++ [EStart L 0])).
  { intros op F H. apply in_app_or in H. destruct H as [H|[H|[]]]; [|discriminate H]. rewrite Forall_forall in F. exact (F _ H). }
  destruct ph; intros N; cbn [cshape].
  - intros ->. intros [].
  - intros (op & -> & F & _). now apply A.
  - intros (op & -> & F & _). now apply A.
  - intros (op & ok & -> & C & _) [H|H]; [discriminate H|]. revert H. apply A. apply C.
  - contradiction.
Qed.
Lemma tstep_events n i fail g t g' t' w evs : tstep n i fail g t = Some (g', t', w, evs) ->
  evs = [] \/ (exists l off ok, fst t = CCall l off ok /\ (evs = [EBlock off ok] \/ evs = [ECrash])) \/ (exists ok, evs = [EDone ok]) \/ evs = [ECrash].
Proof.
  destruct t as [pc lt]. unfold tstep. destruct pc as [| |a| |l lo|l lo off|l off m|l off m g1 a|l off|l off|l off ok|a| |g1 a| |err pr|]; intros E.
  all: repeat match type of E with
    | Some _ = Some _ => injection E as _ _ _ <-
    | (if ?c then _ else _) = _ => destruct c eqn:?
    | context [bar_arrive ?a ?b] => unfold bar_arrive in E; cbv zeta in E
    | (let '(_, _) := if ?c then _ else _ in _) = _ => destruct c
    | _ => discriminate E
    end; auto.
  - right; left. exists l, off, ok. split; auto. destruct (g_cb g); auto.
  - destruct pr; eauto.
Qed.

Section Next.
Variable n : nat.
Hypothesis N1 : (1 <= n)%nat.
Hypothesis N2 : Z.of_nat n < 2 ^ 32.
Variable L : Z.
Notation R := (reachable cstep (new_stream n)).

Lemma cons_app_last {A} (a : A) l op x : a :: l = op ++ [x] -> (op = [] /\ a = x /\ l = []) \/ exists op', op = a :: op' /\ l = op' ++ [x].
Proof. destruct op as [|b op]; cbn [app]; intros H; injection H; intros; subst; [left|right]; eauto. Qed.

(** The events of a step of a thread, by phase. *)
Theorem next_event ph c i fail g' t t' w evs : R c -> cshape L ph (c_trace c) -> nth_error (c_thr c) i = Some t ->
  tstep (lenZ (c_thr c)) i fail (c_g c) t = Some (g', t', w, evs) ->
  evs = [] \/
  (exists off ok, evs = [EBlock off ok] /\ (ph = P1 \/ ph = P2) /\ block_offset L off) \/
  (exists ok, evs = [EDone ok] /\ ph = P2 /\ cshape L P3 (EDone ok :: c_trace c)).
Proof.
  intros RC SH Hi T. destruct evs as [|ev evs]; [auto|]. right.
  assert (E1 : evs = []). { destruct (tstep_events _ _ _ _ _ _ _ _ _ T) as [X|[(l & off & ok & _ & [X|X])|[(ok & X)|X]]]; congruence. } subst evs.
  assert (exists c', R c' /\ c_trace c' = ev :: c_trace c) as (c' & RC' & TR).
  { eexists. split; [eapply (re_step _ _ (AThread i fail)); [exact RC|]; cbn [cstep]; rewrite Hi, T; reflexivity|reflexivity]. }
  assert (EV : (exists off ok, ev = EBlock off ok) \/ (exists ok, ev = EDone ok) \/ ev = ECrash).
  { destruct (tstep_events _ _ _ _ _ _ _ _ _ T) as [X|[(l & off & ok & _ & [X|X])|[(ok & X)|X]]]; try discriminate X; injection X as ->; eauto. }
  destruct (match ph with P4 => true | _ => false end) eqn:PH.
  - destruct ph; try discriminate PH. destruct SH as (op & ok & SH & OC & CA).
    destruct (c52_callbacks n c' [ev] (EDone ok :: op ++ [EStart L 0]) N1 N2 RC' ltac:(rewrite TR, SH; reflexivity)) as (_ & LA & DO & _ & DE).
    assert (CL : closed (EDone ok :: op ++ [EStart L 0])) by (apply cl_op; [constructor|exact OC]).
    exfalso. destruct EV as [(off & ok' & ->)|[(ok' & ->)| ->]].
    + specialize (DE CL off). unfold delivered in DE. cbn [cnt] in DE. rewrite Z.eqb_refl in DE. lia.
    + destruct DO as [DO|(ok2 & _ & CL2)]; [apply (DO ok'); now left|]. inversion CL2 as [|size m op2 ok3 tr2 CL3 OC3 [E4 E3]].
      destruct op2 as [|e op2]; [discriminate E3|]. cbn [app] in E3. injection E3 as -> _. pose proof (os_inner _ _ (oc_so_far _ _ _ _ OC3)) as F. inversion F as [|? ? X]. destruct X.
    + inversion LA as [|? ? X]. destruct X.
  - assert (PN : ph <> P4) by (intros ->; discriminate PH). pose proof (noquit_shape L ph _ PN SH) as NQ.
    assert (HI : history (ev :: c_trace c)).
    { rewrite <- TR. apply (inv_history n). apply noquit_inv; auto. rewrite TR. intros [X|X]; [|contradiction]. destruct EV as [(off & ok & ->)|[(ok & ->)| ->]]; discriminate X. }
    assert (KEY : (exists ok, ev = EDone ok /\ exists size m op tr, c_trace c = op ++ EStart size m :: tr /\ closed tr /\ op_complete size m op ok) \/
                  (exists size m op tr, ev :: c_trace c = op ++ EStart size m :: tr /\ op_so_far size op)).
    { inversion HI as [tr0 CL E0|size m op tr0 CL OS EP E0].
      - left. inversion CL as [|size m op ok tr CL0 OC E1 ]. exists ok. split; [reflexivity|]. exists size, m, op, tr. auto.
      - right. exists size, m, op, tr0. auto. }
    destruct KEY as [(ok & -> & size & m & op & tr & E & CL & OC)|(size & m & op & tr & E & OS)].
    + right. exists ok. split; [reflexivity|]. pose proof (os_inner _ _ (oc_so_far _ _ _ _ OC)) as F.
      destruct ph; cbn [cshape] in SH.
      * rewrite SH in E. destruct op; discriminate E.
      * destruct SH as (op1 & SH & F1 & FI). rewrite SH in E. apply split_inner in E; auto. destruct E as (X1 & X2 & X3 & X4); subst op1 size m tr. pose proof (oc_fin _ _ _ _ OC). lia.
      * destruct SH as (op1 & SH & F1 & FI & CA). rewrite SH in E. apply split_inner in E; auto. destruct E as (X1 & X2 & X3 & X4); subst op1 size m tr. split; [reflexivity|]. exists op, ok. rewrite SH. auto.
      * destruct SH as (op1 & ok1 & SH & _). rewrite SH in E. destruct op as [|e op]; [discriminate E|]. cbn [app] in E. injection E as <- _. inversion F as [|? ? X]. destruct X.
      * contradiction.
    + left. pose proof (os_inner _ _ OS) as F.
      destruct op as [|e op]; cbn [app] in E; injection E as -> E.
      { destruct EV as [(off & ok & X)|[(ok & X)|X]]; discriminate X. }
      inversion F as [|? ? F0 F']. subst x l.
      destruct EV as [(off & ok & ->)|[(ok & ->)| ->]]; try contradiction. exists off, ok. split; [reflexivity|].
      assert (V : block_offset size off). { apply (os_valid _ _ OS). unfold delivered. cbn [cnt]. rewrite Z.eqb_refl. pose proof (cnt_nonneg (fun ev => match ev with EBlock o' _ => off =? o' | _ => false end) op). lia. }
      destruct ph; cbn [cshape] in SH.
      * rewrite SH in E. destruct op; discriminate E.
      * destruct SH as (op1 & SH & F1 & FI). rewrite SH in E. apply split_inner in E; auto. destruct E as (X1 & X2 & X3 & X4); subst op1 size m tr. auto.
      * destruct SH as (op1 & SH & F1 & FI & CA). rewrite SH in E. apply split_inner in E; auto. destruct E as (X1 & X2 & X3 & X4); subst op1 size m tr. auto.
      * destruct SH as (op1 & ok1 & SH & _). rewrite SH in E. destruct op as [|e op]; [discriminate E|]. cbn [app] in E. injection E as <- _. inversion F' as [|? ? X]. destruct X.
      * contradiction.
Qed.
(** The shape after it. *)
Lemma next_shape ph tr off ok : (ph = P1 \/ ph = P2) -> cshape L ph tr -> cshape L ph (EBlock off ok :: tr).
Proof.
  intros [-> | ->]; cbn [cshape].
  - intros (op & -> & F & FI). exists (EBlock off ok :: op). split; [reflexivity|]. split; [now constructor|exact FI].
  - intros (op & -> & F & FI & CA). exists (EBlock off ok :: op). split; [reflexivity|]. split; [now constructor|]. split; [exact FI|exact CA].
Qed.

(** The offset of a block in work. *)
Lemma work_offset ph c i lv off lt : R c -> cshape L ph (c_trace c) -> nth_error (c_thr c) i = Some (CWork lv off, lt) -> (ph = P1 \/ ph = P2) /\ block_offset L off.
Proof.
  intros RC SH Hi.
  assert (E1 : exists c1, R c1 /\ c_trace c1 = c_trace c /\ nth_error (c_thr c1) i = Some (CCall lv off true, lt)).
  { eexists. split; [eapply (re_step _ _ (AThread i false)); [exact RC|]; cbn [cstep]; rewrite Hi; cbn [tstep]; reflexivity|]. split; [reflexivity|]. cbn [c_thr]. eapply nth_setnth_same; eauto. }
  destruct E1 as (c1 & R1 & T1 & H1). rewrite <- T1 in SH.
  destruct (next_event ph c1 i false _ _ _ _ _ R1 SH H1 eq_refl) as [X|[(o & ok & X & P & V)|(ok & X & _)]].
  - discriminate X.
  - destruct (g_cb (c_g c1)); [|discriminate X]. injection X as <- <-. auto.
  - destruct (g_cb (c_g c1)); discriminate X.
Qed.
End Next.

(** The offsets of the blocks delivered, in order. *)
Fixpoint offsets (tr : list event) : list Z := match tr with [] => [] | EBlock o _ :: tr => offsets tr ++ [o] | _ :: tr => offsets tr end.
Lemma offsets_app a b : offsets (a ++ b) = offsets b ++ offsets a.
Proof. induction a as [|e a IH]; cbn [app offsets]; [now rewrite app_nil_r|]. destruct e; auto. now rewrite IH, app_assoc. Qed.
Lemma count_app {A} (f : A -> bool) a b : cnt f (a ++ b) = cnt f a + cnt f b.
Proof. induction a as [|x a IH]; cbn [app cnt]; [reflexivity|]. rewrite IH. lia. Qed.
Lemma offsets_count o tr : cnt (Z.eqb o) (offsets tr) = delivered o tr.
Proof.
  induction tr as [|e tr IH]; [reflexivity|]. unfold delivered in *. cbn [offsets cnt]. destruct e; rewrite ?Z.add_0_l; auto.
  rewrite count_app, IH. cbn [cnt]. lia.
Qed.
Lemma count_in o l : 0 < cnt (Z.eqb o) l <-> In o l.
Proof.
  induction l as [|x l IH]; cbn [cnt In]; [lia|]. pose proof (cnt_nonneg (Z.eqb o) l). destruct (Z.eqb_spec o x); [subst; split; [auto|lia]|]. rewrite Z.add_0_l, IH. intuition congruence.
Qed.
Lemma count_nodup l : (forall o, cnt (Z.eqb o) l <= 1) -> NoDup l.
Proof.
  induction l as [|x l IH]; intros H; [constructor|]. pose proof (H x) as Hx. cbn [cnt] in Hx. rewrite Z.eqb_refl in Hx. constructor.
  - intros I. apply count_in in I. lia.
  - apply IH. intros o. specialize (H o). cbn [cnt] in H. destruct (o =? x); lia.
Qed.
Lemma complete_offsets L op : op_complete L 0 op true -> cancels op = 0 -> NoDup (offsets op) /\ forall o, In o (offsets op) <-> block_offset L o.
Proof.
  intros OC CA. pose proof (oc_so_far _ _ _ _ OC) as OS. split.
  - apply count_nodup. intros o. rewrite offsets_count. apply (os_once _ _ OS).
  - intros o. rewrite <- count_in, offsets_count. split; [apply (os_valid _ _ OS)|]. intros V. rewrite (oc_all _ _ _ _ OC eq_refl CA o V). lia.
Qed.

(** ** The stream while none of its blocks fails *)
Definition tfine (t : thread) : Prop := match fst t with CErr _ _ | CCall _ _ false => False | _ => True end.
(** While it is destroyed after its operation. *)
Definition tdrain (t : thread) : Prop :=
  match fst t with
  | CStart | CLoop | CTrig _ | CInit | CFin _ | CFinArrive | CFinBar _ _ | CReset | CExit => True
  | CFetch l _ => l = 0
  | CEpoch l _ off => l = 0 /\ 0 <= off
  | CArrive l off m => l = 0 /\ 0 <= off /\ m = 0
  | _ => False
  end.
Definition qweight (n : nat) (t : thread) : Z :=
  let N := Z.of_nat n in
  match fst t with
  | CExit => 0 | CLoop => 1 | CStart => 2 | CReset => 4
  | CFinBar _ true => 5 | CFinBar _ false => 6
  | CFinArrive => 12 + N | CFin true => 13 + N | CFin false => 14 + N
  | CArrive _ _ _ => 15 + N | CEpoch _ _ _ => 16 + N | CFetch _ _ => 17 + N | CInit => 18 + N
  | CTrig true => 19 + N | CTrig false => 20 + N
  | _ => 0
  end.
Record drained (n : nat) (c : cstate) : Prop := {
  dn_quit : g_quit (c_g c) = true; dn_k : g_k (c_g c) = UINT_MAX; dn_size : g_size (c_g c) = 0; dn_cur : 0 <= g_cur (c_g c);
  dn_len : length (c_thr c) = n; dn_thr : Forall tdrain (c_thr c) }.
Lemma drain_step n i fail g t g' t' w evs : g_quit g = true -> g_k g = UINT_MAX -> g_size g = 0 -> 0 <= g_cur g -> tdrain t -> tstep (Z.of_nat n) i fail g t = Some (g', t', w, evs) ->
  g_quit g' = true /\ g_k g' = UINT_MAX /\ g_size g' = 0 /\ 0 <= g_cur g' /\ tdrain t' /\ qweight n t' + (match w with WBar => Z.of_nat n | WNone => 0 end) + 1 <= qweight n t.
Proof.
  intros Q K SZ CU D. destruct t as [pc lt]. unfold tstep. destruct pc as [| |a| |l lo|l lo off|l off m|l off m g1 a|l off|l off|l off ok|a| |g1 a| |err pr|]; intros E; cbn [tdrain fst] in D; try contradiction.
  - injection E as <- <- <- <-. repeat (split; auto). unfold qweight; cbn [fst]; lia.
  - rewrite Q in E. injection E as <- <- <- <-. repeat (split; auto). unfold qweight; cbn [fst]; lia.
  - destruct a; [discriminate E|]. rewrite Q, orb_true_r in E. injection E as <- <- <- <-. repeat (split; auto). unfold qweight; cbn [fst]; lia.
  - injection E as <- <- <- <-. rewrite SZ. repeat (split; auto). unfold qweight; cbn [fst]; lia.
  - injection E as <- <- <- <-. cbn [set_cur g_quit g_k g_size g_cur]. repeat (split; auto); [unfold u64; apply Z.mod_pos_bound; reflexivity|unfold qweight; cbn [fst]; lia].
  - injection E as <- <- <- <-. unfold num_epochs. rewrite K. destruct D. repeat (split; auto). unfold qweight; cbn [fst]; lia.
  - destruct D as (-> & D & ->). rewrite Z.eqb_refl in E. destruct (Z.leb_spec 0 off); [|lia]. injection E as <- <- <- <-. repeat (split; auto). unfold qweight; cbn [fst]; lia.
  - destruct a; [discriminate E|]. rewrite Q, orb_true_r in E. injection E as <- <- <- <-. repeat (split; auto). unfold qweight; cbn [fst]; lia.
  - unfold bar_arrive in E. destruct (_ =? Z.of_nat n); cbv zeta beta iota in E.
    + injection E as <- <- <- <-. repeat (split; auto); destruct i; unfold qweight, tdrain; cbn [fst after_barrier]; auto; lia.
    + destruct (bar_pass _ _); injection E as <- <- <- <-; repeat (split; auto); destruct i; unfold qweight, tdrain; cbn [fst after_barrier]; auto; lia.
  - destruct a; [discriminate E|]. destruct (bar_pass _ _); injection E as <- <- <- <-; repeat (split; auto); destruct i; unfold qweight, tdrain; cbn [fst after_barrier]; auto; lia.
  - rewrite Q in E. injection E as <- <- <- <-. repeat (split; auto). unfold qweight; cbn [fst]; lia.
  - discriminate E.
Qed.
Lemma wake_drain n t : tdrain (wake_bar t) = tdrain t /\ qweight n (wake_bar t) <= qweight n t + 1.
Proof. destruct t as [pc lt]. unfold qweight. destruct pc as [| |a| |l lo|l lo off|l off m|l off m g1 a|l off|l off|l off ok|a| |g1 a| |err pr|]; try (split; [reflexivity|]); try (cbn [wake_bar fst]; lia); destruct a; cbn [wake_bar fst]; lia. Qed.
Lemma wake_drain2 t : tdrain (wake_trig t) = tdrain t.
Proof. destruct t as [[] lt]; reflexivity. Qed.
Lemma qweight_range n t : 0 <= qweight n t <= Z.of_nat n + 20.
Proof. unfold qweight. destruct (fst t) as [| |[]| | | | | | | | |[]| |g1 []| | |]; lia. Qed.

Definition cmeas (n : nat) (c : cstate) : Z := if g_quit (c_g c) then sumf (qweight n) (c_thr c) else meas n c.
Definition cbound (n : nat) (L : Z) : Z := 10 * (L / BLOCK_SIZE) + Z.of_nat n * ((Z.of_nat n + 5) * (L / BLOCK_SIZE + 1) + 28).

Record cfine (n : nat) (L : Z) (ph : cph) (c : cstate) : Prop := {
  cf_reach : reachable cstep (new_stream n) c;
  cf_shape : cshape L ph (c_trace c);
  cf_thr : Forall tfine (c_thr c);
  cf_fail : failures (c_trace c) = 0;
  cf_m : c_m c = 0;
  cf_size : 0 <= g_size (c_g c) <= L;
  cf_k : g_k (c_g c) = UINT_MAX;
  cf_drain : ph = P4 -> drained n c }.

Lemma tstep_same n i fail g t g' t' w evs : tstep n i fail g t = Some (g', t', w, evs) ->
  g_k g' = g_k g /\ g_quit g' = g_quit g /\ (g_size g' = g_size g \/ g_size g' = 0).
Proof.
  destruct t as [pc lt]. unfold tstep. destruct pc as [| |a| |l lo|l lo off|l off m|l off m g1 a|l off|l off|l off ok|a| |g1 a| |err pr|]; intros E.
  all: repeat match type of E with
    | Some _ = Some _ => injection E as <- _ _ _
    | (if ?c then _ else _) = _ => destruct c eqn:?
    | context [bar_arrive ?a ?b] => unfold bar_arrive in E; cbv zeta in E
    | (let '(_, _) := if ?c then _ else _ in _) = _ => destruct c
    | _ => discriminate E
    end; cbn [set_cur set_bar g_k g_quit g_size]; auto.
Qed.
Lemma tstep_fine n i g t g' t' w evs : tfine t -> tstep n i false g t = Some (g', t', w, evs) -> tfine t'.
Proof.
  destruct t as [pc lt]. unfold tstep, tfine. destruct pc as [| |a| |l lo|l lo off|l off m|l off m g1 a|l off|l off|l off ok|a| |g1 a| |err pr|]; cbn [fst]; intros D E; try contradiction.
  all: repeat match type of E with
    | Some (_, (if ?c then _ else _, _), _, _) = Some _ => destruct c eqn:?
    | Some (_, (after_barrier ?i, _), _, _) = Some _ => destruct i; cbn [after_barrier] in E
    | Some _ = Some _ => injection E as _ <- _ _
    | (if ?c then _ else _) = _ => destruct c eqn:?
    | context [bar_arrive ?a ?b] => unfold bar_arrive in E; cbv zeta in E
    | (let '(_, _) := if ?c then _ else _ in _) = _ => destruct c
    | _ => discriminate E
    end; cbn [fst]; auto.
Qed.
Lemma wake_fine t : tfine (wake_bar t) = tfine t.
Proof. destruct t as [[] lt]; reflexivity. Qed.
Lemma wake_fine2 t : tfine (wake_trig t) = tfine t.
Proof. destruct t as [[] lt]; reflexivity. Qed.
Lemma fine_map (P : thread -> Prop) f l : (forall t, P (f t) = P t) -> Forall P l -> Forall P (map f l).
Proof. intros H F. rewrite Forall_forall in *. intros x IN. apply in_map_iff in IN. destruct IN as (y & <- & IN). rewrite H. auto. Qed.

Section Fine.
Variable n : nat.
Hypothesis N1 : (1 <= n)%nat.
Hypothesis N2 : Z.of_nat n < 2 ^ 32.
Variable L : Z.
Hypothesis L1 : 0 <= L <= 2 ^ 63.
Notation fine := (cfine n L).

Lemma fine_inv ph c : ph <> P4 -> fine ph c -> cinv n c.
Proof. intros P F. apply noquit_inv; auto; [apply F|]. eapply noquit_shape; [exact P|apply F]. Qed.
Lemma fine_quit ph c : ph <> P4 -> fine ph c -> g_quit (c_g c) = false.
Proof. intros P F. destruct (fine_inv ph c P F) as [ID|R H op tr RU|size op tr EN]; [apply (id_common _ _ ID)|apply (ru_common _ _ _ _ _ _ RU)|apply (en_common _ _ _ _ _ EN)]. Qed.
Lemma fine_phase ph c : fine ph c -> g_quit (c_g c) = true -> ph = P4.
Proof. intros F Q. destruct ph; auto; exfalso; pose proof (fun H => fine_quit _ c H F) as X; rewrite X in Q; discriminate. Qed.
Lemma drained_bound c : drained n c -> 0 <= sumf (qweight n) (c_thr c) <= Z.of_nat n * (Z.of_nat n + 20).
Proof.
  intros D. split; [apply sumf_nonneg; rewrite Forall_forall; intros t _; apply qweight_range|].
  pose proof (sumf_const (qweight n) (Z.of_nat n + 20) (c_thr c)) as X. rewrite (dn_len _ _ D) in X. rewrite Z.mul_comm. apply X. rewrite Forall_forall. intros t _. apply qweight_range.
Qed.
Lemma fine_bound ph c : fine ph c -> 0 <= cmeas n c <= cbound n L.
Proof.
  intros F. unfold cmeas, cbound. assert (PL : 0 <= L / BLOCK_SIZE) by (apply Z.div_pos; [lia|reflexivity]).
  destruct (match ph with P4 => true | _ => false end) eqn:PH.
  - destruct ph; try discriminate PH. pose proof (cf_drain _ _ _ _ F eq_refl) as D. rewrite (dn_quit _ _ D). pose proof (drained_bound c D). nia.
  - assert (PN : ph <> P4) by (intros ->; discriminate PH). rewrite (fine_quit ph c PN F). pose proof (meas_bound n c (fine_inv ph c PN F)) as M.
    pose proof (cf_size _ _ _ _ F) as SZ. assert (X : 0 <= g_size (c_g c) / BLOCK_SIZE <= L / BLOCK_SIZE) by (split; [apply Z.div_pos; [lia|reflexivity]|apply Z.div_le_mono; [reflexivity|lia]]).
    nia.
Qed.

(** A step of a thread. *)
Lemma fine_thread ph c i t g' t' w evs : fine ph c -> nth_error (c_thr c) i = Some t -> tstep (lenZ (c_thr c)) i false (c_g c) t = Some (g', t', w, evs) ->
  exists c', cstep (AThread i false) c = Some c' /\ c_trace c' = evs ++ c_trace c /\ cmeas n c' + 1 <= cmeas n c /\
  ((evs = [] /\ fine ph c' /\ c_user c' = c_user c) \/
   (exists l off, fst t = CCall l off true /\ evs = [EBlock off true] /\ (ph = P1 \/ ph = P2) /\ block_offset L off /\ fine ph c' /\ c_user c' = c_user c) \/
   (evs = [EDone true] /\ ph = P2 /\ fine P3 c' /\ c_user c' = match c_user c with UFinalizing => UIdle | u => u end)).
Proof.
  intros F Hi T. pose proof F as [RC SH TF FA CM SZ KE DR].
  assert (E : exists c', cstep (AThread i false) c = Some c' /\ c_trace c' = evs ++ c_trace c /\ c_g c' = g' /\ c_m c' = c_m c /\
     c_thr c' = setnth i t' (match w with WNone => c_thr c | WBar => map wake_bar (c_thr c) end) /\
     c_user c' = match evs with [EDone _] => (match c_user c with UFinalizing => UIdle | u => u end) | _ => c_user c end).
  { eexists. cbn [cstep]. rewrite Hi, T. repeat split; reflexivity. }
  destruct E as (c' & E & TR & G & M & TH & US). exists c'. split; [exact E|]. split; [exact TR|].
  destruct (tstep_same _ _ _ _ _ _ _ _ _ T) as (S1 & S2 & S3).
  assert (RC' : reachable cstep (new_stream n) c') by (eapply re_step; eauto).
  assert (TF' : Forall tfine (c_thr c')).
  { rewrite TH. apply Forall_setnth; [|eapply tstep_fine; eauto; eapply Forall_nth_error; eauto]. destruct w; auto. apply fine_map; auto using wake_fine. }
  assert (DR' : forall q, (q = P4 -> ph = P4) -> q = P4 -> drained n c').
  { intros q Q1 Q2. specialize (DR (Q1 Q2)). destruct DR as [D1 D2 D3 D4 D5 D6]. unfold lenZ in T. rewrite D5 in T.
    destruct (drain_step n i false (c_g c) t g' t' w evs D1 D2 D3 D4 (Forall_nth_error _ _ _ _ D6 Hi) T) as (A1 & A2 & A3 & A4 & A5 & A6).
    constructor; rewrite ?G; auto; rewrite TH.
    - rewrite setnth_length. destruct w; rewrite ?map_length; auto.
    - apply Forall_setnth; auto. destruct w; auto. apply fine_map; auto. intros x. apply (wake_drain n). }
  split.
  { unfold cmeas. rewrite G, S2. destruct (g_quit (c_g c)) eqn:QU.
    - assert (ph = P4) as P4'. { exact (fine_phase ph c F QU). }
      pose proof (DR P4') as [D1 D2 D3 D4 D5 D6]. unfold lenZ in T. rewrite D5 in T.
      destruct (drain_step n i false (c_g c) t g' t' w evs D1 D2 D3 D4 (Forall_nth_error _ _ _ _ D6 Hi) T) as (A1 & A2 & A3 & A4 & A5 & A6).
      rewrite TH. destruct w.
      + rewrite (sumf_setnth _ _ _ _ _ Hi). lia.
      + rewrite (sumf_setnth _ i t' (wake_bar t)) by (rewrite nth_error_map, Hi; reflexivity). rewrite sumf_map.
        assert (X : sumf (fun x => qweight n (wake_bar x)) (c_thr c) <= sumf (fun x => qweight n x + 1) (c_thr c)) by (apply sumf_le; rewrite Forall_forall; intros x _; apply wake_drain).
        rewrite sumf_add, D5 in X. assert (WT : wake_bar t = t). { clear - T. destruct t as [pc lt]. destruct pc as [| |a| |l lo|l lo off|l off m|l off m g1 a|l off|l off|l off ok|a| |g1 a| |err pr|]; try reflexivity; exfalso; unfold tstep in T; destruct a; discriminate T. }
        rewrite WT. lia.
    - assert (PN : ph <> P4) by (intros P4'; rewrite (dn_quit _ _ (DR P4')) in QU; discriminate QU).
      eapply thread_meas; eauto. eapply fine_inv; eauto. }
  destruct (next_event n N1 N2 L ph c i false g' t t' w evs RC SH Hi T) as [-> | [(off & ok & -> & P & V)|(ok & -> & P & SH3)]]; cbn [app] in TR.
  - left. split; auto. split; [|exact US]. constructor; rewrite ?TR, ?M, ?G, ?S1; auto; [destruct S3 as [-> | ->]; lia|apply DR'; auto].
  - right; left. destruct (tstep_events _ _ _ _ _ _ _ _ _ T) as [X|[(l & off' & ok' & X & [Y|Y])|[(ok' & X)|X]]]; try discriminate X; try discriminate Y.
    injection Y as <- <-. pose proof (Forall_nth_error _ _ _ _ TF Hi) as TF0. unfold tfine in TF0. rewrite X in TF0. destruct ok; [|contradiction].
    exists l, off. repeat (split; [auto; fail|]). split; [|exact US]. constructor; rewrite ?TR, ?M, ?G, ?S1; auto.
    + apply next_shape; auto.
    + destruct S3 as [-> | ->]; lia.
    + apply DR'; auto.
  - right; right.
    assert (ok = true) as ->.
    { cbn [cshape] in SH3. destruct SH3 as (op & ok' & SH3 & OC & _). injection SH3 as <- SH3. apply (oc_ok _ _ _ _ OC).
      rewrite SH3 in FA. unfold failures in *. rewrite count_app in FA. cbn [cnt] in FA. lia. }
    split; auto. split; auto. split; [|exact US]. subst ph. constructor; rewrite ?TR, ?M, ?G, ?S1; auto; [destruct S3 as [-> | ->]; lia|apply DR'; discriminate].
Qed.
Lemma fine_spurious ph c i c' : fine ph c -> cstep (ASpurious i) c = Some c' ->
  fine ph c' /\ c_user c' = c_user c /\ c_trace c' = c_trace c /\ cmeas n c' = cmeas n c + 1.
Proof.
  intros F E. pose proof F as [RC SH TF FA CM SZ KE DR]. pose proof (spurious_meas n c i c' E) as SM. assert (RC' : reachable cstep (new_stream n) c') by (eapply re_step; eauto).
  cbn [cstep] in E. destruct (nth_error (c_thr c) i) as [t|] eqn:Hi; [|discriminate E]. destruct (wake_any t) as [t'|] eqn:W; [|discriminate E]. injection E as <-.
  assert (T1 : (tfine t -> tfine t') /\ (tdrain t -> tdrain t') /\ (tdrain t -> qweight n t' = qweight n t + 1)).
  { clear - W. destruct t as [pc lt]. destruct pc as [| |a| |l lo|l lo off|l off m|l off m g1 a|l off|l off|l off ok|a| |g1 a| |err pr|]; try discriminate W; destruct a; try discriminate W; cbn in W; injection W as <-; unfold tfine, tdrain, qweight; cbn [fst wake_trig wake_bar]; intuition lia. }
  destruct T1 as (T1 & T2 & T3). split; [|split; [reflexivity|split; [reflexivity|]]].
  - constructor; cbn [c_trace c_thr c_m c_g]; auto.
    + apply Forall_setnth; auto. apply T1. eapply Forall_nth_error; eauto.
    + intros P. destruct (DR P) as [D1 D2 D3 D4 D5 D6]. constructor; cbn [c_g c_thr]; auto; [now rewrite setnth_length|]. apply Forall_setnth; auto. apply T2. eapply Forall_nth_error; eauto.
  - unfold cmeas. cbn [c_g c_thr]. destruct (g_quit (c_g c)) eqn:QU; [|exact SM].
    assert (ph = P4) as P4'. { exact (fine_phase ph c F QU). }
    destruct (DR P4') as [D1 D2 D3 D4 D5 D6]. rewrite (sumf_setnth _ _ _ _ _ Hi). rewrite T3 by (eapply Forall_nth_error; eauto). lia.
Qed.

(** The calls. *)
Lemma fine_new : fine P0 (new_stream n).
Proof.
  constructor; cbn; auto; try lia.
  - constructor.
  - apply Forall_forall. intros t H. apply repeat_spec in H. subst t. exact Logic.I.
  - discriminate.
Qed.
Lemma fine_start1 c : fine P0 c -> c_user c = UIdle -> exists c', cstep (AStart1 L) c = Some c' /\ fine P1 c' /\ c_user c' = UStarting /\ offsets (c_trace c') = offsets (c_trace c).
Proof.
  intros F U. pose proof F as [RC SH TF FA CM SZ KE DR].
  assert (E : exists c', cstep (AStart1 L) c = Some c' /\ c_trace c' = EStart L 0 :: c_trace c /\ c_user c' = UStarting /\ c_thr c' = c_thr c /\ c_m c' = 0 /\ g_size (c_g c') = L /\ g_k (c_g c') = g_k (c_g c)).
  { cbn [cstep]. rewrite U, CM. destruct (Z.leb_spec 0 L), (Z.leb_spec L (2 ^ 63)); try lia. eexists. repeat split. }
  destruct E as (c' & E & TR & US & TH & M & SI & KI). exists c'. split; auto. rewrite TR. split; [|split; [exact US|reflexivity]].
  constructor; rewrite ?TR, ?TH, ?SI, ?KI; auto; try lia.
  - eapply re_step; eauto.
  - cbn [cshape] in SH. rewrite SH. exists []. repeat split; constructor.
  - discriminate.
Qed.
Lemma fine_start2 c : fine P1 c -> c_user c = UStarting -> exists c', cstep AStart2 c = Some c' /\ fine P1 c' /\ c_user c' = URunning /\ c_trace c' = c_trace c.
Proof.
  intros F U. pose proof F as [RC SH TF FA CM SZ KE DR].
  assert (E : exists c', cstep AStart2 c = Some c' /\ c_trace c' = c_trace c /\ c_user c' = URunning /\ c_thr c' = map wake_trig (c_thr c) /\ c_m c' = c_m c /\ g_size (c_g c') = g_size (c_g c) /\ g_k (c_g c') = g_k (c_g c)).
  { cbn [cstep]. rewrite U. eexists. repeat split. }
  destruct E as (c' & E & TR & US & TH & M & SI & KI). exists c'. split; auto. split; [|auto]. constructor; rewrite ?TR, ?TH, ?SI, ?KI, ?M; auto.
  - eapply re_step; eauto.
  - apply fine_map; auto using wake_fine2.
  - discriminate.
Qed.
Lemma fine_finalize c : fine P1 c -> c_user c = URunning -> exists c', cstep (AFinalize false) c = Some c' /\ fine P2 c' /\ c_user c' = UFinalizing /\ offsets (c_trace c') = offsets (c_trace c).
Proof.
  intros F U. pose proof F as [RC SH TF FA CM SZ KE DR].
  assert (E : exists c', cstep (AFinalize false) c = Some c' /\ c_trace c' = EFinalize false :: c_trace c /\ c_user c' = UFinalizing /\ c_thr c' = map wake_trig (c_thr c) /\ c_m c' = c_m c /\ g_size (c_g c') = g_size (c_g c) /\ g_k (c_g c') = g_k (c_g c)).
  { cbn [cstep]. rewrite U. eexists. repeat split. }
  destruct E as (c' & E & TR & US & TH & M & SI & KI). exists c'. split; auto. rewrite TR. split; [|auto]. constructor; rewrite ?TR, ?TH, ?SI, ?KI, ?M; auto.
  - eapply re_step; eauto.
  - cbn [cshape] in *. destruct SH as (op & -> & FI & FZ). exists (EFinalize false :: op). split; [reflexivity|]. split; [now constructor|]. unfold finalizes, cancels in *. cbn [cnt].
    pose proof (cancels_le op) as X. unfold cancels, finalizes in X. pose proof (cnt_nonneg (fun ev => match ev with EFinalize true => true | _ => false end) op). lia.
  - apply fine_map; auto using wake_fine2.
  - discriminate.
Qed.
Lemma fine_quit1 c : fine P3 c -> c_user c = UIdle -> exists c', cstep AQuit1 c = Some c' /\ fine P4 c' /\ c_user c' = UQuitting /\ offsets (c_trace c') = offsets (c_trace c).
Proof.
  intros F U. pose proof F as [RC SH TF FA CM SZ KE DR]. pose proof (fine_inv P3 c ltac:(discriminate) F) as I.
  assert (ID : idling n c). { destruct I as [ID|R H op tr RU|size op tr EN]; auto; [destruct (ru_user _ _ _ _ _ _ RU) as [(X & _)|(X & _)]; congruence|pose proof (en_user _ _ _ _ _ EN); congruence]. }
  assert (E : exists c', cstep AQuit1 c = Some c' /\ c_trace c' = EQuit :: c_trace c /\ c_user c' = UQuitting /\ c_thr c' = c_thr c /\ c_m c' = c_m c /\ g_size (c_g c') = g_size (c_g c) /\ g_k (c_g c') = g_k (c_g c) /\ g_quit (c_g c') = true /\ g_cur (c_g c') = g_cur (c_g c)).
  { cbn [cstep]. rewrite U. eexists. repeat split. }
  destruct E as (c' & E & TR & US & TH & M & SI & KI & QI & CI). exists c'. split; auto. rewrite TR. split; [|auto]. constructor; rewrite ?TR, ?TH, ?SI, ?KI, ?M; auto.
  - eapply re_step; eauto.
  - cbn [cshape] in *. destruct SH as (op & ok & -> & OC & CA). eauto.
  - intros _. constructor; rewrite ?TH, ?SI, ?KI, ?QI, ?CI; auto.
    + destruct (id_user _ _ ID) as [(_ & X & _)|(X & _)]; congruence.
    + destruct (id_clean _ _ ID) as [-> _]. lia.
    + apply (id_common _ _ ID).
    + eapply Forall_impl; [|exact (id_thr _ _ ID)]. intros [pc lt]. unfold tidle, tdrain. cbn [fst]. destruct pc; tauto.
Qed.
Lemma fine_quit2 c : fine P4 c -> c_user c = UQuitting -> exists c', cstep AQuit2 c = Some c' /\ fine P4 c' /\ c_user c' = UGone /\ c_trace c' = c_trace c.
Proof.
  intros F U. pose proof F as [RC SH TF FA CM SZ KE DR]. destruct (DR eq_refl) as [D1 D2 D3 D4 D5 D6].
  assert (E : exists c', cstep AQuit2 c = Some c' /\ c_trace c' = c_trace c /\ c_user c' = UGone /\ c_thr c' = map wake_bar (map wake_trig (c_thr c)) /\ c_m c' = c_m c /\ g_size (c_g c') = g_size (c_g c) /\ g_k (c_g c') = g_k (c_g c) /\ g_quit (c_g c') = g_quit (c_g c) /\ g_cur (c_g c') = BIG).
  { cbn [cstep]. rewrite U. eexists. repeat split. }
  destruct E as (c' & E & TR & US & TH & M & SI & KI & QI & CI). exists c'. split; auto. split; [|auto]. constructor; rewrite ?TR, ?TH, ?SI, ?KI, ?M; auto.
  - eapply re_step; eauto.
  - repeat apply fine_map; auto using wake_fine, wake_fine2.
  - intros _. constructor; rewrite ?TH, ?SI, ?KI, ?QI, ?CI; auto.
    + unfold BIG. lia.
    + now rewrite !map_length.
    + repeat apply fine_map; auto using wake_drain2. intros t. apply (wake_drain n).
Qed.

(** Some thread can take a step, or all are stuck. *)
Lemma thread_or_stuck c : stuck c \/ exists i t r, nth_error (c_thr c) i = Some t /\ tstep (lenZ (c_thr c)) i false (c_g c) t = Some r.
Proof.
  assert (X : (forall i t, nth_error (c_thr c) i = Some t -> tstep (lenZ (c_thr c)) i false (c_g c) t = None) \/ exists i t r, nth_error (c_thr c) i = Some t /\ tstep (lenZ (c_thr c)) i false (c_g c) t = Some r).
  { assert (Y : forall l k, (forall i t, nth_error l i = Some t -> tstep (lenZ (c_thr c)) (k + i) false (c_g c) t = None) \/ exists i t r, nth_error l i = Some t /\ tstep (lenZ (c_thr c)) (k + i) false (c_g c) t = Some r).
    { induction l as [|t l IH]; intros k; [left; intros [|]; discriminate|].
      destruct (tstep (lenZ (c_thr c)) k false (c_g c) t) as [r|] eqn:E; [right; exists 0%nat, t, r; rewrite Nat.add_0_r; auto|].
      destruct (IH (Datatypes.S k)) as [A|(i & t' & r & A & B)].
      - left. intros [|i] t0 H; [injection H as <-; now rewrite Nat.add_0_r|]. rewrite Nat.add_succ_r. apply (A i t0 H).
      - right. exists (Datatypes.S i), t', r. rewrite Nat.add_succ_r. auto. }
    exact (Y (c_thr c) 0%nat). }
  destruct X as [X|X]; [left|right; exact X]. intros i fail. cbn [cstep]. destruct (nth_error (c_thr c) i) as [t|] eqn:Hi; [|reflexivity]. specialize (X i t Hi).
  assert (Y : tstep (lenZ (c_thr c)) i fail (c_g c) t = None).
  { destruct t as [pc lt]. destruct pc; try exact X; discriminate X. }
  now rewrite Y.
Qed.
End Fine.
