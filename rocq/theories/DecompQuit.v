(** The decompression stream while it is being destroyed. *)
From Coq Require Import ZArith List Bool Lia.
From Verif Require Import CBase BitsLemmas ConcLib BarrierModel SpecSync BarrierProofs DecompStreamModel SpecDStream DecompInv DecompStep DecompMain.
Import ListNotations.
Open Scope Z_scope.

Definition dasleep (t : dthread) : bool := match fst t with DTrig a | DQueue a | DBar _ a => a | _ => false end.
Definition iscb (t : dthread) : bool := match fst t with DCallback _ _ => true | _ => false end.
Definition isdone (ev : devent) : bool := match ev with VDone _ => true | _ => false end.
Definition cb_is (err : bool) (t : dthread) : Prop := match fst t with DCallback e p => e = err /\ p = true | _ => True end.
Definition dlast (ptr : Z) (ev : devent) : Prop := match ev with VHandled p _ _ => p = ptr | VDone _ => True | _ => False end.
Record dquitting (n : nat) (s : dstate) (op newer older : list devent) : Prop := {
  q_len : length (d_thr s) = n;
  q_quit : h_quit (d_g s) = true;
  q_user : d_user s = VQuitting \/ (d_user s = VGone /\ b_intr (h_bar (d_g s)) = true /\ Forall (fun t => dasleep t = false) (d_thr s));
  q_trace : d_trace s = newer ++ VQuit :: older;
  q_late : Forall (dlast (h_ptr (d_g s))) newer;
  q_bal : forall b, handled b newer + handled b op + cnt (busy b) (d_thr s) <= accepted b op;
  q_done : (cnt isdone newer = 0 /\ cnt iscb (d_thr s) = 0) \/
    (op = [] /\ newer = [] /\ cnt iscb (d_thr s) = 1 /\ exists err, Forall (cb_is err) (d_thr s) /\ dclosed (VDone (negb err) :: older)) \/
    (op = [] /\ cnt iscb (d_thr s) = 0 /\ exists ok, newer = [VDone ok] /\ dclosed (VDone ok :: older)) }.

Lemma dcnt_app {A} p (a b : list A) : cnt p (a ++ b) = cnt p a + cnt p b.
Proof. induction a as [|x a IH]; cbn [app cnt]; lia. Qed.
(** A step of one thread, with the notifications it may send. *)
Lemma quit_upd n s op newer older i t t' g' w evs : dquitting n s op newer older -> nth_error (d_thr s) i = Some t ->
  h_quit g' = true -> h_ptr g' = h_ptr (d_g s) -> b_intr (h_bar g') = b_intr (h_bar (d_g s)) ->
  (d_user s = VGone -> dasleep t' = false) -> iscb t' = false ->
  Forall (dlast (h_ptr (d_g s))) evs ->
  (forall b, handled b evs - bz (busy b t) + bz (busy b t') <= 0) ->
  (iscb t = false -> cnt isdone evs = 0 /\ (evs = [] \/ exists p b ok, evs = [VHandled p b ok])) ->
  (forall err, iscb t = true -> cb_is err t -> evs = [VDone (negb err)]) ->
  dquitting n (mkD g' (setnth i t' (if w : bool then map dwake_bar (d_thr s) else d_thr s)) (d_user s) (evs ++ d_trace s)) op (evs ++ newer) older.
Proof.
  intros [QL QQ QU QT QA QB QD] Hi S1 S2 S3 AS NC LT BB EV EC.
  set (thr1 := if w then map dwake_bar (d_thr s) else d_thr s).
  assert (Hi1 : exists t1, nth_error thr1 i = Some t1 /\ iscb t1 = iscb t /\ forall b, busy b t1 = busy b t).
  { unfold thr1. destruct w; [|exists t; auto]. exists (dwake_bar t). rewrite nth_error_map, Hi. split; [reflexivity|]. destruct t as [[] ?]; auto. }
  destruct Hi1 as (t1 & Hi1 & C1 & B1).
  assert (CB : cnt iscb thr1 = cnt iscb (d_thr s)).
  { unfold thr1. destruct w; [|reflexivity]. rewrite cnt_map. apply cnt_ext. rewrite Forall_forall. intros [[] ?] _; reflexivity. }
  assert (BZ : forall b, cnt (busy b) thr1 = cnt (busy b) (d_thr s)).
  { intros b. unfold thr1. destruct w; [|reflexivity]. rewrite cnt_map. apply cnt_ext. rewrite Forall_forall. intros [[] ?] _; reflexivity. }
  assert (CT : cnt iscb (setnth i t' thr1) = cnt iscb (d_thr s) - bz (iscb t)).
  { rewrite (cnt_setnth _ _ _ _ _ Hi1), CB, C1, NC. unfold bz. lia. }
  assert (B0 : op = [] -> forall b, handled b evs = 0).
  { intros -> b. specialize (QB b). specialize (BB b). cbn [app] in QB. change (accepted b []) with 0 in QB. change (handled b []) with 0 in QB.
    pose proof (handled_nonneg b newer). pose proof (handled_nonneg b evs).
    assert (cnt (busy b) (d_thr s) = 0) by (pose proof (cnt_nonneg (busy b) (d_thr s)); lia).
    assert (busy b t = false). { destruct (busy b t) eqn:X; auto. pose proof (cnt_one_le (busy b) (d_thr s) i t Hi X). lia. }
    rewrite H2 in BB. unfold bz in BB. destruct (busy b t'); lia. }
  assert (E0 : op = [] -> iscb t = false -> evs = []).
  { intros O C. destruct (EV C) as [_ [X|(p & b & ok & X)]]; [exact X|]. exfalso. specialize (B0 O b). rewrite X in B0. unfold handled in B0. cbn [cnt] in B0. rewrite Z.eqb_refl in B0. lia. }
  assert (FC : forall err, Forall (cb_is err) (d_thr s) -> Forall (cb_is err) (setnth i t' thr1)).
  { intros err F. apply Forall_setnth.
    - unfold thr1. destruct w; [|exact F]. rewrite Forall_map. eapply Forall_impl; [|exact F]. intros [[] ?]; auto.
    - clear - NC. destruct t' as [[] ?]; try exact Logic.I. discriminate NC. }
  constructor; cbn [d_g d_thr d_user d_trace]; auto.
  - rewrite setnth_length. unfold thr1. destruct w; rewrite ?map_length; exact QL.
  - destruct QU as [QU|(U & B & AL)]; [left; exact QU|right]. split; [exact U|]. split; [now rewrite S3|]. apply Forall_setnth; auto.
    unfold thr1. destruct w; [|exact AL]. rewrite Forall_map. eapply Forall_impl; [|exact AL]. intros [[] ?]; auto.
  - rewrite QT, app_assoc. reflexivity.
  - rewrite S2. apply Forall_app. auto.
  - intros b. rewrite (cnt_setnth _ _ _ _ _ Hi1), BZ, B1. specialize (QB b). specialize (BB b). unfold bz in BB.
    assert (X : handled b (evs ++ newer) = handled b evs + handled b newer) by apply dcnt_app. rewrite X. lia.
  - rewrite CT. destruct QD as [(D1 & D2)|[(O & -> & D2 & err & F & C)|(O & D2 & ok & -> & C)]].
    + assert (C0 : iscb t = false). { destruct (iscb t) eqn:X; auto. pose proof (cnt_one_le iscb (d_thr s) i t Hi X). lia. }
      destruct (EV C0) as [X _]. left. rewrite dcnt_app, C0. cbn [bz]. lia.
    + destruct (iscb t) eqn:C0.
      * right; right. pose proof (Forall_nth_error _ _ _ _ F Hi) as X. specialize (EC err eq_refl X). subst evs. split; [exact O|]. split; [cbn [bz]; lia|]. exists (negb err). auto.
      * right; left. rewrite (E0 O eq_refl). split; [exact O|]. split; [reflexivity|]. split; [cbn [bz]; lia|]. exists err. auto.
    + assert (C0 : iscb t = false). { destruct (iscb t) eqn:X; auto. pose proof (cnt_one_le iscb (d_thr s) i t Hi X). lia. }
      right; right. rewrite (E0 O C0), C0. split; [exact O|]. split; [cbn [bz]; lia|]. exists ok. auto.
Qed.

Lemma quit_thread n s op newer older i fail s' : dquitting n s op newer older -> dstep (BThread i fail) s = Some s' ->
  exists evs, dquitting n s' op (evs ++ newer) older.
Proof.
  intros QI E. pose proof QI as [QL QQ QU QT QA QB QD].
  cbn [dstep] in E. destruct (nth_error (d_thr s) i) as [t|] eqn:Hi; [|discriminate E].
  assert (IT : d_user s = VGone -> b_intr (h_bar (d_g s)) = true) by (destruct QU as [U|(U & B & _)]; congruence).
  assert (PR : iscb t = true -> exists err, cb_is err t).
  { intros C. destruct QD as [(_ & D2)|[(_ & _ & _ & err & F & _)|(_ & D2 & _)]]; try (pose proof (cnt_one_le iscb (d_thr s) i t Hi C); lia).
    exists err. exact (Forall_nth_error _ _ _ _ F Hi). }
  destruct (dtstep (lenZ (d_thr s)) i fail (d_g s) t) as [[[[g' t'] w] evs]|] eqn:T; [|discriminate E]. apply dSome_inj in E. subst s'.
  exists evs.
  match goal with |- dquitting n (mkD _ _ ?u _) _ _ _ => assert (X : u = d_user s) by (destruct QU as [-> |(-> & _)]; destruct evs as [|[] []]; reflexivity); rewrite X; clear X end.
  destruct t as [pc lt]. unfold dtstep in T.
  destruct pc as [| |[]|[]|b|b| |g1 []| |err pr|]; cbv beta iota zeta in T; rewrite ?QQ, ?orb_true_r in T; try discriminate T.
  Local Ltac loc := match goal with Q : dquitting ?n ?s ?op ?newer ?older, H : nth_error _ ?i = Some ?t |- _ => first [eapply (quit_upd n s op newer older i t _ _ false) | eapply (quit_upd n s op newer older i t _ _ true)] end; eauto; try (intros; reflexivity); try (intros; cbn; lia); try (intros ? X; discriminate X).
  - injection T as <- <- <- <-. loc; auto.
  - injection T as <- <- <- <-. loc; auto.
  - injection T as <- <- <- <-. loc; auto.
  - assert (X : (g', t', w, evs) = (d_g s, (DArrive, lt), false, [])) by (destruct (h_queue (d_g s)); congruence). injection X as -> -> -> ->. loc; auto.
  - destruct fail; injection T as <- <- <- <-; loc; auto.
    + repeat constructor.
    + intros b'. unfold handled. cbn [cnt]. unfold bz, busy. cbn [fst]. lia.
    + intros _. split; [reflexivity|]. right. eauto.
  - injection T as <- <- <- <-. loc; auto.
    + repeat constructor.
    + intros b'. unfold handled. cbn [cnt]. unfold bz, busy. cbn [fst]. lia.
    + intros _. split; [reflexivity|]. right. eauto.
  - unfold bar_arrive in T. cbv zeta in T. destruct (_ =? _).
    + injection T as <- <- <- <-. loc; auto; destruct i; auto; intros; cbn; lia.
    + injection T as <- <- <- <-. unfold bar_pass. cbn [b_gen b_intr]. rewrite Z.eqb_refl. cbn [negb orb].
      loc; auto.
      * intros U. rewrite (IT U). destruct i; reflexivity.
      * destruct (b_intr _); [destruct i|]; reflexivity.
      * intros b. destruct (b_intr _); [destruct i|]; cbn; lia.
  - injection T as <- <- <- <-. loc; auto.
    + intros U. unfold bar_pass. rewrite (IT U), orb_true_r. destruct i; reflexivity.
    + destruct (bar_pass _ _); [destruct i|]; reflexivity.
    + intros b. destruct (bar_pass _ _); [destruct i|]; cbn; lia.
  - injection T as <- <- <- <-. loc; auto.
  - injection T as <- <- <- <-. destruct (PR eq_refl) as (e & -> & ->). loc.
    + repeat constructor.
    + intros X. discriminate X.
    + intros err' _ [-> _]. reflexivity.
Qed.

Definition ddying (n : nat) (s : dstate) : Prop :=
  exists op newer older, dquitting n s op newer older /\ dhistory older /\
    ((exists tr, older = op ++ VStart (h_ptr (d_g s)) :: tr /\ Forall dmid op) \/ op = []).

Lemma ddying_step n a s s' : ddying n s -> dstep a s = Some s' -> ddying n s'.
Proof.
  intros (op & newer & older & QI & HI & RE) E. pose proof QI as [QL QQ QU QT QA QB QD].
  destruct a as [i fail|i|ptr| |b j|c| |].
  - destruct (quit_thread n s op newer older i fail s' QI E) as (evs & Q'). exists op, (evs ++ newer), older. split; [exact Q'|]. split; [exact HI|].
    enough (X : h_ptr (d_g s') = h_ptr (d_g s)) by (rewrite X; exact RE).
    cbn [dstep] in E. destruct (nth_error (d_thr s) i) as [t|]; [|discriminate E].
    destruct (dtstep (lenZ (d_thr s)) i fail (d_g s) t) as [[[[g' t'] w] ev]|] eqn:T; [|discriminate E].
    apply dSome_inj in E. subst s'. cbn [d_g]. exact (proj2 (dtstep_trig _ _ _ _ _ _ _ _ _ T)).
  - cbn [dstep] in E. destruct (nth_error (d_thr s) i) as [t|] eqn:Hi; [|discriminate E]. destruct (dwake_any t) as [t'|] eqn:W; [|discriminate E]. apply dSome_inj in E. subst s'.
    exists op, newer, older. split; [|auto].
    assert (X : dquitting n (mkD (d_g s) (setnth i t' (if false then map dwake_bar (d_thr s) else d_thr s)) (d_user s) ([] ++ d_trace s)) op ([] ++ newer) older); [|exact X].
    destruct t as [pc lt]. destruct pc as [| |[]|[]|b|b| |g1 []| |err pr|]; try discriminate W; cbn in W; apply dSome_inj in W; subst t'; (eapply (quit_upd n s op newer older i _ _ _ false); eauto; try (intros; reflexivity); try (intros; cbn; lia); try (intros ? X; discriminate X); auto).
  - cbn [dstep] in E. destruct QU as [U|(U & _)]; rewrite U in E; discriminate E.
  - cbn [dstep] in E. destruct QU as [U|(U & _)]; rewrite U in E; discriminate E.
  - cbn [dstep] in E. destruct QU as [U|(U & _)]; rewrite U in E; discriminate E.
  - cbn [dstep] in E. destruct QU as [U|(U & _)]; rewrite U in E; discriminate E.
  - cbn [dstep] in E. destruct QU as [U|(U & _)]; rewrite U in E; discriminate E.
  - cbn [dstep] in E. destruct QU as [U|(U & _)]; rewrite U in E; [|discriminate E]. apply dSome_inj in E. subst s'.
    set (f := fun t => dwake_bar (dwake_queue (dwake_trig t))).
    assert (M : map dwake_bar (map dwake_queue (map dwake_trig (d_thr s))) = map f (d_thr s)) by (rewrite !map_map; reflexivity). rewrite M.
    assert (CB : cnt iscb (map f (d_thr s)) = cnt iscb (d_thr s)) by (rewrite cnt_map; apply cnt_ext; rewrite Forall_forall; intros [[] ?] _; reflexivity).
    exists op, newer, older. split; [|auto]. constructor; cbn [d_g d_thr d_user d_trace set_hbar h_quit h_bar h_ptr bar_interrupt b_intr]; auto.
    + now rewrite map_length.
    + right. split; [reflexivity|]. split; [reflexivity|]. rewrite Forall_map, Forall_forall. intros [[] ?] _; reflexivity.
    + intros b. rewrite cnt_map. specialize (QB b). rewrite (cnt_ext _ (busy b)); [exact QB|]. rewrite Forall_forall. intros [[] ?] _; reflexivity.
    + rewrite CB. destruct QD as [D|[(O & N & D2 & err & F & C)|D]]; [left; exact D|right; left|right; right; exact D].
      split; [exact O|]. split; [exact N|]. split; [exact D2|]. exists err. split; [|exact C]. rewrite Forall_map. eapply Forall_impl; [|exact F]. intros [[] ?]; auto.
Qed.
Lemma ddying_start n s s' : dinv n s -> dstep BQuit1 s = Some s' -> ddying n s'.
Proof.
  intros I E. pose proof (inv_history n s I) as HI. cbn [dstep] in E.
  assert (X : s' = mkD (mkH (h_trigger (d_g s)) (h_ptr (d_g s)) (h_queue (d_g s)) (h_error (d_g s)) (h_fin (d_g s)) (h_fcb (d_g s)) (h_bar (d_g s)) true) (d_thr s) VQuitting (VQuit :: d_trace s)).
  { destruct (d_user s); try discriminate E; apply dSome_inj in E; auto. }
  clear E. destruct I as [ID|op tr RU|op tr EN].
  - pose proof ID as [CO TH ZE CL US]. pose proof CO as [L G CN CL2 IT Q TG].
    exists [], [], (d_trace s). subst s'. split; [|split; [exact HI|right; reflexivity]].
    constructor; cbn [d_g d_thr d_user d_trace h_quit]; auto.
    + intros b. rewrite cnt_zero; [cbn; lia|]. eapply Forall_impl; [|exact TH]. intros [[] ?] T; cbn in *; try contradiction; reflexivity.
    + left. split; [reflexivity|]. apply cnt_zero. eapply Forall_impl; [|exact TH]. intros [[] ?] T; cbn in *; try contradiction; reflexivity.
  - pose proof RU as [CO TR CL TH LE EQ ER US FC SF ZE WO SH]. pose proof CO as [L G CN CL2 IT Q TG].
    exists op, [], (d_trace s). subst s'. split; [|split; [exact HI|left; exists tr; split; [exact TR|eapply inner_mid, (ds_inner _ _ SF)]]].
    constructor; cbn [d_g d_thr d_user d_trace h_quit]; auto.
    + intros b. specialize (LE b). pose proof (queued_nonneg b (h_queue (d_g s))). change (handled b []) with 0. lia.
    + left. split; [reflexivity|]. apply cnt_zero. eapply Forall_impl; [|exact TH]. intros [[] ?] T; cbn in *; try contradiction; reflexivity.
  - pose proof EN as [CO TR CL US TH OP LE]. pose proof CO as [L G CN CL2 IT Q TG].
    exists [], [], (d_trace s). subst s'. split; [|split; [exact HI|right; reflexivity]].
    constructor; cbn [d_g d_thr d_user d_trace h_quit]; auto.
    + intros b. rewrite cnt_zero; [cbn; lia|]. apply nth_error_forall. intros k t Hk. destruct (TH k t Hk) as [_ T]. destruct t as [[] ?]; cbn [fst] in T; try contradiction; reflexivity.
    + destruct (d_thr s) as [|t0 thr] eqn:ET; [destruct LE|].
      assert (Z0 : cnt iscb thr = 0).
      { apply cnt_zero. apply nth_error_forall. intros k t Hk. destruct (TH (S k) t Hk) as [_ T]. clear - T. destruct t as [[] ?]; try reflexivity. cbn [fst] in T. destruct T as (X & _). discriminate X. }
      cbn [cnt]. rewrite Z0. destruct (iscb t0) eqn:I0; [|left; auto]. right; left. destruct (TH 0%nat t0 eq_refl) as [_ T]. destruct t0 as [[] lt0]; try discriminate I0. cbn [fst] in T. destruct T as (_ & -> & ->).
      split; [reflexivity|]. split; [reflexivity|]. split; [reflexivity|]. exists (0 <? dfailures op). split.
      * constructor; [split; reflexivity|]. apply nth_error_forall. intros k t Hk. destruct (TH (S k) t Hk) as [_ T]. clear - T. destruct t as [[] ?]; try exact Logic.I. cbn [fst] in T. destruct T as (X & _). discriminate X.
      * rewrite TR. apply dcl_op; auto.
Qed.
Theorem reach_all n s : (1 <= n)%nat -> reachable dstep (new_dstream n) s -> (h_quit (d_g s) = false /\ dinv n s) \/ ddying n s.
Proof.
  intros N1 H. induction H as [|a s s' H IH E].
  - left. split; [reflexivity|now apply new_inv].
  - destruct IH as [[Q I]|D]; [|right; eapply ddying_step; eauto].
    destruct (h_quit (d_g s')) eqn:Q'; [|left; split; [reflexivity|eapply step_inv; eauto]].
    right. assert (X : a = BQuit1 \/ a <> BQuit1) by (destruct a; auto; right; discriminate).
    destruct X as [-> |X]; [eapply ddying_start; eauto|]. rewrite (quit_step a s s' E X) in Q'. congruence.
Qed.

(** ** The destructor terminates *)
Definition dqrank (t : dthread) : Z :=
  match fst t with
  | DExit => 0 | DLoop => 1 | DStart | DCallback _ _ | DReset => 2 | DBar _ _ => 3 | DArrive => 4 | DQueue _ => 5 | DTrig _ | DFail _ => 6 | DHandle _ => 7
  end.
Lemma dqrank_range t : 0 <= dqrank t <= 7.
Proof. destruct t as [[] ?]; cbn; lia. Qed.
Lemma gone_step n s i fail s' : ddying n s -> d_user s = VGone -> dstep (BThread i fail) s = Some s' -> d_user s' = VGone /\ sumf dqrank (d_thr s') + 1 <= sumf dqrank (d_thr s).
Proof.
  intros (op & newer & older & QI & _) U E. pose proof QI as [QL QQ QU QT QA QB QD].
  destruct QU as [X|(_ & IT & AL)]; [congruence|].
  cbn [dstep] in E. destruct (nth_error (d_thr s) i) as [t|] eqn:Hi; [|discriminate E].
  pose proof (Forall_nth_error _ _ _ _ AL Hi) as Ai.
  destruct (dtstep (lenZ (d_thr s)) i fail (d_g s) t) as [[[[g' t'] w] evs]|] eqn:T; [|discriminate E]. apply dSome_inj in E. subst s'. cbn [d_user d_thr].
  split; [rewrite U; destruct evs as [|[] [|]]; reflexivity|].
  assert (W : sumf dqrank (setnth i t' (if w then map dwake_bar (d_thr s) else d_thr s)) = sumf dqrank (d_thr s) - dqrank t + dqrank t').
  { destruct w; [|apply (sumf_setnth _ _ _ _ _ Hi)]. rewrite (sumf_setnth _ i t' (dwake_bar t)) by (rewrite nth_error_map, Hi; reflexivity). rewrite sumf_map.
    assert (Y : forall x, dqrank (dwake_bar x) = dqrank x) by (intros [[] ?]; reflexivity).
    assert (X : forall l, sumf (fun x => dqrank (dwake_bar x)) l = sumf dqrank l) by (induction l as [|x l IH]; cbn [sumf]; rewrite ?Y; lia). rewrite X, Y. reflexivity. }
  rewrite W. enough (dqrank t' + 1 <= dqrank t) by lia. clear W.
  assert (BP : forall b g1, b_intr b = true -> bar_pass b g1 = true) by (intros b g1 X; unfold bar_pass; rewrite X; apply orb_true_r).
  destruct t as [pc lt]. unfold dtstep in T.
  destruct pc as [| |[]|[]|b|b| |g1 []| |err pr|]; cbv beta iota zeta in T; rewrite ?QQ, ?orb_true_r in T; try discriminate T; try discriminate Ai.
  - injection T as _ <- _ _. cbn. lia.
  - injection T as _ <- _ _. cbn. lia.
  - injection T as _ <- _ _. cbn. lia.
  - destruct (h_queue (d_g s)); injection T as _ <- _ _; cbn; lia.
  - destruct fail; injection T as _ <- _ _; cbn; lia.
  - injection T as _ <- _ _. cbn. lia.
  - unfold bar_arrive in T. cbv zeta in T. destruct (_ =? _); injection T as _ <- _ _; [destruct i; cbn; lia|]. rewrite BP by exact IT. destruct i; cbn; lia.
  - injection T as _ <- _ _. rewrite BP by exact IT. destruct i; cbn; lia.
  - injection T as _ <- _ _. cbn. lia.
  - injection T as _ <- _ _. cbn. lia.
Qed.
Lemma gone_progress n s i t fail : ddying n s -> d_user s = VGone -> nth_error (d_thr s) i = Some t -> fst t <> DExit -> exists s', dstep (BThread i fail) s = Some s'.
Proof.
  intros (op & newer & older & QI & _) U Hi NE. pose proof QI as [QL QQ QU QT QA QB QD].
  destruct QU as [X|(_ & IT & AL)]; [congruence|]. pose proof (Forall_nth_error _ _ _ _ AL Hi) as Ai.
  cbn [dstep]. rewrite Hi. destruct (dtstep (lenZ (d_thr s)) i fail (d_g s) t) as [[[[g' t'] w] evs]|] eqn:T; [eauto|]. exfalso.
  destruct t as [pc lt]. unfold dtstep in T. unfold dasleep in Ai. cbn [fst] in *.
  destruct pc as [| |[]|[]|b|b| |g1 []| |err pr|]; try discriminate Ai; try discriminate T; try contradiction.
  all: repeat match type of T with
    | (if ?c then _ else _) = _ => destruct c
    | context [bar_arrive ?a ?b] => unfold bar_arrive in T; cbv zeta in T
    | (let '(_, _) := if ?c then _ else _ in _) = _ => destruct c
    | match ?q with [] => _ | _ :: _ => _ end = _ => destruct q
    | _ => discriminate T
    end.
Qed.
Lemma gone_bound n l : forall s s', ddying n s -> d_user s = VGone -> run dstep l s = Some s' ->
  ddying n s' /\ d_user s' = VGone /\ lenZ l + sumf dqrank (d_thr s') <= sumf dqrank (d_thr s).
Proof.
  induction l as [|a l IH]; intros s s' D U E; cbn [run] in E.
  - injection E as <-. split; [exact D|]. split; [exact U|]. unfold lenZ. cbn [length]. lia.
  - destruct (dstep a s) as [s1|] eqn:E1; [|discriminate E]. pose proof (ddying_step n a s s1 D E1) as D1.
    assert (A : exists i fail, a = BThread i fail).
    { destruct a as [i fail|i|ptr| |b j|c| |]; eauto; exfalso; cbn [dstep] in E1; try (rewrite U in E1; discriminate E1).
      destruct D as (op & newer & older & QI & _). destruct (q_user _ _ _ _ _ QI) as [X|(_ & _ & AL)]; [congruence|].
      destruct (nth_error (d_thr s) i) as [t|] eqn:Hi; [|discriminate E1]. pose proof (Forall_nth_error _ _ _ _ AL Hi) as Ai.
      destruct t as [pc lt]. destruct pc as [| |[]|[]|b|b| |g1 []| |err pr|]; try discriminate E1; discriminate Ai. }
    destruct A as (i & fail & ->). destruct (gone_step n s i fail s1 D U E1) as [U1 R1]. destruct (IH s1 s' D1 U1 E) as (X & Y & Z). split; [exact X|]. split; [exact Y|].
    unfold lenZ in *. cbn [length]. lia.
Qed.
