(** Data races of the two streams. *)
From Coq Require Import ZArith List Bool Lia.
From Verif Require Import CBase BitsLemmas ConcLib BarrierModel SpecSync BarrierProofs StreamBlockModel CompStreamModel SpecStream.
From Verif Require CompInv CompQuit CompCases.
From Verif Require Import DecompStreamModel SpecDStream.
From Verif Require DecompInv DecompMain DecompQuit.
From Verif Require Import SpecRace StreamAccessModel.
Import ListNotations.
Open Scope Z_scope.

(** ** The accesses are those of the model *)
Ltac wfind := first [left; reflexivity | right; wfind].
Ltac wnow := match goal with
  | H : ~ writes ?l ?accs |- _ => exfalso; apply H; refine (ex_intro _ (mkAcc l true _) _); split; [wfind|split; reflexivity]
  end.

Ltac cases E := repeat match type of E with
  | (let '(_, _) := ?x in _) = _ => destruct x as [? ?]
  | match ?x with _ => _ end = _ => destruct x eqn:?
  end; try discriminate E.
Ltac inj4 E := injection E as <- <- <- <-.

Lemma c_writes n i fail g t g' t' w evs : tstep n i fail g t = Some (g', t', w, evs) ->
  forall l, ~ writes l (thread_accesses g (fst t)) -> same_c l g g'.
Proof.
  destruct t as [pc lt]. intros E l N. destruct pc; cbn [tstep fst thread_accesses] in *; cases E; inj4 E; destruct l;
  try solve [exact Logic.I|reflexivity|assumption|wnow].
Qed.
Lemma d_writes n i fail g t g' t' w evs : dtstep n i fail g t = Some (g', t', w, evs) ->
  forall l, ~ writes l (dthread_accesses g (fst t)) -> same_d l g g'.
Proof.
  destruct t as [pc lt]. intros E l N. destruct pc; cbn [dtstep fst dthread_accesses] in *; cases E; inj4 E; destruct l;
  try solve [exact Logic.I|reflexivity|assumption|wnow].
Qed.

(** The result depends on what is read only. *)
Ltac rdall H := unfold reads_same in H; repeat match goal with
  | H : Forall _ (_ :: _) |- _ => apply Forall_cons_iff in H; destruct H as [? H]
  | H : Forall _ [] |- _ => clear H
  end; cbn [rd wt wr at_ same_c same_d g_trigger g_size g_cb g_cur g_error g_fin g_fcb g_bar g_quit g_k h_trigger h_ptr h_queue h_error h_fin h_fcb h_bar h_quit] in *;
  repeat match goal with H : false = false -> _ |- _ => specialize (H eq_refl) | H : true = false -> _ |- _ => clear H end; subst.
Ltac goal_cases E := repeat match type of E with
  | (let '(_, _) := ?x in _) = _ => destruct x as [? ?]
  | match ?x with _ => _ end = _ => destruct x
  end; try discriminate E.

Lemma c_reads n i fail g t g' t' w evs h : tstep n i fail g t = Some (g', t', w, evs) ->
  reads_same same_c (thread_accesses g (fst t)) g h ->
  exists h', tstep n i fail h t = Some (h', t', w, evs) /\ writes_same same_c (thread_accesses g (fst t)) g' h'.
Proof.
  destruct t as [pc lt], g as [x1 x2 x3 x4 x5 x6 x7 x8 x9 x10], h as [y1 y2 y3 y4 y5 y6 y7 y8 y9 y10]. intros E R. destruct pc; cbn [tstep fst thread_accesses] in *;
  repeat match goal with
  | m : Z |- context [if ?m =? 0 then _ else _] => destruct (m =? 0)
  | a : bool |- context [match ?a with true => _ | false => _ end] => is_var a; destruct a end; try discriminate E;
  try (destruct x9; cbn [g_quit] in R);
  rdall R; unfold num_epochs, set_cur, set_bar in *;
  cbn [g_trigger g_size g_cb g_cur g_error g_fin g_fcb g_bar g_quit g_k] in *; goal_cases E; inj4 E; eexists; (split; [reflexivity|]);
  unfold writes_same; repeat constructor; intros; try discriminate; reflexivity.
Qed.
Lemma d_reads n i fail g t g' t' w evs h : dtstep n i fail g t = Some (g', t', w, evs) ->
  reads_same same_d (dthread_accesses g (fst t)) g h ->
  exists h', dtstep n i fail h t = Some (h', t', w, evs) /\ writes_same same_d (dthread_accesses g (fst t)) g' h'.
Proof.
  destruct t as [pc lt], g as [x1 x2 x3 x4 x5 x6 x7 x8], h as [y1 y2 y3 y4 y5 y6 y7 y8]. intros E R. destruct pc; cbn [dtstep fst dthread_accesses] in *;
  repeat match goal with
  | a : bool |- context [match ?a with true => _ | false => _ end] => is_var a; destruct a end; try discriminate E;
  try (destruct x8; cbn [h_quit] in R);
  rdall R; unfold set_hbar, set_queue in *;
  cbn [h_trigger h_ptr h_queue h_error h_fin h_fcb h_bar h_quit] in *; goal_cases E; inj4 E; eexists; (split; [reflexivity|]);
  unfold writes_same; repeat constructor; intros; try discriminate; reflexivity.
Qed.
(** Calls of the user. *)
Lemma c_call_writes a s s' : cstep a s = Some s' -> match a with AThread _ _ => False | _ => True end ->
  forall l, ~ writes l (call_accesses a) -> same_c l (c_g s) (c_g s').
Proof.
  intros E NT l N. destruct a; try contradiction; cbn [cstep call_accesses] in *; cases E; injection E as <-; destruct l; cbn [c_g];
  try solve [exact Logic.I|reflexivity|assumption|wnow].
Qed.
Lemma d_call_writes a s s' : dstep a s = Some s' -> match a with BThread _ _ => False | _ => True end ->
  forall l, ~ writes l (dcall_accesses a) -> same_d l (d_g s) (d_g s').
Proof.
  intros E NT l N. destruct a; try contradiction; cbn [dstep dcall_accesses] in *; cases E; injection E as <-; destruct l; cbn [d_g];
  try solve [exact Logic.I|reflexivity|assumption|wnow].
Qed.

(** ** Races of the compression stream *)
(** The guard of each variable. *)
Definition cguard (l : cloc) : guard := match l with KCur => MAtomic | KBar => MBarrier | _ => MStream end.
Definition kept {L} (gd : L -> guard) (a : access L) : Prop := In (gd (at_ a)) (held a).
Lemma kept_no_conflict {L} (gd : L -> guard) (a b : access L) : kept gd a -> kept gd b -> conflict a b -> False.
Proof. unfold kept. intros A B (E & _ & H). apply (H (gd (at_ a))); [exact A|]. rewrite E. exact B. Qed.
Lemma conflict_sym {L} (a b : access L) : conflict a b -> conflict b a.
Proof. intros (E & W & H). split; [now symmetry|]. split; [tauto|]. intros m X Y. exact (H m Y X). Qed.

(** Accesses without the guard. *)
Definition cbare (pc : cpc) (l : cloc) : Prop :=
  match pc, l with
  | CLoop, KQuit | CInit, KSize | CEpoch _ _ _, KEpoch | CEpoch _ _ _, KSize | CWork _ _, KPtr | CWork _ _, KData | CCall _ _ _, KCb => True
  | _, _ => False
  end.
Ltac each H := cbn [In] in H; repeat match type of H with
  | _ \/ _ => destruct H as [H|H]
  | False => destruct H
  end.
Lemma c_acc g pc a : In a (thread_accesses g pc) -> kept cguard a \/ (wr a = false /\ cbare pc (at_ a)).
Proof.
  intros H. destruct pc; cbn [thread_accesses] in H; try (destruct (_ =? 0) in H); try (destruct (g_quit g) in H); each H; subst a; cbn [kept at_ wr held rd wt cguard cbare]; unfold kept; cbn; tauto.
Qed.
Definition cplain (l : cloc) : Prop := match l with KQuit | KSize | KEpoch | KPtr | KData | KCb => True | _ => False end.
Lemma bare_plain pc l : cbare pc l -> cplain l.
Proof. destruct pc, l; cbn; tauto. Qed.
Lemma c_writer g pc a : In a (thread_accesses g pc) -> wr a = true -> cplain (at_ a) -> pc = CReset /\ g_quit g = false /\ at_ a <> KQuit /\ at_ a <> KEpoch /\ at_ a <> KData.
Proof.
  intros H W P. destruct pc; cbn [thread_accesses] in H; try (destruct (_ =? 0) in H); destruct (g_quit g) eqn:Q; each H; subst a; cbn in W, P; try discriminate W; try contradiction P; repeat split; discriminate.
Qed.

Import CompInv CompQuit.
(** The user calls something: what is written to plain variables, and when. *)
Lemma c_call_kept act s s' a : cstep act s = Some s' -> In a (call_accesses act) ->
  kept cguard a \/ ((c_user s = UIdle) /\ at_ a <> KQuit).
Proof.
  intros E H. destruct act; cbn [call_accesses] in H; each H; subst a; unfold kept; cbn; try tauto; right;
  cbn [cstep] in E; destruct (c_user s); try discriminate E; split; reflexivity || discriminate.
Qed.
Lemma c_call_writer act s s' a : cstep act s = Some s' -> In a (call_accesses act) -> wr a = true -> cplain (at_ a) ->
  (c_user s = UIdle /\ at_ a <> KQuit) \/ (act = AQuit1 /\ at_ a = KQuit).
Proof.
  intros E H W P. destruct act; cbn [call_accesses] in H; each H; subst a; cbn in W, P; try discriminate W; try contradiction P;
  try (right; split; reflexivity); left; cbn [cstep] in E; destruct (c_user s); try discriminate E; split; reflexivity || discriminate.
Qed.
(** When the user is idle, no thread is working. *)
Lemma idle_bare n s i t l : cinv n s -> c_user s = UIdle -> nth_error (c_thr s) i = Some t -> cbare (fst t) l -> fst t = CLoop.
Proof.
  intros [I|R H op tr I|size op tr I] U T B.
  - pose proof (id_thr _ _ I) as F. rewrite Forall_forall in F. specialize (F t (nth_error_In _ _ T)). unfold tidle in F.
    destruct (fst t); cbn in B; try contradiction; reflexivity.
  - destruct (ru_user _ _ _ _ _ _ I) as [(X & _)|(X & _)]; congruence.
  - pose proof (en_user _ _ _ _ _ I). congruence.
Qed.
(** When thread 0 resets the variables, no thread is working. *)
Lemma reset_bare n s i t j u l : cinv n s -> nth_error (c_thr s) i = Some t -> fst t = CReset -> nth_error (c_thr s) j = Some u -> cbare (fst u) l -> fst u = CLoop.
Proof.
  intros [I|R H op tr I|size op tr I] T C U B.
  - pose proof (id_thr _ _ I) as F. rewrite Forall_forall in F. specialize (F t (nth_error_In _ _ T)). unfold tidle in F. rewrite C in F. contradiction.
  - pose proof (ru_thr _ _ _ _ _ _ I) as F. rewrite Forall_forall in F. specialize (F t (nth_error_In _ _ T)). unfold trun in F. destruct t as [pc lt]. cbn [fst] in C. subst pc. contradiction.
  - destruct (en_thr _ _ _ _ _ I j u U) as [_ X]. destruct (fst u); cbn in B; try contradiction; reflexivity.
Qed.
Lemma c_race_one n s x y a b : (1 <= n)%nat -> Z.of_nat n < 2 ^ 32 -> reachable cstep (new_stream n) s ->
  x <> y -> c_about s x a -> c_about s y b -> conflict a b -> ~ kept cguard a -> wr b = true ->
  at_ a = KQuit /\ (exists i t, x = Thr i /\ nth_error (c_thr s) i = Some t /\ fst t = CLoop) /\ y = User /\ exists s', cstep AQuit1 s = Some s'.
Proof.
  intros N1 N2 RE NE A B C K W. pose proof (reach_all n s N1 N2 RE) as INV. pose proof C as (EQ & _ & _).
  destruct A as [i fail t s1 a TI ST IA|act s1 a ST IA|U].
  - destruct (c_acc _ _ _ IA) as [KA|[WA BA]]; [contradiction|]. pose proof (bare_plain _ _ BA) as PL.
    destruct B as [j fail' u s2 b TJ ST' IB|act s2 b ST' IB|U].
    + rewrite EQ in PL. destruct (c_writer _ _ _ IB W PL) as (CR & Q & NQ & _).
      destruct INV as [[_ INV]|(H & op & newer & older & D & _)]; [|pose proof (q_quit _ _ _ _ _ _ D); congruence].
      pose proof (reset_bare n s j u i t _ INV TJ CR TI BA) as L. rewrite L in BA. rewrite EQ in BA. destruct (at_ b); cbn in BA; try contradiction; congruence.
    + rewrite EQ in PL. destruct (c_call_writer _ _ _ _ ST' IB W PL) as [[U NQ]|[-> BQ]].
      * destruct INV as [[_ INV]|(H & op & newer & older & D & _)]; [|destruct (q_user _ _ _ _ _ _ D) as [X|[X _]]; congruence].
        pose proof (idle_bare n s i t _ INV U TI BA) as L. rewrite L in BA. rewrite EQ in BA. destruct (at_ b); cbn in BA; try contradiction; congruence.
      * split; [congruence|]. split; [|split; eauto].
        exists i, t. split; [reflexivity|]. split; [exact TI|]. rewrite EQ, BQ in BA. destruct (fst t); cbn in BA; try contradiction; reflexivity.
    + destruct INV as [[_ INV]|(H & op & newer & older & D & _)]; [|destruct (q_user _ _ _ _ _ _ D) as [X|[X _]]; congruence].
      pose proof (idle_bare n s i t _ INV U TI BA) as L. rewrite L in BA. rewrite EQ in BA. cbn in BA. contradiction.
  - destruct (c_call_kept _ _ _ _ ST IA) as [KA|[U NQ]]; [contradiction|].
    destruct INV as [[_ INV]|(H & op & newer & older & D & _)]; [|destruct (q_user _ _ _ _ _ _ D) as [X|[X _]]; congruence].
    destruct B as [j fail' u s2 b TJ ST' IB|act' s2 b ST' IB|U']; [|congruence|congruence].
    exfalso. assert (PL : cplain (at_ b)).
    { rewrite <- EQ. destruct act; cbn [call_accesses] in IA; each IA; subst a; cbn; try exact Logic.I; apply K; unfold kept; cbn; tauto. }
    destruct (c_writer _ _ _ IB W PL) as (CR & _).
    destruct INV as [I|R H op tr I|size op tr I].
    + pose proof (id_thr _ _ I) as F. rewrite Forall_forall in F. specialize (F u (nth_error_In _ _ TJ)). unfold tidle in F. rewrite CR in F. contradiction.
    + destruct (ru_user _ _ _ _ _ _ I) as [(X & _)|(X & _)]; congruence.
    + pose proof (en_user _ _ _ _ _ I). congruence.
  - destruct B as [j fail' u s2 b TJ ST' IB|act' s2 b ST' IB|U']; [|congruence|congruence].
    exfalso. cbn in EQ. assert (PL : cplain (at_ b)) by (rewrite <- EQ; exact Logic.I).
    destruct (c_writer _ _ _ IB W PL) as (_ & _ & _ & _ & X). congruence.
Qed.
Lemma guard_dec (p q : guard) : {p = q} + {p <> q}.
Proof. decide equality. Qed.
Lemma kept_dec {L} (gd : L -> guard) (a : access L) : kept gd a \/ ~ kept gd a.
Proof. unfold kept. destruct (in_dec guard_dec (gd (at_ a)) (held a)); auto. Qed.
Lemma c_kept_read g pc a : In a (thread_accesses g pc) -> kept cguard a -> wr a = false -> cplain (at_ a) -> at_ a = KQuit.
Proof.
  intros H K W P. destruct pc; cbn [thread_accesses] in H; try (destruct (_ =? 0) in H); try (destruct (g_quit g) in H); each H; subst a; unfold kept in K; cbn in K, W, P; try discriminate W; try contradiction; try reflexivity.
Qed.
Lemma c_bare_write s x y a b : x <> y -> c_about s x a -> c_about s y b -> conflict a b -> ~ kept cguard a -> wr a = true -> kept cguard b -> wr b = true.
Proof.
  intros NE A B (EQ & _ & _) K W KB. destruct (wr b) eqn:WB; [reflexivity|exfalso].
  assert (PL : y = User \/ (cplain (at_ a) /\ at_ a <> KQuit)).
  { destruct A as [i fail t s1 a TI ST IA|act s1 a ST IA|U].
    - destruct (c_acc _ _ _ IA) as [KA|[WA BA]]; [contradiction|congruence].
    - right. destruct act; cbn [call_accesses] in IA; each IA; subst a; cbn; try (split; [exact Logic.I|discriminate]); exfalso; apply K; unfold kept; cbn; tauto.
    - right. split; [exact Logic.I|discriminate]. }
  assert (U : x = User). { destruct A as [i fail t s1 a TI ST IA|act s1 a ST IA|U]; auto. destruct (c_acc _ _ _ IA) as [KA|[WA BA]]; [contradiction|congruence]. }
  destruct PL as [PL|[PL NQ]]; [congruence|].
  destruct B as [j fail' u s2 b TJ ST' IB|act' s2 b ST' IB|U']; [|congruence|congruence].
  rewrite EQ in PL, NQ. exact (NQ (c_kept_read _ _ _ IB KB WB PL)).
Qed.
Lemma c_race n s l : (1 <= n)%nat -> Z.of_nat n < 2 ^ 32 -> reachable cstep (new_stream n) s -> race (c_about s) l ->
  l = KQuit /\ (exists i t, nth_error (c_thr s) i = Some t /\ fst t = CLoop) /\ exists s', cstep AQuit1 s = Some s'.
Proof.
  intros N1 N2 RE (x & y & a & b & NE & A & B & C & E).
  assert (NE' : y <> x) by congruence. pose proof (conflict_sym _ _ C) as C'.
  assert (Y : (~ kept cguard a /\ wr b = true) \/ (~ kept cguard b /\ wr a = true)).
  { pose proof C as (EQ & W & H). destruct (kept_dec cguard a) as [KA|KA], (kept_dec cguard b) as [KB|KB].
    - exfalso. exact (kept_no_conflict cguard a b KA KB C).
    - right. split; [exact KB|]. destruct W as [W|W]; [exact W|]. exact (c_bare_write s y x b a NE' B A C' KB W KA).
    - left. split; [exact KA|]. destruct W as [W|W]; [|exact W]. exact (c_bare_write s x y a b NE A B C KA W KB).
    - destruct W; tauto. }
  destruct C as (EQ & _ & _). destruct Y as [[K W]|[K W]].
  - destruct (c_race_one n s x y a b N1 N2 RE NE A B (conflict_sym _ _ C') K W) as (Q & (i & t & _ & TI & TL) & _ & Z0). split; [congruence|]. eauto.
  - destruct (c_race_one n s y x b a N1 N2 RE NE' B A C' K W) as (Q & (i & t & _ & TI & TL) & _ & Z0). split; [congruence|]. eauto.
Qed.
(** The race exists. *)
Lemma c_race_quit n : (1 <= n)%nat -> exists s, reachable cstep (new_stream n) s /\ race (c_about s) KQuit.
Proof.
  intros N. destruct n as [|n]; [lia|].
  set (s := mkC (c_g (new_stream (S n))) ((CLoop, 0) :: List.repeat (CStart, 0) n) UIdle 0 []).
  exists s. split; [eapply (re_step _ _ (AThread 0 false)); [apply re_init|reflexivity]|].
  exists (Thr 0), User, (rd [] KQuit), (wt [MStream] KQuit). split; [discriminate|].
  split; [eapply (ca_thread s 0 false (CLoop, 0)); [reflexivity|reflexivity|left; reflexivity]|].
  split; [eapply (ca_call s AQuit1); [reflexivity|left; reflexivity]|].
  split; [|reflexivity]. split; [reflexivity|]. split; [right; reflexivity|]. intros m [].
Qed.

(** ** Races of the decompression stream *)
Definition dguard (l : dloc) : guard := match l with JBar => MBarrier | _ => MStream end.
Definition dbare (pc : dpc) (w : bool) (l : dloc) : Prop :=
  match pc, w, l with
  | DLoop, false, JQuit | DHandle _, false, JPtr | DFail _, false, JPtr => True
  | DHandle b, true, JData b' => b = b'
  | _, _, _ => False
  end.
Lemma d_acc g pc a : In a (dthread_accesses g pc) -> kept dguard a \/ dbare pc (wr a) (at_ a).
Proof.
  intros H. destruct pc; cbn [dthread_accesses] in H; try (destruct (h_quit g) in H); each H; subst a; unfold kept; cbn; tauto.
Qed.
Definition dplain (l : dloc) : Prop := match l with JQuit | JPtr | JData _ => True | _ => False end.
Lemma dbare_plain pc w l : dbare pc w l -> dplain l.
Proof. destruct pc, w, l; cbn; tauto. Qed.
Lemma d_plain g pc a : In a (dthread_accesses g pc) -> dplain (at_ a) -> dbare pc (wr a) (at_ a) \/ (at_ a = JQuit /\ wr a = false).
Proof.
  intros H P. destruct pc; cbn [dthread_accesses] in H; try (destruct (h_quit g) in H); each H; subst a; cbn in *; tauto.
Qed.
Lemma d_call act s s' a : dstep act s = Some s' -> In a (dcall_accesses act) -> dplain (at_ a) ->
  (d_user s = VIdle /\ at_ a = JPtr) \/ (act = BQuit1 /\ at_ a = JQuit).
Proof.
  intros E H P. destruct act; cbn [dcall_accesses] in H; each H; subst a; cbn in P; try contradiction; auto.
  left. cbn [dstep] in E. destruct (d_user s); try discriminate E. split; reflexivity.
Qed.
Lemma d_call_kept act s s' a : dstep act s = Some s' -> In a (dcall_accesses act) -> kept dguard a \/ (d_user s = VIdle /\ at_ a = JPtr).
Proof.
  intros E H. destruct act; cbn [dcall_accesses] in H; each H; subst a; unfold kept; cbn; try tauto.
  right. cbn [dstep] in E. destruct (d_user s); try discriminate E. split; reflexivity.
Qed.
Import DecompInv DecompQuit.
Lemma d_idle_bare n s i t w l : (1 <= n)%nat -> reachable dstep (new_dstream n) s -> d_user s = VIdle -> nth_error (d_thr s) i = Some t -> dbare (fst t) w l -> l = JQuit.
Proof.
  intros N RE U T B. destruct (DecompQuit.reach_all n s N RE) as [[_ [I|op tr I|op tr I]]|(op & newer & older & D & _)].
  - pose proof (di_thr _ _ I) as F. rewrite Forall_forall in F. specialize (F t (nth_error_In _ _ T)). unfold didle in F.
    destruct (fst t), w, l; cbn in B; try contradiction; reflexivity.
  - destruct (dr_user _ _ _ _ I) as [(X & _)|(X & _)]; congruence.
  - pose proof (de_user _ _ _ _ I). congruence.
  - destruct (DecompQuit.q_user _ _ _ _ _ D) as [X|[X _]]; congruence.
Qed.
Lemma cnt_two {A} (p : A -> bool) l i j x y : nth_error l i = Some x -> nth_error l j = Some y -> i <> j -> p x = true -> p y = true -> 2 <= cnt p l.
Proof.
  revert i j. induction l as [|h l IH]; intros [|i] [|j] X Y NE P Q; cbn [nth_error] in *; try discriminate; try congruence; cbn [cnt].
  - injection X as ->. rewrite P. pose proof (cnt_one_le p l j y Y Q). lia.
  - injection Y as ->. rewrite Q. pose proof (cnt_one_le p l i x X P). lia.
  - assert (i <> j) by congruence. specialize (IH i j X Y H P Q). destruct (p h); lia.
Qed.
(** The block was accepted twice in the operation in progress, or in the one in progress when the destructor was entered. *)
Definition pushed_twice (b : Z) (s : dstate) : Prop :=
  exists newer op p older, d_trace s = newer ++ op ++ VStart p :: older /\ Forall devents op /\ 2 <= accepted b op.
Lemma two_handlers n s i j t u b : (1 <= n)%nat -> reachable dstep (new_dstream n) s -> i <> j ->
  nth_error (d_thr s) i = Some t -> nth_error (d_thr s) j = Some u -> fst t = DHandle b -> fst u = DHandle b -> pushed_twice b s.
Proof.
  intros N RE NE T U FT FU.
  assert (C : 2 <= cnt (busy b) (d_thr s)).
  { apply (cnt_two _ _ i j t u T U NE); unfold busy; rewrite ?FT, ?FU; apply Z.eqb_refl. }
  destruct (DecompQuit.reach_all n s N RE) as [[_ [I|op tr I|op tr I]]|(op & newer & older & D & HI & RE')].
  - pose proof (di_thr _ _ I) as F. rewrite Forall_forall in F. specialize (F t (nth_error_In _ _ T)). unfold didle in F. rewrite FT in F. contradiction.
  - exists [], op, (h_ptr (d_g s)), tr. split; [exact (dr_trace _ _ _ _ I)|].
    split; [eapply Forall_impl; [|exact (ds_inner _ _ (dr_so_far _ _ _ _ I))]; intros []; cbn; tauto|].
    pose proof (dr_le _ _ _ _ I b). pose proof (handled_nonneg b op). pose proof (queued_nonneg b (h_queue (d_g s))). lia.
  - destruct (de_thr _ _ _ _ I i t T) as [_ X]. rewrite FT in X. contradiction.
  - pose proof (DecompQuit.q_bal _ _ _ _ _ D b) as Q. pose proof (handled_nonneg b op). pose proof (handled_nonneg b newer).
    destruct RE' as [(tr & E & F)|E].
    + exists (newer ++ [VQuit]), op, (h_ptr (d_g s)), tr. split; [rewrite (DecompQuit.q_trace _ _ _ _ _ D), E, <- app_assoc; reflexivity|].
      split; [|lia]. eapply Forall_impl; [|exact F]. intros []; cbn; tauto.
    + subst op. change (accepted b []) with 0 in Q. lia.
Qed.
Lemma d_race_one n s x y a b : (1 <= n)%nat -> reachable dstep (new_dstream n) s ->
  x <> y -> d_about s x a -> d_about s y b -> conflict a b -> ~ kept dguard a ->
  (at_ a = JQuit /\ (exists i t, nth_error (d_thr s) i = Some t /\ fst t = DLoop) /\ exists s', dstep BQuit1 s = Some s') \/
  (exists c, at_ a = JData c /\ pushed_twice c s).
Proof.
  intros N RE NE A B (EQ & W & _) K.
  destruct A as [i fail t s1 a TI ST IA|act s1 a ST IA|c U].
  - destruct (d_acc _ _ _ IA) as [KA|BA]; [contradiction|]. pose proof (dbare_plain _ _ _ BA) as PL. rewrite EQ in PL.
    destruct B as [j fail' u s2 b TJ ST' IB|act s2 b ST' IB|c U].
    + assert (NIJ : i <> j) by congruence. destruct (d_plain _ _ _ IB PL) as [BB|[BQ WB]].
      * rewrite EQ in BA. destruct (fst t) eqn:FT; cbn in BA; try contradiction; destruct (wr a), (at_ b) eqn:AB; try contradiction;
        destruct (fst u) eqn:FU; cbn in BB; try contradiction; destruct (wr b); try contradiction; try (destruct W; discriminate).
        subst. right. eexists. split; [exact EQ|]. exact (two_handlers n s i j t u _ N RE NIJ TI TJ FT FU).
      * rewrite WB in W. destruct W as [W|W]; [|discriminate W]. rewrite EQ, BQ, W in BA. destruct (fst t); cbn in BA; contradiction.
    + destruct (d_call _ _ _ _ ST' IB PL) as [[U BP]|[-> BQ]].
      * pose proof (d_idle_bare n s i t _ _ N RE U TI BA). congruence.
      * left. split; [congruence|]. split; [|eauto]. exists i, t. split; [exact TI|]. rewrite EQ, BQ in BA. destruct (fst t), (wr a); cbn in BA; try contradiction; reflexivity.
    + pose proof (d_idle_bare n s i t _ _ N RE U TI BA). cbn in EQ. congruence.
  - destruct (d_call_kept _ _ _ _ ST IA) as [KA|[U BP]]; [contradiction|].
    destruct B as [j fail' u s2 b TJ ST' IB|act' s2 b ST' IB|c U']; [|congruence|congruence].
    assert (PL : dplain (at_ b)) by (rewrite <- EQ, BP; exact Logic.I).
    destruct (d_plain _ _ _ IB PL) as [BB|[BQ WB]]; [|congruence].
    pose proof (d_idle_bare n s j u _ _ N RE U TJ BB). congruence.
  - destruct B as [j fail' u s2 b TJ ST' IB|act' s2 b ST' IB|c' U']; [|congruence|congruence]. cbn in EQ.
    assert (PL : dplain (at_ b)) by (rewrite <- EQ; exact Logic.I).
    destruct (d_plain _ _ _ IB PL) as [BB|[BQ WB]]; [|congruence].
    pose proof (d_idle_bare n s j u _ _ N RE U TJ BB). congruence.
Qed.
Lemma d_race n s l : (1 <= n)%nat -> reachable dstep (new_dstream n) s -> race (d_about s) l ->
  (l = JQuit /\ (exists i t, nth_error (d_thr s) i = Some t /\ fst t = DLoop) /\ exists s', dstep BQuit1 s = Some s') \/
  (exists b, l = JData b /\ pushed_twice b s).
Proof.
  intros N RE (x & y & a & b & NE & A & B & C & E).
  assert (NE' : y <> x) by congruence. pose proof (conflict_sym _ _ C) as C'.
  destruct (kept_dec dguard a) as [KA|KA].
  - destruct (kept_dec dguard b) as [KB|KB]; [exfalso; exact (kept_no_conflict dguard a b KA KB C)|].
    pose proof (d_race_one n s y x b a N RE NE' B A C' KB) as X. destruct C as (EQ & _). rewrite <- EQ, E in X. exact X.
  - pose proof (d_race_one n s x y a b N RE NE A B C KA) as X. rewrite E in X. exact X.
Qed.
Lemma d_race_quit n : (1 <= n)%nat -> exists s, reachable dstep (new_dstream n) s /\ race (d_about s) JQuit.
Proof.
  intros N. destruct n as [|n]; [lia|].
  set (s := mkD (d_g (new_dstream (S n))) ((DLoop, 0) :: List.repeat (DStart, 0) n) VIdle []).
  exists s. split; [eapply (re_step _ _ (BThread 0 false)); [apply re_init|reflexivity]|].
  exists (Thr 0), User, (rd [] JQuit), (wt [MStream] JQuit). split; [discriminate|].
  split; [eapply (da_thread s 0 false (DLoop, 0)); [reflexivity|reflexivity|left; reflexivity]|].
  split; [eapply (da_call s BQuit1); [reflexivity|left; reflexivity]|].
  split; [|reflexivity]. split; [reflexivity|]. split; [right; reflexivity|]. intros m [].
Qed.
