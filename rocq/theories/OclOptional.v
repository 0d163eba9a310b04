(** The OpenCL decompressor without the array of output sizes or without the array of return values. *)
From Coq Require Import ZArith List Bool Lia Permutation.
From Verif Require Import SpecBits SpecCrc Spec842 CBase BitsLemmas SerialCompModel SerialDecompModel OptCompModel ConcLib SpecSync SpecOcl OclModel OclExt OclProofs OclItems
  GpuModel SpecGpu GpuProofs GpuCuda GpuOclModel GpuOcl SpecOptional.
Import ListNotations.
Open Scope Z_scope.

(** * The work items one after the other *)
Lemma core_more e inp ilen out cap cap' n mem : cap <= cap' -> decompress_core e inp ilen out cap = Done (0, n, mem) -> decompress_core e inp ilen out cap' = Done (0, n, mem).
Proof.
  intros HC H. unfold decompress_core in *. do 6 (apply bind_inv in H; let l := fresh "l" in let E := fresh "E" in destruct H as (l & E & H); rewrite E, bind_done).
  apply bind_inv in H. destruct H as ([c p] & K & H). destruct (kloop_inv _ _ _ _ _ _ _ _ K) as (_ & _ & X).
  destruct (Z.eqb_spec c 0) as [->|N]; cbn [negb] in H.
  - rewrite (X inp ilen cap'), bind_done; [|intros ? ? ? ? R _ _; exact R|auto]. exact H.
  - injection H as -> _ _. congruence.
Qed.

Section Seq.
Variable e : endian.
Variable a : cl_args.
Variable m0 : cl_mem.
Hypothesis Hly : layout_ok 2 a m0.
Hypothesis Hfmt : sizes_ok a \/ chunks_ok e a.
Variables L0 R0 : list Z.
Hypothesis EL0 : m_olen m0 = Some L0.
Hypothesis ER0 : m_ret m0 = Some R0.
Variables ho hr : bool.

Lemma without_out m : m_out (without ho hr m) = m_out m. Proof. reflexivity. Qed.
Lemma set_opt (has : bool) (o : option (list Z)) c v o' : opt_set o c v = Done o' -> opt_set (if has then o else None) c v = Done (if has then o' else None).
Proof. destruct has; auto. Qed.
Lemma item_done_opt m c out m' : item_done a m c out = Done m' -> item_done a (without ho hr m) c out = Done (without ho hr m').
Proof.
  unfold item_done, without. cbn [m_olen m_ret]. intros H. apply bind_inv in H. destruct H as (ol & E1 & H). apply bind_inv in H. destruct H as (rv & E2 & H). injection H as <-.
  rewrite (set_opt ho _ _ _ _ E1), bind_done, (set_opt hr _ _ _ _ E2), bind_done. reflexivity.
Qed.
Lemma item_core_opt m inb c ip il op m' R : m_ret m = Some R -> (ho = false -> forall v, m_olen m = Some v -> nth (Z.to_nat c) v 0 <= SIZE_MAX) ->
  item_core e m inb c ip il op = Done m' -> (ho = false -> elem (m_ret m') c = 0) -> item_core e (without ho hr m) inb c ip il op = Done (without ho hr m').
Proof.
  intros ER HS H HZ. unfold item_core in *. apply bind_inv in H. destruct H as (cap & EC & H). apply bind_inv in H. destruct H as ([[r n] mem] & ED & H).
  apply bind_inv in H. destruct H as (ol & E1 & H). apply bind_inv in H. destruct H as (rv & E2 & H). injection H as <-. cbn [m_ret] in HZ.
  assert (X : exists cap', opt_get (m_olen (without ho hr m)) c SIZE_MAX = Done cap' /\ decompress_core e (skipn (Z.to_nat ip) inb) il (skipn (Z.to_nat op) (m_out m)) cap' = Done (r, n, mem)).
  { unfold without. cbn [m_olen]. destruct ho; [eauto|]. cbn [opt_get]. eexists. split; [reflexivity|].
    assert (r = 0).
    { rewrite ER in E2. cbn [opt_set] in E2. unfold aset in E2. destruct ((0 <=? c) && (c <? lenZ R)) eqn:B; [|discriminate]. cbn [bind] in E2. injection E2 as <-. specialize (HZ eq_refl). cbn [elem] in HZ.
      apply andb_true_iff in B. destruct B as [B1 B2]. apply Z.leb_le in B1. apply Z.ltb_lt in B2. rewrite app_nth2 in HZ by (rewrite firstn_length; unfold lenZ in *; lia).
      rewrite firstn_length in HZ. replace (Z.to_nat c - Nat.min (Z.to_nat c) (length R))%nat with O in HZ by (unfold lenZ in *; lia). exact HZ. }
    subst r. eapply core_more; [|exact ED]. destruct (m_olen m) as [v|] eqn:EV; cbn [opt_get] in EC.
    - unfold aget in EC. destruct ((0 <=? c) && (c <? lenZ v)); [|discriminate]. injection EC as <-. now apply HS.
    - injection EC as <-. lia. }
  destruct X as (cap' & -> & X). rewrite bind_done, without_out, X, bind_done. unfold without. cbn [m_olen m_ret].
  rewrite (set_opt ho _ _ _ _ E1), bind_done, (set_opt hr _ _ _ _ E2), bind_done. reflexivity.
Qed.
Lemma work_item_opt g c m m' R : m_ret m = Some R -> (ho = false -> g < a_num a -> forall v, m_olen m = Some v -> nth (Z.to_nat c) v 0 <= SIZE_MAX) -> (g < a_num a -> opt_get (a_map a) g g = Done c) ->
  work_item e a g m = Done m' -> (ho = false -> g < a_num a -> elem (m_ret m') c = 0) -> work_item e a g (without ho hr m) = Done (without ho hr m').
Proof.
  intros ER HS HC H HZ. unfold work_item in *. destruct (Z.geb_spec g (a_num a)) as [G|G]; [now injection H as <-|]. rewrite (HC G) in *. rewrite bind_done in *. cbv zeta in *.
  apply bind_inv in H. destruct H as (il & -> & H). rewrite bind_done. destruct (a_format a).
  - eapply item_core_opt; eauto.
  - apply bind_inv in H. destruct H as (hd & -> & H). rewrite bind_done. destruct (negb (list_eqb hd MARKER)).
    + apply bind_inv in H. destruct H as (bs & -> & H). rewrite bind_done. apply bind_inv in H. destruct H as (o & E & H). rewrite without_out, E, bind_done. now apply item_done_opt.
    + apply bind_inv in H. destruct H as (k & -> & H). rewrite bind_done. destruct (k =? 0); [now apply item_done_opt|]. eapply item_core_opt; eauto.
Qed.
Hypothesis HZ : ho = false -> forall c, 0 <= c < a_num a -> res_ret e a L0 c = 0.
Lemma run_opt order : forall D m, Inv e a m0 L0 R0 D m -> NoDup order -> (forall g, In g order -> 0 <= g /\ (g < a_num a -> D (cmap a g) = false)) ->
  forall m', run_items e a order m = Done m' -> run_items e a order (without ho hr m) = Done (without ho hr m').
Proof.
  induction order as [|g order IH]; intros D m HI ND HG m' H; cbn [run_items] in *; [now injection H as <-|].
  inversion ND as [|? ? NI ND']; subst. destruct (HG g (or_introl eq_refl)) as [G0 GD].
  destruct (step_ok e a m0 Hly Hfmt L0 R0 EL0 D m g HI G0 GD) as (m1 & E & I1). rewrite E, bind_done in H.
  destruct (iv_R _ _ _ _ _ _ _ HI) as (R & ER & _ & _). destruct (iv_L _ _ _ _ _ _ _ HI) as (L & EL & _ & NL).
  rewrite (work_item_opt g (cmap a g) m m1 R ER).
  - rewrite bind_done. eapply IH; [exact I1|exact ND'| |exact H]. intros h Hh. destruct (HG h (or_intror Hh)) as [H0 HD]. split; auto. intros HN. destruct (Z.ltb_spec g (a_num a)); auto.
    unfold add. rewrite HD by auto. destruct (Z.eqb_spec (cmap a h) (cmap a g)) as [EE|]; auto. apply (cmap_inj a m0 Hly) in EE; try lia. subst. contradiction.
  - intros _ G v EV. rewrite EL in EV. injection EV as <-. destruct (cmap_ok a m0 Hly g ltac:(lia)) as [_ CR]. rewrite NL by auto. rewrite GD by auto.
    destruct (L0_ok a m0 Hly L0 EL0) as [_ B]. specialize (B _ CR). pose proof (ly_size _ _ _ Hly). change SIZE_MAX with (2 ^ 64 - 1). lia.
  - intros G. now apply (cmap_ok a m0 Hly g).
  - exact E.
  - intros EH G. destruct (cmap_ok a m0 Hly g ltac:(lia)) as [_ CR]. destruct (iv_R _ _ _ _ _ _ _ I1) as (R1 & ER1 & _ & NR1). rewrite ER1. cbn [elem]. rewrite NR1 by exact CR.
    destruct (Z.ltb_spec g (a_num a)); [|lia]. unfold add. rewrite Z.eqb_refl, orb_true_r. now apply HZ.
Qed.
End Seq.

Lemma optional_arrays e a m order m' sizes rets : layout_ok 2 a m -> sizes_ok a \/ chunks_ok e a -> schedule a order -> run_items e a order m = Done m' ->
  (sizes = false -> forall c, 0 <= c < a_num a -> elem (m_ret m') c = 0) ->
  run_items e a order (without sizes rets m) = Done (without sizes rets m').
Proof.
  intros HL HF HS HR HZ. destruct (ly_olen _ _ _ HL) as (L0 & EL & _). destruct (ly_ret _ _ _ HL) as (R0 & ER & _).
  destruct (run_all e a m HL HF L0 R0 EL ER order HS) as (m2 & E2 & I). rewrite HR in E2. injection E2 as <-.
  eapply (run_opt e a m HL HF L0 R0 EL sizes rets); [|eapply Inv_init; eauto| | |exact HR].
  - intros EH c Hc. destruct (iv_R _ _ _ _ _ _ _ I) as (R' & ER' & _ & NR). specialize (HZ EH c Hc). rewrite ER' in HZ. cbn [elem] in HZ. rewrite NR in HZ by exact Hc. exact HZ.
  - eapply Permutation_NoDup; [apply Permutation_sym; exact HS|apply numbers_nodup].
  - intros g Hg. split; auto. eapply Permutation_in in Hg; [|exact HS]. apply in_numbers in Hg. lia.
Qed.

(** * The work items interleaved *)
(** [leq E p p']: the program [p'] does what [p] does, unless [p] ends with an error [E]. *)
Inductive leq {A} (E : A -> Prop) : prog A -> prog A -> Prop :=
| leq_ret a : leq E (Ret a) (Ret a)
| leq_err a p : E a -> leq E (Ret a) p
| leq_load b i n k k' : (forall bs, leq E (k bs) (k' bs)) -> leq E (Load b i n k) (Load b i n k')
| leq_store b i bs k k' : leq E k k' -> leq E (Store b i bs k) (Store b i bs k')
| leq_fault p : leq E Fault p
| leq_stuck p : leq E Stuck p.
Lemma leq_refl {A} (E : A -> Prop) p : leq E p p.
Proof. induction p; constructor; auto. Qed.
Lemma leq_bind {A B} (E : A -> Prop) (E' : B -> Prop) p p' (f f' : A -> prog B) : leq E p p' -> (forall a, leq E' (f a) (f' a)) -> (forall a, E a -> exists b, f a = Ret b /\ E' b) ->
  leq E' (pbind p f) (pbind p' f').
Proof.
  intros H HF HE. induction H as [a|a p HA|b i n k k' _ IH|b i bs k k' _ IH|p|p]; cbn [pbind]; try (constructor; auto; fail); auto.
  destruct (HE a HA) as (b & -> & HB). now constructor.
Qed.
Lemma leq_same {A B} (E' : B -> Prop) (p : prog A) (f f' : A -> prog B) : (forall a, leq E' (f a) (f' a)) -> leq E' (pbind p f) (pbind p f').
Proof. intros H. apply (leq_bind (fun _ => False)); [apply leq_refl|exact H|tauto]. Qed.
Lemma wp_leq {A B} V L R (E : A -> Prop) p p' (f f' : A -> prog B) Q Q' : leq E p p' -> forall N m,
  (forall N a m, wp V L R N (f a) m Q -> ~ E a /\ wp V L R N (f' a) m Q') -> wp V L R N (pbind p f) m Q -> wp V L R N (pbind p' f') m Q'.
Proof.
  induction 1 as [a|a p HA|b i n k k' _ IH|b i bs k k' _ IH|p|p]; intros N m HF W; cbn [pbind wp] in *; try contradiction.
  - now apply HF.
  - destruct (HF _ _ _ W) as [C _]. contradiction.
  - destruct N; auto. destruct W as (A1 & A2 & A3 & AL & W). repeat (split; auto).
  - destruct N; auto. destruct W as (A1 & A2 & A3 & A4 & A5 & W). repeat (split; auto).
Qed.

Section More.
Variables (e : endian) (base : Z) (inp : list Z) (ilen cap cap' : Z).
Hypothesis HC : cap <= cap'.
Lemma more_room x : (x >? cap') = true -> (x >? cap) = true.
Proof. rewrite !Z.gtb_ltb, !Z.ltb_lt. lia. Qed.
Ltac room := match goal with |- context [?x >? cap] => destruct (x >? cap) eqn:?; [|destruct (x >? cap') eqn:?; [exfalso; assert ((x >? cap) = true) by (now apply more_room); congruence|]] end.
Lemma qdo_op_leq p op : leq (fun q => k_err q <> 0) (qdo_op e base inp ilen cap p op) (qdo_op e base inp ilen cap' p op).
Proof.
  unfold qdo_op. destruct (op >=? OPS_MAX); [apply leq_refl|]. apply leq_same. intros [params q]. destruct (negb (k_err q =? 0)) eqn:EE; [apply leq_refl|].
  apply leq_same. intros [[w|] q2]; [|apply leq_refl]. room; [|apply leq_refl]. apply leq_err. unfold kraise. cbn [k_err]. destruct (k_err q2 =? 0) eqn:E2; cbn [negb]; [discriminate|]. now apply Z.eqb_neq.
Qed.
Definition bad (rq : (Z + bool) * kstate) : Prop := exists c, fst rq = inl c /\ c <> 0.
Lemma qstep_leq p : leq bad (qstep e base inp ilen cap p) (qstep e base inp ilen cap' p).
Proof.
  unfold qstep. apply leq_same. intros [op q]. destruct (negb (k_err q =? 0)); [apply leq_refl|]. destruct (op =? OP_REPEAT).
  { apply leq_same. intros [rep q2]. destruct (negb (k_err q2 =? 0)); [apply leq_refl|]. destruct (k_out q2 =? 0); [apply leq_refl|]. room; [apply leq_err; eexists; split; [reflexivity|discriminate]|apply leq_refl]. }
  destruct (op =? OP_ZEROS). { room; [apply leq_err; eexists; split; [reflexivity|discriminate]|apply leq_refl]. }
  destruct (op =? OP_END); [apply leq_refl|]. destruct (op =? OPS_MAX - 1).
  { apply leq_same. intros [v q2]. destruct (negb (k_err q2 =? 0)); [apply leq_refl|]. destruct (kget_index q2 8 v I8_FIFO_SIZE) as [off q3]. destruct (negb (k_err q3 =? 0)); [apply leq_refl|].
    room; [apply leq_err; eexists; split; [reflexivity|discriminate]|apply leq_refl]. }
  eapply leq_bind; [apply qdo_op_leq|intros; apply leq_refl|]. intros q2 HE. cbv beta in HE. destruct (Z.eqb_spec (k_err q2) 0); [contradiction|]. cbn [negb]. eexists. split; [reflexivity|]. eexists. split; [reflexivity|auto].
Qed.
Lemma qloop_leq f : forall p, leq (fun cq => fst cq <> 0) (qloop e base f inp ilen cap p) (qloop e base f inp ilen cap' p).
Proof.
  induction f as [|f IH]; intros p; cbn [qloop]; [constructor|]. eapply leq_bind; [apply qstep_leq| |].
  - intros [[c|[]] q]; try apply leq_refl. apply IH.
  - intros [r q] (c & E & N). cbn [fst] in E. subst r. eexists. split; [reflexivity|exact N].
Qed.
Lemma qcore_leq : leq (fun rn => fst rn <> 0) (qcore e base inp ilen cap) (qcore e base inp ilen cap').
Proof.
  unfold qcore. do 6 (apply leq_same; intros ?). eapply leq_bind; [apply qloop_leq|intros [c q]; apply leq_refl|].
  intros [c q] HN. cbn [fst] in HN. destruct (Z.eqb_spec c 0); [contradiction|]. cbn [negb]. eexists. split; [reflexivity|exact HN].
Qed.
End More.

(** The program only accesses the buffers of [B]. *)
Fixpoint only {A} (B : nat -> Prop) (p : prog A) : Prop :=
  match p with Load b i n k => B b /\ forall bs, only B (k bs) | Store b i bs k => B b /\ only B k | _ => True end.
Lemma only_bind {A C} B (p : prog A) (f : A -> prog C) : only B p -> (forall a, only B (f a)) -> only B (pbind p f).
Proof. intros H HF. induction p; cbn [pbind only] in *; auto; destruct H; auto. Qed.
Lemma only_lift {A} B (o : outcome A) : only B (lift o). Proof. destruct o; exact Logic.I. Qed.
Section Only.
Variable B : nat -> Prop.
Hypothesis B0 : B 0%nat.
Ltac onl := repeat match goal with
  | |- only _ (pbind _ _) => apply only_bind; [|intros]
  | |- only _ (lift _) => apply only_lift
  | |- only _ (Ret _) => exact Logic.I
  | |- only _ (qput _ _ _ _) => split; [exact B0|exact Logic.I]
  | |- only _ (Load _ _ _ _) => split; [exact B0|intros]
  | |- only _ (if ?c then _ else _) => destruct c
  | |- only _ (let '(_, _) := ?x in _) => destruct x
  | |- only _ (match ?x with _ => _ end) => destruct x
  end.
Lemma only_fields e base fs : forall p params opbits word bits, only B (qfields e base fs p params opbits word bits).
Proof. induction fs as [|[[i d] n] fs IH]; intros; cbn [qfields]; cbv zeta; [exact Logic.I|]. onl; apply IH. Qed.
Lemma only_repeat e base n : forall p, only B (qrepeat e base n p).
Proof. induction n as [|n IH]; intros; cbn [qrepeat]; onl. apply IH. Qed.
Lemma only_step e base inp ilen cap p : only B (qstep e base inp ilen cap p).
Proof. unfold qstep, qdo_op. cbv zeta. onl; try apply only_repeat; try apply only_fields. Qed.
Lemma only_loop e base inp ilen cap f : forall p, only B (qloop e base f inp ilen cap p).
Proof. induction f as [|f IH]; intros; cbn [qloop]; [exact Logic.I|]. onl; try apply only_step. apply IH. Qed.
Lemma only_core e base inp ilen cap : only B (qcore e base inp ilen cap).
Proof. unfold qcore. onl. apply only_loop. Qed.
Lemma only_copy inb n : forall ia oa, only B (qcopy inb ia oa n).
Proof. induction n as [|n IH]; intros; cbn [qcopy]; [exact Logic.I|]. onl. split; [exact B0|apply IH]. Qed.
Variables ho hr : bool.
Hypothesis B1 : ho = true -> B 1%nat.
Hypothesis B2 : hr = true -> B 2%nat.
Lemma only_set1 c v : only B (qset ho 1 c v). Proof. unfold qset. destruct ho; cbn [only]; auto. Qed.
Lemma only_set2 c v : only B (qset hr 2 c v). Proof. unfold qset. destruct hr; cbn [only]; auto. Qed.
Lemma only_work e a gid : only B (qwork e ho hr a gid).
Proof.
  unfold qwork, qitem_core, qitem_done. cbv zeta. onl; try apply only_set1; try apply only_set2; try apply only_copy; try apply only_core.
  all: unfold qget; destruct ho; cbn [only]; auto.
Qed.
End Only.

(** A memory that differs in buffers that no thread accesses. *)
Section Ghost.
Variable B : nat -> Prop.
Definition ghost (s s' : gsys) : Prop :=
  g_thr s' = g_thr s /\ length (g_mem s') = length (g_mem s) /\ (forall b, B b -> nth b (g_mem s') [] = nth b (g_mem s) []) /\ (forall b, ~ B b -> nth b (g_mem s') [] = []) /\
  forall t p, nth_error (g_thr s) t = Some p -> only B p.
Lemma ghost_step t s s' s1' : ghost s s' -> gstep t s' = Some s1' -> exists s1, gstep t s = Some s1 /\ ghost s1 s1'.
Proof.
  intros (ET & LM & NM & NB & HO) H. unfold gstep in *. rewrite ET in H. destruct (nth_error (g_thr s) t) as [p|] eqn:E; [|discriminate].
  assert (HT : (t < length (g_thr s))%nat) by (apply nth_error_Some; congruence). pose proof (HO _ _ E) as OP.
  assert (TH : forall q, only B q -> forall u r, nth_error (setnth t q (g_thr s)) u = Some r -> only B r).
  { intros q Oq u r Hu. destruct (Nat.eq_dec t u) as [<-|NE]; [rewrite (nth_setnth_same _ _ _ _ E) in Hu; injection Hu as <-; exact Oq|]. rewrite nth_setnth_other in Hu by auto. eauto. }
  destruct p as [x|b i n k|b i bs k| |]; try discriminate; cbn [only] in OP; destruct OP as [HB OK]; rewrite (NM b HB) in H.
  - destruct (load_bytes (nth b (g_mem s) []) i n); injection H as <-; (eexists; split; [reflexivity|]); (split; [reflexivity|split; [exact LM|split; [exact NM|split; [exact NB|]]]]); cbn [g_thr]; apply TH; auto; exact Logic.I.
  - destruct (store_bytes (nth b (g_mem s) []) i bs) as [m| |]; injection H as <-; (eexists; split; [reflexivity|]).
    + split; [reflexivity|]. split; [cbn [g_mem]; now rewrite !setnth_length|]. split; [|split; [|cbn [g_thr]; now apply TH]].
      2: { cbn [g_mem]. intros d Hd. rewrite nth_set_other; [now apply NB|]. intros ->. contradiction. }
      cbn [g_mem]. intros d Hd. destruct (Nat.eq_dec b d) as [<-|NE]; [|now rewrite !nth_set_other, NM by auto].
      destruct (Nat.lt_ge_cases b (length (g_mem s))); [now rewrite !nth_set_same by lia|]. rewrite !nth_overflow; rewrite ?setnth_length; auto; lia.
    + split; [reflexivity|split; [exact LM|split; [exact NM|split; [exact NB|]]]]. cbn [g_thr]. apply TH. exact Logic.I.
    + split; [reflexivity|split; [exact LM|split; [exact NM|split; [exact NB|]]]]. cbn [g_thr]. apply TH. exact Logic.I.
Qed.
Lemma ghost_run l : forall s s' s1', ghost s s' -> run gstep l s' = Some s1' -> exists s1, run gstep l s = Some s1 /\ ghost s1 s1'.
Proof.
  induction l as [|t l IH]; intros s s' s1' G H; cbn [run] in *; [injection H as <-; eauto|].
  destruct (gstep t s') as [s2'|] eqn:E; [|discriminate]. destruct (ghost_step _ _ _ _ G E) as (s2 & -> & G2). eapply IH; eauto.
Qed.
End Ghost.

Section Launch.
Variable e : endian.
Variable a : cl_args.
Variable m0 : cl_mem.
Hypothesis Hly : layout_ok 2 a m0.
Hypothesis Hfmt : sizes_ok a \/ chunks_ok e a.
Variables L0 R0 : list Z.
Hypothesis EL0 : m_olen m0 = Some L0.
Hypothesis ER0 : m_ret m0 = Some R0.
Variables ho hr : bool.
Hypothesis HZ : ho = false -> forall c, 0 <= c < a_num a -> res_ret e a L0 c = 0.
Notation num := (a_num a).
Notation c_ret := (res_ret e a L0).
Notation c_n := (res_n e a L0).
Let sz := Z.to_nat (a_size a).
Let sw := Z.to_nat (a_size a / 8).
Let G0 : gmem := [m_out m0; L0; R0].
Let T := Z.to_nat (global_size num).
Notation cmt := (cm a).
Notation wnt := (want e a m0 L0).
Notation tRR := (tR a).
Notation tLL := (tL e a L0).
Definition oQ (t : nat) (m : gmem) : Prop := Z.of_nat t < num ->
  so G0 (out_pos a (cmt t)) sz m (wnt (cmt t)) /\ (ho = true -> cell m 1 (cmt t) = c_n (cmt t)) /\ (hr = true -> cell m 2 (cmt t) = c_ret (cmt t)).

Lemma so_get c m b i bs chunk : (b <> 0)%nat -> shape m (GpuProofs.put m b i bs) -> so G0 (out_pos a c) sz (GpuProofs.put m b i bs) chunk -> so G0 (out_pos a c) sz m chunk.
Proof.
  intros Hb [P1 P2] [[S1 S2] (A & B & C)]. split; [split|].
  - congruence. - intros x. now rewrite <- S2, P2.
  - unfold GpuProofs.put in B, C. rewrite nth_set_other in B, C by auto. split; [lia|]. auto.
Qed.
Lemma finish_opt t c n r N m : c = cmt t -> Z.of_nat t < num ->
  wp obyte (tLL t) (tRR t) N (_ <~ qset true 1 c n ;; qset true 2 c r) m (fun _ _ => tQ e a m0 L0 R0 t) ->
  r = c_ret c /\ wp obyte (tLL t) (tRR t) N (_ <~ qset ho 1 c n ;; qset hr 2 c r) m (fun _ _ => oQ t).
Proof.
  intros EC Ht H. cbn [qset pbind wp] in H. destruct N as [|[|N]]; [contradiction| |]; destruct H as (A1 & A2 & A3 & A4 & A5 & H); [contradiction|].
  destruct H as (B1 & B2 & B3 & B4 & B5 & H). pose proof (put_shape m 1 c [n] A2 A3) as P1. pose proof (put_shape _ 2 c [r] B2 B3) as P2.
  assert (A3' : c + lenZ [r] <= lenZ (nth 2 m [])). { destruct P1 as [_ P1]. unfold lenZ in *. rewrite P1 in B3. exact B3. }
  assert (B1' : (2 < length m)%nat) by (destruct P1 as [P1 _]; lia).
  pose proof (put_shape m 2 c [r] A2 A3') as P3. destruct (H Ht) as (S & C1 & C2). rewrite <- EC in *.
  pose proof (put_cell _ 2 c [r] 1 c B1 B2 B3 B2) as D1. pose proof (put_cell _ 2 c [r] 2 c B1 B2 B3 B2) as D2. pose proof (put_cell _ 1 c [n] 1 c A1 A2 A3 B2) as D3.
  pose proof (put_cell m 2 c [r] 2 c B1' A2 A3' A2) as D4.
  change (lenZ [r]) with 1 in *. change (lenZ [n]) with 1 in *.
  assert (Y1 : (c <=? c) = true) by (apply Z.leb_refl). assert (Y2 : (c <? c + 1) = true) by (apply Z.ltb_lt; lia). rewrite Y1, Y2, Z.sub_diag in D1, D2, D3, D4. cbn [Nat.eqb andb nth Z.to_nat] in D1, D2, D3, D4.
  assert (S1 := so_get c _ 2 c [r] (wnt c) ltac:(discriminate) P2 S). assert (S0 := so_get c _ 1 c [n] (wnt c) ltac:(discriminate) P1 S1).
  assert (S2 : so G0 (out_pos a c) sz (GpuProofs.put m 2 c [r]) (wnt c)).
  { destruct S0 as [S0 (X1 & X2 & X3)]. split; [eapply shape_trans; eassumption|]. destruct P3 as [P31 P32]. split; [lia|]. unfold GpuProofs.put. rewrite nth_set_other by discriminate. auto. }
  split; [congruence|]. unfold oQ. destruct ho, hr; cbn [qset pbind wp].
  - repeat (split; [assumption|]). intros _. rewrite <- EC. split; [exact S|]. split; congruence.
  - repeat (split; [assumption|]). intros _. rewrite <- EC. split; [exact S1|]. split; [congruence|discriminate].
  - split; [exact B1'|]. repeat (split; [assumption|]). intros _. rewrite <- EC. split; [exact S2|]. split; [discriminate|congruence].
  - intros _. rewrite <- EC. split; [exact S0|]. split; discriminate.
Qed.
Lemma core_opt t c inb ia il oa N m : c = cmt t -> Z.of_nat t < num -> (ho = false -> cell m 1 c <= SIZE_MAX) ->
  wp obyte (tLL t) (tRR t) N (qitem_core e true true inb c ia il oa) m (fun _ _ => tQ e a m0 L0 R0 t) ->
  wp obyte (tLL t) (tRR t) N (qitem_core e ho hr inb c ia il oa) m (fun _ _ => oQ t).
Proof.
  intros EC Ht HM H. unfold qitem_core in *.
  assert (DH : ho = true \/ ho = false) by (destruct ho; auto). destruct DH as [EH|EH].
  - rewrite EH. cbn [qget pbind] in *. cbn [wp] in *. destruct N; [exact H|]. destruct H as (A1 & A2 & A3 & AL & H). repeat (split; [assumption|]). intros bs B1 B2 B3. specialize (H bs B1 B2 B3). revert H.
    apply (wp_leq _ _ _ (fun _ => False)); [apply leq_refl|]. intros N' [r n] m' W. split; [tauto|]. rewrite <- EH. eapply finish_opt in W; [|exact EC|exact Ht]. apply W.
  - rewrite EH. cbn [qget pbind] in *. cbn [wp] in H. destruct N; [contradiction|]. destruct H as (A1 & A2 & A3 & AL & H).
    specialize (H [cell m 1 c] eq_refl). cbn [nth] in H.
    assert (W : wp obyte (tLL t) (tRR t) N ('(ret, n) <~ qcore e oa (skipn (Z.to_nat ia) inb) il (cell m 1 c);; _ <~ qset true 1 c n;; qset true 2 c ret) m (fun _ _ => tQ e a m0 L0 R0 t)).
    { apply H; [constructor; [intros Q; discriminate|constructor]|]. intros j Hj _. cbn [length] in Hj. replace j with O by lia. cbn [nth]. f_equal. lia. }
    clear H. replace (S N) with (N + 1)%nat by lia. apply wp_more. revert W.
    apply (wp_leq _ _ _ (fun rn => fst rn <> 0)); [apply qcore_leq; now apply HM|].
    intros N' [r n] m' W. pose proof (finish_opt t c n r N' m' EC Ht W) as [ER W']. rewrite EH in W'. split; [|exact W'].
    cbn [fst]. rewrite ER, EC. intros NZ. apply NZ. apply (HZ EH). now apply (cm_range a m0 Hly).
Qed.
Lemma lift_opt {A} t (o : outcome A) (f f' : A -> prog unit) N m Q Q' : (forall x, o = Done x -> wp obyte (tLL t) (tRR t) N (f x) m Q -> wp obyte (tLL t) (tRR t) N (f' x) m Q') ->
  wp obyte (tLL t) (tRR t) N (pbind (lift o) f) m Q -> wp obyte (tLL t) (tRR t) N (pbind (lift o) f') m Q'.
Proof. destruct o as [x| |]; cbn [lift pbind wp]; auto. Qed.
Lemma oitem_ok t : (t < T)%nat -> Z.of_nat t < num -> wp obyte (tLL t) (tRR t) (9 * sw + 11) (qwork e ho hr a (Z.of_nat t)) G0 (fun _ _ => oQ t).
Proof.
  intros HT Ht. pose proof (item_ok e a m0 Hly Hfmt L0 R0 EL0 ER0 t HT Ht) as W. fold sw G0 in W. pose proof (cm_range a m0 Hly t Ht) as CR. destruct (cmap_ok a m0 Hly (Z.of_nat t) ltac:(lia)) as [CM _].
  assert (HM : ho = false -> cell G0 1 (cmt t) <= SIZE_MAX).
  { intros _. destruct (L0_ok a m0 Hly L0 EL0) as [_ B]. specialize (B _ CR). unfold cell. cbn [nth G0]. pose proof (ly_size _ _ _ Hly). change SIZE_MAX with (2 ^ 64 - 1). lia. }
  unfold qwork in *. destruct (Z.geb_spec (Z.of_nat t) num); [lia|]. revert W. apply lift_opt. intros c EC. rewrite CM in EC. injection EC as EC. cbv zeta. apply lift_opt. intros il _. destruct (a_format a).
  - apply core_opt; auto. now rewrite <- EC.
  - apply lift_opt. intros hd _. destruct (negb (list_eqb hd MARKER)).
    + apply (wp_leq _ _ _ (fun _ => False)); [apply leq_refl|]. intros N' [] m' W. split; [tauto|]. unfold qitem_done in *. eapply finish_opt in W; [apply W|auto|exact Ht].
    + apply lift_opt. intros k _. destruct (k =? 0).
      * intros W. unfold qitem_done in *. eapply finish_opt in W; [apply W|auto|exact Ht].
      * apply core_opt; auto. now rewrite <- EC.
Qed.
Lemma oQ_local t m1 m2 : (t < T)%nat -> agree (tRR t) m1 m2 -> oQ t m1 -> oQ t m2.
Proof.
  intros _ [SH AG] H Ht. destruct (H Ht) as ([S1 HS] & C1 & C2). pose proof (cm_range a m0 Hly t Ht) as CR. pose proof (base_nonneg a m0 Hly t Ht) as BN. split; [split|split].
  - eapply shape_trans; eassumption.
  - eapply sees_local; [exact BN| |exact HS]. split; [exact SH|]. intros b i Hi HA. apply AG; [exact Hi|]. split; [exact Ht|now left].
  - intros E. rewrite AG; [auto|lia|]. split; [exact Ht|right; left; auto].
  - intros E. rewrite AG; [auto|lia|]. split; [exact Ht|right; right; auto].
Qed.
Definition ostart : gsys := mkG G0 (map (qwork e ho hr a) (chunk_numbers (global_size num))).
Lemma oinv : minv obyte T tLL tRR oQ G0 ostart (map (budget a) (seq 0 T)).
Proof.
  unfold ostart, chunk_numbers. fold T. rewrite map_map. constructor; cbn [g_mem g_thr].
  - intros b. pose proof (proj1 (ly_out _ _ _ Hly)) as HB. destruct b as [|b]; cbn [nth G0].
    + revert HB. apply Forall_impl. intros x Hx _. exact Hx.
    + apply Forall_forall. intros x _ Hb. discriminate.
  - apply shape_refl.
  - now rewrite map_length, seq_length.
  - now rewrite map_length, seq_length.
  - intros t p H. assert (Ht : (t < T)%nat).
    { rewrite <- (seq_length T 0), <- (map_length (fun t => qwork e ho hr a (Z.of_nat t))). apply nth_error_Some. congruence. }
    rewrite nth_error_map in H. rewrite (nth_error_nth' _ O) in H by (now rewrite seq_length). rewrite seq_nth in H by auto. cbn [option_map Nat.add] in H.
    injection H as <-. unfold tinv. replace (nth t (map (budget a) (seq 0 T)) O) with (budget a t).
    2: { symmetry. apply nth_error_nth. rewrite nth_error_map, (nth_error_nth' _ O) by (now rewrite seq_length). rewrite seq_nth by auto. reflexivity. }
    unfold budget. destruct (Z.ltb_spec (Z.of_nat t) num) as [LT|GE]; [now apply oitem_ok|].
    unfold qwork. destruct (Z.geb_spec (Z.of_nat t) num); [|lia]. cbn [wp]. intros C. lia.
  - auto.
Qed.
Lemma oall s Ns m' : minv obyte T tLL tRR oQ G0 s Ns -> (forall t p, nth_error (g_thr s) t = Some p -> p = Ret tt) -> Inv e a m0 L0 R0 (fun _ => true) m' ->
  exists o L R, g_mem s = [o; L; R] /\ o = m_out m' /\ (ho = true -> Some L = m_olen m') /\ (hr = true -> Some R = m_ret m').
Proof.
  intros I HF IM. pose proof (mi_shape _ _ _ _ _ _ _ _ I) as [S1 S2]. destruct (g_mem s) as [|o [|L [|R [|]]]] eqn:EM; try discriminate. exists o, L, R. split; auto.
  destruct (L0_ok a m0 Hly L0 EL0) as [LL0 _]. pose proof (R0_ok a m0 Hly R0 ER0) as LR0. destruct (sz_ok a m0 Hly) as (ES & _ & _). fold sz in ES.
  assert (P : forall c, 0 <= c < num -> so G0 (out_pos a c) sz [o; L; R] (wnt c) /\ (ho = true -> cell [o; L; R] 1 c = c_n c) /\ (hr = true -> cell [o; L; R] 2 c = c_ret c)).
  { intros c Hc. destruct (thread_of a m0 Hly c Hc) as (t & HT & Ht & <-). assert (E : nth_error (g_thr s) t = Some (Ret tt)).
    { destruct (nth_error (g_thr s) t) as [p|] eqn:E; [now rewrite (HF t p E)|]. apply nth_error_None in E. rewrite (mi_thr _ _ _ _ _ _ _ _ I) in E. unfold T in E. lia. }
    apply (finished _ _ _ _ _ _ _ _ _ I) in E. rewrite EM in E. apply E. exact Ht. }
  pose proof (S2 O) as SO. pose proof (S2 1%nat) as SL. pose proof (S2 2%nat) as SR. cbn [nth G0] in SO, SL, SR.
  destruct (iv_L _ _ _ _ _ _ _ IM) as (L' & EL & LL & NL). destruct (iv_R _ _ _ _ _ _ _ IM) as (R' & ER & LR & NR).
  assert (J : Inv e a m0 L0 R0 (fun _ => true) (mkM o (Some (if ho then L else L')) (Some (if hr then R else R')))).
  { constructor; cbn [m_out m_olen m_ret].
  - eexists. split; [reflexivity|]. destruct ho eqn:EH; [|auto]. split; [unfold lenZ in *; lia|]. intros c Hc. destruct (P c Hc) as (_ & C & _). now apply C.
  - eexists. split; [reflexivity|]. destruct hr eqn:EH; [|auto]. split; [unfold lenZ in *; lia|]. intros c Hc. destruct (P c Hc) as (_ & _ & C). now apply C.
  - pose proof (mi_valid _ _ _ _ _ _ _ _ I O) as V. rewrite EM in V. cbn [nth] in V. revert V. apply Forall_impl. intros x Hx. now apply Hx.
  - exact SO.
  - intros p. pose proof (ly_size _ _ _ Hly) as [SZ _]. set (q := Z.of_nat p - a_outoff a).
    pose proof (Z.div_mod q (a_size a) ltac:(lia)) as DM. pose proof (Z.mod_pos_bound q (a_size a) ltac:(lia)) as MB. pose proof (ly_outoff _ _ _ Hly) as [OO _].
    destruct (Z_le_gt_dec 0 q) as [Q0|Q0]; [destruct (Z_lt_ge_dec (q / a_size a) num) as [QN|QN]|].
    + set (c := q / a_size a) in *. assert (C0 : 0 <= c) by (apply Z.div_pos; lia). set (j := Z.to_nat (q mod a_size a)).
      assert (EP : p = Z.to_nat (out_pos a c + Z.of_nat j)) by (unfold out_pos, j, q in *; lia). assert (Hj : (j < sz)%nat) by (unfold j; lia).
      rewrite EP at 2. rewrite (expect_chunk e a m0 Hly Hfmt L0 R0 EL0 ER0) by (auto; lia). destruct (P c ltac:(lia)) as ([_ HS] & _). pose proof (room a m0 Hly c ltac:(lia)) as [O0 _].
      rewrite <- (sees_cell _ _ O0 _ _ j HS Hj). unfold cell. cbn [nth]. now rewrite <- EP.
    + rewrite <- (expect_out e a m0 L0 p) by (fold q; auto). pose proof (mi_out _ _ _ _ _ _ _ _ I O (Z.of_nat p) ltac:(lia)) as C. rewrite EM in C. unfold cell in C. cbn [nth G0] in C. rewrite Nat2Z.id in C.
      apply C. intros t HT [Ht [A|[[A _]|[A _]]]]; [|discriminate|discriminate]. destruct A as [_ A]. fold sz in A. rewrite ES in A. pose proof (cm_range a m0 Hly t Ht). unfold out_pos, q in *. nia.
    + rewrite <- (expect_out e a m0 L0 p) by (fold q; auto). pose proof (mi_out _ _ _ _ _ _ _ _ I O (Z.of_nat p) ltac:(lia)) as C. rewrite EM in C. unfold cell in C. cbn [nth G0] in C. rewrite Nat2Z.id in C.
      apply C. intros t HT [Ht [A|[[A _]|[A _]]]]; [|discriminate|discriminate]. destruct A as [_ A]. fold sz in A. rewrite ES in A. pose proof (cm_range a m0 Hly t Ht). unfold out_pos, q in *. nia. }
  pose proof (Inv_unique e a m0 L0 R0 _ _ _ IM J) as ->. cbn [m_out m_olen m_ret]. split; auto. split; intros ->; reflexivity.
Qed.

Lemma ointerleaved order l s : schedule a order -> run gstep l ostart = Some s ->
  Z.of_nat (length l) <= num * (9 * (a_size a / 8) + 11) /\
  (forall t p, nth_error (g_thr s) t = Some p -> p <> Fault /\ p <> Stuck /\ (p = Ret tt \/ exists s', gstep t s = Some s')) /\
  (forall t u p q b j, t <> u -> nth_error (g_thr s) t = Some p -> nth_error (g_thr s) u = Some q -> writes p b j -> ~ writes q b j) /\
  exists m', run_items e a order m0 = Done m' /\
    ((forall c, 0 <= c < num -> elem (m_ret m') c = 0) -> ~ data_race s) /\
    (forall g c, 0 <= g < num -> opt_get (a_map a) g g = Done c -> nth_error (g_thr s) (Z.to_nat g) = Some (Ret tt) ->
       bytes_at (nth 0 (g_mem s) []) (out_pos a c) (a_size a) = bytes_at (m_out m') (out_pos a c) (a_size a) /\
       (ho = true -> nth (Z.to_nat c) (nth 1 (g_mem s) []) 0 = elem (m_olen m') c) /\ (hr = true -> nth (Z.to_nat c) (nth 2 (g_mem s) []) 0 = elem (m_ret m') c)) /\
    ((forall t p, nth_error (g_thr s) t = Some p -> p = Ret tt) ->
       exists o L R, g_mem s = [o; L; R] /\ o = m_out m' /\ (ho = true -> Some L = m_olen m') /\ (hr = true -> Some R = m_ret m')).
Proof.
  intros HS H. destruct (run_inv obyte T tLL tRR (tR_disjoint a m0 Hly) oQ oQ_local G0 l _ _ _ oinv H) as (Ns & I & LEN). destruct (sz_ok a m0 Hly) as (ES & _ & _). fold sz in ES.
  split. { pose proof (budget_sum a m0 Hly) as BS. fold T in BS. lia. }
  split.
  { intros t p E. destruct (no_fault _ _ _ _ _ _ _ _ t I) as [F1 F2]. split; [intros ->; now apply F1|]. split; [intros ->; now apply F2|].
    destruct p as [[]| | | |]; [now left| | | |]; right; (eapply not_blocked; [exact I|exact E|discriminate]). }
  assert (WW : forall t p b j, nth_error (g_thr s) t = Some p -> writes p b j -> tRR t b j).
  { intros t p b j E W. destruct p as [| |b1 i bs k| |]; try contradiction. destruct W as [-> W]. exact (writes_in _ _ _ _ _ _ _ _ _ _ _ _ _ j I E W). }
  assert (RR : forall t p b j, nth_error (g_thr s) t = Some p -> accesses p b j -> tLL t b j \/ tRR t b j).
  { intros t p b j E W. destruct p as [|b1 i n k|b1 i bs k| |]; try contradiction; destruct W as [-> W];
      [left; exact (reads_in _ _ _ _ _ _ _ _ _ _ _ _ _ j I E W)|right; exact (writes_in _ _ _ _ _ _ _ _ _ _ _ _ _ j I E W)]. }
  split. { intros t u p q b j NE Et Eu Wt Wu. eapply (tR_disjoint a m0 Hly t u b j NE); eauto. }
  destruct (run_all e a m0 Hly Hfmt L0 R0 EL0 ER0 order HS) as (m' & E & I'). exists m'. split; [exact E|].
  split; [|split].
  - intros HZ' (t & u & p & q & b & j & NE & Et & Eu & Wt & Au). pose proof (WW _ _ _ _ Et Wt) as Rt. apply (tR_disjoint a m0 Hly t u b j NE Rt).
    destruct (RR _ _ _ _ Eu Au) as [[Hu Lu]|Ru]; [|exact Ru]. split; auto. pose proof (cm_range a m0 Hly u Hu) as CR. pose proof (iv_R _ _ _ _ _ _ _ I') as (R' & ER & LR & NR). rewrite ER in HZ'. cbn [elem] in HZ'.
    rewrite <- (NR (cmt u) CR), (HZ' (cmt u) CR) in Lu. cbn [Z.eqb negb] in Lu.
    destruct Lu as [Lu|Lu]; [left|right; left; exact Lu]. unfold area in *. rewrite Nat.add_0_r in Lu. exact Lu.
  - pose proof (iv_R _ _ _ _ _ _ _ I') as (R' & ER & LR & NR). pose proof (iv_L _ _ _ _ _ _ _ I') as (L' & EL & LL & NL). rewrite ER, EL. cbn [elem].
    intros g c Hg HC EG. destruct (cmap_ok a m0 Hly g Hg) as [CM CR]. rewrite HC in CM. injection CM as EC. apply (finished _ _ _ _ _ _ _ _ _ I) in EG.
    assert (Hgn : Z.of_nat (Z.to_nat g) < num) by lia. specialize (EG Hgn). unfold cm in EG. rewrite Z2Nat.id in EG by lia. rewrite <- EC in EG, CR. destruct EG as ([_ HSE] & C1 & C2).
    unfold cell in C1, C2. rewrite NL, NR by exact CR. split; [|auto]. pose proof (room a m0 Hly c CR) as [O0 OF].
    assert (HM : sees (out_pos a c) sz [m_out m'] (wnt c)).
    { apply sees_ext; [exact O0|cbn [length]; lia|cbn [nth]; unfold lenZ in *; rewrite (iv_len _ _ _ _ _ _ _ I'); lia|now apply (want_length e a m0 Hly Hfmt L0 R0 EL0 ER0)|].
      intros j Hj. unfold cell. cbn [nth]. rewrite (iv_out _ _ _ _ _ _ _ I'). now apply (expect_chunk e a m0 Hly Hfmt L0 R0 EL0 ER0). }
    destruct HSE as (_ & _ & A). destruct HM as (_ & _ & B). unfold bytes_at. fold sz. cbn [nth] in B. now rewrite A, B.
  - intros HF. exact (oall s Ns m' I HF I').
Qed.
Lemma ooutside l s : run gstep l ostart = Some s -> forall p, Z.of_nat p < a_outoff a \/ a_outoff a + a_size a * num <= Z.of_nat p -> nth p (nth 0 (g_mem s) []) 0 = nth p (m_out m0) 0.
Proof.
  intros H p Hp. destruct (run_inv obyte T tLL tRR (tR_disjoint a m0 Hly) oQ oQ_local G0 l _ _ _ oinv H) as (Ns & I & _). destruct (sz_ok a m0 Hly) as (ES & _ & _). fold sz in ES.
  pose proof (mi_out _ _ _ _ _ _ _ _ I O (Z.of_nat p) ltac:(lia)) as C. unfold cell in C. cbn [nth G0] in C. rewrite Nat2Z.id in C.
  apply C. intros t HT [Ht [A|[[A _]|[A _]]]]; [|discriminate|discriminate]. destruct A as [_ A]. fold sz in A. rewrite ES in A. pose proof (cm_range a m0 Hly t Ht). pose proof (ly_size _ _ _ Hly). unfold out_pos in *. nia.
Qed.
End Launch.

Lemma start_ghost e a m sizes rets L0 R0 : m_olen m = Some L0 -> m_ret m = Some R0 ->
  ghost (fun b : nat => b = 0%nat \/ (b = 1%nat /\ sizes = true) \/ (b = 2%nat /\ rets = true)) (ostart e a m L0 R0 sizes rets) (ocl_start e a (without sizes rets m)).
Proof.
  intros EL ER. set (B := fun b : nat => b = 0%nat \/ (b = 1%nat /\ sizes = true) \/ (b = 2%nat /\ rets = true)).
  assert (IS1 : is_some (m_olen (without sizes rets m)) = sizes) by (unfold without; cbn [m_olen]; rewrite EL; destruct sizes; reflexivity).
  assert (IS2 : is_some (m_ret (without sizes rets m)) = rets) by (unfold without; cbn [m_ret]; rewrite ER; destruct rets; reflexivity).
  unfold ghost, ostart, ocl_start. rewrite IS1, IS2. cbn [g_thr g_mem]. split; [reflexivity|]. split; [reflexivity|]. split; [|split].
    - unfold gmem_of, without. cbn [m_out m_olen m_ret]. rewrite EL, ER. intros b [->|[[-> ->]|[-> ->]]]; reflexivity.
    - unfold gmem_of, without. cbn [m_out m_olen m_ret]. intros [|[|[|[|b]]]] Nb; cbn [nth]; try reflexivity.
      + destruct Nb. now left. + destruct sizes; [|reflexivity]. destruct Nb. right. now left. + destruct rets; [|reflexivity]. destruct Nb. right. now right.
    - intros t p Hp. rewrite nth_error_map in Hp. destruct (nth_error (chunk_numbers (global_size (a_num a))) t); [|discriminate]. injection Hp as <-. apply only_work; unfold B; auto.
Qed.
Lemma optional_interleaving e a m order m' sizes rets l s : layout_ok 2 a m -> sizes_ok a \/ chunks_ok e a -> schedule a order -> run_items e a order m = Done m' ->
  (sizes = false -> forall c, 0 <= c < a_num a -> elem (m_ret m') c = 0) ->
  run gstep l (ocl_start e a (without sizes rets m)) = Some s ->
  Z.of_nat (length l) <= a_num a * (9 * (a_size a / 8) + 11) /\
  (forall t p, nth_error (g_thr s) t = Some p -> p <> Fault /\ p <> Stuck /\ (p = Ret tt \/ exists s', gstep t s = Some s')) /\
  (forall t u p q b j, t <> u -> nth_error (g_thr s) t = Some p -> nth_error (g_thr s) u = Some q -> writes p b j -> ~ writes q b j) /\
  ((forall c, 0 <= c < a_num a -> elem (m_ret m') c = 0) -> ~ data_race s) /\
  (forall g c, 0 <= g < a_num a -> opt_get (a_map a) g g = Done c -> nth_error (g_thr s) (Z.to_nat g) = Some (Ret tt) ->
     bytes_at (nth 0 (g_mem s) []) (out_pos a c) (a_size a) = bytes_at (m_out m') (out_pos a c) (a_size a) /\
     (sizes = true -> nth (Z.to_nat c) (nth 1 (g_mem s) []) 0 = elem (m_olen m') c) /\ (rets = true -> nth (Z.to_nat c) (nth 2 (g_mem s) []) 0 = elem (m_ret m') c)) /\
  ((forall t p, nth_error (g_thr s) t = Some p -> p = Ret tt) -> g_mem s = gmem_of (without sizes rets m')).
Proof.
  intros HL HF HS HR HZ H. destruct (ly_olen _ _ _ HL) as (L0 & EL & _). destruct (ly_ret _ _ _ HL) as (R0 & ER & _).
  destruct (run_all e a m HL HF L0 R0 EL ER order HS) as (m2 & E2 & I). rewrite HR in E2. injection E2 as <-.
  assert (HZ' : sizes = false -> forall c, 0 <= c < a_num a -> res_ret e a L0 c = 0).
  { intros EH c Hc. destruct (iv_R _ _ _ _ _ _ _ I) as (R' & ER' & _ & NR). specialize (HZ EH c Hc). rewrite ER' in HZ. cbn [elem] in HZ. rewrite NR in HZ by exact Hc. exact HZ. }
  set (B := fun b : nat => b = 0%nat \/ (b = 1%nat /\ sizes = true) \/ (b = 2%nat /\ rets = true)).
  pose proof (start_ghost e a m sizes rets L0 R0 EL ER) as G. fold B in G.
  destruct (ghost_run B l _ _ _ G H) as (s1 & H1 & ET & LM & NM & NB & HO).
  destruct (ointerleaved e a m HL HF L0 R0 EL ER sizes rets HZ' order l s1 HS H1) as (P1 & P2 & P3 & m2 & E2 & P4 & P5 & P6). rewrite HR in E2. injection E2 as <-.
  split; [exact P1|]. rewrite ET. split; [|split; [|split; [|split]]].
  - intros t p Hp. destruct (P2 t p Hp) as (A & A2 & A3). split; [exact A|]. split; [exact A2|]. destruct A3 as [->|(s' & St)]; [now left|right]. unfold gstep in St |- *. rewrite ET. rewrite Hp in St |- *.
    destruct p as [x|b i n k|b i bs k| |]; try discriminate; [destruct (load_bytes (nth b (g_mem s) []) i n)|destruct (store_bytes (nth b (g_mem s) []) i bs)]; eexists; reflexivity.
  - exact P3.
  - intros Hz (t & u & p & q & b & j & D). rewrite ET in D. apply (P4 Hz). exists t, u, p, q, b, j. exact D.
  - intros g c Hg HC EG. destruct (P5 g c Hg HC EG) as (A & A1 & A2). rewrite NM by (now left). split; [exact A|]. split; intros E; rewrite NM; auto; unfold B; auto.
  - intros HA. destruct (P6 HA) as (o & L & R & EM & -> & A1 & A2). unfold gmem_of, without. cbn [m_out m_olen m_ret].
    destruct (g_mem s) as [|x [|y [|z [|]]]] eqn:ES; rewrite EM in LM; try discriminate LM. pose proof (NM 0%nat (or_introl eq_refl)) as N0. rewrite EM in N0, NM. cbn [nth] in N0. subst x. f_equal. f_equal; [|f_equal].
    + destruct sizes; [rewrite <- A1 by auto; apply (NM 1%nat); unfold B; auto|]. apply (NB 1%nat). unfold B. intros [C|[[_ C]|[C _]]]; discriminate.
    + destruct rets; [rewrite <- A2 by auto; apply (NM 2%nat); unfold B; auto|]. apply (NB 2%nat). unfold B. intros [C|[[C _]|[_ C]]]; discriminate.
Qed.
Lemma optional_outside e a m order sizes rets l s : layout_ok 2 a m -> sizes_ok a \/ chunks_ok e a -> schedule a order ->
  (sizes = false -> exists m', run_items e a order m = Done m' /\ forall c, 0 <= c < a_num a -> elem (m_ret m') c = 0) ->
  run gstep l (ocl_start e a (without sizes rets m)) = Some s ->
  (forall t, nth_error (g_thr s) t <> Some Fault) /\
  forall p, Z.of_nat p < a_outoff a \/ a_outoff a + a_size a * a_num a <= Z.of_nat p -> nth p (nth 0 (g_mem s) []) 0 = nth p (m_out m) 0.
Proof.
  intros HL HF HS HZ H. destruct (ly_olen _ _ _ HL) as (L0 & EL & _). destruct (ly_ret _ _ _ HL) as (R0 & ER & _).
  destruct (run_all e a m HL HF L0 R0 EL ER order HS) as (m2 & E2 & I).
  assert (HZ' : sizes = false -> forall c, 0 <= c < a_num a -> elem (m_ret m2) c = 0).
  { intros EH. destruct (HZ EH) as (m' & E & Z0). rewrite E2 in E. injection E as <-. exact Z0. }
  split. { intros t E. destruct (optional_interleaving e a m order m2 sizes rets l s HL HF HS E2 HZ' H) as (_ & A & _). destruct (A t Fault E) as [C _]. now apply C. }
  assert (HZ2 : sizes = false -> forall c, 0 <= c < a_num a -> res_ret e a L0 c = 0).
  { intros EH c Hc. destruct (iv_R _ _ _ _ _ _ _ I) as (R' & ER' & _ & NR). specialize (HZ' EH c Hc). rewrite ER' in HZ'. cbn [elem] in HZ'. rewrite NR in HZ' by exact Hc. exact HZ'. }
  destruct (ghost_run _ l _ _ _ (start_ghost e a m sizes rets L0 R0 EL ER) H) as (s1 & H1 & _ & _ & NM & _).
  rewrite NM by (now left). exact (ooutside e a m HL HF L0 R0 EL ER sizes rets HZ2 l s1 H1).
Qed.
