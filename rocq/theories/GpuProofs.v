(** Threads with disjoint footprints: whatever the interleaving, each of them does what it would do alone. *)
From Coq Require Import ZArith List Bool Lia.
From Verif Require Import SpecBits CBase BitsLemmas ConcLib SpecSync GpuModel.
Import ListNotations.
Open Scope Z_scope.

Section Wp.
Variable V : nat -> Z -> Prop.
Definition valid (m : gmem) : Prop := forall b, Forall (V b) (nth b m []).
Definition cell (m : gmem) (b : nat) (i : Z) : Z := nth (Z.to_nat i) (nth b m []) 0.
Definition shape (m m' : gmem) : Prop := length m' = length m /\ forall b, length (nth b m' []) = length (nth b m []).
Definition agree (R : nat -> Z -> Prop) (m m' : gmem) : Prop := shape m m' /\ forall b i, 0 <= i -> R b i -> cell m' b i = cell m b i.
Definition put (m : gmem) (b : nat) (i : Z) (bs : list Z) : gmem :=
  setnth b (firstn (Z.to_nat i) (nth b m []) ++ bs ++ skipn (Z.to_nat i + length bs) (nth b m [])) m.

(** [wp L R N p m Q]: started in memory [m], the thread [p] makes at most [N] accesses, only reads cells in [L] and only writes cells in [R], what it does
    only depends on cells in [R], and when it ends, [Q] holds. *)
Fixpoint wp {A} (L R : nat -> Z -> Prop) (N : nat) (p : prog A) (m : gmem) (Q : nat -> A -> gmem -> Prop) {struct p} : Prop :=
  match p with
  | Ret a => Q N a m
  | Load b i n k =>
    match N with
    | O => False
    | S N => 0 <= i /\ 0 <= n /\ i + n <= lenZ (nth b m []) /\ (forall j, i <= j < i + n -> L b j) /\
      forall bs, lenZ bs = n -> Forall (V b) bs -> (forall j, (j < length bs)%nat -> R b (i + Z.of_nat j) -> nth j bs 0 = cell m b (i + Z.of_nat j)) ->
      wp L R N (k bs) m Q
    end
  | Store b i bs k =>
    match N with
    | O => False
    | S N => (b < length m)%nat /\ 0 <= i /\ i + lenZ bs <= lenZ (nth b m []) /\ Forall (V b) bs /\ (forall j, (j < length bs)%nat -> R b (i + Z.of_nat j)) /\
      wp L R N k (put m b i bs) Q
    end
  | _ => False
  end.

Lemma wp_bind A B L R (p : prog A) : forall N m (f : A -> prog B) Q,
  wp L R N p m (fun N' a m' => wp L R N' (f a) m' Q) -> wp L R N (pbind p f) m Q.
Proof.
  induction p as [a|b i n k IH|b i bs k IH| |]; intros N m f Q H; cbn [wp pbind] in *; auto.
  - destruct N; auto. destruct H as (A1 & A2 & A3 & AL & H). repeat (split; auto).
  - destruct N; auto. destruct H as (A1 & A2 & A3 & A4 & A5 & H). repeat (split; auto).
Qed.
Lemma wp_mono A L R (p : prog A) : forall N m (Q Q' : nat -> A -> gmem -> Prop), (forall N a m, Q N a m -> Q' N a m) -> wp L R N p m Q -> wp L R N p m Q'.
Proof.
  induction p as [a|b i n k IH|b i bs k IH| |]; intros N m Q Q' HQ H; cbn [wp] in *; auto.
  - destruct N; auto. destruct H as (A1 & A2 & A3 & AL & H). repeat (split; auto). intros. eapply IH; eauto.
  - destruct N; auto. destruct H as (A1 & A2 & A3 & A4 & A5 & H). repeat (split; auto). eapply IH; eauto.
Qed.
(** More accesses allowed. *)
Lemma wp_more A L R (p : prog A) : forall N d m Q, wp L R N p m (fun N' a m' => Q (N' + d)%nat a m') -> wp L R (N + d) p m Q.
Proof.
  induction p as [a|b i n k IH|b i bs k IH| |]; intros N d m Q H; cbn [wp] in *; auto.
  - destruct N; [contradiction|]. cbn [Nat.add]. destruct H as (A1 & A2 & A3 & AL & H). repeat (split; auto).
  - destruct N; [contradiction|]. cbn [Nat.add]. destruct H as (A1 & A2 & A3 & A4 & A5 & H). repeat (split; auto).
Qed.

Lemma nth_set_same (m : gmem) b l : (b < length m)%nat -> nth b (setnth b l m) [] = l.
Proof. revert b. induction m; intros [|b] H; cbn [setnth nth length] in *; auto; try lia. apply IHm. lia. Qed.
Lemma nth_set_other (m : gmem) b c l : b <> c -> nth c (setnth b l m) [] = nth c m [].
Proof. revert b c. induction m; intros [|b] [|c] H; cbn [setnth nth]; auto; try contradiction. Qed.
Lemma put_length (m : gmem) b i (bs : list Z) : 0 <= i -> i + lenZ bs <= lenZ (nth b m []) ->
  length (firstn (Z.to_nat i) (nth b m []) ++ bs ++ skipn (Z.to_nat i + length bs) (nth b m [])) = length (nth b m []).
Proof. intros Hi Hl. unfold lenZ in *. rewrite !app_length, firstn_length, skipn_length. lia. Qed.
Lemma put_shape (m : gmem) b i (bs : list Z) : 0 <= i -> i + lenZ bs <= lenZ (nth b m []) -> shape m (put m b i bs).
Proof.
  intros Hi Hl. unfold put. split; [apply setnth_length|]. intros c. destruct (Nat.eq_dec b c) as [<-|N]; [|now rewrite nth_set_other].
  destruct (Nat.lt_ge_cases b (length m)).
  - rewrite nth_set_same by auto. now apply put_length.
  - rewrite !nth_overflow; auto. now rewrite setnth_length.
Qed.
Lemma put_cell m b i bs c j : (b < length m)%nat -> 0 <= i -> i + lenZ bs <= lenZ (nth b m []) -> 0 <= j ->
  cell (put m b i bs) c j = if (c =? b)%nat && (i <=? j) && (j <? i + lenZ bs) then nth (Z.to_nat (j - i)) bs 0 else cell m c j.
Proof.
  intros Hb Hi Hl Hj. unfold cell, put. destruct (Nat.eqb_spec c b) as [->|N]; [|rewrite nth_set_other; auto].
  rewrite nth_set_same by auto. cbn [andb]. unfold lenZ in *.
  destruct (Z.leb_spec i j) as [H1|H1]; cbn [andb].
  - rewrite app_nth2; rewrite firstn_length; [|lia]. replace (Nat.min _ _) with (Z.to_nat i) by lia.
    destruct (Z.ltb_spec j (i + Z.of_nat (length bs))).
    + rewrite app_nth1 by lia. f_equal. lia.
    + rewrite app_nth2 by lia. rewrite nth_skipn_gen. f_equal. lia.
  - rewrite app_nth1 by (rewrite firstn_length; lia). apply nth_firstn_gen. lia.
Qed.
Lemma put_valid m b i bs : valid m -> Forall (V b) bs -> valid (put m b i bs).
Proof.
  intros H1 H2 c. unfold put. destruct (Nat.eq_dec b c) as [<-|N]; [|now rewrite nth_set_other].
  destruct (Nat.lt_ge_cases b (length m)).
  - rewrite nth_set_same by auto. apply Forall_app. split; [|apply Forall_app; split; auto].
    + apply Forall_forall. intros x Hx. specialize (H1 b). rewrite Forall_forall in H1. apply H1. rewrite <- (firstn_skipn (Z.to_nat i)). apply in_or_app. auto.
    + apply Forall_forall. intros x Hx. specialize (H1 b). rewrite Forall_forall in H1. apply H1. rewrite <- (firstn_skipn (Z.to_nat i + length bs)). apply in_or_app. auto.
  - rewrite nth_overflow; [constructor|]. now rewrite setnth_length.
Qed.
Lemma shape_refl m : shape m m. Proof. split; auto. Qed.
Lemma shape_trans a b c : shape a b -> shape b c -> shape a c.
Proof. intros [A1 A2] [B1 B2]. split; [congruence|]. intros x. now rewrite B2. Qed.

(** What a thread does only depends on its part of the memory. *)
Lemma wp_frame A L R (p : prog A) : forall N m mr (Q : nat -> A -> gmem -> Prop), agree R m mr ->
  (forall n a m1 m2, agree R m1 m2 -> Q n a m1 -> Q n a m2) -> wp L R N p m Q -> wp L R N p mr Q.
Proof.
  induction p as [a|b i n k IH|b i bs k IH| |]; intros N m mr Q HA HQ H; cbn [wp] in *; eauto.
  - destruct N; auto. destruct H as (A1 & A2 & A3 & AL & H). destruct HA as [[S1 S2] AG]. unfold lenZ in *. rewrite S2. repeat (split; auto).
    intros bs LB VB AB. eapply IH; [split; [split; eassumption|exact AG]|exact HQ|]. apply H; auto.
    intros j Hj HR. rewrite <- AG by (auto; lia). auto.
  - destruct N; auto. destruct H as (A1 & A2 & A3 & A4 & A5 & H). destruct HA as [[S1 S2] AG]. unfold lenZ in *. rewrite S1, S2. repeat (split; auto).
    eapply IH; [|exact HQ|exact H]. split.
    + split; unfold put; rewrite ?setnth_length; auto. intros c. destruct (Nat.eq_dec b c) as [<-|N2]; [|rewrite !nth_set_other by auto; auto].
      rewrite !nth_set_same by (auto; lia). rewrite !put_length; unfold lenZ; rewrite ?S2; auto.
    + intros c j Hj HR. rewrite !put_cell by (auto; unfold lenZ; rewrite ?S1, ?S2; auto). destruct (_ && _); auto.
Qed.

(** * The machine *)
Variable T : nat.
Variables L R : nat -> nat -> Z -> Prop.
Hypothesis disjoint : forall t u b i, t <> u -> R t b i -> R u b i -> False.
Variable Q : nat -> gmem -> Prop.
Hypothesis Q_local : forall t m1 m2, (t < T)%nat -> agree (R t) m1 m2 -> Q t m1 -> Q t m2.
Variable m0 : gmem.
Hypothesis m0_valid : valid m0.

Definition tinv (m : gmem) (t : nat) (N : nat) (p : prog unit) : Prop := wp (L t) (R t) N p m (fun _ _ m' => Q t m').
Record minv (s : gsys) (Ns : list nat) : Prop := {
  mi_valid : valid (g_mem s);
  mi_shape : shape m0 (g_mem s);
  mi_thr : length (g_thr s) = T;
  mi_Ns : length Ns = T;
  mi_wp : forall t p, nth_error (g_thr s) t = Some p -> tinv (g_mem s) t (nth t Ns O) p;
  mi_out : forall b i, 0 <= i -> (forall t, (t < T)%nat -> ~ R t b i) -> cell (g_mem s) b i = cell m0 b i }.

Lemma list_sum_set (l : list nat) t v : (t < length l)%nat -> (list_sum (setnth t v l) + nth t l O = list_sum l + v)%nat.
Proof.
  revert t. induction l as [|x l IH]; intros [|t] H; cbn [setnth nth list_sum fold_right length] in *; try lia.
  specialize (IH t ltac:(lia)). unfold list_sum in IH. lia.
Qed.
Lemma nth_setn (l : list nat) t u v : (t < length l)%nat -> nth u (setnth t v l) O = if (u =? t)%nat then v else nth u l O.
Proof.
  intros H. revert t u H. induction l as [|x l IH]; intros [|t] [|u] H; cbn [setnth nth length Nat.eqb] in *; try lia; auto.
  apply IH. lia.
Qed.
Lemma load_ok (l : list Z) i n : 0 <= i -> 0 <= n -> i + n <= lenZ l -> load_bytes l i n = Done (firstn (Z.to_nat n) (skipn (Z.to_nat i) l)).
Proof. intros. unfold load_bytes. destruct (Z.leb_spec 0 i); [|lia]. destruct (Z.leb_spec (i + n) (lenZ l)); [reflexivity|lia]. Qed.

Lemma step_inv s Ns t s' : minv s Ns -> gstep t s = Some s' ->
  exists N, minv s' (setnth t N Ns) /\ nth t Ns O = S N /\ S (list_sum (setnth t N Ns)) = list_sum Ns.
Proof.
  intros I H. unfold gstep in H. destruct (nth_error (g_thr s) t) as [p|] eqn:E; [|discriminate].
  assert (LT : (t < T)%nat) by (rewrite <- (mi_thr _ _ I); apply nth_error_Some; congruence).
  pose proof (mi_wp _ _ I _ _ E) as W. pose proof (mi_Ns _ _ I) as LN.
  assert (SUM : forall k, nth t Ns O = S k -> S (list_sum (setnth t k Ns)) = list_sum Ns).
  { intros k Hk. pose proof (list_sum_set Ns t k ltac:(lia)). lia. }
  destruct p as [a|b i n k|b i bs k| |]; try discriminate; unfold tinv in W; cbn [wp] in W.
  - destruct (nth t Ns O) as [|N] eqn:EN; [contradiction|]. destruct W as (A1 & A2 & A3 & _ & W).
    rewrite load_ok in H by auto. injection H as <-. exists N. split; [|auto].
    assert (WB : tinv (g_mem s) t N (k (firstn (Z.to_nat n) (skipn (Z.to_nat i) (nth b (g_mem s) []))))).
    { apply W.
      - unfold lenZ in *. rewrite firstn_length, skipn_length. lia.
      - apply Forall_forall. intros x Hx. pose proof (mi_valid _ _ I b) as VB. rewrite Forall_forall in VB. apply VB.
        rewrite <- (firstn_skipn (Z.to_nat i)). apply in_or_app. right. rewrite <- (firstn_skipn (Z.to_nat n)). apply in_or_app. now left.
      - intros j Hj _. rewrite firstn_length in Hj. rewrite nth_firstn_gen by lia. rewrite nth_skipn_gen. unfold cell. f_equal. lia. }
    destruct I. constructor; cbn [g_mem g_thr]; auto.
    + now rewrite setnth_length.
    + now rewrite setnth_length.
    + intros u p Hu. rewrite nth_setn by lia. destruct (Nat.eqb_spec u t) as [->|NE].
      * rewrite (nth_setnth_same _ _ _ _ E) in Hu. injection Hu as <-. exact WB.
      * rewrite nth_setnth_other in Hu by auto. auto.
  - destruct (nth t Ns O) as [|N] eqn:EN; [contradiction|]. destruct W as (A0 & A1 & A3 & A4 & A5 & W).
    unfold store_bytes in H. destruct (Z.leb_spec 0 i); [|lia]. destruct (Z.leb_spec (i + lenZ bs) (lenZ (nth b (g_mem s) []))); [|lia].
    cbn [andb] in H. injection H as <-. exists N. split; [|auto]. fold (put (g_mem s) b i bs).
    assert (AGU : forall u, u <> t -> agree (R u) (g_mem s) (put (g_mem s) b i bs)).
    { intros u NE. split; [now apply put_shape|]. intros c j Hj HR. rewrite put_cell by auto.
      destruct (Nat.eqb_spec c b) as [->|]; auto. destruct (Z.leb_spec i j); auto. destruct (Z.ltb_spec j (i + lenZ bs)); auto. cbn [andb].
      exfalso. unfold lenZ in *. apply (disjoint u t b j NE HR). replace j with (i + Z.of_nat (Z.to_nat (j - i))) by lia. apply A5. lia. }
    destruct I. constructor; cbn [g_mem g_thr].
    + now apply put_valid.
    + eapply shape_trans; [eassumption|]. now apply put_shape.
    + now rewrite setnth_length.
    + now rewrite setnth_length.
    + intros u p Hu. rewrite nth_setn by lia. destruct (Nat.eqb_spec u t) as [->|NE].
      * rewrite (nth_setnth_same _ _ _ _ E) in Hu. injection Hu as <-. exact W.
      * rewrite nth_setnth_other in Hu by auto.
        assert (LU : (u < T)%nat) by (rewrite <- mi_thr0; apply nth_error_Some; congruence).
        eapply wp_frame; [apply AGU; auto| |apply mi_wp0; eassumption]. intros n a m1 m2 AG. now apply Q_local.
    + intros c j Hj HN. rewrite put_cell by auto. rewrite <- mi_out0 by auto.
      destruct (Nat.eqb_spec c b) as [->|]; auto. destruct (Z.leb_spec i j); auto. destruct (Z.ltb_spec j (i + lenZ bs)); auto. cbn [andb].
      exfalso. unfold lenZ in *. apply (HN t LT). replace j with (i + Z.of_nat (Z.to_nat (j - i))) by lia. apply A5. lia.
Qed.

Lemma not_blocked s Ns t p : minv s Ns -> nth_error (g_thr s) t = Some p -> p <> Ret tt -> exists s', gstep t s = Some s'.
Proof.
  intros I E NR. pose proof (mi_wp _ _ I _ _ E) as W. unfold gstep. rewrite E. destruct p as [[]|b i n k|b i bs k| |].
  - elim NR. reflexivity.
  - destruct (load_bytes _ _ _); eauto.
  - destruct (store_bytes _ _ _); eauto.
  - elim W.
  - elim W.
Qed.
Lemma finished s Ns t : minv s Ns -> nth_error (g_thr s) t = Some (Ret tt) -> Q t (g_mem s).
Proof. intros I E. exact (mi_wp _ _ I _ _ E). Qed.
Lemma no_fault s Ns t : minv s Ns -> nth_error (g_thr s) t <> Some Fault /\ nth_error (g_thr s) t <> Some Stuck.
Proof. intros I. split; intros E; exact (mi_wp _ _ I _ _ E). Qed.

(** The next access of a thread is in its part. *)
Lemma reads_in s Ns t b i n k j : minv s Ns -> nth_error (g_thr s) t = Some (Load b i n k) -> i <= j < i + n -> L t b j.
Proof. intros I E Hj. pose proof (mi_wp _ _ I _ _ E) as W. unfold tinv in W. cbn [wp] in W. destruct (nth t Ns O); [contradiction|]. destruct W as (_ & _ & _ & AL & _). auto. Qed.
Lemma writes_in s Ns t b i bs k j : minv s Ns -> nth_error (g_thr s) t = Some (Store b i bs k) -> i <= j < i + lenZ bs -> R t b j.
Proof.
  intros I E Hj. pose proof (mi_wp _ _ I _ _ E) as W. unfold tinv in W. cbn [wp] in W. destruct (nth t Ns O); [contradiction|]. destruct W as (_ & _ & _ & _ & A5 & _).
  unfold lenZ in Hj. replace j with (i + Z.of_nat (Z.to_nat (j - i))) by lia. apply A5. lia.
Qed.

Lemma run_inv l : forall s Ns s', minv s Ns -> run gstep l s = Some s' ->
  exists Ns', minv s' Ns' /\ (length l + list_sum Ns' = list_sum Ns)%nat.
Proof.
  induction l as [|t l IH]; intros s Ns s' I H; cbn [run] in H.
  - injection H as <-. exists Ns. auto.
  - destruct (gstep t s) as [s1|] eqn:E; [|discriminate]. destruct (step_inv _ _ _ _ I E) as (N1 & I1 & _ & S1).
    destruct (IH _ _ _ I1 H) as (N2 & I2 & S2). exists N2. split; auto. cbn [length]. lia.
Qed.
(** How many accesses each thread has made. *)
Lemma run_each l : forall s Ns s', minv s Ns -> run gstep l s = Some s' -> forall u, (count_occ Nat.eq_dec l u <= nth u Ns O)%nat.
Proof.
  induction l as [|t l IH]; intros s Ns s' I H u; cbn [run] in H; [cbn [count_occ]; lia|].
  destruct (gstep t s) as [s1|] eqn:E; [|discriminate]. destruct (step_inv _ _ _ _ I E) as (N1 & I1 & EN & _).
  assert (LT : (t < length Ns)%nat).
  { rewrite (mi_Ns _ _ I), <- (mi_thr _ _ I). apply nth_error_Some. unfold gstep in E. destruct (nth_error (g_thr s) t); congruence. }
  pose proof (IH _ _ _ I1 H u) as IU. rewrite nth_setn in IU by exact LT. cbn [count_occ]. destruct (Nat.eq_dec t u) as [<-|NE].
  - rewrite Nat.eqb_refl in IU. lia.
  - destruct (Nat.eqb_spec u t); [congruence|exact IU].
Qed.
(** A thread that is not ended has as many accesses left as its budget without the turns it had; a turn of an ended thread does nothing. *)
Lemma turns_inv sched : forall s Ns, minv s Ns -> exists Ns', minv (gturns s sched) Ns' /\
  forall t, (t < T)%nat -> nth_error (g_thr (gturns s sched)) t = Some (Ret tt) \/ (count_occ Nat.eq_dec sched t + nth t Ns' O <= nth t Ns O)%nat.
Proof.
  induction sched as [|u sched IH] using rev_ind; intros s Ns I.
  - exists Ns. split; [exact I|]. intros t _. right. cbn [count_occ]. lia.
  - destruct (IH s Ns I) as (N1 & I1 & H1). unfold gturns in *. rewrite fold_left_app. cbn [fold_left]. set (s1 := fold_left gturn sched s) in *.
    assert (CO : forall t, count_occ Nat.eq_dec (sched ++ [u]) t = (count_occ Nat.eq_dec sched t + if Nat.eq_dec u t then 1 else 0)%nat).
    { intros t. rewrite count_occ_app. cbn [count_occ]. destruct (Nat.eq_dec u t); lia. }
    unfold gturn. destruct (gstep u s1) as [s2|] eqn:E.
    + destruct (step_inv _ _ _ _ I1 E) as (N2 & I2 & EN & _). exists (setnth u N2 N1). split; auto. intros t Ht.
      assert (LU : (u < length N1)%nat). { rewrite (mi_Ns _ _ I1), <- (mi_thr _ _ I1). apply nth_error_Some. unfold gstep in E. destruct (nth_error (g_thr s1) u); congruence. }
      rewrite CO, nth_setn by exact LU. destruct (Nat.eqb_spec t u) as [->|NE].
      * destruct (H1 u Ht) as [F|F]. { unfold gstep in E. rewrite F in E. discriminate. }
        right. destruct (Nat.eq_dec u u); [lia|congruence].
      * destruct (H1 t Ht) as [F|F]; [left|right; destruct (Nat.eq_dec u t); [congruence|lia]].
        unfold gstep in E. destruct (nth_error (g_thr s1) u) as [[|b i n k|b i bs k| |]|]; try discriminate.
        -- destruct (load_bytes _ _ _); injection E as <-; cbn [g_thr]; rewrite nth_setnth_other by auto; exact F.
        -- destruct (store_bytes _ _ _); injection E as <-; cbn [g_thr]; rewrite nth_setnth_other by auto; exact F.
    + exists N1. split; auto. intros t Ht. rewrite CO. destruct (Nat.eq_dec u t) as [->|NE]; [|rewrite Nat.add_0_r; auto].
      left. destruct (nth_error (g_thr s1) t) as [p|] eqn:EP.
      * destruct p as [[]| | | |]; [reflexivity| | | |]; exfalso; (destruct (not_blocked _ _ _ _ I1 EP ltac:(discriminate)) as (s2 & E2); congruence).
      * apply nth_error_None in EP. rewrite (mi_thr _ _ I1) in EP. lia.
Qed.
(** With as many turns as its budget a thread ends. *)
Lemma turns_end sched s Ns t : minv s Ns -> (t < T)%nat -> (nth t Ns O <= count_occ Nat.eq_dec sched t)%nat -> nth_error (g_thr (gturns s sched)) t = Some (Ret tt).
Proof.
  intros I Ht HC. destruct (turns_inv sched s Ns I) as (N1 & I1 & H1). destruct (H1 t Ht) as [F|F]; [exact F|]. assert (Z0 : nth t N1 O = O) by lia.
  destruct (nth_error (g_thr (gturns s sched)) t) as [p|] eqn:EP.
  - pose proof (mi_wp _ _ I1 _ _ EP) as W. rewrite Z0 in W. unfold tinv in W. destruct p as [[]| | | |]; cbn [wp] in W; try contradiction. reflexivity.
  - apply nth_error_None in EP. rewrite (mi_thr _ _ I1) in EP. lia.
Qed.
End Wp.
