(** The sample programs for NUMA machines: proofs. *)
From Coq Require Import ZArith List Bool Lia Permutation.
From Verif Require Import SpecBits SpecCrc Spec842 SpecCalls CBase BitsLemmas ConcLib OptCompModel OptDecompModel OptProps OclModel SpecOcl OclItems OclProps InplaceItems
  ChunkedModel ChunkedProofs SampleProofs BenchProofs PgasusModel SpecPgasus.
Import ListNotations.
Open Scope Z_scope.

Lemma u64_small x : 0 <= x < 2 ^ 64 -> u64 x = x.
Proof. intros. unfold u64. apply Z.mod_small. lia. Qed.

(** * A phase *)
Section Phase.
Context {M : Type}.
Variable omp : bool.
Variable cpc : Z.
Variable work : nat -> Z -> M -> outcome (M * Z).
Variable K T : nat.
Hypothesis HC : 0 < cpc.
Hypothesis HB : cpc * Z.of_nat T < 2 ^ 63.
Variable OK : nat -> M -> Prop.
Variable Dn : nat -> Z -> M -> Prop.
Hypothesis Hwork : forall k c m, (k < K)%nat -> 0 <= c < cpc * Z.of_nat T -> OK k m ->
  exists m', work k c m = Done (m', 0) /\ OK k m' /\ Dn k c m' /\ forall d, 0 <= d < cpc * Z.of_nat T -> Dn k d m -> Dn k d m'.

Definition begun (v : worker) : bool := match v with WNew => false | _ => true end.
Definition place (k : nat) (m : M) (i : Z) (v : worker) : Prop :=
  match v with
  | WNew => True
  | WAt c last => last = i * cpc + cpc - 1 /\ i * cpc <= c <= last /\ forall d, i * cpc <= d < c -> Dn k d m
  | WEnd => forall d, i * cpc <= d < i * cpc + cpc -> Dn k d m
  end.
Definition tinv (k : nat) (tm : team M) : Prop :=
  OK k (t_mem tm) /\ length (t_workers tm) = T /\
  exists g : nat -> Z,
    (forall t v, nth_error (t_workers tm) t = Some v -> begun v = true -> 0 <= g t < Z.of_nat T /\ place k (t_mem tm) (g t) v) /\
    (forall t v t' v', nth_error (t_workers tm) t = Some v -> begun v = true -> nth_error (t_workers tm) t' = Some v' -> begun v' = true -> g t = g t' -> t = t') /\
    (if omp then forall t v, nth_error (t_workers tm) t = Some v -> begun v = true -> g t = Z.of_nat t
     else t_ids tm = cnt begun (t_workers tm) /\ forall t v, nth_error (t_workers tm) t = Some v -> begun v = true -> g t < t_ids tm).
Definition winv (w : list (team M)) : Prop := length w = K /\ forall k tm, nth_error w k = Some tm -> tinv k tm.
Definition left (v : worker) : Z := match v with WNew => cpc + 1 | WAt c last => last - c + 1 | WEnd => 0 end.
Definition left_at (w : list (team M)) (k t : nat) : Z :=
  match nth_error w k with Some tm => match nth_error (t_workers tm) t with Some v => left v | None => 0 end | None => 0 end.


Lemma cnt_one_out (l : list worker) t v : nth_error l t = Some v -> begun v = false -> cnt begun l < Z.of_nat (length l).
Proof.
  revert t. induction l as [|x l IH]; intros [|t] H B; cbn [nth_error cnt length] in *; try discriminate.
  - injection H as ->. rewrite B. pose proof (cnt_le begun l). lia.
  - specialize (IH t H B). destruct (begun x); lia.
Qed.

Lemma at_chunk_spec k m i c : 0 <= i < Z.of_nat T -> i * cpc <= c <= i * cpc + cpc -> (forall d, i * cpc <= d < c -> Dn k d m) ->
  let v := at_chunk c (i * cpc + cpc - 1) in begun v = true /\ place k m i v /\ left v = i * cpc + cpc - c.
Proof.
  intros Hi Hc HD. cbv zeta. unfold at_chunk. destruct (Z.leb_spec c (i * cpc + cpc - 1)); cbn [begun place left].
  - split; auto. split; [|lia]. split; [reflexivity|]. split; [lia|auto].
  - split; auto. split; [|lia]. intros d Hd. apply HD. lia.
Qed.

Lemma first_ok k t tm : tinv k tm -> nth_error (t_workers tm) t = Some WNew ->
  let tm' := first_chunk omp cpc t tm in tinv k tm' /\ exists v, t_workers tm' = setnth t v (t_workers tm) /\ left v = cpc.
Proof.
  intros (HO & HL & g & G1 & G2 & G3) HT. cbv zeta.
  assert (Ht : (t < T)%nat). { rewrite <- HL. apply nth_error_Some. rewrite HT. discriminate. }
  pose proof (cnt_one_out _ _ _ HT eq_refl) as CO. rewrite HL in CO. pose proof (cnt_nonneg begun (t_workers tm)) as CN.
  set (i := if omp then Z.of_nat t else t_ids tm).
  assert (Hi : 0 <= i < Z.of_nat T). { unfold i. destruct omp; [lia|]. destruct G3 as [G3 _]. lia. }
  assert (BI : 0 <= i * cpc /\ i * cpc + cpc <= cpc * Z.of_nat T) by nia.
  unfold first_chunk. fold i. cbv zeta. rewrite (u64_small (i * cpc)) by lia. rewrite (u64_small (i * cpc + cpc)) by lia. rewrite (u64_small (i * cpc + cpc - 1)) by lia.
  destruct (at_chunk_spec k (t_mem tm) i (i * cpc) Hi ltac:(lia) ltac:(intros; lia)) as (A1 & A2 & A3). set (v := at_chunk _ _) in *.
  split; [|exists v; cbn [t_workers]; split; [reflexivity|lia]].
  unfold tinv. cbn [t_mem t_ids t_workers]. split; auto. split; [now rewrite setnth_length|].
  exists (fun s => if Nat.eqb s t then i else g s).
  assert (NE : forall s u, nth_error (setnth t v (t_workers tm)) s = Some u -> (s = t /\ u = v) \/ (s <> t /\ nth_error (t_workers tm) s = Some u)).
  { intros s u E. destruct (Nat.eq_dec s t) as [->|N]; [left|right]; split; auto.
    - rewrite (nth_setnth_same _ _ _ _ HT) in E. now injection E.
    - rewrite nth_setnth_other in E; auto. }
  split; [|split].
  - intros s u E B. destruct (NE s u E) as [[-> ->]|[N E']]; [rewrite Nat.eqb_refl; auto|]. apply Nat.eqb_neq in N. rewrite N. auto.
  - intros s u s' u' E B E' B'. destruct (NE s u E) as [[-> ->]|[N F]], (NE s' u' E') as [[-> ->]|[N' F']]; auto.
    + rewrite Nat.eqb_refl. apply Nat.eqb_neq in N' as N''. rewrite N''. intros EQ. exfalso. unfold i in EQ. destruct omp.
      * rewrite (G3 _ _ F' B') in EQ. lia.
      * destruct G3 as [_ G3]. specialize (G3 _ _ F' B'). lia.
    + rewrite Nat.eqb_refl. apply Nat.eqb_neq in N as N''. rewrite N''. intros EQ. exfalso. unfold i in EQ. destruct omp.
      * rewrite (G3 _ _ F B) in EQ. lia.
      * destruct G3 as [_ G3]. specialize (G3 _ _ F B). lia.
    + apply Nat.eqb_neq in N, N'. rewrite N, N'. eauto.
  - unfold i. destruct omp.
    + intros s u E B. destruct (NE s u E) as [[-> ->]|[N E']]; [now rewrite Nat.eqb_refl|]. apply Nat.eqb_neq in N. rewrite N. eauto.
    + destruct G3 as [G3 G4]. assert (t_ids tm + 1 < 2 ^ 64) by nia. rewrite u64_small by lia. split.
      * rewrite (cnt_setnth begun t v WNew) by auto. cbn [begun]. rewrite A1. lia.
      * intros s u E B. destruct (NE s u E) as [[-> ->]|[N E']]; [rewrite Nat.eqb_refl; lia|]. apply Nat.eqb_neq in N. rewrite N. specialize (G4 _ _ E' B). lia.
Qed.

Lemma next_ok k t c last tm : (k < K)%nat -> tinv k tm -> nth_error (t_workers tm) t = Some (WAt c last) ->
  exists tm' v, next_chunk omp work k t c last tm = Done tm' /\ tinv k tm' /\ t_workers tm' = setnth t v (t_workers tm) /\ left v = last - c.
Proof.
  intros Hk (HO & HL & g & G1 & G2 & G3) HT. destruct (G1 _ _ HT eq_refl) as [Hi (-> & Hc & HD)]. set (i := g t) in *.
  assert (BI : 0 <= i * cpc /\ i * cpc + cpc <= cpc * Z.of_nat T) by nia.
  destruct (Hwork k c (t_mem tm) Hk ltac:(lia) HO) as (m' & EW & O' & D' & P').
  unfold next_chunk. rewrite EW, bind_done. change (negb (0 =? 0)) with false. rewrite andb_false_r. rewrite u64_small by lia.
  destruct (at_chunk_spec k m' i (c + 1) Hi ltac:(lia)) as (A1 & A2 & A3).
  { intros d Hd. destruct (Z.eq_dec d c) as [->|]; auto. apply P'; [lia|]. apply HD. lia. }
  set (v := at_chunk _ _) in *. eexists _, v. split; [reflexivity|]. cbn [t_workers]. split; [|split; [reflexivity|lia]].
  unfold tinv. cbn [t_mem t_ids t_workers]. split; auto. split; [now rewrite setnth_length|]. exists g.
  assert (NE : forall s u, nth_error (setnth t v (t_workers tm)) s = Some u -> (s = t /\ u = v) \/ (s <> t /\ nth_error (t_workers tm) s = Some u)).
  { intros s u E. destruct (Nat.eq_dec s t) as [->|N]; [left|right]; split; auto.
    - rewrite (nth_setnth_same _ _ _ _ HT) in E. now injection E.
    - rewrite nth_setnth_other in E; auto. }
  split; [|split].
  - intros s u E B. destruct (NE s u E) as [[-> ->]|[N E']]; [auto|]. destruct (G1 s u E' B) as [Gs Ps]. split; auto.
    assert (0 <= g s * cpc /\ g s * cpc + cpc <= cpc * Z.of_nat T) by nia.
    destruct u as [|c' l'|]; cbn [place] in *; auto.
    + destruct Ps as (-> & P1 & P2). split; [reflexivity|]. split; [auto|]. intros d Hd. apply P'; [lia|]. auto.
    + intros d Hd. apply P'; [lia|]. auto.
  - intros s u s' u' E B E' B'. destruct (NE s u E) as [[-> ->]|[N F]], (NE s' u' E') as [[-> ->]|[N' F']]; auto; intros EQ.
    + exact (G2 _ _ _ _ HT eq_refl F' B' EQ).
    + exact (G2 _ _ _ _ F B HT eq_refl EQ).
    + exact (G2 _ _ _ _ F B F' B' EQ).
  - destruct omp.
    + intros s u E B. destruct (NE s u E) as [[-> ->]|[N E']]; eauto.
    + destruct G3 as [G3 G4]. split.
      * rewrite (cnt_setnth begun t v (WAt c (i * cpc + cpc - 1))) by auto. cbn [begun]. rewrite A1. lia.
      * intros s u E B. destruct (NE s u E) as [[-> ->]|[N E']]; eauto.
Qed.

Definition mine (s : nat * nat) (k t : nat) : bool := Nat.eqb (fst s) k && Nat.eqb (snd s) t.
Lemma left_nonneg w k t : winv w -> 0 <= left_at w k t.
Proof.
  intros (_ & W). unfold left_at. destruct (nth_error w k) as [tm|] eqn:E; [|lia]. destruct (nth_error (t_workers tm) t) as [v|] eqn:F; [|lia].
  destruct v as [|c last|]; cbn [left]; try lia. destruct (W _ _ E) as (_ & _ & g & G1 & _). destruct (G1 _ _ F eq_refl) as (_ & _ & ? & _). lia.
Qed.
Lemma left_set (w : list (team M)) k t tm tm' v u : nth_error w k = Some tm -> nth_error (t_workers tm) t = Some u -> t_workers tm' = setnth t v (t_workers tm) ->
  forall k' t', left_at (setnth k tm' w) k' t' = if mine (k, t) k' t' then left v else left_at w k' t'.
Proof.
  intros E F S k' t'. unfold left_at, mine. cbn [fst snd]. destruct (Nat.eqb_spec k k') as [<-|N]; cbn [andb].
  - rewrite (nth_setnth_same _ _ _ _ E), S, E. destruct (Nat.eqb_spec t t') as [<-|N'].
    + now rewrite (nth_setnth_same _ _ _ _ F).
    + now rewrite nth_setnth_other.
  - now rewrite nth_setnth_other.
Qed.
Lemma winv_set w k tm tm' : winv w -> nth_error w k = Some tm -> tinv k tm' -> winv (setnth k tm' w).
Proof.
  intros [W0 W] E I. split; [now rewrite setnth_length|]. intros k' x F. destruct (Nat.eq_dec k k') as [<-|N].
  - rewrite (nth_setnth_same _ _ _ _ E) in F. injection F as <-. auto.
  - rewrite nth_setnth_other in F; auto.
Qed.
Lemma step_ok s w : winv w -> exists w', team_step omp cpc work s w = Done w' /\ winv w' /\
  forall k t, left_at w' k t = if mine s k t then Z.max 0 (left_at w k t - 1) else left_at w k t.
Proof.
  intros W. destruct s as [k t]. unfold team_step.
  assert (SAME : left_at w k t = 0 -> exists w', Done w = Done w' /\ winv w' /\ forall k' t', left_at w' k' t' = if mine (k, t) k' t' then Z.max 0 (left_at w k' t' - 1) else left_at w k' t').
  { intros Z0. exists w. split; auto. split; auto. intros k' t'. unfold mine. cbn [fst snd].
    destruct (Nat.eqb_spec k k') as [<-|]; destruct (Nat.eqb_spec t t') as [<-|]; cbn [andb]; auto. rewrite Z0. reflexivity. }
  destruct (nth_error w k) as [tm|] eqn:E; [|apply SAME; unfold left_at; now rewrite E].
  pose proof (proj2 W _ _ E) as I. assert (Hk : (k < K)%nat). { rewrite <- (proj1 W). apply nth_error_Some. rewrite E. discriminate. }
  destruct (nth_error (t_workers tm) t) as [[|c last|]|] eqn:F; try (apply SAME; unfold left_at; rewrite E, F; reflexivity).
  - destruct (first_ok k t tm I F) as (I' & v & S & L). exists (setnth k (first_chunk omp cpc t tm) w). split; [reflexivity|]. split; [eapply winv_set; eauto|].
    intros k' t'. rewrite (left_set w k t tm _ v _ E F S). destruct (mine (k, t) k' t') eqn:ME; auto.
    unfold mine in ME. cbn [fst snd] in ME. apply andb_prop in ME. destruct ME as [E1 E2]. apply Nat.eqb_eq in E1, E2. subst k' t'.
    unfold left_at. rewrite E, F, L. cbn [left]. lia.
  - destruct (next_ok k t c last tm Hk I F) as (tm' & v & EN & I' & S & L). rewrite EN, bind_done. exists (setnth k tm' w). split; [reflexivity|]. split; [eapply winv_set; eauto|].
    intros k' t'. rewrite (left_set w k t tm _ v _ E F S). destruct (mine (k, t) k' t') eqn:ME; auto.
    unfold mine in ME. cbn [fst snd] in ME. apply andb_prop in ME. destruct ME as [E1 E2]. apply Nat.eqb_eq in E1, E2. subst k' t'.
    unfold left_at. rewrite E, F, L. cbn [left]. destruct I as (_ & _ & g & G1 & _). destruct (G1 _ _ F eq_refl) as (_ & _ & ? & _). lia.
Qed.
Lemma run_ok sched : forall w, winv w -> exists w', team_run omp cpc work sched w = Done w' /\ winv w' /\
  forall k t, left_at w' k t = Z.max 0 (left_at w k t - turns sched k t).
Proof.
  induction sched as [|s sched IH]; intros w W; cbn [team_run].
  - exists w. split; auto. split; auto. intros k t. pose proof (left_nonneg w k t W). unfold turns. cbn [filter length]. lia.
  - destruct (step_ok s w W) as (w1 & -> & W1 & L1). rewrite bind_done. destruct (IH w1 W1) as (w2 & -> & W2 & L2). exists w2. split; auto. split; auto.
    intros k t. rewrite L2, L1. unfold turns. cbn [filter]. fold (mine s k t). pose proof (left_nonneg w k t W).
    destruct (mine s k t); cbn [length]; lia.
Qed.

Lemma ended_all k tm : tinv k tm -> team_ended tm = true -> OK k (t_mem tm) /\ forall c, 0 <= c < cpc * Z.of_nat T -> Dn k c (t_mem tm).
Proof.
  intros (HO & HL & g & G1 & G2 & _) E. split; auto. intros c Hc. unfold team_ended in E. rewrite forallb_forall in E.
  assert (A : forall t, (t < T)%nat -> nth_error (t_workers tm) t = Some WEnd).
  { intros t Ht. destruct (nth_error (t_workers tm) t) as [v|] eqn:F.
    - specialize (E v (nth_error_In _ _ F)). destruct v; auto; discriminate.
    - apply nth_error_None in F. lia. }
  assert (I : incl (map Z.of_nat (seq 0 T)) (map g (seq 0 T))).
  { apply NoDup_length_incl; [| |].
    - assert (ND : forall n a, (a + n <= T)%nat -> NoDup (map g (seq a n))).
      { induction n as [|n IHn]; intros a Ha; cbn [seq map]; constructor.
        - intros IN. apply in_map_iff in IN. destruct IN as (b & EQ & IB). apply in_seq in IB.
          assert (b = a) by (eapply (G2 b WEnd a WEnd); auto; apply A; lia). lia.
        - apply IHn. lia. }
      apply ND. lia.
    - rewrite !map_length, !seq_length. lia.
    - intros x Hx. apply in_map_iff in Hx. destruct Hx as (b & <- & IB). apply in_seq in IB. destruct (G1 b WEnd (A b ltac:(lia)) eq_refl) as [R _].
      apply in_map_iff. exists (Z.to_nat (g b)). split; [lia|]. apply in_seq. lia. }
  pose proof (Z.div_mod c cpc ltac:(lia)) as DM. pose proof (Z.mod_pos_bound c cpc HC) as MB.
  assert (Q : 0 <= c / cpc < Z.of_nat T). { split; [apply Z.div_pos; lia|]. apply Z.div_lt_upper_bound; lia. }
  assert (IN : In (c / cpc) (map g (seq 0 T))). { apply I. apply in_map_iff. exists (Z.to_nat (c / cpc)). split; [lia|]. apply in_seq. lia. }
  apply in_map_iff in IN. destruct IN as (t & EQ & IT). apply in_seq in IT. destruct (G1 t WEnd (A t ltac:(lia)) eq_refl) as [_ P]. cbn [place] in P. apply P. rewrite EQ. nia.
Qed.

Lemma start_winv mems : length mems = K -> (forall k m, nth_error mems k = Some m -> OK k m) ->
  let w := map (fun p => mkTeam (snd p) 0 (repeat WNew (Z.to_nat (fst p)))) (combine (repeat (Z.of_nat T) K) mems) in
  winv w /\ forall k t, left_at w k t = if (k <? K)%nat && (t <? T)%nat then cpc + 1 else 0.
Proof.
  intros HL HM. cbv zeta. set (w := map _ _).
  assert (LW : length w = K) by (unfold w; rewrite map_length, combine_length, repeat_length; lia).
  assert (NW : forall k tm, nth_error w k = Some tm -> exists m, nth_error mems k = Some m /\ tm = mkTeam m 0 (repeat WNew T)).
  { intros k tm E. unfold w in E. clear w LW. revert E. generalize K as n. intros n. clear HM HL. revert n k. induction mems as [|m ms IH]; intros n k E.
    - rewrite combine_nil in E. destruct k; discriminate.
    - destruct n as [|n]; [destruct k; discriminate|]. cbn [repeat combine map] in E. destruct k as [|k]; cbn [nth_error] in *.
      + injection E as <-. exists m. split; auto. cbn [fst snd]. now rewrite Nat2Z.id.
      + eapply IH; eauto. }
  assert (RN : forall t v, nth_error (repeat WNew T) t = Some v -> v = WNew) by (intros t v E; apply nth_error_In, repeat_spec in E; auto).
  split.
  - split; auto. intros k tm E. destruct (NW k tm E) as (m & Em & ->). unfold tinv. cbn [t_mem t_ids t_workers]. split; [eauto|]. split; [apply repeat_length|].
    exists (fun _ => 0). split; [|split].
    + intros t v F B. apply RN in F. subst. discriminate.
    + intros t v t' v' F B. apply RN in F. subst. discriminate.
    + destruct omp.
      * intros t v F B. apply RN in F. subst. discriminate.
      * split; [|intros t v F B; apply RN in F; subst; discriminate]. symmetry. apply cnt_zero, Forall_forall. intros x Hx. apply repeat_spec in Hx. now subst.
  - intros k t. unfold left_at. destruct (Nat.ltb_spec k K) as [Hk|Hk]; cbn [andb].
    + destruct (nth_error w k) as [tm|] eqn:E. 2: { apply nth_error_None in E. lia. }
      destruct (NW k tm E) as (m & _ & ->). cbn [t_workers]. destruct (Nat.ltb_spec t T) as [Ht|Ht].
      * destruct (nth_error (repeat WNew T) t) as [v|] eqn:F. { apply RN in F. now subst. } apply nth_error_None in F. rewrite repeat_length in F. lia.
      * rewrite (proj2 (nth_error_None _ _)); auto. rewrite repeat_length. lia.
    + rewrite (proj2 (nth_error_None _ _)); auto. lia.
Qed.

Lemma phase_ok mems sched : length mems = K -> (forall k m, nth_error mems k = Some m -> OK k m) ->
  (lets_all_run (cpc + 1) K T sched -> phase omp cpc work (repeat (Z.of_nat T) K) mems sched <> NoFuel) /\
  (phase omp cpc work (repeat (Z.of_nat T) K) mems sched = NoFuel \/
   exists mems', phase omp cpc work (repeat (Z.of_nat T) K) mems sched = Done mems' /\ length mems' = K /\
     forall k m, nth_error mems' k = Some m -> OK k m /\ forall c, 0 <= c < cpc * Z.of_nat T -> Dn k c m).
Proof.
  intros HL HM. destruct (start_winv mems HL HM) as (W & L). unfold phase.
  destruct (run_ok sched _ W) as (w' & E & W' & L'). rewrite E, bind_done. split.
  - intros FR. destruct (forallb team_ended w') eqn:F; [discriminate|]. exfalso.
    assert (forallb team_ended w' = true); [|congruence]. apply forallb_forall. intros tm IN. apply In_nth_error in IN. destruct IN as [k Ek].
    assert (Hk : (k < K)%nat). { rewrite <- (proj1 W'). apply nth_error_Some. rewrite Ek. discriminate. }
    destruct (proj2 W' _ _ Ek) as (_ & LT & g & G1 & _). unfold team_ended. apply forallb_forall. intros v IV. apply In_nth_error in IV. destruct IV as [t Et].
    assert (Ht : (t < T)%nat). { rewrite <- LT. apply nth_error_Some. rewrite Et. discriminate. }
    specialize (L' k t). rewrite L in L'. replace (k <? K)%nat with true in L' by (symmetry; now apply Nat.ltb_lt). replace (t <? T)%nat with true in L' by (symmetry; now apply Nat.ltb_lt).
    cbn [andb] in L'. specialize (FR k t Hk Ht). unfold left_at in L'. rewrite Ek, Et in L'.
    destruct v as [|c last|]; cbn [left] in L'; auto; [lia|]. destruct (G1 _ _ Et eq_refl) as (_ & _ & ? & _). lia.
  - destruct (forallb team_ended w') eqn:F; [right|now left]. exists (map t_mem w'). split; [reflexivity|]. split; [rewrite map_length; apply W'|].
    intros k m Ek. rewrite nth_error_map in Ek. destruct (nth_error w' k) as [tm|] eqn:Et; [|discriminate]. injection Ek as <-.
    apply ended_all; [now apply W'|]. rewrite forallb_forall in F. apply F. now apply nth_error_In in Et.
Qed.
End Phase.

(** * The two phases *)
Lemma aset_put l c v : 0 <= c < lenZ l -> aset l c v = Done (put l (Z.to_nat c) [v]).
Proof. intros H. rewrite aset_ok by (unfold lenZ in *; lia). f_equal. unfold put. cbn [length app]. now rewrite Nat.add_1_r. Qed.
Lemma opt_fits C : 0 < C -> C mod 8 = 0 -> words64 (69 * (C / 8) + 37) <= C * 2.
Proof.
  intros HC HM. pose proof (Z.div_mod C 8 ltac:(lia)). unfold words64. pose proof (Z.div_mod (69 * (C / 8) + 37 + 63) 64 ltac:(lia)). pose proof (Z.mod_pos_bound (69 * (C / 8) + 37 + 63) 64 ltac:(lia)). lia.
Qed.
Lemma mod8_add a C c : a mod 8 = 0 -> C mod 8 = 0 -> (a + c * C) mod 8 = 0.
Proof. intros. rewrite Z.add_mod, Z.mul_mod, H, H0, Z.mul_0_r by lia. reflexivity. Qed.

Section Node.
Variable e : endian.
Variable C : Z.
Variable iaddr oaddr daddr : nat -> Z.
Hypothesis HC : 0 < C < 2 ^ 62.
Hypothesis HM : C mod 8 = 0.
Hypothesis HI : forall k, iaddr k mod 8 = 0.
Hypothesis HO : forall k, oaddr k mod 8 = 0.
Hypothesis HD : forall k, daddr k mod 8 = 0.
Variable ins : list (list Z).
Variable num : Z.
Hypothesis HN : 0 <= num.
Hypothesis Hins : forall k, (k < length ins)%nat -> is_bytes (nth k ins []) /\ lenZ (nth k ins []) = C * num.

Definition coded (x z : list Z) : Prop := is_bytes z /\ valid_842 false z x /\ lenZ z mod 8 = 0 /\ lenZ z <= C * 2.
Definition shape (S : Z) (m : list Z * list Z) : Prop := is_bytes (fst m) /\ lenZ (fst m) = S * num /\ lenZ (snd m) = num.
Definition comp_done (k : nat) (c : Z) (m : list Z * list Z) : Prop :=
  exists z, coded (bytes_at (nth k ins []) (C * c) C) z /\ nth (Z.to_nat c) (snd m) 0 = lenZ z /\ firstn (length z) (bytes_at (fst m) (C * 2 * c) (C * 2)) = z.
Definition dec_done (k : nat) (c : Z) (m : list Z * list Z) : Prop := bytes_at (fst m) (C * c) C = bytes_at (nth k ins []) (C * c) C.

Lemma pg_compress_ok k c m : (k < length ins)%nat -> 0 <= c < num -> shape (C * 2) m ->
  exists m', pg_compress (optsw842_compress e) C iaddr oaddr ins k c m = Done (m', 0) /\ shape (C * 2) m' /\ comp_done k c m' /\
  forall d, 0 <= d < num -> comp_done k d m -> comp_done k d m'.
Proof.
  intros Hk Hc (S1 & S2 & S3). destruct m as [comp sizes]. cbn [fst snd] in *. destruct (Hins k Hk) as [B1 L1]. unfold pg_compress.
  assert (R1 : 0 <= c * C /\ c * C + C <= C * num) by nia. assert (R2 : 0 <= c * (C * 2) /\ c * (C * 2) + C * 2 <= C * 2 * num) by nia.
  rewrite load_bytes_ok by lia. rewrite bind_done. rewrite load_bytes_ok by lia. rewrite bind_done. rewrite aset_put by lia. rewrite bind_done.
  set (x := slice (Z.to_nat (c * C)) (Z.to_nat C) (nth k ins [])). set (o := slice (Z.to_nat (c * (C * 2))) (Z.to_nat (C * 2)) comp).
  assert (LX : lenZ x = C) by (apply (bytes_at_len (nth k ins []) (c * C) C); lia). assert (LO : lenZ o = C * 2) by (apply (bytes_at_len comp (c * (C * 2)) (C * 2)); lia).
  assert (BX : is_bytes x) by now apply is_bytes_slice. assert (BO : is_bytes o) by now apply is_bytes_slice.
  assert (NX : x <> []) by (intros ->; unfold lenZ in LX; cbn in LX; lia).
  destruct (c17 x BX ltac:(now rewrite LX) NX) as (z & Z1 & Z2 & Z3 & Z4 & Z5). rewrite LX in Z4. pose proof (opt_fits C ltac:(lia) HM) as OF.
  specialize (Z5 e (iaddr k + c * C) (oaddr k + c * (C * 2)) o (C * 2) BO ltac:(lia) ltac:(apply mod8_add; auto)).
  assert (AO : (oaddr k + c * (C * 2)) mod 8 = 0). { rewrite Z.mul_assoc, (Z.mul_comm (c * C) 2), Z.mul_assoc. apply mod8_add; auto. }
  specialize (Z5 AO). destruct (Z.leb_spec (lenZ z) (C * 2)); [|lia].
  destruct (c18_bounds e (iaddr k + c * C) (oaddr k + c * (C * 2)) x o (C * 2) BX BO ltac:(lia) (or_introl NX)) as (ret & n & o' & E & N & LO' & _).
  assert (BO' : is_bytes o') by (apply (gc_frame _ (good_optsw_compress e) (iaddr k + c * C) (oaddr k + c * (C * 2)) x o (C * 2) ret n o' BX BO ltac:(lia) ltac:(lia) E)).
  rewrite E in *. cbn [observed] in Z5. injection Z5 as -> -> FZ. rewrite bind_done.
  assert (L1S : lenZ (put sizes (Z.to_nat c) [C * 2]) = num) by (rewrite lenZ_put; change (lenZ [C * 2]) with 1; lia).
  rewrite aset_put by lia. rewrite bind_done. assert (LO2 : lenZ o' = C * 2) by (unfold lenZ in *; lia). rewrite store_bytes_ok by lia. rewrite bind_done.
  change (splice ?M ?p ?w) with (put M p w). rewrite put_put by (change (lenZ [C * 2]) with 1; change (lenZ [lenZ z]) with 1; lia).
  replace (c * (C * 2)) with (C * 2 * c) in * by lia.
  eexists. split; [reflexivity|]. unfold shape, comp_done. cbn [fst snd]. split; [|split].
  - split; [now apply put_bytes|]. split; [rewrite lenZ_put; lia|]. rewrite lenZ_put; change (lenZ [lenZ z]) with 1; lia.
  - exists z. replace (bytes_at (nth k ins []) (C * c) C) with x by (unfold x, bytes_at; now rewrite Z.mul_comm). split; [unfold coded; auto with zarith|]. split.
    + rewrite nth_put_in by (change (lenZ [lenZ z]) with 1; lia). now rewrite Z.sub_diag.
    + rewrite (at_put_in (C * 2) comp c 1 o' c) by lia. rewrite Z.sub_diag, Z.mul_0_r. unfold bytes_at, slice. cbn [Z.to_nat skipn]. rewrite firstn_all2 with (n := Z.to_nat (C * 2)) by (unfold lenZ in *; lia).
      unfold lenZ in FZ. now rewrite Nat2Z.id in FZ.
  - intros d Hd (z' & D1 & D2 & D3). destruct (Z.eq_dec d c) as [->|ND].
    + exists z. replace (bytes_at (nth k ins []) (C * c) C) with x by (unfold x, bytes_at; now rewrite Z.mul_comm). split; [unfold coded; auto with zarith|]. split.
      * rewrite nth_put_in by (change (lenZ [lenZ z]) with 1; lia). now rewrite Z.sub_diag.
      * rewrite (at_put_in (C * 2) comp c 1 o' c) by lia. rewrite Z.sub_diag, Z.mul_0_r. unfold bytes_at, slice. cbn [Z.to_nat skipn]. rewrite firstn_all2 with (n := Z.to_nat (C * 2)) by (unfold lenZ in *; lia).
        unfold lenZ in FZ. now rewrite Nat2Z.id in FZ.
    + exists z'. split; auto. split.
      * rewrite nth_put_out by (change (lenZ [lenZ z]) with 1; lia). auto.
      * rewrite (at_put_out (C * 2) comp c 1 o' d num) by lia. auto.
Qed.
Lemma pg_decompress_ok comps k c m : (k < length ins)%nat -> 0 <= c < num -> shape (C * 2) (nth k comps ([], [])) -> comp_done k c (nth k comps ([], [])) -> shape C m ->
  exists m', pg_decompress (optsw842_decompress e) C oaddr daddr comps k c m = Done (m', 0) /\ shape C m' /\ dec_done k c m' /\
  forall d, 0 <= d < num -> dec_done k d m -> dec_done k d m'.
Proof.
  intros Hk Hc SC DC (S1 & S2 & S3). destruct m as [dec sizes]. cbn [fst snd] in *. unfold pg_decompress. destruct (nth k comps ([], [])) as [comp csizes].
  destruct SC as (T1 & T2 & T3). destruct DC as (z & (Z1 & Z2 & Z3 & Z4) & DZ & EZ). cbn [fst snd] in *. destruct (Hins k Hk) as [B1 L1].
  assert (R1 : 0 <= c * C /\ c * C + C <= C * num) by nia. assert (R2 : 0 <= c * (C * 2) /\ c * (C * 2) + C * 2 <= C * 2 * num) by nia.
  rewrite aget_ok by (unfold lenZ in *; lia). rewrite bind_done. rewrite DZ. assert (0 <= lenZ z) by (unfold lenZ; lia).
  rewrite load_bytes_ok by lia. rewrite bind_done. rewrite load_bytes_ok by lia. rewrite bind_done. rewrite aset_put by lia. rewrite bind_done.
  replace (slice (Z.to_nat (c * (C * 2))) (Z.to_nat (lenZ z)) comp) with z.
  2: { rewrite <- EZ at 1. unfold bytes_at, slice. rewrite firstn_firstn. f_equal; [unfold lenZ in *; lia|]. f_equal. lia. }
  set (x := bytes_at (nth k ins []) (C * c) C) in *. set (o := slice (Z.to_nat (c * C)) (Z.to_nat C) dec).
  assert (LX : lenZ x = C) by (apply bytes_at_len; lia). assert (LO : lenZ o = C) by (apply (bytes_at_len dec (c * C) C); lia). assert (BO : is_bytes o) by now apply is_bytes_slice.
  assert (AO : (oaddr k + c * (C * 2)) mod 8 = 0). { rewrite Z.mul_assoc, (Z.mul_comm (c * C) 2), Z.mul_assoc. apply mod8_add; auto. }
  assert (AD : (daddr k + c * C) mod 8 = 0) by (apply mod8_add; auto).
  pose proof (c20 e (oaddr k + c * (C * 2)) (daddr k + c * C) z o C x Z1 BO ltac:(lia) ltac:(lia) AO AD) as [_ X].
  assert (WZ : firstn (8 * (length z / 8)) z = z). { apply firstn_all2. apply Nat2Z.inj_le. rewrite Nat2Z.inj_mul, Nat2Z.inj_div. unfold lenZ in Z3. pose proof (Z.div_mod (Z.of_nat (length z)) 8 ltac:(lia)). lia. }
  rewrite WZ in X. assert (LXC : lenZ x <= C) by (rewrite LX; apply Z.le_refl). specialize (X (conj Z2 LXC)).
  destruct (c21 e (oaddr k + c * (C * 2)) (daddr k + c * C) z o C Z1 BO ltac:(lia) ltac:(lia) AO AD) as (ret & n & o' & E & _ & N & (w & BW & LW & EW)).
  rewrite E in *. cbn [observed] in X. injection X as -> -> FX. rewrite bind_done.
  assert (LO2 : lenZ o' = C). { rewrite EW. unfold lenZ in *. rewrite app_length, skipn_length. lia. }
  assert (BO' : is_bytes o'). { rewrite EW. apply is_bytes_app. split; auto. now apply is_bytes_skipn. }
  assert (L1S : lenZ (put sizes (Z.to_nat c) [C]) = num) by (rewrite lenZ_put; change (lenZ [C]) with 1; lia).
  rewrite aset_put by lia. rewrite bind_done. rewrite store_bytes_ok by lia. rewrite bind_done.
  change (splice ?M ?p ?w) with (put M p w). rewrite put_put by (change (lenZ [C]) with 1; change (lenZ [lenZ x]) with 1; lia).
  replace (c * C) with (C * c) in * by lia.
  assert (SELF : bytes_at (put dec (Z.to_nat (C * c)) o') (C * c) C = x).
  { rewrite (at_put_in C dec c 1 o' c) by lia. rewrite Z.sub_diag, Z.mul_0_r. unfold bytes_at, slice. cbn [Z.to_nat skipn]. rewrite <- FX. rewrite LX. reflexivity. }
  eexists. split; [reflexivity|]. unfold shape, dec_done. cbn [fst snd]. fold x. split; [|split; [exact SELF|]].
  - split; [now apply put_bytes|]. split; [rewrite lenZ_put; lia|]. rewrite lenZ_put; change (lenZ [lenZ x]) with 1; lia.
  - intros d Hd DD. destruct (Z.eq_dec d c) as [->|ND]; [exact SELF|]. rewrite (at_put_out C dec c 1 o' d num) by lia. auto.
Qed.
End Node.

(** * The program *)
Lemma bytes_zeros n : is_bytes (repeat 0 n).
Proof. apply Forall_forall. intros x Hx. apply repeat_spec in Hx. subst. unfold is_byte. lia. Qed.
Lemma node_input_ok file len k : is_bytes file -> 0 <= len -> is_bytes (node_input file len k) /\ lenZ (node_input file len k) = len.
Proof.
  intros HF HL. unfold node_input. set (part := firstn _ _). assert (length part <= Z.to_nat len)%nat by (unfold part; rewrite firstn_length; lia). split.
  - apply is_bytes_app. split; [now apply is_bytes_firstn, is_bytes_skipn|apply bytes_zeros].
  - unfold lenZ. rewrite app_length, repeat_length. lia.
Qed.
Lemma padded_length C P n : 0 < C * P -> 0 <= n -> n + C * P < 2 ^ 63 ->
  getPaddedInputBufferLength C P n = (n + C * P - 1) / (C * P) * (C * P).
Proof.
  intros H1 H2 H3. unfold getPaddedInputBufferLength. cbv zeta. rewrite (u64_small (C * P)) by lia. rewrite (u64_small (n + C * P)) by lia. rewrite (u64_small (n + C * P - 1)) by lia.
  pose proof (Z.div_mod (n + C * P - 1) (C * P) ltac:(lia)). pose proof (Z.mod_pos_bound (n + C * P - 1) (C * P) H1). apply u64_small. split; [|nia].
  apply Z.mul_nonneg_nonneg; [apply Z.div_pos; lia|lia].
Qed.
Lemma int_length_small n : u32 n < 2 ^ 31 -> int_length n = u32 n.
Proof. intros H. unfold int_length. destruct (Z.ltb_spec (u32 n) (2 ^ 31)); [|lia]. apply u64_small. unfold u32 in *. pose proof (Z.mod_pos_bound n (2 ^ 32)). lia. Qed.

Lemma firstn_plus {A} a b (l : list A) : firstn (a + b) l = firstn a l ++ firstn b (skipn a l).
Proof. revert l. induction a as [|a IH]; intros [|x l]; cbn [Nat.add firstn skipn app]; auto; [now rewrite firstn_nil|]. now rewrite IH. Qed.

Lemma combine_same {B} (ins : list (list Z)) : forall (decs : list (list Z * B)), length decs = length ins ->
  forallb (fun p => list_eqb (fst p) (fst (snd p))) (combine ins decs) = true -> map fst decs = ins.
Proof.
  induction ins as [|x ins IH]; intros [|d decs] L H; try discriminate; auto. cbn [combine forallb] in H. apply andb_true_iff in H. destruct H as [H1 H2]. cbn [fst snd] in H1.
  apply list_eqb_eq in H1. cbn [map]. f_equal; auto.
Qed.
Lemma team_step_length {M} omp cpc (work : nat -> Z -> M -> outcome (M * Z)) s w w' : team_step omp cpc work s w = Done w' -> length w' = length w.
Proof.
  unfold team_step. destruct s as [k t]. destruct (nth_error w k) as [tm|]; [|now intros [= <-]]. destruct (nth_error (t_workers tm) t) as [[|c last|]|]; try now intros [= <-].
  - intros [= <-]. apply setnth_length.
  - destruct (next_chunk omp work k t c last tm); try discriminate. rewrite bind_done. intros [= <-]. apply setnth_length.
Qed.
Lemma team_run_length {M} omp cpc (work : nat -> Z -> M -> outcome (M * Z)) sched : forall w w', team_run omp cpc work sched w = Done w' -> length w' = length w.
Proof.
  induction sched as [|s sched IH]; intros w w'; cbn [team_run]; [now intros [= <-]|]. destruct (team_step omp cpc work s w) as [v| |] eqn:E; try discriminate. rewrite bind_done. intros H.
  apply IH in H. apply team_step_length in E. congruence.
Qed.
Lemma phase_length {M} omp cpc (work : nat -> Z -> M -> outcome (M * Z)) cpus mems sched r : length mems = length cpus -> phase omp cpc work cpus mems sched = Done r -> length r = length cpus.
Proof.
  intros L. unfold phase. destruct (team_run _ _ _ _ _) as [w| |] eqn:E; try discriminate. rewrite bind_done. destruct (forallb team_ended w); [|discriminate]. intros [= <-].
  apply team_run_length in E. rewrite map_length, E, map_length, combine_length, L. apply Nat.min_id.
Qed.
(** Whatever the library does. *)
Lemma pgasus_honest compress decompress C iaddr oaddr daddr omp nprocs cpus junk csched dsched file ds :
  pgasus compress decompress C iaddr oaddr daddr omp nprocs cpus junk csched dsched file = Done (0, ds) ->
  ds = map (node_input file (getPaddedInputBufferLength C nprocs (int_length (lenZ file)) / lenZ cpus)) (seq 0 (length cpus)).
Proof.
  unfold pgasus. cbv zeta. set (len := getPaddedInputBufferLength C nprocs (int_length (lenZ file)) / lenZ cpus). intros H. destruct (lenZ cpus =? 0); [discriminate|]. destruct (nprocs / lenZ cpus =? 0); [discriminate|]. set (ins := map _ (seq 0 _)) in *.
  destruct (phase _ _ _ _ _ csched) as [comps| |]; try discriminate. rewrite bind_done in H. destruct (phase _ _ _ _ _ dsched) as [decs| |] eqn:E; try discriminate. rewrite bind_done in H.
  apply phase_length in E; [|apply map_length]. destruct (forallb _ _) eqn:F; [|discriminate]. injection H as <-. apply combine_same; auto. unfold ins. rewrite map_length, seq_length. auto.
Qed.

Section Program.
Variable e : endian.
Variable C : Z.
Variable iaddr oaddr daddr : nat -> Z.
Variable K T : nat.
Hypothesis HC : 0 < C.
Hypothesis HM : C mod 8 = 0.
Hypothesis HK : (0 < K)%nat.
Hypothesis HT : (0 < T)%nat.
Hypothesis HS : C * (Z.of_nat K * Z.of_nat T) < 2 ^ 62.
Hypothesis HI : forall k, iaddr k mod 8 = 0.
Hypothesis HO : forall k, oaddr k mod 8 = 0.
Hypothesis HD : forall k, daddr k mod 8 = 0.
Variable junk : Z -> list Z.
Hypothesis HJ : forall n, 0 <= n -> lenZ (junk n) = n.
Variable file : list Z.
Hypothesis HF : is_bytes file.
Hypothesis HL : 0 < u32 (lenZ file) < 2 ^ 31.
Let q := per_thread C K T (u32 (lenZ file)).
Let num := q * Z.of_nat T.
Let ins := map (node_input file (C * num)) (seq 0 K).

Lemma q_ok : 0 < q /\ u32 (lenZ file) <= C * num * Z.of_nat K < 2 ^ 63 /\ C * num * Z.of_nat K < u32 (lenZ file) + C * (Z.of_nat K * Z.of_nat T).
Proof.
  unfold num, q, per_thread. set (U := C * (Z.of_nat K * Z.of_nat T)) in *. assert (0 < Z.of_nat K * Z.of_nat T) by nia. assert (0 < U) by (unfold U; nia).
  set (n := u32 (lenZ file)) in *. pose proof (Z.div_mod (n + U - 1) U ltac:(lia)) as DM. pose proof (Z.mod_pos_bound (n + U - 1) U ltac:(lia)) as MB.
  set (d := (n + U - 1) / U) in *. assert (0 < d) by nia. replace (C * (d * Z.of_nat T) * Z.of_nat K) with (U * d) by (unfold U; ring). lia.
Qed.
Lemma pgasus_ok omp csched dsched :
  let r := pgasus (optsw842_compress e) (optsw842_decompress e) C iaddr oaddr daddr omp (Z.of_nat K * Z.of_nat T) (repeat (Z.of_nat T) K) junk csched dsched file in
  (r = Done (0, ins) \/ r = NoFuel) /\ (lets_all_run (q + 1) K T csched -> lets_all_run (q + 1) K T dsched -> r = Done (0, ins)).
Proof.
  destruct q_ok as (Q0 & Q1 & _). assert (HCn : 0 < C * num) by (unfold num; nia). assert (HN : 0 <= num) by (unfold num; nia).
  assert (HC62 : 0 < C < 2 ^ 62) by nia.
  cbv zeta. unfold pgasus. rewrite int_length_small by lia.
  assert (TOT : getPaddedInputBufferLength C (Z.of_nat K * Z.of_nat T) (u32 (lenZ file)) = C * num * Z.of_nat K).
  { rewrite padded_length; [|nia|lia|lia]. fold (per_thread C K T (u32 (lenZ file))). fold q. unfold num. ring. }
  rewrite TOT. assert (LK : lenZ (repeat (Z.of_nat T) K) = Z.of_nat K) by (unfold lenZ; now rewrite repeat_length). rewrite LK, repeat_length.
  destruct (Z.eqb_spec (Z.of_nat K) 0); [lia|]. rewrite Z.div_mul by lia. rewrite (Z.mul_comm (Z.of_nat K) (Z.of_nat T)), Z.div_mul by lia.
  destruct (Z.eqb_spec (Z.of_nat T) 0); [lia|]. rewrite (Z.mul_comm C num), Z.div_mul by lia.
  replace (num / Z.of_nat T) with q by (unfold num; now rewrite Z.div_mul by lia). rewrite (Z.mul_comm num C). fold ins.
  assert (LI : length ins = K) by (unfold ins; now rewrite map_length, seq_length).
  assert (Hins : forall k, (k < length ins)%nat -> is_bytes (nth k ins []) /\ lenZ (nth k ins []) = C * num).
  { intros k Hk. rewrite LI in Hk. unfold ins. rewrite nth_indep with (d' := node_input file (C * num) 0) by (rewrite map_length, seq_length; lia).
    rewrite map_nth, seq_nth by lia. apply node_input_ok; auto; lia. }
  assert (QN : q * Z.of_nat T = num) by reflexivity. assert (QB : q * Z.of_nat T < 2 ^ 63) by nia.
  set (cm := map (fun _ => (repeat 0 (Z.to_nat (C * num * 2)), junk num)) (repeat (Z.of_nat T) K)).
  set (dm := map (fun _ => (repeat 0 (Z.to_nat (C * num)), junk num)) (repeat (Z.of_nat T) K)).
  assert (LCM : length cm = K) by (unfold cm; now rewrite map_length, repeat_length). assert (LDM : length dm = K) by (unfold dm; now rewrite map_length, repeat_length).
  assert (SCM : forall k m, nth_error cm k = Some m -> shape num (C * 2) m).
  { intros k m E. apply nth_error_In in E. unfold cm in E. apply in_map_iff in E. destruct E as (? & <- & _). unfold shape. cbn [fst snd]. split; [apply bytes_zeros|].
    split; [unfold lenZ; rewrite repeat_length; lia|now apply HJ]. }
  assert (SDM : forall k m, nth_error dm k = Some m -> shape num C m).
  { intros k m E. apply nth_error_In in E. unfold dm in E. apply in_map_iff in E. destruct E as (? & <- & _). unfold shape. cbn [fst snd]. split; [apply bytes_zeros|].
    split; [unfold lenZ; rewrite repeat_length; lia|now apply HJ]. }
  pose proof (phase_ok omp q (pg_compress (optsw842_compress e) C iaddr oaddr ins) K T Q0 QB (fun _ => shape num (C * 2)) (comp_done C ins)) as P1. rewrite QN in P1.
  specialize (P1 ltac:(intros k c m Hk Hc Sm; apply (pg_compress_ok e C iaddr oaddr HC62 HM HI HO ins num Hins k c m); auto; lia) cm csched LCM SCM).
  destruct P1 as [F1 [E1|(comps & E1 & L1 & C1)]].
  { rewrite E1. cbn [bind]. split; [now right|]. intros Fc _. now elim (F1 Fc). }
  rewrite E1, bind_done.
  pose proof (phase_ok omp q (pg_decompress (optsw842_decompress e) C oaddr daddr comps) K T Q0 QB (fun _ => shape num C) (dec_done C ins)) as P2. rewrite QN in P2.
  assert (W2 : forall k c m, (k < K)%nat -> 0 <= c < num -> shape num C m ->
     exists m', pg_decompress (optsw842_decompress e) C oaddr daddr comps k c m = Done (m', 0) /\ shape num C m' /\ dec_done C ins k c m' /\ forall d, 0 <= d < num -> dec_done C ins k d m -> dec_done C ins k d m').
  { intros k c m Hk Hc Sm. destruct (nth_error comps k) as [mc|] eqn:Ek. 2: { apply nth_error_None in Ek. lia. }
    destruct (C1 k mc Ek) as [X1 X2]. apply (pg_decompress_ok e C oaddr daddr HC62 HM HO HD ins num Hins comps k c m); auto; try lia; rewrite (nth_error_nth _ _ _ Ek); auto. }
  specialize (P2 W2 dm dsched LDM SDM). destruct P2 as [F2 [E2|(decs & E2 & L2 & C2)]].
  { rewrite E2. cbn [bind]. split; [now right|]. intros _ Fd. now elim (F2 Fd). }
  rewrite E2, bind_done.
  assert (EQ : forallb (fun p => list_eqb (fst p) (fst (snd p))) (combine ins decs) = true).
  { apply forallb_forall. intros [x m] IN. cbn [fst snd]. apply In_nth_error in IN. destruct IN as [k Ek].
    assert (Hk : (k < K)%nat). { assert (k < length (combine ins decs))%nat by (apply nth_error_Some; rewrite Ek; discriminate). rewrite combine_length in H. lia. }
    destruct (nth_error decs k) as [m'|] eqn:Em. 2: { apply nth_error_None in Em. lia. }
    apply (nth_error_nth _ _ ([], ([], []))) in Ek. rewrite combine_nth in Ek by lia. injection Ek as <- EM. rewrite (nth_error_nth _ _ _ Em) in EM. subst m'.
    destruct (C2 k m Em) as [(X1 & X2 & X3) X4]. destruct (Hins k ltac:(lia)) as [Y1 Y2]. apply list_eqb_eq.
    apply (chunks_all C num); auto. intros c Hc. symmetry. now apply X4. }
  rewrite EQ. rewrite (combine_same ins decs) by (auto; congruence). auto.
Qed.

(** What the nodes read. *)
Lemma inputs_concat_n n a : concat (map (node_input file (C * num)) (seq a n)) =
  firstn (Z.to_nat (C * num) * n) (skipn (Z.to_nat (C * num) * a) file) ++ repeat 0 (Z.to_nat (C * num) * n - (length file - Z.to_nat (C * num) * a)).
Proof.
  set (L := Z.to_nat (C * num)). revert a. induction n as [|n IH]; intros a; cbn [seq map concat].
  - rewrite Nat.mul_0_r. cbn [firstn app]. reflexivity.
  - rewrite IH. unfold node_input. fold L. rewrite firstn_length, skipn_length.
    replace (L * S a)%nat with (L * a + L)%nat by lia. replace (L * S n)%nat with (L + L * n)%nat by lia.
    assert (ES : skipn (L * a + L) file = skipn L (skipn (L * a) file)) by now rewrite skipn_add. rewrite ES.
    set (f := skipn (L * a) file). replace (length file - L * a)%nat with (length f) by (unfold f; now rewrite skipn_length).
    replace (length file - (L * a + L))%nat with (length f - L)%nat by (unfold f; rewrite skipn_length; lia).
    destruct (Nat.le_gt_cases L (length f)) as [G|G].
    + rewrite Nat.min_l by lia. rewrite Nat.sub_diag. cbn [repeat]. rewrite app_nil_r, app_assoc. f_equal; [|f_equal; lia].
      symmetry. apply firstn_plus.
    + rewrite Nat.min_r by lia. rewrite (firstn_all2 f) by lia. rewrite (skipn_all2 f) by lia. rewrite firstn_nil. cbn [app]. rewrite (firstn_all2 f) by lia.
      rewrite <- app_assoc. f_equal. rewrite <- repeat_app. f_equal. lia.
Qed.
Lemma inputs_ok : concat ins = handled_part C K T file.
Proof.
  destruct q_ok as (Q0 & Q1 & _). assert (0 <= C * num) by (unfold num; nia). unfold ins. rewrite inputs_concat_n. rewrite Nat.mul_0_r, Nat.sub_0_r. cbn [skipn].
  unfold handled_part. cbv zeta. fold (lenZ file). fold (u32 (lenZ file)). fold q.
  replace (Z.to_nat (C * num) * K)%nat with (Z.to_nat (C * (Z.of_nat K * Z.of_nat T) * q)).
  2: { apply Nat2Z.inj. rewrite Nat2Z.inj_mul, !Z2Nat.id by (unfold num in *; nia). unfold num. ring. }
  rewrite firstn_app. f_equal. generalize (Z.to_nat (C * (Z.of_nat K * Z.of_nat T) * q)). intros m. symmetry.
  replace m with ((m - length file) + (m - (m - length file)))%nat at 2 by lia. rewrite repeat_app, firstn_app, repeat_length, firstn_all2 by (rewrite repeat_length; lia).
  rewrite Nat.sub_diag. apply app_nil_r.
Qed.
Lemma handled_length : lenZ (handled_part C K T file) = C * (Z.of_nat K * Z.of_nat T) * q.
Proof.
  destruct q_ok as (Q0 & Q1 & _). unfold handled_part. cbv zeta. fold (lenZ file). fold (u32 (lenZ file)). fold q. unfold lenZ. rewrite firstn_length, app_length, repeat_length.
  rewrite Nat.min_l by lia. apply Z2Nat.id. nia.
Qed.
Theorem pgasus_ends_ok omp csched dsched :
  let r := pgasus (optsw842_compress e) (optsw842_decompress e) C iaddr oaddr daddr omp (Z.of_nat K * Z.of_nat T) (repeat (Z.of_nat T) K) junk csched dsched file in
  exists ds, length ds = K /\ concat ds = handled_part C K T file /\
  (r = Done (0, ds) \/ r = NoFuel) /\ (lets_all_run (q + 1) K T csched -> lets_all_run (q + 1) K T dsched -> r = Done (0, ds)).
Proof. exists ins. split; [unfold ins; now rewrite map_length, seq_length|]. split; [exact inputs_ok|]. apply pgasus_ok. Qed.
End Program.

(** * The size of the workspace *)
Definition spanned (s y z : Z) : Prop := forall i, 0 <= i -> (Z.testbit z i = true <-> exists j, i <= j < i + s /\ Z.testbit y j = true).
Lemma spanned_one y : spanned 1 y y.
Proof. intros i Hi. split; [intros H; exists i; split; [lia|auto]|]. intros (j & Hj & H). now replace i with j by lia. Qed.
Lemma spanned_step s y z : 0 < s -> spanned s y z -> spanned (2 * s) y (Z.lor z (Z.shiftr z s)).
Proof.
  intros Hs H i Hi. rewrite Z.lor_spec, Z.shiftr_spec by lia. rewrite orb_true_iff, (H i Hi), (H (i + s) ltac:(lia)). split.
  - intros [(j & Hj & T)|(j & Hj & T)]; exists j; (split; [lia|auto]).
  - intros (j & Hj & T). destruct (Z.lt_ge_cases j (i + s)); [left|right]; exists j; (split; [lia|auto]).
Qed.
Lemma spanned_all y z : 0 <= y < 2 ^ 64 -> 0 <= z -> spanned 64 y z -> z = if y =? 0 then 0 else 2 ^ (Z.log2 y + 1) - 1.
Proof.
  intros Hy Hz H. destruct (Z.eqb_spec y 0) as [->|N].
  - apply Z.bits_inj'. intros i Hi. rewrite Z.bits_0. destruct (Z.testbit z i) eqn:E; auto. apply H in E; auto. destruct E as (j & _ & T). now rewrite Z.bits_0 in T.
  - pose proof (Z.log2_nonneg y). assert (LB : Z.log2 y < 64) by (apply Z.log2_lt_pow2; lia). replace (2 ^ (Z.log2 y + 1) - 1) with (Z.ones (Z.log2 y + 1)) by (rewrite Z.ones_equiv; lia). apply Z.bits_inj'. intros i Hi.
    destruct (Z.lt_ge_cases i (Z.log2 y + 1)).
    + rewrite Z.ones_spec_low by lia. apply H; auto. exists (Z.log2 y). split; [lia|]. apply Z.bit_log2. lia.
    + rewrite Z.ones_spec_high by lia. destruct (Z.testbit z i) eqn:E; auto. apply H in E; auto. destruct E as (j & Hj & T). rewrite Z.bits_above_log2 in T; [discriminate|lia|lia].
Qed.
Lemma next_pow2_ok x : 1 <= x <= 2 ^ 63 -> next_pow2 x = 2 ^ Z.log2_up x.
Proof.
  intros Hx. unfold next_pow2. rewrite (u64_small (x - 1)) by lia. set (y := x - 1).
  assert (H1 : spanned 2 y (Z.lor y (Z.shiftr y 1))) by (apply (spanned_step 1 y y); [lia|apply spanned_one]). set (y1 := Z.lor y _) in *.
  assert (H2 : spanned 4 y (Z.lor y1 (Z.shiftr y1 2))) by (apply (spanned_step 2 y y1); [lia|auto]). set (y2 := Z.lor y1 _) in *.
  assert (H3 : spanned 8 y (Z.lor y2 (Z.shiftr y2 4))) by (apply (spanned_step 4 y y2); [lia|auto]). set (y3 := Z.lor y2 _) in *.
  assert (H4 : spanned 16 y (Z.lor y3 (Z.shiftr y3 8))) by (apply (spanned_step 8 y y3); [lia|auto]). set (y4 := Z.lor y3 _) in *.
  assert (H5 : spanned 32 y (Z.lor y4 (Z.shiftr y4 16))) by (apply (spanned_step 16 y y4); [lia|auto]). set (y5 := Z.lor y4 _) in *.
  assert (H6 : spanned 64 y (Z.lor y5 (Z.shiftr y5 32))) by (apply (spanned_step 32 y y5); [lia|auto]). set (y6 := Z.lor y5 _) in *.
  assert (P : forall a k, 0 <= a -> 0 <= Z.lor a (Z.shiftr a k)) by (intros; apply Z.lor_nonneg; split; auto; now apply Z.shiftr_nonneg).
  assert (0 <= y6) by (unfold y6, y5, y4, y3, y2, y1; do 6 apply P; unfold y; lia).
  rewrite (spanned_all y y6) by (unfold y in *; auto; lia). destruct (Z.eqb_spec y 0) as [E|N].
  - replace x with 1 by (unfold y in E; lia). reflexivity.
  - rewrite Z.sub_add. rewrite Z.log2_up_eqn by (unfold y in N; lia). replace (Z.pred x) with y by (unfold y; lia). unfold Z.succ. pose proof (Z.log2_nonneg y).
    apply u64_small. split; [apply Z.pow_nonneg; lia|]. apply Z.pow_lt_mono_r; try lia. assert (Z.log2 y < 63) by (apply Z.log2_lt_pow2; unfold y; lia). lia.
Qed.

(** * An empty file *)
Lemma pgasus_empty e C iaddr oaddr daddr omp (K T : nat) junk k t csched dsched : 0 < C -> (k < K)%nat -> (t < T)%nat -> C * (Z.of_nat K * Z.of_nat T) < 2 ^ 62 ->
  pgasus (optsw842_compress e) (optsw842_decompress e) C iaddr oaddr daddr omp (Z.of_nat K * Z.of_nat T) (repeat (Z.of_nat T) K) junk ((k, t) :: (k, t) :: csched) dsched [] = Undef.
Proof.
  intros HC HK HT HS. unfold pgasus. change (int_length (lenZ [])) with 0. assert (0 < Z.of_nat K * Z.of_nat T) by nia.
  rewrite padded_length by nia. rewrite Z.add_0_l. set (U := C * (Z.of_nat K * Z.of_nat T)) in *. assert (0 < U) by (unfold U; nia).
  rewrite (Z.div_small (U - 1) U) by lia. rewrite Z.mul_0_l.
  assert (LK : lenZ (repeat (Z.of_nat T) K) = Z.of_nat K) by (unfold lenZ; now rewrite repeat_length). rewrite LK, repeat_length.
  destruct (Z.eqb_spec (Z.of_nat K) 0); [lia|]. rewrite (Z.mul_comm (Z.of_nat K)), Z.div_mul by lia. destruct (Z.eqb_spec (Z.of_nat T) 0); [lia|].
  rewrite !Zdiv_0_l. set (ins := map (node_input [] 0) (seq 0 K)). set (mems := map _ (repeat (Z.of_nat T) K)).
  assert (NI : nth k ins [] = []). { unfold ins. destruct (nth_in_or_default k (map (node_input [] 0) (seq 0 K)) []) as [I|D]; auto.
    apply in_map_iff in I. destruct I as (j & <- & _). unfold node_input. rewrite skipn_nil, firstn_nil. reflexivity. }
  unfold phase. cbn [team_run]. set (w := map _ (combine _ mems)).
  assert (LW : length w = K) by (unfold w, mems; rewrite map_length, combine_length, map_length, !repeat_length; lia).
  assert (NW : exists m, nth_error w k = Some (mkTeam m 0 (repeat WNew T))).
  { destruct (nth_error w k) as [tm|] eqn:E. 2: { apply nth_error_None in E. lia. } unfold w in E. rewrite nth_error_map in E.
    destruct (nth_error (combine (repeat (Z.of_nat T) K) mems) k) as [[a m]|] eqn:F; [|discriminate]. cbn [option_map fst snd] in E. injection E as <-.
    apply nth_error_In, in_combine_l, repeat_spec in F. subst a. exists m. now rewrite Nat2Z.id. }
  destruct NW as [m NW]. unfold team_step at 1. rewrite NW. cbn [t_workers].
  assert (RT : nth_error (repeat WNew T) t = Some WNew).
  { destruct (nth_error (repeat WNew T) t) as [v|] eqn:F; [apply nth_error_In, repeat_spec in F; now rewrite F|]. apply nth_error_None in F. rewrite repeat_length in F. lia. }
  rewrite RT, bind_done. unfold first_chunk. cbn [t_ids t_mem t_workers]. rewrite Z.mul_0_r. change (u64 0) with 0. change (u64 (u64 (0 + 0) - 1)) with (2 ^ 64 - 1). change (at_chunk 0 (2 ^ 64 - 1)) with (WAt 0 (2 ^ 64 - 1)).
  set (tm := mkTeam m _ _). unfold team_step at 1. rewrite (nth_setnth_same _ _ _ _ NW). unfold tm at 1. cbn [t_workers]. rewrite (nth_setnth_same _ _ _ _ RT).
  unfold next_chunk, pg_compress. destruct (t_mem tm) as [comp sizes]. rewrite NI. unfold load_bytes. rewrite Z.mul_0_l. change (lenZ []) with 0.
  destruct (Z.leb_spec (0 + C) 0); [lia|]. reflexivity.
Qed.

Lemma pgasus_honest_part compress decompress C iaddr oaddr daddr omp (K T : nat) junk csched dsched file ds : 0 < C -> (0 < K)%nat -> (0 < T)%nat ->
  C * (Z.of_nat K * Z.of_nat T) < 2 ^ 62 -> 0 < lenZ file mod 2 ^ 32 < 2 ^ 31 ->
  pgasus compress decompress C iaddr oaddr daddr omp (Z.of_nat K * Z.of_nat T) (repeat (Z.of_nat T) K) junk csched dsched file = Done (0, ds) ->
  length ds = K /\ concat ds = handled_part C K T file.
Proof.
  intros HC HK HT HS HL H. apply pgasus_honest in H. rewrite repeat_length in H. split; [subst ds; now rewrite map_length, seq_length|].
  rewrite <- (inputs_ok C K T HC HK HT HS file HL). destruct (q_ok C K T HC HK HT HS file HL) as (Q0 & Q1 & Q2). fold (u32 (lenZ file)) in HL.
  set (q := per_thread C K T (u32 (lenZ file))) in *. subst ds. do 3 f_equal.
  rewrite int_length_small by lia. rewrite padded_length by nia. fold (per_thread C K T (u32 (lenZ file))). fold q. unfold lenZ at 1. rewrite repeat_length.
  replace (q * (C * (Z.of_nat K * Z.of_nat T))) with (C * (q * Z.of_nat T) * Z.of_nat K) by ring. apply Z.div_mul. lia.
Qed.
Lemma whole_file C (K T : nat) : 0 < C -> (0 < K)%nat -> (0 < T)%nat -> C * (Z.of_nat K * Z.of_nat T) < 2 ^ 62 ->
  forall file, 0 < lenZ file < 2 ^ 31 -> exists z, handled_part C K T file = file ++ repeat 0 z /\ Z.of_nat z < C * (Z.of_nat K * Z.of_nat T).
Proof.
  intros HC HK HT HS file HL. assert (U : u32 (lenZ file) = lenZ file) by (unfold u32; apply Z.mod_small; lia).
  destruct (q_ok C K T HC HK HT HS file ltac:(rewrite U; lia)) as (Q0 & Q1 & Q2). rewrite U in *. set (q := per_thread C K T (lenZ file)) in *.
  unfold handled_part. cbv zeta. fold (lenZ file). fold (u32 (lenZ file)). rewrite U. fold q.
  replace (C * (Z.of_nat K * Z.of_nat T) * q) with (C * (q * Z.of_nat T) * Z.of_nat K) by ring. set (m := Z.to_nat (C * (q * Z.of_nat T) * Z.of_nat K)).
  assert (HM : Z.of_nat m = C * (q * Z.of_nat T) * Z.of_nat K) by (unfold m; apply Z2Nat.id; lia).
  exists (m - length file)%nat. split; [|unfold lenZ in *; lia]. rewrite firstn_app. rewrite firstn_all2 by (unfold lenZ in *; lia). f_equal.
  replace m with ((m - length file) + (m - (m - length file)))%nat at 2 by lia. rewrite repeat_app, firstn_app, repeat_length, firstn_all2 by (rewrite repeat_length; lia).
  rewrite Nat.sub_diag. apply app_nil_r.
Qed.
Lemma large_file e C iaddr oaddr daddr (K T : nat) : 0 < C -> C mod 8 = 0 -> (0 < K)%nat -> (0 < T)%nat -> C * (Z.of_nat K * Z.of_nat T) < 2 ^ 31 ->
  (forall k, iaddr k mod 8 = 0) -> (forall k, oaddr k mod 8 = 0) -> (forall k, daddr k mod 8 = 0) ->
  forall junk, (forall n, 0 <= n -> lenZ (junk n) = n) -> forall file n, is_bytes file -> lenZ file = 2 ^ 32 + n -> 0 < n < 2 ^ 31 -> forall omp csched dsched,
  lets_all_run (per_thread C K T n + 1) K T csched -> lets_all_run (per_thread C K T n + 1) K T dsched ->
  exists ds, pgasus (optsw842_compress e) (optsw842_decompress e) C iaddr oaddr daddr omp (Z.of_nat K * Z.of_nat T) (repeat (Z.of_nat T) K) junk csched dsched file = Done (0, ds) /\
  concat ds = firstn (length (concat ds)) file /\ lenZ (concat ds) < n + C * (Z.of_nat K * Z.of_nat T) /\ lenZ (concat ds) < lenZ file.
Proof.
  intros HC HM HK HT HS HI HO HD junk HJ file n HF HL Hn omp csched dsched FC FD.
  assert (U : u32 (lenZ file) = n). { unfold u32. rewrite HL. rewrite Z.add_mod, Z.mod_same, Z.add_0_l, Z.mod_mod by lia. apply Z.mod_small. lia. }
  assert (HS' : C * (Z.of_nat K * Z.of_nat T) < 2 ^ 62) by lia. assert (HU : 0 < u32 (lenZ file) < 2 ^ 31) by (rewrite U; lia).
  destruct (pgasus_ends_ok e C iaddr oaddr daddr K T HC HM HK HT HS' HI HO HD junk HJ file HF HU omp csched dsched) as (ds & _ & CD & _ & X). rewrite U in X. exists ds. split; [auto|].
  pose proof (handled_length C K T HC HK HT HS' file HU) as LH. destruct (q_ok C K T HC HK HT HS' file HU) as (Q0 & Q1 & Q2). rewrite U in *. set (q := per_thread C K T n) in *.
  rewrite CD. split; [|split; lia]. assert (LN : (length (handled_part C K T file) <= length file)%nat) by (unfold lenZ in *; lia). revert LH LN. unfold handled_part. cbv zeta.
  fold (lenZ file). fold (u32 (lenZ file)). rewrite U. fold q. set (m := Z.to_nat _). intros LH LN. rewrite firstn_length, app_length, repeat_length in *. rewrite Nat.min_l in * by lia.
  rewrite firstn_app. replace (m - length file)%nat with O by lia. cbn [firstn]. apply app_nil_r.
Qed.
Lemma workspace len : 0 < len -> 4 * len <= 2 ^ 63 ->
  exists k, 0 <= k <= 63 /\ node_msource_size len = 2 ^ k /\ len + 2 * len + len <= 2 ^ k < 2 * (len + 2 * len + len).
Proof.
  intros H1 H2. unfold node_msource_size. rewrite (u64_small (len * 2)) by lia. rewrite (u64_small (len + len * 2)) by lia. rewrite (u64_small (len + len * 2 + len)) by lia.
  rewrite next_pow2_ok by lia. replace (len + len * 2 + len) with (4 * len) by lia. replace (len + 2 * len + len) with (4 * len) by lia. exists (Z.log2_up (4 * len)).
  pose proof (Z.log2_up_spec (4 * len) ltac:(lia)) as [L1 L2]. pose proof (Z.log2_up_nonneg (4 * len)). pose proof (Z.log2_up_pos (4 * len) ltac:(lia)).
  split; [|split; [reflexivity|]].
  - split; [lia|]. apply Z.log2_up_le_pow2; lia.
  - split; [lia|]. replace (Z.log2_up (4 * len)) with (Z.succ (Z.pred (Z.log2_up (4 * len)))) by lia. rewrite Z.pow_succ_r by lia. lia.
Qed.
Lemma next_pow2_wraps x : 2 ^ 63 < x < 2 ^ 64 \/ x = 0 -> next_pow2 x = 0.
Proof.
  intros [Hx| ->]; [|reflexivity]. unfold next_pow2. rewrite (u64_small (x - 1)) by lia. set (y := x - 1).
  assert (H1 : spanned 2 y (Z.lor y (Z.shiftr y 1))) by (apply (spanned_step 1 y y); [lia|apply spanned_one]). set (y1 := Z.lor y _) in *.
  assert (H2 : spanned 4 y (Z.lor y1 (Z.shiftr y1 2))) by (apply (spanned_step 2 y y1); [lia|auto]). set (y2 := Z.lor y1 _) in *.
  assert (H3 : spanned 8 y (Z.lor y2 (Z.shiftr y2 4))) by (apply (spanned_step 4 y y2); [lia|auto]). set (y3 := Z.lor y2 _) in *.
  assert (H4 : spanned 16 y (Z.lor y3 (Z.shiftr y3 8))) by (apply (spanned_step 8 y y3); [lia|auto]). set (y4 := Z.lor y3 _) in *.
  assert (H5 : spanned 32 y (Z.lor y4 (Z.shiftr y4 16))) by (apply (spanned_step 16 y y4); [lia|auto]). set (y5 := Z.lor y4 _) in *.
  assert (H6 : spanned 64 y (Z.lor y5 (Z.shiftr y5 32))) by (apply (spanned_step 32 y y5); [lia|auto]). set (y6 := Z.lor y5 _) in *.
  assert (P : forall a k, 0 <= a -> 0 <= Z.lor a (Z.shiftr a k)) by (intros; apply Z.lor_nonneg; split; auto; now apply Z.shiftr_nonneg).
  assert (0 <= y6) by (unfold y6, y5, y4, y3, y2, y1; do 6 apply P; unfold y; lia).
  rewrite (spanned_all y y6) by (unfold y in *; auto; lia). destruct (Z.eqb_spec y 0) as [E|N]; [unfold y in E; lia|].
  replace (Z.log2 y) with 63; [reflexivity|]. symmetry. apply Z.log2_unique; unfold y; lia.
Qed.
Lemma different_nodes e iaddr oaddr daddr omp csched dsched :
  pgasus (optsw842_compress e) (optsw842_decompress e) 65536 iaddr oaddr daddr omp 4 [1; 3] (fun n => repeat 99 (Z.to_nat n)) ([(1, 0); (1, 1); (1, 2); (1, 2)]%nat ++ csched) dsched [1] = Undef.
Proof. destruct omp; vm_compute; reflexivity. Qed.
