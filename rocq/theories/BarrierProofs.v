(** Correctness of the barrier and the latch. *)
From Coq Require Import ZArith List Bool Lia.
From Verif Require Import CBase BitsLemmas ConcLib BarrierModel SpecSync.
Import ListNotations.
Open Scope Z_scope.

Lemma run_reach {A S} (step : A -> S -> option S) l : forall init s s', reachable step init s -> run step l s = Some s' -> reachable step init s'.
Proof.
  induction l as [|a l IH]; intros init s s' H E; cbn [run] in E.
  - injection E as <-. exact H.
  - destruct (step a s) as [s1|] eqn:E1; [|discriminate]. apply (IH init s1 s'); auto. eapply re_step; eauto.
Qed.
Lemma run_reachable {A S} (step : A -> S -> option S) l init s : run step l init = Some s -> reachable step init s.
Proof. apply run_reach. constructor. Qed.

Definition waiting (g : Z) (t : bpc) : bool := match t with BIn g' _ => g' =? g | BOut => false end.
Definition prev (g : Z) : Z := u32 (g - 1).
Lemma prev_next g : 0 <= g < 2 ^ 32 -> prev (u32 (g + 1)) = g.
Proof.
  intros H. unfold prev, u32. rewrite Zminus_mod_idemp_l. replace (g + 1 - 1) with g by lia. apply Z.mod_small. lia.
Qed.
Lemma prev_neq g : 0 <= g < 2 ^ 32 -> prev g <> g.
Proof.
  intros H E. unfold prev, u32 in E. destruct (Z.eq_dec g 0) as [->|N]; [discriminate|].
  rewrite Z.mod_small in E by lia. lia.
Qed.
Lemma next_neq g : 0 <= g < 2 ^ 32 -> u32 (g + 1) <> g.
Proof.
  intros H E. unfold u32 in E. destruct (Z.eq_dec g (2 ^ 32 - 1)) as [->|N]; [discriminate|]. rewrite Z.mod_small in E by lia. lia.
Qed.
Lemma u32_range g : 0 <= u32 g < 2 ^ 32.
Proof. unfold u32. apply Z.mod_pos_bound. lia. Qed.

Definition tinv (s : bsys) (R : Z) (i : nat) (t : bpc) : Prop :=
  match t with
  | BOut => calls i s = R /\ returns i s = R
  | BIn g a => (g = b_gen (bs_bar s) /\ calls i s = R + 1 /\ returns i s = R) \/
               (g = prev (b_gen (bs_bar s)) /\ a = false /\ calls i s = R /\ returns i s = R - 1)
  end.
Record binv (n : nat) (s : bsys) (R : Z) : Prop := {
  bi_len : length (bs_thr s) = n;
  bi_gen : 0 <= b_gen (bs_bar s) < 2 ^ 32;
  bi_count : b_count (bs_bar s) = cnt (waiting (b_gen (bs_bar s))) (bs_thr s);
  bi_lt : b_count (bs_bar s) < Z.of_nat n;
  bi_thr : forall i t, nth_error (bs_thr s) i = Some t -> tinv s R i t }.

Lemma calls_cons i ev b thr tr b' thr' : calls i (mkBS b thr (ev :: tr)) =
  (match ev with BCall j => if Nat.eqb i j then 1 else 0 | _ => 0 end) + calls i (mkBS b' thr' tr).
Proof. unfold calls. cbn [bs_trace cnt]. destruct ev; reflexivity. Qed.
Lemma returns_cons i ev b thr tr b' thr' : returns i (mkBS b thr (ev :: tr)) =
  (match ev with BReturn j => if Nat.eqb i j then 1 else 0 | _ => 0 end) + returns i (mkBS b' thr' tr).
Proof. unfold returns. cbn [bs_trace cnt]. destruct ev; reflexivity. Qed.

Lemma bstep_inv n a s s' R : b_intr (bs_bar s') = false -> b_intr (bs_bar s) = false -> binv n s R -> bstep a s = Some s' ->
  exists R', binv n s' R' /\ R <= R'.
Proof.
  intros NI' NI [L G C LT T] E. destruct s as [[c g intr] thr tr]. cbn [bs_bar bs_thr bs_trace b_intr b_gen b_count] in *. subst intr.
  destruct a as [i|i|]; cbn [bstep bs_bar bs_thr bs_trace] in E.
  - destruct (nth_error thr i) as [[|gi [|]]|] eqn:Ei; try discriminate E.
    + unfold bar_arrive in E. cbn [b_count b_gen b_intr] in E. destruct (Z.eqb_spec (c + 1) (lenZ thr)) as [EL|NL].
      * injection E as <-. exists (R + 1). split; [|lia]. unfold lenZ in EL.
        assert (W : forall j t, nth_error thr j = Some t -> j <> i -> waiting g t = true).
        { apply (cnt_others _ _ i BOut Ei); [reflexivity|]. rewrite <- C. exact EL. }
        split; cbn [bs_bar bs_thr bs_trace b_count b_gen b_intr].
        -- now rewrite map_length.
        -- apply u32_range.
        -- rewrite cnt_map. symmetry. apply cnt_zero, nth_error_forall. intros j t Hj. destruct t as [|gj aj]; [reflexivity|]. cbn [bwake waiting].
           apply Z.eqb_neq. intros ->. destruct (Nat.eq_dec j i) as [->|NE]; [congruence|]. specialize (W j _ Hj NE). cbn [waiting] in W.
           apply Z.eqb_eq in W. now apply (next_neq g).
        -- assert (IL : (i < length thr)%nat) by (apply nth_error_Some; congruence). lia.
        -- intros j t Hj. rewrite nth_error_map in Hj. destruct (nth_error thr j) as [t0|] eqn:E0; [|discriminate Hj].
           injection Hj as <-. specialize (T j t0 E0). unfold tinv in *. cbn [bs_bar b_gen] in *.
           destruct t0 as [|gj aj]; cbn [bwake].
           ++ rewrite (calls_cons _ _ _ _ _ (mkBar c g false) thr), (calls_cons _ _ _ _ _ (mkBar c g false) thr), (returns_cons _ _ _ _ _ (mkBar c g false) thr), (returns_cons _ _ _ _ _ (mkBar c g false) thr).
              destruct (Nat.eqb_spec j i) as [->|NE]; [lia|]. specialize (W j BOut E0 NE). discriminate W.
           ++ right. rewrite (calls_cons _ _ _ _ _ (mkBar c g false) thr), (calls_cons _ _ _ _ _ (mkBar c g false) thr), (returns_cons _ _ _ _ _ (mkBar c g false) thr), (returns_cons _ _ _ _ _ (mkBar c g false) thr).
              assert (NE : j <> i) by congruence. destruct (Nat.eqb_spec j i) as [|_]; [contradiction|].
              specialize (W j _ E0 NE). cbn [waiting] in W. apply Z.eqb_eq in W. subst gj.
              split; [now rewrite prev_next|]. split; auto. destruct T as [T|T]; [lia|]. exfalso. destruct T as [T _]. now apply (prev_neq g).
      * unfold bar_pass in E. cbn [b_gen b_intr] in E. rewrite Z.eqb_refl in E. cbn [negb orb] in E. injection E as <-.
        exists R. split; [|lia]. split; cbn [bs_bar bs_thr bs_trace b_count b_gen b_intr].
        -- now rewrite setnth_length.
        -- exact G.
        -- rewrite (cnt_setnth _ _ _ _ _ Ei). cbn [waiting]. rewrite Z.eqb_refl. lia.
        -- unfold lenZ in NL. lia.
        -- intros j t Hj. unfold tinv. cbn [bs_bar b_gen].
           rewrite (calls_cons _ _ _ _ _ (mkBar c g false) thr). 
           replace (returns j (mkBS (mkBar (c + 1) g false) (setnth i (BIn g true) thr) (BCall i :: tr))) with (returns j (mkBS (mkBar c g false) thr tr)) by reflexivity.
           destruct (Nat.eq_dec i j) as [->|NE].
           ++ rewrite (nth_setnth_same _ _ _ _ Ei) in Hj. injection Hj as <-. rewrite Nat.eqb_refl. specialize (T j BOut Ei). cbn [tinv] in T. left. lia.
           ++ rewrite nth_setnth_other in Hj by auto. specialize (T j t Hj). destruct (Nat.eqb_spec j i) as [->|_]; [contradiction|]. exact T.
    + unfold bar_pass in E. cbn [b_gen b_intr] in E. destruct (Z.eqb_spec g gi) as [<-|NG]; cbn [negb orb] in E; injection E as <-.
      * exists R. split; [|lia]. split; cbn [bs_bar bs_thr bs_trace b_count b_gen b_intr].
        -- now rewrite setnth_length.
        -- exact G.
        -- rewrite (cnt_setnth _ _ _ _ _ Ei). cbn [waiting]. rewrite Z.eqb_refl. lia.
        -- exact LT.
        -- intros j t Hj. destruct (Nat.eq_dec i j) as [->|NE].
           ++ rewrite (nth_setnth_same _ _ _ _ Ei) in Hj. injection Hj as <-. specialize (T j _ Ei). unfold tinv in *. cbn [bs_bar b_gen] in *.
              destruct T as [T|[T _]]; [left; exact T|]. exfalso. symmetry in T. now apply (prev_neq g).
           ++ rewrite nth_setnth_other in Hj by auto. exact (T j t Hj).
      * exists R. split; [|lia]. split; cbn [bs_bar bs_thr bs_trace b_count b_gen b_intr].
        -- now rewrite setnth_length.
        -- exact G.
        -- rewrite (cnt_setnth _ _ _ _ _ Ei). cbn [waiting]. destruct (Z.eqb_spec gi g); [congruence|]. lia.
        -- exact LT.
        -- intros j t Hj. unfold tinv. cbn [bs_bar b_gen].
           rewrite (returns_cons _ _ _ _ _ (mkBar c g false) thr).
           replace (calls j (mkBS (mkBar c g false) (setnth i BOut thr) (BReturn i :: tr))) with (calls j (mkBS (mkBar c g false) thr tr)) by reflexivity.
           destruct (Nat.eq_dec i j) as [->|NE].
           ++ rewrite (nth_setnth_same _ _ _ _ Ei) in Hj. injection Hj as <-. rewrite Nat.eqb_refl. specialize (T j _ Ei). cbn [tinv bs_bar b_gen] in T.
              destruct T as [T|T]; [exfalso; destruct T; congruence|]. lia.
           ++ rewrite nth_setnth_other in Hj by auto. specialize (T j t Hj). destruct (Nat.eqb_spec j i) as [->|_]; [contradiction|]. exact T.
  - destruct (nth_error thr i) as [[|gi [|]]|] eqn:Ei; try discriminate E. injection E as <-.
    exists R. split; [|lia]. split; cbn [bs_bar bs_thr bs_trace b_count b_gen b_intr].
    + now rewrite setnth_length.
    + exact G.
    + rewrite (cnt_setnth _ _ _ _ _ Ei). cbn [waiting]. destruct (gi =? g); lia.
    + exact LT.
    + intros j t Hj. destruct (Nat.eq_dec i j) as [->|NE].
      * rewrite (nth_setnth_same _ _ _ _ Ei) in Hj. injection Hj as <-. specialize (T j _ Ei). unfold tinv in *. cbn [bs_bar b_gen] in *.
        destruct T as [T|[_ [T _]]]; [left; exact T|discriminate T].
      * rewrite nth_setnth_other in Hj by auto. exact (T j t Hj).
  - injection E as <-. discriminate NI'.
Qed.

Lemma intr_mono a s s' : bstep a s = Some s' -> b_intr (bs_bar s') = false -> b_intr (bs_bar s) = false.
Proof.
  intros E H. destruct s as [[c g intr] thr tr]. destruct intr; auto. exfalso.
  destruct a as [i|i|]; cbn [bstep bs_bar bs_thr bs_trace] in E.
  - destruct (nth_error thr i) as [[|gi [|]]|]; try discriminate E.
    + unfold bar_arrive, bar_pass in E. cbn [b_count b_gen b_intr] in E. destruct (c + 1 =? lenZ thr); [injection E as <-; discriminate H|].
      cbn [b_gen b_intr] in E. rewrite orb_true_r in E. injection E as <-. discriminate H.
    + unfold bar_pass in E. cbn [b_gen b_intr] in E. rewrite orb_true_r in E. injection E as <-. discriminate H.
  - destruct (nth_error thr i) as [[|gi [|]]|]; try discriminate E. injection E as <-. discriminate H.
  - injection E as <-. discriminate H.
Qed.

Lemma nth_error_repeat {A} (x y : A) n i : nth_error (List.repeat x n) i = Some y -> y = x.
Proof. intros H. apply nth_error_In, repeat_spec in H. exact H. Qed.
Lemma barrier_inv n s : (1 <= n)%nat -> reachable bstep (barrier_start n) s -> b_intr (bs_bar s) = false -> exists R, 0 <= R /\ binv n s R.
Proof.
  intros N H. induction H as [|a s s' H IH E]; intros NI.
  - exists 0. split; [lia|]. split; cbn [barrier_start bs_bar bs_thr bs_trace bar_init b_gen b_count].
    + now rewrite repeat_length.
    + lia.
    + symmetry. apply cnt_zero, Forall_forall. intros x Hx. apply repeat_spec in Hx. now subst x.
    + lia.
    + intros i t Hi. apply nth_error_repeat in Hi. subst t. split; reflexivity.
  - pose proof (intr_mono _ _ _ E NI) as NI0. destruct (IH NI0) as (R & HR & I). destruct (bstep_inv n a s s' R NI NI0 I E) as (R' & I' & L).
    exists R'. split; [lia|exact I'].
Qed.

Lemma c40_early n s i j : reachable bstep (barrier_start n) s -> ~ interrupted s -> (i < n)%nat -> (j < n)%nat -> returns i s <= calls j s.
Proof.
  intros H NI Hi Hj. unfold interrupted in NI. apply not_true_is_false in NI.
  destruct (barrier_inv n s ltac:(lia) H NI) as (R & _ & [L G C LT T]).
  assert (Bi := T i). destruct (nth_error (bs_thr s) i) as [ti|] eqn:Ei; [|apply nth_error_None in Ei; lia]. specialize (Bi ti eq_refl).
  assert (Bj := T j). destruct (nth_error (bs_thr s) j) as [tj|] eqn:Ej; [|apply nth_error_None in Ej; lia]. specialize (Bj tj eq_refl).
  unfold tinv in *. destruct ti, tj; lia.
Qed.
(** A thread inside a call whose round is complete can return now. *)
Lemma c40_release n s i : reachable bstep (barrier_start n) s -> ~ interrupted s -> (i < n)%nat -> returns i s < calls i s ->
  (forall j, (j < n)%nat -> calls i s <= calls j s) ->
  exists s', bstep (BStep i) s = Some s' /\ returns i s' = calls i s.
Proof.
  intros H NI Hi HC ALL. unfold interrupted in NI. apply not_true_is_false in NI.
  destruct (barrier_inv n s ltac:(lia) H NI) as (R & _ & [L G C LT T]).
  destruct (nth_error (bs_thr s) i) as [ti|] eqn:Ei; [|apply nth_error_None in Ei; lia].
  pose proof (T i ti Ei) as Ti. destruct ti as [|g a]; cbn [tinv] in Ti; [lia|].
  destruct Ti as [(Eg & T1 & T2)|(Eg & -> & T1 & T2)].
  - exfalso. assert (F : Forall (fun x => waiting (b_gen (bs_bar s)) x = true) (bs_thr s)).
    { apply nth_error_forall. intros j t Hj. assert (J : (j < n)%nat) by (rewrite <- L; apply nth_error_Some; congruence).
      specialize (T j t Hj). specialize (ALL j J). destruct t as [|gj aj]; cbn [tinv waiting] in *; [lia|].
      destruct T as [(-> & _)|T]; [apply Z.eqb_refl|lia]. }
    apply cnt_all in F. rewrite L in F. lia.
  - cbn [bstep]. rewrite Ei. unfold bar_pass. destruct (Z.eqb_spec (b_gen (bs_bar s)) g) as [Eq|NE].
    + exfalso. rewrite Eg in Eq. symmetry in Eq. now apply (prev_neq (b_gen (bs_bar s))).
    + cbn [negb orb]. eexists. split; [reflexivity|]. unfold returns, calls in *. cbn [bs_trace cnt]. rewrite Nat.eqb_refl. lia.
Qed.
(** If a thread cannot go on, it waits for a thread that is a round behind. *)
Lemma c40_blocked n s i : reachable bstep (barrier_start n) s -> ~ interrupted s -> (i < n)%nat -> bstep (BStep i) s = None ->
  exists j, (j < n)%nat /\ calls j s < calls i s.
Proof.
  intros H NI Hi HB.
  destruct (Z_lt_dec (returns i s) (calls i s)) as [LT|GE].
  - destruct (forallb (fun j => calls i s <=? calls j s) (seq 0 n)) eqn:FB.
    + rewrite forallb_forall in FB. destruct (c40_release n s i H NI Hi LT) as (s' & E & _); [|congruence].
      intros j Hj. apply Z.leb_le, FB, in_seq. lia.
    + assert (X : exists j, In j (seq 0 n) /\ (calls i s <=? calls j s) = false).
      { clear -FB. induction (seq 0 n) as [|a l IH]; [discriminate|]. cbn [forallb] in FB. destruct (calls i s <=? calls a s) eqn:E.
        - destruct (IH FB) as (j & I & F). exists j. split; [now right|auto].
        - exists a. split; [now left|auto]. }
      destruct X as (j & I & F). apply in_seq in I. exists j. split; [lia|]. now apply Z.leb_gt.
  - exfalso. unfold interrupted in NI. apply not_true_is_false in NI. destruct (barrier_inv n s ltac:(lia) H NI) as (R & _ & [L G C LT T]).
    destruct (nth_error (bs_thr s) i) as [ti|] eqn:Ei; [|apply nth_error_None in Ei; lia].
    pose proof (T i ti Ei) as Ti. destruct ti as [|g a]; cbn [tinv] in Ti; [|lia].
    cbn [bstep] in HB. rewrite Ei in HB. destruct (bar_arrive (lenZ (bs_thr s)) (bs_bar s)) as [b' [|]]; [discriminate|].
    destruct (bar_pass b' (b_gen b')); discriminate.
Qed.

(** After an interrupt nobody is asleep. *)
Lemma intr_awake n s : reachable bstep (barrier_start n) s -> interrupted s -> length (bs_thr s) = n /\
  Forall (fun t => match t with BIn _ true => False | _ => True end) (bs_thr s).
Proof.
  intros H. assert (X : length (bs_thr s) = n /\ (interrupted s -> Forall (fun t => match t with BIn _ true => False | _ => True end) (bs_thr s)));
    [|intros; tauto].
  induction H as [|a s s' H [IL IH] E].
  - split; [apply repeat_length|]. intros X. discriminate X.
  - destruct s as [[c g intr] thr tr]. unfold interrupted in *. cbn [bs_bar bs_thr bs_trace b_intr] in *.
    assert (W : Forall (fun t => match t with BIn _ true => False | _ => True end) (map bwake thr)).
    { apply Forall_forall. intros t Ht. apply in_map_iff in Ht. destruct Ht as ([|g0 a0] & <- & _); exact Logic.I. }
    destruct a as [i|i|]; cbn [bstep bs_bar bs_thr bs_trace] in E.
    + destruct (nth_error thr i) as [[|gi [|]]|] eqn:Ei; try discriminate E.
      * unfold bar_arrive, bar_pass in E. cbn [b_count b_gen b_intr] in E. destruct (c + 1 =? lenZ thr).
        -- injection E as <-. cbn [bs_thr bs_bar b_intr]. split; [now rewrite map_length|auto].
        -- cbn [b_gen b_intr] in E. rewrite Z.eqb_refl in E. destruct intr; cbn [negb orb] in E; injection E as <-; cbn [bs_thr bs_bar b_intr].
           ++ split; auto.
           ++ split; [now rewrite setnth_length|]. discriminate.
      * unfold bar_pass in E. cbn [b_gen b_intr] in E. destruct intr.
        -- rewrite orb_true_r in E. injection E as <-. cbn [bs_thr bs_bar b_intr]. split; [now rewrite setnth_length|].
           intros X. apply Forall_setnth; auto.
        -- destruct (negb (g =? gi) || false); injection E as <-; cbn [bs_thr bs_bar b_intr]; (split; [now rewrite setnth_length|discriminate]).
    + destruct (nth_error thr i) as [[|gi [|]]|] eqn:Ei; try discriminate E. injection E as <-. cbn [bs_thr bs_bar b_intr].
      split; [now rewrite setnth_length|]. intros X. apply Forall_setnth; auto.
    + injection E as <-. cbn [bs_thr bs_bar b_intr]. split; [now rewrite map_length|auto].
Qed.
Lemma c40_interrupt n s i : reachable bstep (barrier_start n) s -> interrupted s -> (i < n)%nat ->
  exists s', bstep (BStep i) s = Some s' /\ returns i s' = returns i s + 1.
Proof.
  intros H I Hi. destruct (intr_awake n s H I) as [L F]. unfold interrupted in I.
  destruct (nth_error (bs_thr s) i) as [ti|] eqn:Ei; [|apply nth_error_None in Ei; lia].
  pose proof (Forall_nth_error _ _ _ _ F Ei) as A. destruct s as [[c g intr] thr tr]. cbn [bs_bar bs_thr bs_trace b_intr] in *. subst intr.
  cbn [bstep bs_bar bs_thr bs_trace]. rewrite Ei.
  destruct ti as [|gi [|]]; [|contradiction|].
  - unfold bar_arrive, bar_pass. cbn [b_count b_gen b_intr]. destruct (c + 1 =? lenZ thr); cbn [b_gen b_intr]; rewrite ?orb_true_r; cbn;
      eexists; (split; [reflexivity|]); unfold returns; cbn [bs_trace cnt]; rewrite Nat.eqb_refl; lia.
  - unfold bar_pass. cbn [b_gen b_intr]. rewrite orb_true_r. eexists. split; [reflexivity|]. unfold returns. cbn [bs_trace cnt]. rewrite Nat.eqb_refl. lia.
Qed.

(** ** Latch *)
Lemma latch_inv v n s : 0 <= v -> reachable lstep (latch_start v n) s ->
  ls_value s = v - downs s /\ 0 <= ls_value s /\ length (ls_thr s) = n /\
  ((exists i, In (LReturn i) (ls_trace s)) -> ls_value s = 0) /\
  (ls_value s = 0 -> forall i, nth_error (ls_thr s) i = Some (LIn true) -> False).
Proof.
  intros V H. induction H as [|a s s' H (A & B & L & C & D) E].
  - cbn [latch_start ls_value ls_thr ls_trace]. split; [unfold downs; cbn; lia|]. split; auto. split; [apply repeat_length|]. split.
    + intros [i []].
    + intros _ i Hi. apply nth_error_repeat in Hi. discriminate.
  - destruct s as [w thr tr]. unfold downs in *. cbn [ls_value ls_thr ls_trace] in *. destruct a as [|i|i]; cbn [lstep ls_value ls_thr ls_trace] in E.
    + destruct (Z.ltb_spec 0 w); [|discriminate]. injection E as <-. cbn [ls_value ls_thr ls_trace cnt]. split; [lia|]. split; [lia|].
      split; [now rewrite map_length|]. split.
      * intros [i [Hi|Hi]]; [discriminate|]. specialize (C (ex_intro _ i Hi)). lia.
      * intros _ i Hi. rewrite nth_error_map in Hi. destruct (nth_error thr i) as [[]|]; discriminate.
    + destruct (nth_error thr i) as [t|] eqn:Ei; [|discriminate].
      assert (X : (if w =? 0 then Some (mkLS w (setnth i LDone thr) (LReturn i :: tr)) else Some (mkLS w (setnth i (LIn true) thr) tr)) = Some s')
        by (destruct t as [|[|]|]; try discriminate E; exact E).
      destruct (Z.eqb_spec w 0) as [->|NE]; injection X as <-; cbn [ls_value ls_thr ls_trace cnt]; (split; [lia|]; split; [lia|]; split; [now rewrite setnth_length|]; split).
      * auto.
      * intros _ j Hj. destruct (Nat.eq_dec i j) as [->|N]; [rewrite (nth_setnth_same _ _ _ _ Ei) in Hj; discriminate|].
        rewrite nth_setnth_other in Hj by auto. now apply (D eq_refl j).
      * exact C.
      * intros Z0. contradiction.
    + destruct (nth_error thr i) as [[|[|]|]|] eqn:Ei; try discriminate E. injection E as <-. cbn [ls_value ls_thr ls_trace]. split; [lia|]. split; [lia|].
      split; [now rewrite setnth_length|]. split; auto. intros Z0 j Hj. destruct (Nat.eq_dec i j) as [->|N]; [rewrite (nth_setnth_same _ _ _ _ Ei) in Hj; discriminate|].
      rewrite nth_setnth_other in Hj by auto. now apply (D Z0 j).
Qed.
Lemma c41_safe v n s i : 0 <= v -> reachable lstep (latch_start v n) s -> In (LReturn i) (ls_trace s) -> downs s = v.
Proof. intros V H I. destruct (latch_inv v n s V H) as (A & _ & _ & C & _). specialize (C (ex_intro _ i I)). lia. Qed.
Lemma c41_live v n s i : 0 <= v -> reachable lstep (latch_start v n) s -> downs s = v -> (i < n)%nat ->
  exists s', lstep (LStep i) s = Some s' /\ ls_trace s' = LReturn i :: ls_trace s.
Proof.
  intros V H DV Hi. destruct (latch_inv v n s V H) as (A & _ & L & C & D). assert (Z0 : ls_value s = 0) by lia.
  destruct (nth_error (ls_thr s) i) as [t|] eqn:Ei; [|apply nth_error_None in Ei; lia].
  cbn [lstep]. rewrite Ei, Z0. cbn [Z.eqb]. destruct t as [|[|]|]; try (eexists; split; reflexivity).
  exfalso. exact (D Z0 i Ei).
Qed.
Lemma c41_assert v n s : 0 <= v -> reachable lstep (latch_start v n) s -> (lstep LCountDown s = None <-> downs s = v).
Proof.
  intros V H. destruct (latch_inv v n s V H) as (A & B & _). cbn [lstep]. destruct (Z.ltb_spec 0 (ls_value s)); split; intros X; try discriminate; try lia; auto.
Qed.
