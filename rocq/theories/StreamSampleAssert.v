(** The sample program for the streams with assertions, when a chunk is stored without compression: it always aborts. *)
From Coq Require Import ZArith List Bool Lia Permutation.
From Verif Require Import SpecBits CBase BitsLemmas ConcLib SpecSync BarrierModel BarrierProofs ChunkedModel StreamBlockModel SpecBlock SpecChunked StreamBlockProofs BlockProps CompStreamModel SpecStream DecompStreamModel SpecDStream StreamSampleModel SpecStreamSample.
From Verif Require Import StreamSampleComp StreamSampleDecomp StreamSampleProofs.
Import ListNotations.
Open Scope Z_scope.

Lemma prepare_abort b src : b_source b = Some src -> forall sizes i mem, (forall m, In m sizes -> m = CHUNK_SIZE \/ 0 < m <= COMPRESSIBLE_THRESHOLD) -> In CHUNK_SIZE sizes ->
  prepare false b i sizes mem = Done None.
Proof.
  intros S. induction sizes as [|m sizes IH]; intros i mem F IN; [destruct IN|]. cbn [prepare]. unfold COMPRESSIBLE_THRESHOLD in *.
  assert (CP : CHUNK_SIZE = 65536) by reflexivity. destruct (F m (or_introl eq_refl)) as [-> |H].
  - rewrite CP. change (65536 =? 0) with false. cbv iota. rewrite Z.eqb_refl, S. reflexivity.
  - destruct (Z.eqb_spec m 0); [lia|]. destruct (Z.eqb_spec m CHUNK_SIZE); [lia|]. destruct IN as [IN|IN]; [congruence|].
    destruct (Z.ltb_spec 0 m); [|lia]. destruct (Z.leb_spec m (CHUNK_SIZE - 16 - 8)); [|lia]. cbn [negb andb]. rewrite IH; auto. intros q Hq. apply F. now right.
Qed.

Section Assert.
Variable e : endian.
Variable gc gd : chunked_impl.
Variable inp : list Z.
Variable iaddr daddr : Z.
Variable n : nat.
Variable crets : Z -> list Z.
Variable cbuf : Z -> Z * list Z.
Variable drets : Z -> list Z.
Hypothesis SET : sample_setting e gc gd inp n crets cbuf drets.
Notation L := (lenZ inp).
Notation block_at := (the_block gc inp iaddr crets cbuf).
Notation start := (sample_start inp n).
(** With assertions and without them. *)
Notation step0 := (ystep gc gd false inp iaddr daddr n crets cbuf drets).
Notation step1 := (ystep gc gd true inp iaddr daddr n crets cbuf drets).
Notation inv := (yinv gc inp iaddr daddr n crets cbuf).
Let RAW1 : true = true \/ forall off b j, block_offset L off -> block_at off = Done b -> ~ stored_raw b j := or_introl eq_refl.

Definition compressed (b : block) : Prop := forall j, ~ stored_raw b j.
Lemma raw_dec b : compressed b \/ exists j, stored_raw b j.
Proof.
  unfold compressed, stored_raw. assert (X : forall m : nat, (m <= 16)%nat -> (forall j, ~ ((j < m)%nat /\ nth j (b_sizes b) 0 = CHUNK_SIZE)) \/ exists j, (j < m)%nat /\ nth j (b_sizes b) 0 = CHUNK_SIZE).
  { induction m as [|m IH]; intros Hm; [left; lia|]. destruct (IH ltac:(lia)) as [A|(j & A & B)]; [|right; exists j; split; [lia|auto]].
    destruct (Z.eq_dec (nth m (b_sizes b) 0) CHUNK_SIZE) as [B|B]; [right; exists m; split; [lia|auto]|]. left. intros j [H1 H2]. destruct (Nat.eq_dec j m) as [-> |]; [auto|]. apply (A j). split; [lia|auto]. }
  apply (X 16%nat). lia.
Qed.
(** What handle_block of the decompression stream does with a block that the compression stream has made. *)
Lemma block_cases off b k mem : block_offset L off -> block_at off = Done b -> is_bytes mem -> lenZ mem = L ->
  decomp_handle_block true gd (drets k) daddr mem b = Done (Some (true, restored inp mem off)) /\
  (compressed b -> decomp_handle_block false gd (drets k) daddr mem b = Done (Some (true, restored inp mem off))) /\
  ((exists j, stored_raw b j) -> decomp_handle_block false gd (drets k) daddr mem b = Done None).
Proof.
  intros (O1 & O2 & O3) E M1 M2. destruct SET as [S1 S2 S3 S4 S5 S6 S7 S8]. destruct (S7 off) as [B1 B2].
  destruct (c35 e gc gd (crets off) iaddr inp (fst (cbuf off)) (snd (cbuf off)) off S1 S2 S3 B1 B2 (S6 off) O1 O3) as (b' & E' & _ & D). unfold the_block in E. rewrite E in E'. injection E' as <-.
  split; [apply D; auto; lia|]. split; [intros C; apply D; auto; lia|]. intros (j & J1 & J2).
  destruct (in_comp _ _ S1) as [fc Hfc]. destruct (comp_block e fc gc Hfc (crets off) iaddr inp (fst (cbuf off)) (snd (cbuf off)) off S3 B1 B2 (S6 off) O1 O3) as (b' & E' & BO). rewrite E in E'. injection E' as <-.
  destruct BO as (_ & _ & BS & BL & _ & BC). unfold decomp_handle_block. rewrite (prepare_abort b _ BS); [reflexivity| |].
  - intros m Hm. apply (In_nth _ _ 0) in Hm. destruct Hm as (i & Hi & <-). rewrite BL in Hi. destruct (BC i Hi) as [H|[H _]]; auto.
  - rewrite <- J2. apply nth_In. now rewrite BL.
Qed.

Definition handled_ok (y : sys) : Prop := forall k, In k (handled_list (d_trace (y_d y))) -> exists b, nth_error (y_blocks y) (Z.to_nat k) = Some b /\ compressed b.
Lemma handled_more y y' l : y_blocks y' = y_blocks y ++ l -> handled_list (d_trace (y_d y')) = handled_list (d_trace (y_d y)) -> handled_ok y -> handled_ok y'.
Proof.
  intros B H OK k Hk. rewrite H in Hk. destruct (OK k Hk) as (b & Hb & C). exists b. split; [|exact C]. rewrite B, nth_error_app1; auto. apply nth_error_Some. congruence.
Qed.
Lemma handled_same y y' : y_blocks y' = y_blocks y -> handled_list (d_trace (y_d y')) = handled_list (d_trace (y_d y)) -> handled_ok y -> handled_ok y'.
Proof. intros B. apply (handled_more y y' []). now rewrite app_nil_r. Qed.

Lemma call_d_handled a pc y y' : (forall i f, a <> BThread i f) -> call_d a pc y = Some y' -> y_blocks y' = y_blocks y /\ handled_list (d_trace (y_d y')) = handled_list (d_trace (y_d y)).
Proof.
  intros NA. unfold call_d. destruct (dstep a (y_d y)) as [d|] eqn:E; [|discriminate]. intros H. injection H as <-. split; [reflexivity|]. cbn [goto with_d y_d].
  destruct a; cbn [dstep] in E; try (exfalso; eapply NA; reflexivity).
  - destruct (nth_error _ _); [|discriminate E]. destruct (dwake_any _); [|discriminate E]. now injection E as <-.
  - destruct (d_user _); try discriminate E. now injection E as <-.
  - destruct (d_user _); try discriminate E. now injection E as <-.
  - destruct (d_user _); try discriminate E. destruct (h_error _); [now injection E as <-|]. destruct (notify_one _ _); [|discriminate E]. now injection E as <-.
  - destruct (d_user _); try discriminate E. now injection E as <-.
  - destruct (d_user _); try discriminate E; now injection E as <-.
  - destruct (d_user _); try discriminate E. now injection E as <-.
Qed.
Lemma main_handled j y y' : main_step inp daddr n j y = Some y' -> handled_ok y -> handled_ok y'.
Proof.
  intros E OK. unfold main_step in E.
  assert (CC : forall a pc, call_c a pc y = Some y' -> handled_ok y') by (intros a pc H; unfold call_c in H; destruct (cstep a (y_c y)); [|discriminate H]; injection H as <-; apply (handled_same y); auto).
  assert (CD : forall a pc, (forall i f, a <> BThread i f) -> call_d a pc y = Some y' -> handled_ok y').
  { intros a pc NA H. destruct (call_d_handled a pc y y' NA H). eapply handled_same; eauto. }
  assert (G : forall pc, handled_ok (goto pc y)) by (intros; apply (handled_same y); auto).
  destruct (y_pc y); try discriminate E; try (eapply CC; exact E); try (eapply CD; [|exact E]; discriminate).
  - destruct (existsb _ _); [discriminate E|]. injection E as <-. apply G.
  - injection E as <-. apply (handled_same y); auto.
  - destruct (y_latch y); [|discriminate E]. injection E as <-. apply G.
  - destruct (forallb _ _); [|discriminate E]. injection E as <-. destruct failed; [apply G|]. intros k [].
  - destruct (existsb _ _); [discriminate E|]. injection E as <-. apply G.
  - destruct (k <? lenZ (y_blocks y)); [|injection E as <-; apply G]. destruct (dstep (BPush k j) (y_d y)) as [d|] eqn:D; [|discriminate E].
    assert (H : exists z, call_d (BPush k j) MReady y = Some z /\ y_d z = d) by (unfold call_d; rewrite D; eexists; split; reflexivity). destruct H as (z & H & HD). destruct (call_d_handled (BPush k j) MReady y z ltac:(discriminate) H) as [_ HL].
    injection E as <-. apply (handled_same y); auto. cbn [goto with_d y_d]. now rewrite <- HD.
  - destruct (y_latch y); [|discriminate E]. injection E as <-. apply G.
  - destruct (forallb _ _); [|discriminate E]. injection E as <-. apply G.
  - injection E as <-. apply G.
Qed.
Lemma comp_handled i y y' : comp_thread gc inp iaddr crets cbuf i y = Some y' -> handled_ok y -> handled_ok y'.
Proof.
  intros E OK. assert (X : exists l, y_blocks y' = y_blocks y ++ l /\ y_d y' = y_d y).
  { assert (CB : forall b evs c', exists l, y_blocks (comp_callback b evs (with_c c' y)) = y_blocks y ++ l /\ y_d (comp_callback b evs (with_c c' y)) = y_d y).
    { intros b evs c'. unfold comp_callback. destruct evs as [|[] [|]]; cbn [with_c goto y_blocks y_d y_cerr]; try (exists []; rewrite app_nil_r; split; reflexivity).
      destruct (_ || _); [exists []; rewrite app_nil_r; split; reflexivity|exists [b]; split; reflexivity]. }
    assert (GG : forall f b, match nth_error (c_thr (y_c y)) i with
       | None => None
       | Some t => match tstep (lenZ (c_thr (y_c y))) i f (c_g (y_c y)) t, cstep (AThread i f) (y_c y) with
                   | Some (_, _, _, evs), Some c' => Some (comp_callback b evs (with_c c' y)) | _, _ => None end
       end = Some y' -> exists l, y_blocks y' = y_blocks y ++ l /\ y_d y' = y_d y).
    { intros f b H. destruct (nth_error (c_thr (y_c y)) i) as [t|]; [|discriminate H]. destruct (tstep _ _ _ _ _) as [[[[? ?] ?] evs]|]; [|discriminate H]. destruct (cstep _ _) as [c'|]; [|discriminate H]. injection H as <-. apply CB. }
    assert (BR : forall r : outcome block, match r with Done b => match nth_error (c_thr (y_c y)) i with
       | None => None
       | Some t => match tstep (lenZ (c_thr (y_c y))) i (b_offset b =? SIZE_MAX) (c_g (y_c y)) t, cstep (AThread i (b_offset b =? SIZE_MAX)) (y_c y) with
                   | Some (_, _, _, evs), Some c' => Some (comp_callback b evs (with_c c' y)) | _, _ => None end
       end | _ => Some (goto MBroken y) end = Some y' -> exists l, y_blocks y' = y_blocks y ++ l /\ y_d y' = y_d y).
    { intros r H. destruct r as [b| |]; [exact (GG _ _ H)| |]; injection H as <-; exists []; rewrite app_nil_r; split; reflexivity. }
    unfold comp_thread in E. cbv zeta in E. destruct (nth_error (c_thr (y_c y)) i) as [[[] lt]|] eqn:Hi; try discriminate E; first [exact (BR _ E)|exact (GG _ _ E)]. }
  destruct X as (l & X1 & X2). eapply handled_more; eauto. now rewrite X2.
Qed.

Let P (y : sys) : Prop := inv y /\ handled_ok y.
Lemma decomp_sim i y : P y ->
  (decomp_thread gd false drets i y = Some (goto MAbort y) /\ exists y', decomp_thread gd true drets i y = Some y') \/
  (decomp_thread gd false drets i y = decomp_thread gd true drets i y /\ forall y', decomp_thread gd true drets i y = Some y' -> handled_ok y').
Proof.
  intros [I OK]. destruct SET as [S1 S2 S3 S4 S5 S6 S7 S8]. assert (N1 : (1 <= n)%nat) by lia. destruct (early (y_pc y)) eqn:EA.
  { right. pose proof (yi_d _ _ _ _ _ _ _ _ I) as D. assert (DN : y_d y = new_dstream 0) by (destruct (y_pc y); try discriminate EA; exact D). unfold decomp_thread. rewrite DN. destruct i; split; try reflexivity; discriminate. }
  pose proof (inv_dfine gc true inp iaddr daddr n crets cbuf RAW1 y I EA) as F.
  pose proof (inv_good gc true inp iaddr daddr n crets cbuf S3 N1 RAW1 y I EA) as G.
  assert (GO : forall t mem y', nth_error (d_thr (y_d y)) i = Some t -> (forall k, fst t = DHandle k -> exists b, nth_error (y_blocks y) (Z.to_nat k) = Some b /\ compressed b) ->
     match dtstep (lenZ (d_thr (y_d y))) i false (d_g (y_d y)) t, dstep (BThread i false) (y_d y) with
     | Some (_, _, _, evs), Some d' => Some (decomp_callback evs (with_d d' mem y)) | _, _ => None end = Some y' -> handled_ok y').
  { intros t mem y' Hi HK H. destruct (dtstep (lenZ (d_thr (y_d y))) i false (d_g (y_d y)) t) as [[[[g' t'] w] evs]|] eqn:T; [|discriminate H].
    destruct (dfine_thread n N1 daddr _ (y_d y) i t g' t' w evs F Hi T) as (d' & ST & TR & _ & C). rewrite ST in H. injection H as <-.
    unfold handled_ok. destruct C as [(-> & _)|[(k & X & -> & _)|(-> & _)]]; cbn [app decomp_callback with_d y_d y_blocks] in *; rewrite TR; cbn [handled_list]; intros q Hq; auto.
    apply in_app_iff in Hq. destruct Hq as [Hq|[<-|[]]]; auto. }
  destruct (nth_error (d_thr (y_d y)) i) as [t|] eqn:Hi; [|right; unfold decomp_thread; rewrite Hi; split; [reflexivity|discriminate]].
  destruct t as [pc lt]. assert (NH : (forall k, pc <> DHandle k) \/ exists k, pc = DHandle k) by (destruct pc; try (left; discriminate); right; eauto).
  destruct NH as [NH|(k & ->)].
  - right. unfold decomp_thread. cbv zeta. rewrite Hi. split; [destruct pc; first [reflexivity|now elim (NH b)|now elim (NH b0)]|]. intros y' E. eapply (GO (pc, lt) (y_mem y)); [reflexivity|intros k K; now elim (NH k)|]. destruct pc; first [exact E|now elim (NH b)|now elim (NH b0)].
  - destruct (handle_number n N1 daddr _ (y_d y) i k lt (df_reach _ _ _ _ F) (df_shape _ _ _ _ F) Hi) as (_ & A & HP).
    destruct (block_number gc inp iaddr n crets cbuf N1 y k G A) as (b & Hb & BA & V).
    destruct (block_cases _ b k (y_mem y) V BA (dg_bytes _ _ _ _ _ _ G) (dg_len _ _ _ _ _ _ G)) as (C1 & C2 & C3).
    unfold decomp_thread. cbv zeta. rewrite Hi, Hb, HP, C1. destruct (raw_dec b) as [R|R].
    + right. rewrite (C2 R). split; [reflexivity|]. intros y' E. eapply (GO (DHandle k, lt)); [reflexivity| |exact E]. cbn [fst]. intros q K. injection K as <-. eauto.
    + left. rewrite (C3 R). split; [reflexivity|]. cbn [negb]. cbn [dstep]. rewrite Hi. cbn [dtstep]. eexists. reflexivity.
Qed.
Lemma step_sim a y : P y ->
  (step0 a y = Some (goto MAbort y) /\ is_wake a = false /\ exists y', step1 a y = Some y') \/ (step0 a y = step1 a y /\ forall y', step1 a y = Some y' -> P y').
Proof.
  intros [I OK]. destruct SET as [S1 S2 S3 S4 S5 S6 S7 S8].
  assert (SG : forall y', step1 a y = Some y' -> inv y') by (intros y' E; exact (proj1 (step_good e gc gd true inp iaddr daddr n crets cbuf drets S1 S2 S3 S4 ltac:(lia) ltac:(lia) S6 S7 S8 RAW1 a y y' I E))).
  assert (X : (y_pc y = MAbort \/ y_pc y = MBroken) \/ forall nd, ystep gc gd nd inp iaddr daddr n crets cbuf drets a y = match a with
    | YMain j => main_step inp daddr n j y
    | YComp i => comp_thread gc inp iaddr crets cbuf i y
    | YCompWake i => match cstep (ASpurious i) (y_c y) with Some c => Some (with_c c y) | None => None end
    | YDecomp i => decomp_thread gd nd drets i y
    | YDecompWake i => match dstep (BSpurious i) (y_d y) with Some d => Some (with_d d (y_mem y) y) | None => None end
    end) by (unfold ystep; destruct (y_pc y); auto).
  destruct X as [X|X]. { exfalso. pose proof (yi_c _ _ _ _ _ _ _ _ I) as C. destruct X as [X|X]; rewrite X in C; exact C. }
  rewrite !X. rewrite X in SG. destruct a as [j|i|i|i|i]; cbn [is_wake].
  - right. split; [reflexivity|]. intros y' E. split; [auto|]. eapply main_handled; eauto.
  - right. split; [reflexivity|]. intros y' E. split; [auto|]. eapply comp_handled; eauto.
  - right. split; [reflexivity|]. intros y' E. split; [auto|]. destruct (cstep _ _); [|discriminate E]. injection E as <-. now apply (handled_same y).
  - destruct (decomp_sim i y (conj I OK)) as [(A & B)|(A & B)]; [left; auto|right]. split; [exact A|]. intros y' E. split; auto.
  - right. split; [reflexivity|]. intros y' E. split; [auto|]. destruct (dstep (BSpurious i) (y_d y)) as [d|] eqn:D; [|discriminate E].
    destruct (call_d_handled (BSpurious i) MReady y (goto MReady (with_d d (y_mem y) y)) ltac:(discriminate)) as [_ H]; [unfold call_d; now rewrite D|]. injection E as <-. now apply (handled_same y).
Qed.
Lemma start_P : P start.
Proof. destruct SET as [S1 S2 S3 S4 S5 S6 S7 S8]. split; [apply (reach_inv e gc gd true inp iaddr daddr n crets cbuf drets S1 S2 S3 S4 ltac:(lia) ltac:(lia) S6 S7 S8 RAW1); apply re_init|]. intros k []. Qed.
Lemma reach_sim y : reachable step0 start y -> y_pc y = MAbort \/ (reachable step1 start y /\ P y).
Proof.
  intros R. induction R as [|a s s' R IH ST]; [right; split; [apply re_init|apply start_P]|]. destruct IH as [A|[R1 PS]]; [exfalso; unfold ystep in ST; rewrite A in ST; discriminate ST|].
  destruct (step_sim a s PS) as [(E & _)|(E & H)]; [left; rewrite E in ST; now injection ST as <-|]. rewrite E in ST. right. split; [eapply re_step; eauto|auto].
Qed.

(** Some block has a chunk that is not compressed. *)
Hypothesis RAW : exists off b j, block_offset L off /\ block_at off = Done b /\ stored_raw b j.

(** The program has not handled all blocks. *)
Lemma no_return y r : P y -> y_pc y <> MReturn r.
Proof.
  intros [I OK] PC. destruct SET as [S1 S2 S3 S4 S5 S6 S7 S8]. assert (N1 : (1 <= n)%nat) by lia.
  pose proof (inv_fine gc true inp iaddr daddr n crets cbuf RAW1 y I) as F. rewrite PC in F. cbn [cphase] in F.
  destruct (ended_offsets inp n N1 P4 (y_c y) (or_intror eq_refl) F) as (_ & IN & LO).
  pose proof (yi_d _ _ _ _ _ _ _ _ I) as D. rewrite PC in D. cbn [dpart] in D. destruct D as (_ & AC & DF & _).
  assert (HA : forall k, 0 <= k < whole inp -> In k (handled_list (d_trace (y_d y)))).
  { intros k. rewrite <- (numbers_in n N1), <- AC, <- !dcount_in, accepted_count, handled_count.
    pose proof (df_shape _ _ _ _ DF) as SH. pose proof (df_fail _ _ _ _ DF) as FA. cbn [dshape] in SH. destruct SH as (op & ok & E & OC & CA).
    assert (ok = true) as ->. { apply (dc_ok _ _ _ OC). rewrite E in FA. unfold dfailures in *. cbn [cnt] in FA. rewrite dcount_app in FA. cbn [cnt] in FA. lia. }
    pose proof (dc_all _ _ _ OC eq_refl CA k) as X. rewrite E. unfold handled, accepted in *. cbn [cnt]. rewrite !dcount_app. cbn [cnt]. lia. }
  destruct RAW as (off & b & j & V & BA & SR). apply IN in V. apply (In_nth _ _ 0) in V. destruct V as (i & Hi & EO).
  destruct (OK (Z.of_nat i)) as (b' & Hb & CB); [apply HA; unfold lenZ in LO; lia|]. rewrite Nat2Z.id in Hb.
  pose proof (yi_blocks _ _ _ _ _ _ _ _ I) as F2. apply (CB j). replace b' with b; auto.
  assert (BB : block_at (nth i (offsets (c_trace (y_c y))) 0) = Done b').
  { revert F2 Hb Hi. clear. generalize (y_blocks y) as bs. revert i. generalize (offsets (c_trace (y_c y))) as os. induction os as [|o os IH]; intros i bs F2 Hb LT; [cbn in LT; lia|].
    inversion F2 as [|? b0 ? bs0 F0 F1]. subst. destruct i as [|i]; cbn [nth nth_error] in *; [injection Hb as <-; exact F0|]. apply (IH i bs0); auto. cbn [length] in LT. lia. }
  rewrite EO, BA in BB. now injection BB as <-.
Qed.

Theorem assert_abort y : reachable step0 start y ->
  y_pc y <> MBroken /\ (forall r, y_pc y <> MReturn r) /\ (y_pc y = MAbort \/ exists a y', is_wake a = false /\ step0 a y = Some y').
Proof.
  intros R. destruct (reach_sim y R) as [A|[R1 PY]]; [rewrite A; split; [discriminate|]; split; [discriminate|auto]|]. pose proof PY as [I OK].
  pose proof (yi_c _ _ _ _ _ _ _ _ I) as C. split; [intros X; rewrite X in C; exact C|]. split; [intros r; now apply no_return|]. right.
  destruct SET as [S1 S2 S3 S4 S5 S6 S7 S8].
  destruct (c80_progress e gc gd true inp iaddr daddr n crets cbuf drets S1 S2 S3 S4 ltac:(lia) ltac:(lia) S6 S7 S8 RAW1 y R1) as [(r & PC)|(a & y' & W & ST)]; [now elim (no_return y r PY)|].
  exists a. destruct (step_sim a y PY) as [(E & _)|(E & _)]; rewrite E; eauto.
Qed.
Lemma run_sim l : forall y y', P y -> run step0 l y = Some y' -> exists l0, (l = l0 \/ exists a, l = l0 ++ [a]) /\ exists y0, run step1 l0 y = Some y0.
Proof.
  induction l as [|a l IH]; intros y y' PY E; cbn [run] in E; [exists []; split; [auto|]; exists y; reflexivity|]. destruct (step0 a y) as [y1|] eqn:ST; [|discriminate E].
  destruct (step_sim a y PY) as [(A & _)|(A & B)].
  - rewrite A in ST. injection ST as <-. destruct l as [|b l]; [|cbn [run ystep goto y_pc] in E; discriminate E]. exists []. split; [right; exists a; reflexivity|]. exists y. reflexivity.
  - rewrite A in ST. destruct (IH y1 y' (B y1 ST) E) as (l0 & [-> |(c & ->)] & y0 & R0); exists (a :: l0); (split; [|exists y0; cbn [run]; now rewrite ST]); [left; reflexivity|right; exists c; reflexivity].
Qed.
Theorem assert_bound l y : run step0 l start = Some y ->
  let N := Z.of_nat n in let B := L / BLOCK_SIZE in
  cnt (fun a => negb (is_wake a)) l <= (B + 20) * (10 * B + N * ((N + 5) * (B + 1) + 28) + (3 * B + N * (N + 20)) + 1) + cnt is_wake l + 1.
Proof.
  intros E. destruct SET as [S1 S2 S3 S4 S5 S6 S7 S8]. destruct (run_sim l start y start_P E) as (l0 & LE & y0 & R0).
  pose proof (c80_bound e gc gd true inp iaddr daddr n crets cbuf drets S1 S2 S3 S4 ltac:(lia) ltac:(lia) S6 S7 S8 RAW1 l0 y0 R0) as X. cbv zeta in *.
  destruct LE as [-> |(a & ->)]; [lia|]. rewrite !dcount_app. cbn [cnt]. destruct (is_wake a); cbn [negb]; lia.
Qed.
End Assert.
