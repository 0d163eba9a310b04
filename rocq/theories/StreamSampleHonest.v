(** The sample program for the streams with an arbitrary library: it returns true only if it has restored the input. *)
From Coq Require Import ZArith List Bool Lia.
From Verif Require Import SpecBits CBase ConcLib SpecSync BarrierProofs ChunkedModel StreamBlockModel CompStreamModel DecompStreamModel OclModel OclItems StreamSampleModel.
Import ListNotations.
Open Scope Z_scope.

Section Honest.
Variable gc gd : chunked_impl.
Variable ndebug : bool.
Variable inp : list Z.
Variable iaddr daddr : Z.
Variable n : nat.
Variable crets : Z -> list Z.
Variable cbuf : Z -> Z * list Z.
Variable drets : Z -> list Z.
Notation step := (ystep gc gd ndebug inp iaddr daddr n crets cbuf drets).
Notation start := (sample_start inp n).

Definition hinv (y : sys) : Prop :=
  match y_pc y with
  | MValidate => forallb dexited (d_thr (y_d y)) = true
  | MReturn true => forallb dexited (d_thr (y_d y)) = true /\ y_mem y = inp
  | _ => True
  end.
(** What the other threads may change. *)
Definition hkeep (y y' : sys) : Prop := y_d y' = y_d y /\ y_mem y' = y_mem y /\ (y_pc y' = y_pc y \/ y_pc y' = MAbort \/ y_pc y' = MBroken).
Lemma keep_inv y y' : hinv y -> hkeep y y' -> hinv y'.
Proof. unfold hinv. intros H (A & B & [C|[C|C]]); rewrite C; auto. now rewrite A, B. Qed.
Lemma comp_keep i y y' : comp_thread gc inp iaddr crets cbuf i y = Some y' -> hkeep y y'.
Proof.
  assert (CB : forall b evs c, hkeep y (comp_callback b evs (with_c c y))).
  { intros b evs c. unfold comp_callback. destruct evs as [|[] [|? ?]]; unfold hkeep, with_c, goto; cbn; auto. }
  unfold comp_thread. destruct (nth_error (c_thr (y_c y)) i) as [[[] lt]|];
    repeat match goal with
    | |- match the_block _ _ _ _ _ ?o with _ => _ end = _ -> _ => destruct (the_block gc inp iaddr crets cbuf o)
    | |- match tstep ?a ?b ?c ?d ?e with _ => _ end = _ -> _ => destruct (tstep a b c d e) as [[[[? ?] ?] evs]|]
    | |- match cstep ?a ?b with _ => _ end = _ -> _ => destruct (cstep a b)
    | |- None = Some _ -> _ => discriminate
    | |- Some (comp_callback _ _ _) = Some _ -> _ => intros H; injection H as <-; apply CB
    | |- Some (goto MBroken _) = Some _ -> _ => intros H; injection H as <-; unfold hkeep, goto; cbn; auto
    end.
Qed.
Lemma exited_step i y y' : forallb dexited (d_thr (y_d y)) = true -> decomp_thread gd ndebug drets i y = Some y' -> False.
Proof.
  intros H. unfold decomp_thread. destruct (nth_error (d_thr (y_d y)) i) as [[pc lt]|] eqn:E; [|discriminate].
  rewrite forallb_forall in H. specialize (H _ (nth_error_In _ _ E)). unfold dexited in H. cbn [fst] in H. destruct pc; try discriminate. 
Qed.
Lemma exited_wake i y d : forallb dexited (d_thr (y_d y)) = true -> dstep (BSpurious i) (y_d y) = Some d -> False.
Proof.
  intros H. unfold dstep. destruct (nth_error (d_thr (y_d y)) i) as [[pc lt]|] eqn:E; [|discriminate].
  rewrite forallb_forall in H. specialize (H _ (nth_error_In _ _ E)). unfold dexited in H. cbn [fst] in H. destruct pc; try discriminate.
Qed.
Lemma decomp_pc i y y' : decomp_thread gd ndebug drets i y = Some y' -> y_pc y' = y_pc y \/ y_pc y' = MAbort \/ y_pc y' = MBroken.
Proof.
  assert (CB : forall evs d m, y_pc (decomp_callback evs (with_d d m y)) = y_pc y \/ y_pc (decomp_callback evs (with_d d m y)) = MAbort \/ y_pc (decomp_callback evs (with_d d m y)) = MBroken).
  { intros evs d m. unfold decomp_callback. destruct evs as [|[] [|? ?]]; unfold with_d, goto; cbn; auto. }
  unfold decomp_thread. destruct (nth_error (d_thr (y_d y)) i) as [[[] lt]|];
    repeat match goal with
    | |- match nth_error ?l ?k with _ => _ end = _ -> _ => destruct (nth_error l k)
    | |- match decomp_handle_block ?a ?b ?c ?d ?e ?f with _ => _ end = _ -> _ => destruct (decomp_handle_block a b c d e f) as [[[ok mem]|]| |]
    | |- match dtstep ?a ?b ?c ?d ?e with _ => _ end = _ -> _ => destruct (dtstep a b c d e) as [[[[? ?] ?] evs]|]
    | |- match dstep ?a ?b with _ => _ end = _ -> _ => destruct (dstep a b)
    | |- None = Some _ -> _ => discriminate
    | |- Some (decomp_callback _ _) = Some _ -> _ => intros H; injection H as <-; apply CB
    | |- Some (goto _ _) = Some _ -> _ => intros H; injection H as <-; unfold goto; cbn; auto
    end.
Qed.
Lemma main_inv j y y' : main_step inp daddr n j y = Some y' -> hinv y -> hinv y'.
Proof.
  unfold main_step, hinv. destruct (y_pc y) eqn:PC; unfold call_c, call_d;
    repeat match goal with
    | |- (if ?b then _ else _) = _ -> _ => destruct b eqn:?
    | |- match cstep ?a ?b with _ => _ end = _ -> _ => destruct (cstep a b)
    | |- match dstep ?a ?b with _ => _ end = _ -> _ => destruct (dstep a b)
    | |- None = Some _ -> _ => discriminate
    end; intros H; try discriminate; injection H as <-; cbn; auto.
  - destruct failed; cbn; auto.
  - destruct (d_trace _) as [|[]]; cbn; auto. destruct ok; cbn; auto.
  - destruct failed; cbn; auto.
  - intros H. destruct (_ && list_eqb inp (y_mem y)) eqn:E; auto. split; auto. apply andb_true_iff in E. destruct E as [_ E]. apply list_eqb_eq in E. auto.
Qed.
Lemma step_hinv a y y' : step a y = Some y' -> hinv y -> hinv y'.
Proof.
  unfold ystep. intros S H.
  assert (S' : match a with
    | YMain j => main_step inp daddr n j y
    | YComp i => comp_thread gc inp iaddr crets cbuf i y
    | YCompWake i => match cstep (ASpurious i) (y_c y) with Some c => Some (with_c c y) | None => None end
    | YDecomp i => decomp_thread gd ndebug drets i y
    | YDecompWake i => match dstep (BSpurious i) (y_d y) with Some d => Some (with_d d (y_mem y) y) | None => None end
    end = Some y') by (destruct (y_pc y); auto; discriminate). clear S.
  destruct a.
  - eapply main_inv; eauto.
  - eapply keep_inv; eauto. eapply comp_keep; eauto.
  - destruct (cstep _ _); [|discriminate]. injection S' as <-. eapply keep_inv; eauto. unfold hkeep, with_c. cbn. auto.
  - pose proof (decomp_pc _ _ _ S') as P. unfold hinv in *. destruct (y_pc y) eqn:E; try (destruct P as [P|[P|P]]; rewrite P; exact Logic.I).
    + now elim (exited_step _ _ _ H S').
    + destruct r; [now elim (exited_step _ _ _ (proj1 H) S')|]. destruct P as [P|[P|P]]; rewrite P; exact Logic.I.
  - destruct (dstep _ _) as [d|] eqn:D; [|discriminate]. injection S' as <-. unfold hinv in *. cbn. destruct (y_pc y) eqn:E; auto.
    + now elim (exited_wake _ _ _ H D).
    + destruct r; auto. now elim (exited_wake _ _ _ (proj1 H) D).
Qed.
Theorem sample_honest y : reachable step start y -> y_pc y = MReturn true -> y_mem y = inp /\ Forall (fun t => fst t = DExit) (d_thr (y_d y)).
Proof.
  intros R PC. assert (H : hinv y). { clear PC. induction R; [exact Logic.I|]. eapply step_hinv; eauto. }
  unfold hinv in H. rewrite PC in H. destruct H as [H1 H2]. split; auto. apply Forall_forall. intros t IN. rewrite forallb_forall in H1. specialize (H1 t IN). unfold dexited in H1. destruct (fst t); auto; discriminate.
Qed.
End Honest.
