(** The FPGA front end when no element of its input is flagged as the last one: lemmas for PropHlsWait.v. *)
From Coq Require Import ZArith List Bool Lia.
From Verif Require Import SpecBits Spec842 SpecTokens CBase HlsModel HlsProofs.
Import ListNotations.
Open Scope Z_scope.

Definition more (tail : list (Z * bool)) (s : tstate) : tstate := TS (t_in s ++ tail) (t_last s) (t_buf s) (t_bits s).

(** What a step does with more input behind: the same, unless it had to wait. *)
Lemma step_more tail s : match tok_step s with
  | Done (o, s') => tok_step (more tail s) = Done (o, more tail s') /\ (length (t_in s') <= length (t_in s))%nat
  | NoFuel => False
  | Undef => tok_step (more tail s) = Undef \/ t_in s = []
  end.
Proof.
  destruct s as [inp last buf bits]. unfold tok_step, more. cbn [t_in t_last t_buf t_bits].
  assert (RS : forall w v hi lo x, range_set w v hi lo x = Undef \/ exists y, range_set w v hi lo x = Done y).
  { intros. unfold range_set. repeat match goal with |- context [if ?b then _ else _] => destruct b end; eauto. }
  assert (RG : forall w v hi lo, range_get w v hi lo = Undef \/ exists y, range_get w v hi lo = Done y).
  { intros. unfold range_get. repeat match goal with |- context [if ?b then _ else _] => destruct b end; eauto. }
  match goal with |- context [bind (if ?c then range_set ?a ?b ?cc ?d ?x else Done buf) _] =>
    assert (H : (if c then range_set a b cc d x else Done buf) = Undef \/ exists y, (if c then range_set a b cc d x else Done buf) = Done y) by (destruct c; eauto);
    destruct H as [->|(b1 & ->)]; cbn [bind]; [now left|] end.
  destruct (RG BUFFER_WIDTH b1 (BUFFER_WIDTH - 1) (BUFFER_WIDTH - OP_BITS)) as [->|(op & ->)]; cbn [bind]; [now left|].
  match goal with |- context [bind (if ?c then bind (range_set ?a ?b ?cc ?d ?x) ?f else Done ?z) _] =>
    assert (H : (if c then bind (range_set a b cc d x) f else Done z) = Undef \/ exists y, (if c then bind (range_set a b cc d x) f else Done z) = Done y)
      by (destruct c; eauto; destruct (RS a b cc d x) as [->|(? & ->)]; cbn [bind]; eauto);
    destruct H as [->|(b2 & ->)]; cbn [bind]; [now left|] end.
  destruct b2 as [[b2 op2] pl].
  destruct (negb last && (bits <? 2 * TOKEN_WIDTH)).
  - destruct inp as [|[data l] rest]; [cbn [in_read bind]; now right|]. cbn [in_read bind app].
    rewrite swap_input. cbn [bind].
    match goal with |- context [range_set ?a ?b ?c ?d ?x] => destruct (RS a b c d x) as [->|(b3 & ->)]; cbn [bind]; [now left|] end.
    cbn [t_in t_last t_buf t_bits].
    match goal with |- context [range_get ?a ?b ?c ?d] => destruct (RG a b c d) as [->|(b4 & ->)]; cbn [bind]; [now left|] end.
    match goal with |- context [range_set ?a ?b ?c ?d ?x] => destruct (RS a b c d x) as [->|(b5 & ->)]; cbn [bind]; [now left|] end.
    split; [reflexivity|]. cbn [t_in length]. lia.
  - cbn [bind t_in t_last t_buf t_bits].
    match goal with |- context [range_get ?a ?b ?c ?d] => destruct (RG a b c d) as [->|(b4 & ->)]; cbn [bind]; [now left|] end.
    match goal with |- context [range_set ?a ?b ?c ?d ?x] => destruct (RS a b c d x) as [->|(b5 & ->)]; cbn [bind]; [now left|] end.
    split; [reflexivity|]. cbn [t_in length]. lia.
Qed.

Lemma step_shrinks s o s' : tok_step s = Done (o, s') -> (length (t_in s') <= length (t_in s))%nat.
Proof. intros E. pose proof (step_more [] s) as H. rewrite E in H. apply H. Qed.
Lemma loop_shrinks fuel : forall s os left, tok_loop fuel s = Done (os, left) -> (length left <= length (t_in s))%nat.
Proof.
  induction fuel as [|fuel IH]; intros s os left; [discriminate|]. cbn [tok_loop].
  destruct (tok_step s) as [[o s']| |] eqn:E; cbn [bind]; try discriminate. apply step_shrinks in E.
  destruct (snd o).
  - intros [= <- <-]. exact E.
  - destruct (tok_loop fuel s') as [[os' l']| |] eqn:E'; cbn [bind]; try discriminate. intros [= <- <-]. apply IH in E'. lia.
Qed.
(** A run that ends does the same with more input behind. *)
Lemma loop_more tail fuel : forall s os left, tok_loop fuel s = Done (os, left) -> tok_loop fuel (more tail s) = Done (os, left ++ tail).
Proof.
  induction fuel as [|fuel IH]; intros s os left; [discriminate|]. cbn [tok_loop]. pose proof (step_more tail s) as H.
  destruct (tok_step s) as [[o s']| |]; cbn [bind]; try discriminate. destruct H as [-> _]. cbn [bind].
  destruct (snd o).
  - intros [= <- <-]. reflexivity.
  - destruct (tok_loop fuel s') as [[os' l']| |] eqn:E'; cbn [bind]; try discriminate. intros [= <- <-]. rewrite (IH _ _ _ E'). reflexivity.
Qed.
(** And a run that leaves what is behind untouched does the same without it. *)
Lemma loop_less tail fuel : forall s os left, tok_loop fuel (more tail s) = Done (os, left) -> (length tail <= length left)%nat ->
  exists left', left = left' ++ tail /\ tok_loop fuel s = Done (os, left').
Proof.
  induction fuel as [|fuel IH]; intros s os left; [discriminate|]. intros E L. pose proof (loop_shrinks _ _ _ _ E) as _.
  cbn [tok_loop] in *. pose proof (step_more tail s) as H. destruct (tok_step s) as [[o s']| |] eqn:ES; [| |contradiction].
  - destruct H as [H _]. rewrite H in E. cbn [bind] in *. destruct (snd o).
    + injection E as <- <-. exists (t_in s'). split; reflexivity.
    + destruct (tok_loop fuel (more tail s')) as [[os' l']| |] eqn:E'; cbn [bind] in E; try discriminate. injection E as <- <-.
      destruct (IH _ _ _ E' L) as (left' & -> & ->). exists left'. split; reflexivity.
  - exfalso. destruct H as [H|H]; [rewrite H in E; discriminate|].
    destruct (tok_step (more tail s)) as [[o s']| |] eqn:E1; cbn [bind] in E; try discriminate.
    assert (N : (length (t_in s') < length tail)%nat).
    { destruct s as [inp last buf bits]. cbn [t_in] in H. subst inp. unfold more in E1. cbn [t_in t_last t_buf t_bits app] in E1.
      destruct (length (t_in s') <? length tail)%nat eqn:C; [now apply Nat.ltb_lt|exfalso]. apply Nat.ltb_ge in C.
      revert ES E1. unfold tok_step. cbn [t_in t_last t_buf t_bits].
      match goal with |- bind ?a _ = _ -> _ => destruct a as [b1| |]; cbn [bind]; try discriminate end.
      match goal with |- bind ?a _ = _ -> _ => destruct a as [op| |]; cbn [bind]; try discriminate end.
      match goal with |- bind ?a _ = _ -> _ => destruct a as [[[b2 op2] pl]| |]; cbn [bind]; try discriminate end.
      destruct (negb last && (bits <? 2 * TOKEN_WIDTH)).
      2: { cbn [bind t_in t_last t_buf t_bits]. 
        match goal with |- bind ?a _ = _ -> _ => destruct a as [b4| |]; cbn [bind]; try discriminate end.
        match goal with |- bind ?a _ = _ -> _ => destruct a as [b5| |]; cbn [bind]; discriminate end. }
      intros _. destruct tail as [|[data l] rest]; [cbn [in_read bind]; discriminate|]. cbn [in_read bind]. rewrite swap_input. cbn [bind].
      match goal with |- bind (bind ?a _) _ = _ -> _ => destruct a as [b3| |]; cbn [bind]; try discriminate end.
      match goal with |- bind ?a _ = _ -> _ => destruct a as [b4| |]; cbn [bind]; try discriminate end.
      match goal with |- bind ?a _ = _ -> _ => destruct a as [b5| |]; cbn [bind]; try discriminate end.
      intros [= <- <-]. cbn [t_in length] in C. lia. }
    destruct (snd o).
    + injection E as <- <-. lia.
    + destruct (tok_loop fuel s') as [[os' l']| |] eqn:E'; cbn [bind] in E; try discriminate. injection E as <- <-. apply loop_shrinks in E'. lia.
Qed.
Lemma loop_fuel fuel : forall fuel' s, (fuel <= fuel')%nat -> tok_loop fuel s <> NoFuel -> tok_loop fuel' s = tok_loop fuel s.
Proof.
  induction fuel as [|fuel IH]; intros fuel' s L N; [now destruct N|]. destruct fuel' as [|fuel']; [lia|]. cbn [tok_loop] in *.
  destruct (tok_step s) as [[o s']| |]; cbn [bind] in *; auto. destruct (snd o); auto.
  rewrite IH; [reflexivity|lia|]. intros H. now rewrite H in N.
Qed.
(** Without flags, the fuel suffices whatever the bits are: every iteration takes five bits or more, or waits. *)
Lemma loop_ends fuel : forall s, t_last s = false -> Forall (fun x => snd x = false) (t_in s) -> 0 <= t_bits s <= 265 ->
  t_bits s + 128 * Z.of_nat (length (t_in s)) < 5 * Z.of_nat fuel -> tok_loop fuel s <> NoFuel.
Proof.
  induction fuel as [|fuel IH]; intros s L F B M. { exfalso. pose proof (Nat2Z.is_nonneg (length (t_in s))). change (Z.of_nat 0) with 0 in M. lia. }
  cbn [tok_loop]. pose proof (step_more [] s) as SM. destruct (tok_step s) as [[o s']| |] eqn:E; cbn [bind]; [|discriminate|contradiction]. clear SM.
  destruct (snd o); [discriminate|].
  assert (H : tok_loop fuel s' <> NoFuel).
  { revert E. destruct s as [inp last buf bits]. cbn [t_in t_last t_bits] in *. subst last. unfold tok_step. cbn [t_in t_last t_buf t_bits negb andb bind].
    change BUFFER_WIDTH with 266. change OP_BITS with 5. rewrite range_get_ok by lia. cbn [bind].
    set (op := _ mod 2 ^ (266 - 1 - (266 - 5) + 1)). assert (O : 0 <= op < 32) by (unfold op; apply Z.mod_pos_bound; reflexivity).
    destruct (parameter_length op O) as [-> PL]. set (pl := Z.of_nat (args_bits op)). assert (P : 0 <= pl <= 64) by (unfold pl; lia).
    change INPUT_STREAM_WIDTH with 128. change (2 ^ 9) with 512. change (2 * TOKEN_WIDTH) with 138. destruct (bits <? 138) eqn:C.
    - apply Z.ltb_lt in C. destruct inp as [|[data l] rest]; [discriminate|]. inversion F as [|? ? F1 F2]. cbn [snd] in F1. subst.
      cbn [in_read bind]. rewrite swap_input. cbn [bind].
      match goal with |- bind (bind ?a _) _ = _ -> _ => destruct a as [b3| |]; cbn [bind t_in t_last t_buf t_bits]; try discriminate end.
      match goal with |- bind ?a _ = _ -> _ => destruct a as [b4| |]; cbn [bind]; try discriminate end.
      match goal with |- bind ?a _ = _ -> _ => destruct a as [b5| |]; cbn [bind]; try discriminate end.
      intros [= <- <-]. rewrite (Z.mod_small (bits + 128)) by lia. rewrite (Z.mod_small (bits + 128 - (5 + pl))) by lia.
      cbn [length] in M. rewrite !Nat2Z.inj_succ in M. apply IH; cbn [t_in t_last t_bits]; auto; lia.
    - apply Z.ltb_ge in C. cbn [bind t_in t_last t_buf t_bits].
      match goal with |- bind ?a _ = _ -> _ => destruct a as [b4| |]; cbn [bind]; try discriminate end.
      match goal with |- bind ?a _ = _ -> _ => destruct a as [b5| |]; cbn [bind]; try discriminate end.
      intros [= <- <-]. rewrite (Z.mod_small (bits - (5 + pl))) by lia. rewrite Nat2Z.inj_succ in M. apply IH; cbn [t_in t_last t_bits]; auto; lia. }
  destruct (tok_loop fuel s') as [[? ?]| |]; cbn [bind]; congruence.
Qed.

Definition unflagged (bl : list (list Z)) : list (Z * bool) := map (fun b => (element b, false)) bl.
Lemma transfer_snoc bl b : transfer (bl ++ [b]) = unflagged bl ++ [(element b, true)].
Proof.
  induction bl as [|a bl IH]; [reflexivity|]. cbn [transfer app unflagged map]. f_equal; [|exact IH].
  destruct bl; reflexivity.
Qed.
Lemma unflagged_flags bl : Forall (fun x => snd x = false) (unflagged bl).
Proof. induction bl; constructor; auto. Qed.
(** What the tokenizer does with unflagged elements, from what it does if one flagged element follows. *)
Lemma tokenizer_unflagged bl b out left : bl <> [] -> opcode_tokenizer (unflagged bl ++ [(element b, true)]) = Done (out, left) ->
  match left with
  | [] => opcode_tokenizer (unflagged bl) = Undef
  | _ => exists left', left = left' ++ [(element b, true)] /\ opcode_tokenizer (unflagged bl) = Done (out, left')
  end.
Proof.
  intros NE. destruct bl as [|a bl]; [congruence|]. clear NE. unfold opcode_tokenizer. cbn [unflagged map app in_read bind]. fold (unflagged bl).
  rewrite swap_input. cbn [bind]. destruct (range_set _ _ _ _ _) as [buf| |]; cbn [bind]; try discriminate.
  change INPUT_STREAM_WIDTH with 128. set (f := S (26 * length ((element a, false) :: unflagged bl))). set (f' := S (26 * length ((element a, false) :: unflagged bl ++ [(element b, true)]))).
  set (s := TS (unflagged bl) false buf 128). change (TS (unflagged bl ++ [(element b, true)]) false buf 128) with (more [(element b, true)] s). intros E.
  assert (N : tok_loop f s <> NoFuel).
  { apply loop_ends; [reflexivity|apply unflagged_flags|unfold s; cbn [t_bits]; lia|]. unfold s, f. cbn [t_bits t_in length]. lia. }
  assert (FF : tok_loop f' s = tok_loop f s). { apply loop_fuel; [|exact N]. unfold f, f'. cbn [length]. rewrite app_length. lia. }
  destruct left as [|u left].
  - rewrite <- FF in *. destruct (tok_loop f' s) as [[os l]| |] eqn:E'; [|reflexivity|congruence].
    apply (loop_more [(element b, true)]) in E'. rewrite E in E'. injection E' as _ E'. now destruct l.
  - destruct (loop_less _ _ _ _ _ E) as (left' & -> & E'). { cbn [length]. lia. } exists left'. split; [reflexivity|]. now rewrite <- FF.
Qed.
