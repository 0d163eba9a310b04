(** Data in which no aligned 16-bit word occurs twice cannot be compressed by any
    encoder of the format without short-data templates: every 8 bytes take 69 bits. *)
From Coq Require Import ZArith List Bool Lia.
From Verif Require Import SpecBits SpecCrc Spec842 CBase BitsLemmas SerialIdeal SerialValid PureDecoder SerialFacts.
Import ListNotations.
Open Scope Z_scope.

(** No two 16-bit words at even positions are equal. *)
Definition distinct16 (x : list Z) : Prop :=
  forall p q, (2 * p < 2 * q)%nat -> (2 * q + 2 <= length x)%nat -> slice (2 * p) 2 x <> slice (2 * q) 2 x.

Lemma args_extend out acts bits x rest : args out acts bits x rest -> exists t, x = out ++ t.
Proof.
  induction 1 as [out bs|out n d acts bs out' rest L B A [t ->]|out n i p acts bs out' rest R F A [t ->]].
  - exists []. now rewrite app_nil_r.
  - exists (d ++ t). now rewrite app_assoc.
  - exists (slice p n out ++ t). now rewrite app_assoc.
Qed.
Lemma stream_extend sw out bits x rest : stream sw out bits x rest -> exists t, x = out ++ t.
Proof.
  induction 1 as [|? ? ? ? ? [t ->]|? ? ? ? ? ? ? ? [t ->]|? ? ? ? ? ? ? ? ? [t ->]|? ? ? ? ? ? ? ? ? ? A ? [t ->]].
  - exists []. now rewrite app_nil_r.
  - exists (repeat 0 8 ++ t). now rewrite app_assoc.
  - eexists. rewrite <- app_assoc. reflexivity.
  - eexists. rewrite <- app_assoc. reflexivity.
  - destruct (args_extend _ _ _ _ _ A) as [u ->]. exists (u ++ t). now rewrite app_assoc.
Qed.
Lemma slice_app_l {A} p n (a b : list A) : (p + n <= length a)%nat -> slice p n (a ++ b) = slice p n a.
Proof.
  intros H. unfold slice. rewrite skipn_app, firstn_app. replace (n - length (skipn p a))%nat with 0%nat by (rewrite skipn_length; lia).
  cbn [firstn]. now rewrite app_nil_r.
Qed.
Lemma slice_app_r {A} p n (a b : list A) : slice (length a + p) n (a ++ b) = slice p n b.
Proof.
  unfold slice. rewrite skipn_app. rewrite skipn_all2 with (l := a) by lia. cbn [app]. f_equal. f_equal. lia.
Qed.
Lemma distinct16_app a b : distinct16 (a ++ b) -> distinct16 a.
Proof.
  intros H p q Hp Hq E. apply (H p q Hp); [rewrite app_length; lia|]. now rewrite !slice_app_l by lia.
Qed.

Lemma args_distinct out acts bits x rest : args out acts bits x rest -> distinct16 x ->
  Forall (fun a => act_size_ok a = true) acts -> Nat.Even (length out) ->
  (length bits = 8 * acts_len acts + length rest)%nat.
Proof.
  induction 1 as [out bs|out n d acts bs out' rest L B A IH|out n i p acts bs out' rest R F A IH]; intros DX FA EV.
  - cbn. lia.
  - inversion FA as [|? ? Fa F']; subst. rewrite app_length, bytes_bits_length, IH; auto.
    + cbn [acts_len fold_right act_len]. fold (acts_len acts). lia.
    + destruct EV as [b EB]. rewrite app_length.
      destruct (size_cases _ Fa) as [E|[E|E]]; cbn [act_len] in E; rewrite E; [exists (b + 1)%nat|exists (b + 2)%nat|exists (b + 4)%nat]; lia.
  - inversion FA as [|? ? Fa F']; subst. exfalso.
    destruct (args_extend _ _ _ _ _ A) as [t ->]. destruct F as (F1 & F2 & F3).
    assert (EP : Nat.Even p /\ (2 <= n)%nat).
    { destruct (size_cases _ Fa) as [E|[E|E]]; cbn [act_len] in E; rewrite E in *; unfold window, index_bits in F1;
        (split; [|lia]); apply Nat.even_spec; rewrite <- Nat.negb_odd; apply Bool.negb_true_iff;
        destruct (Nat.odd p) eqn:O; auto; apply Nat.odd_spec in O; destruct O as [k ->]; exfalso;
        clear - F1; match type of F1 with (Z.of_nat (2 * k + 1) mod ?w = _) =>
          let w' := eval vm_compute in w in change w with w' in F1;
          pose proof (Z.div_mod (Z.of_nat (2 * k + 1)) w' ltac:(lia)); lia end. }
    destruct EP as [[a EA] N2]. destruct EV as [b EB].
    assert (T : 8 * (Z.of_nat (length out) / 8) <= Z.of_nat (length out)) by (pose proof (Z.div_mod (Z.of_nat (length out)) 8); pose proof (Z.mod_pos_bound (Z.of_nat (length out)) 8); lia).
    assert (LS : length (slice p n out) = n) by (apply slice_length; lia).
    apply (DX a b); [lia|rewrite !app_length, LS; lia|].
    rewrite <- EA, <- EB. rewrite <- app_assoc. rewrite slice_app_l by lia.
    replace (length out) with (length out + 0)%nat by lia. rewrite slice_app_r. rewrite slice_app_l by lia.
    unfold slice. cbn [skipn]. rewrite firstn_firstn. f_equal. lia.
Qed.

Lemma stream_distinct out bits x rest : stream false out bits x rest -> distinct16 x -> (length out mod 8 = 0)%nat ->
  8 * Z.of_nat (length bits) = 69 * Z.of_nat (length x - length out) + 40 + 8 * Z.of_nat (length rest).
Proof.
  induction 1 as [out rest|out bs out' rest S IH|out n bs out' rest N L S IH|out d bs out' rest SW L B S IH|out op acts bs out1 bs1 out' rest R T A S IH];
    intros DX M8.
  - rewrite app_length, bits_of_length. lia.
  - exfalso. destruct (stream_extend _ _ _ _ _ S) as [t ->]. apply distinct16_app in DX.
    pose proof (Nat.div_mod (length out) 8 ltac:(lia)) as D8. set (b := (4 * (length out / 8))%nat) in *.
    apply (DX b (b + 1)%nat); [lia|rewrite app_length, repeat_length; lia|].
    replace (2 * b)%nat with (length out + 0)%nat by lia. replace (2 * (b + 1))%nat with (length out + 2)%nat by lia.
    rewrite !slice_app_r. reflexivity.
  - exfalso. destruct (stream_extend _ _ _ _ _ S) as [t ->]. apply distinct16_app in DX.
    replace (Z.to_nat n + 1)%nat with (1 + Z.to_nat n)%nat in DX by lia. unfold copies in DX. cbn [Nat.add repeat concat] in DX.
    rewrite app_assoc in DX. apply distinct16_app in DX.
    pose proof (Nat.div_mod (length out) 8 ltac:(lia)) as D8. set (b := (4 * (length out / 8))%nat) in *.
    assert (L8 : length (last8 out) = 8%nat) by (unfold last8; rewrite skipn_length; lia).
    apply (DX (b - 4)%nat b); [lia|rewrite app_length, L8; lia|].
    replace (2 * b)%nat with (length out + 0)%nat by lia. rewrite slice_app_r, slice_app_l by lia.
    unfold last8, slice. rewrite skipn_add. do 2 f_equal. lia.
  - discriminate.
  - destruct (template_sizes _ _ T) as (FS & L8 & _). pose proof (args_len _ _ _ _ _ A FS) as LA.
    destruct (stream_extend _ _ _ _ _ S) as [t EX].
    assert (D1 : distinct16 out1) by (rewrite EX in DX; now apply distinct16_app in DX).
    pose proof (Nat.div_mod (length out) 8 ltac:(lia)) as D8.
    pose proof (args_distinct _ _ _ _ _ A D1 FS) as LB.
    rewrite app_length, bits_of_length, LB by (exists (4 * (length out / 8))%nat; lia).
    assert (IH' := IH DX). rewrite LA, L8 in IH'.
    assert (LX : (length out1 <= length out')%nat) by (rewrite EX, app_length; lia).
    assert (M8' : ((length out + 8) mod 8 = 0)%nat).
    { replace (length out + 8)%nat with (length out + 1 * 8)%nat by lia. rewrite Nat.mod_add by lia. exact M8. }
    specialize (IH' M8'). lia.
Qed.

Lemma distinct_size x z : distinct16 x -> valid_842 false z x -> 69 * lenZ x + 8 * 37 <= 64 * lenZ z.
Proof.
  intros DX [rest V]. apply stream_distinct in V; auto.
  rewrite bytes_bits_length, app_length, bits_of_length in V. cbn [length] in V. unfold lenZ. lia.
Qed.

(** Such data: the 16-bit numbers 0, 1, 2, ... *)
Fixpoint ramp (n : nat) (k : Z) : list Z :=
  match n with O => [] | S n' => (k / 256) mod 256 :: k mod 256 :: ramp n' (k + 1) end.
Lemma ramp_length n : forall k, length (ramp n k) = (2 * n)%nat.
Proof. induction n as [|n IH]; intros k; cbn [ramp length]; [reflexivity|rewrite IH; lia]. Qed.
Lemma ramp_bytes n : forall k, is_bytes (ramp n k).
Proof.
  induction n as [|n IH]; intros k; cbn [ramp]; [constructor|].
  pose proof (Z.mod_pos_bound (k / 256) 256). pose proof (Z.mod_pos_bound k 256).
  constructor; [unfold is_byte; lia|]. constructor; [unfold is_byte; lia|apply IH].
Qed.
Lemma ramp_slice n : forall k q, (q < n)%nat -> slice (2 * q) 2 (ramp n k) = [((k + Z.of_nat q) / 256) mod 256; (k + Z.of_nat q) mod 256].
Proof.
  induction n as [|n IH]; intros k q H; [lia|]. destruct q as [|q].
  - cbn [Z.of_nat]. rewrite Z.add_0_r. reflexivity.
  - replace (2 * S q)%nat with (S (S (2 * q))) by lia. cbn [ramp]. unfold slice. cbn [skipn].
    fold (slice (2 * q) 2 (ramp n (k + 1))). rewrite IH by lia. now replace (k + 1 + Z.of_nat q) with (k + Z.of_nat (S q)) by lia.
Qed.
Lemma ramp_distinct n : Z.of_nat n <= 65536 -> distinct16 (ramp n 0).
Proof.
  intros H p q Hp Hq E. rewrite ramp_length in Hq. rewrite !ramp_slice in E by lia. rewrite !Z.add_0_l in E.
  injection E as E1 E2.
  assert (forall k, 0 <= k < 65536 -> k = 256 * ((k / 256) mod 256) + k mod 256).
  { intros k Hk. rewrite (Z.mod_small (k / 256)) by (split; [apply Z.div_pos|apply Z.div_lt_upper_bound]; lia). apply Z.div_mod. lia. }
  pose proof (H0 (Z.of_nat p) ltac:(lia)). pose proof (H0 (Z.of_nat q) ltac:(lia)). lia.
Qed.
