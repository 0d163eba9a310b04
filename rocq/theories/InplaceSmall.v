(** Small chunks: the output never gets ahead of the input. *)
From Coq Require Import ZArith List Bool Lia.
From Verif Require Import SpecBits SpecCrc Spec842 CBase BitsLemmas SerialCompModel SerialDecompModel SerialIdeal SerialValid PureDecoder SerialFacts SerialDecomp OclModel OptDecompModel OptDecomp SpecOcl OclPure OclItems SpecOptimal HlsProofs SpecInplace.
Import ListNotations.
Open Scope Z_scope.

Lemma split_tail {A} (a bs pre e : list A) : a ++ bs = pre ++ e -> (length e <= length bs)%nat -> exists pre', pre = a ++ pre' /\ bs = pre' ++ e.
Proof.
  revert pre. induction a as [|x a IH]; intros pre H L; cbn [app] in H; [now exists pre|].
  destruct pre as [|y pre]; cbn [app] in H. { exfalso. subst e. cbn [length] in L. rewrite app_length in L. lia. }
  injection H as -> H. destruct (IH pre H L) as (p' & -> & ->). now exists p'.
Qed.
Lemma stream_length sw out b x rest : stream sw out b x rest -> (5 + length rest <= length b)%nat.
Proof.
  induction 1 as [out rest|out bs out' rest S IH|out n bs out' rest N L S IH|out d bs out' rest F L B S IH|out op acts bs out1 bs1 out' rest O T A S IH];
    rewrite ?app_length, ?bits_of_length; try lia.
  destruct (args_prefix _ _ _ _ _ A) as (c & -> & _). rewrite app_length. lia.
Qed.
Lemma head5 a b (x y : list bool) : 0 <= a < 32 -> 0 <= b < 32 -> bits_of 5 a ++ x = bits_of 5 b ++ y -> a = b /\ x = y.
Proof.
  intros A B H. assert (E : bits_of 5 a = bits_of 5 b).
  { apply (f_equal (firstn 5)) in H. rewrite !firstn_app, !bits_of_length in H. change (5 - 5)%nat with 0%nat in H. rewrite !firstn_O, !app_nil_r in H.
    now rewrite !firstn_all2 in H by (rewrite bits_of_length; lia). }
  split; [now apply (bits_of_inj 5)|]. rewrite E in H. now apply app_inv_head in H.
Qed.
Lemma args_det out acts b o1 r1 o2 r2 : Forall (fun a => act_size_ok a = true) acts -> args out acts b o1 r1 -> args out acts b o2 r2 -> o1 = o2 /\ r1 = r2.
Proof.
  intros F A1 A2. destruct (pd_acts_complete (lenZ o1 + lenZ o2) _ _ _ _ _ A1 F) as [P1 _]. destruct (pd_acts_complete (lenZ o1 + lenZ o2) _ _ _ _ _ A2 F) as [P2 _].
  rewrite P1 in P2 by (unfold lenZ; lia). specialize (P2 ltac:(unfold lenZ; lia)). now injection P2.
Qed.

Lemma stream_inv out b x rest : stream false out b x rest -> forall op bs, 0 <= op < 32 -> b = bits_of 5 op ++ bs ->
  (op = 0x1e /\ x = out /\ rest = bs) \/ (op = 0x1c /\ stream false (out ++ List.repeat 0 8) bs x rest) \/
  (op = 0x1b /\ exists n bs', 0 <= n < 64 /\ bs = bits_of 6 n ++ bs' /\ stream false (out ++ copies (Z.to_nat n + 1) (last8 out)) bs' x rest) \/
  (exists acts o1 b1, template op = Some acts /\ args out acts bs o1 b1 /\ stream false o1 b1 x rest).
Proof.
  destruct 1 as [out rest|out bs1 out' rest S|out n bs1 out' rest N L S|out d bs1 out' rest F|out op1 acts bs1 out1 bs2 out' rest O T A S]; intros op bs OP E.
  - apply head5 in E; try lia. destruct E as [<- <-]. auto.
  - apply head5 in E; try lia. destruct E as [<- <-]. auto.
  - apply head5 in E; try lia. destruct E as [<- <-]. right. right. left. eauto 6.
  - discriminate.
  - apply head5 in E; try lia. destruct E as [<- <-]. right. right. right. eauto 6.
Qed.
(** What follows complete templates goes on from what they produced. *)
Lemma stream_after out b xp r : stream false out b xp r -> r = [] -> forall pre, b = pre ++ bits_of 5 0x1e ->
  forall post x rest, stream false out (pre ++ post) x rest -> stream false xp post x rest.
Proof.
  induction 1 as [out rest|out bs out' rest S IH|out n bs out' rest N L S IH|out d bs out' rest F L B S IH|out op acts bs out1 bs1 out' rest O T A S IH];
    intros -> pre EP post x rest2 S2.
  - assert (pre = []) as ->; [|exact S2]. apply (f_equal (@length bool)) in EP. rewrite !app_length, !bits_of_length in EP. destruct pre; auto. cbn in EP. lia.
  - pose proof (stream_length _ _ _ _ _ S) as SL. apply split_tail in EP; [|rewrite bits_of_length; lia]. destruct EP as (p' & -> & ->). rewrite <- app_assoc in S2.
    apply (IH eq_refl p' eq_refl).
    destruct (stream_inv _ _ _ _ S2 0x1c _ ltac:(lia) eq_refl) as [(E & _)|[(_ & S3)|[(E & _)|(acts & ? & ? & T & _)]]]; try discriminate. exact S3.
  - pose proof (stream_length _ _ _ _ _ S) as SL. rewrite app_assoc in EP. apply split_tail in EP; [|rewrite bits_of_length; lia]. destruct EP as (p' & -> & ->). rewrite <- !app_assoc in S2.
    apply (IH eq_refl p' eq_refl).
    destruct (stream_inv _ _ _ _ S2 0x1b _ ltac:(lia) eq_refl) as [(E & _)|[(E & _)|[(_ & n' & bs' & N' & E & S3)|(acts & ? & ? & T & _)]]]; try discriminate.
    assert (E6 : bits_of 6 n = bits_of 6 n').
    { apply (f_equal (firstn 6)) in E. rewrite !firstn_app, !bits_of_length in E. change (6 - 6)%nat with 0%nat in E. rewrite !firstn_O, !app_nil_r in E.
      now rewrite !firstn_all2 in E by (rewrite bits_of_length; lia). }
    rewrite E6 in E. apply app_inv_head in E. subst bs'. apply (bits_of_inj 6) in E6; [|assumption|assumption]. subst n'. exact S3.
  - discriminate.
  - pose proof (stream_length _ _ _ _ _ S) as SL. destruct (template_sizes _ _ T) as (TS & TL & TR).
    destruct (args_prefix _ _ _ _ _ A) as (c & -> & PA). rewrite app_assoc in EP. apply split_tail in EP; [|rewrite bits_of_length; lia]. destruct EP as (p' & -> & ->). rewrite <- !app_assoc in S2.
    apply (IH eq_refl p' eq_refl).
    destruct (stream_inv _ _ _ _ S2 op _ O eq_refl) as [(E & _)|[(E & _)|[(E & _)|(acts' & o1 & b1 & T' & A' & S3)]]]; try lia.
    rewrite T in T'. injection T' as <-. destruct (args_det _ _ _ _ _ _ _ TS (PA _) A') as [-> ->]. exact S3.
Qed.

(** A template takes at most 69 bits and produces at least 8 bytes. *)
Lemma template_bits op acts : template op = Some acts -> (acts_size acts <= 64)%nat.
Proof.
  intros H. destruct op as [|p|p]; cbn in H; try discriminate; [injection H as <-; cbn; lia|].
  do 5 (destruct p as [p|p|]; cbn in H; try discriminate; try (injection H as <-; cbn; lia)).
Qed.
Lemma stream_bits out b x rest : stream false out b x rest ->
  exists k, (8 * k + length out <= length x)%nat /\ (length b <= 69 * k + 5 + length rest)%nat.
Proof.
  induction 1 as [out rest|out bs out' rest S IH|out n bs out' rest N L S IH|out d bs out' rest F L B S IH|out op acts bs out1 bs1 out' rest O T A S IH].
  - exists 0%nat. rewrite app_length, bits_of_length. lia.
  - destruct IH as (k & K1 & K2). exists (k + 1)%nat. rewrite app_length in *. rewrite repeat_length in K1. rewrite bits_of_length. lia.
  - destruct IH as (k & K1 & K2). exists (k + 1)%nat. rewrite !app_length in *. rewrite !bits_of_length. split; [|lia].
    assert (8 <= length (copies (Z.to_nat n + 1) (last8 out)))%nat; [|lia].
    rewrite copies_length, last8_length by auto. lia.
  - discriminate.
  - destruct IH as (k & K1 & K2). exists (k + 1)%nat. destruct (template_sizes _ _ T) as (TS & TL & TR). pose proof (template_bits _ _ T) as TB.
    pose proof (args_len _ _ _ _ _ A TS) as AL. pose proof (args_size _ _ _ _ _ A) as AS. rewrite app_length, bits_of_length. lia.
Qed.

Lemma small_ahead size z x : lenZ z mod 8 = 0 -> lenZ z <= size -> ends_with_crc z x -> lenZ x <= size <= 560 -> stays_ahead (size - lenZ z) z.
Proof.
  intros Z8 ZS (rest & S & LR) HX pre post xp EB DS. unfold decoded_so_far in DS.
  rewrite EB in S. pose proof (stream_after _ _ _ _ DS eq_refl pre eq_refl post x rest S) as S2.
  destruct (stream_bits _ _ _ _ S2) as (k & K1 & K2).
  assert (LB : 8 * lenZ z = lenZ pre + lenZ post).
  { apply (f_equal (@length bool)) in EB. rewrite bytes_bits_length, app_length in EB. unfold lenZ. lia. }
  pose proof (Z.div_mod (lenZ pre + 63) 64 ltac:(lia)) as D1. pose proof (Z.mod_pos_bound (lenZ pre + 63) 64 ltac:(lia)) as D2.
  pose proof (Z.div_mod (lenZ z) 8 ltac:(lia)) as D3. set (c := (lenZ pre + 63) / 64) in *. set (w := lenZ z / 8) in *.
  assert (P0 : 0 <= lenZ pre) by (unfold lenZ; lia).
  destruct (Z.eq_dec (lenZ xp) 0) as [E0|E0]; [lia|].
  assert (X1 : 1 <= lenZ xp) by (unfold lenZ in *; lia).
  assert (K3 : 8 * Z.of_nat k + lenZ xp <= lenZ x) by (unfold lenZ; lia).
  assert (K4 : lenZ post <= 69 * Z.of_nat k + 100) by (unfold lenZ; lia).
  assert (w - c <= Z.of_nat k + 6) by lia. lia.
Qed.

(** A computation that shows [ends_with_crc]. *)
Definition crc_end_check (z x : list Z) : bool :=
  match qd_loop (S (8 * length z)) (lenZ x) [] (bytes_bits z) with
  | Some (POk y r) => list_eqb y x && (32 <=? length r)%nat && (length r <? 96)%nat
  | _ => false
  end.
Lemma crc_end_check_ok z x : crc_end_check z x = true -> ends_with_crc z x.
Proof.
  unfold crc_end_check. destruct (qd_loop _ _ _ _) as [[y r| |]|] eqn:E; try discriminate. intros H.
  apply andb_true_iff in H. destruct H as [H H3]. apply andb_true_iff in H. destruct H as [H1 H2]. apply list_eqb_eq in H1. subst y.
  apply Nat.leb_le in H2. apply Nat.ltb_lt in H3. exists r. split; [|lia].
  eapply qd_loop_sound; [reflexivity|constructor| |exact E]. rewrite lenZ_nil. unfold lenZ. lia.
Qed.
