(** How much a compressed buffer can expand: lemmas behind C107. *)
From Coq Require Import ZArith List Bool Lia.
From Verif Require Import SpecBits SpecCrc Spec842 CBase BitsLemmas SerialIdeal SerialComp SerialValid PureDecoder SerialFacts SerialDecomp.
Import ListNotations.
Open Scope Z_scope.

Lemma args_expand out acts bits x rest : args out acts bits x rest -> Forall (fun a => act_size_ok a = true) acts ->
  (8 * length x + 8 * length rest <= 8 * length out + 8 * length bits)%nat.
Proof.
  induction 1; intros F; inversion F as [|? ? Fa F']; subst.
  - lia.
  - specialize (IHargs F'). rewrite app_length in *. rewrite bytes_bits_length in *. lia.
  - specialize (IHargs F'). apply size_cases in Fa. cbn [act_len] in Fa. rewrite app_length in *. rewrite bits_of_length.
    pose proof (firstn_le_length n (skipn p out)) as SL. unfold slice in IHargs.
    destruct Fa as [-> | [-> | ->]]; cbn [index_bits]; lia.
Qed.
Lemma stream_expand sw out bits x rest : stream sw out bits x rest ->
  (11 * length x + 512 * (5 + length rest) <= 11 * length out + 512 * length bits)%nat.
Proof.
  induction 1; rewrite ?app_length, ?bits_of_length, ?bytes_bits_length, ?repeat_length in *.
  - lia.
  - lia.
  - rewrite copies_length, last8_length in IHstream by auto. lia.
  - lia.
  - destruct (template_sizes _ _ H0) as (F & TL & _). pose proof (args_len _ _ _ _ _ H1 F) as AL. rewrite TL in AL.
    pose proof (args_expand _ _ _ _ _ H1 F). lia.
Qed.

(** A stream with [k] repetitions of a zero block, 64 times each. *)
Definition bomb_bits (k : nat) : list bool := bits_of 5 0x1c ++ copies k (bits_of 5 0x1b ++ bits_of 6 63).
Lemma zeros_app a b : List.repeat 0 a ++ List.repeat 0 b = List.repeat 0 (a + b).
Proof. now rewrite repeat_app. Qed.
Lemma zeros_last8 n : (8 <= n)%nat -> last8 (List.repeat 0 n) = List.repeat 0 8.
Proof.
  intros H. unfold last8. rewrite repeat_length. replace n with ((n - 8) + 8)%nat at 2 by lia. rewrite repeat_app, skipn_app, repeat_length.
  rewrite skipn_all2 by (rewrite repeat_length; lia). now rewrite Nat.sub_diag.
Qed.
Lemma copies_zeros n : copies n (List.repeat 0 8) = List.repeat 0 (8 * n).
Proof.
  induction n as [|n IH]; [reflexivity|]. change (copies (S n) (List.repeat 0 8)) with (List.repeat 0 8 ++ copies n (List.repeat 0 8)).
  rewrite IH, zeros_app. f_equal. lia.
Qed.
Lemma bomb_loop sw k : forall n tail x rest, (8 <= n)%nat -> stream sw (List.repeat 0 (n + 512 * k)) tail x rest ->
  stream sw (List.repeat 0 n) (copies k (bits_of 5 0x1b ++ bits_of 6 63) ++ tail) x rest.
Proof.
  induction k as [|k IH]; intros n tail x rest Hn H.
  - replace (n + 512 * 0)%nat with n in H by lia. exact H.
  - change (copies (S k) (bits_of 5 0x1b ++ bits_of 6 63)) with ((bits_of 5 0x1b ++ bits_of 6 63) ++ copies k (bits_of 5 0x1b ++ bits_of 6 63)).
    rewrite <- !app_assoc. apply st_repeat; [lia|now rewrite repeat_length|].
    rewrite zeros_last8, copies_zeros, zeros_app by auto. apply IH; [lia|].
    replace (n + 8 * (Z.to_nat 63 + 1) + 512 * k)%nat with (n + 512 * S k)%nat; [exact H|]. change (Z.to_nat 63) with 63%nat. lia.
Qed.
Lemma bomb k : exists z x, is_bytes z /\ lenZ z mod 8 = 0 /\ valid_842 false z x /\ lenZ x = 8 + 512 * Z.of_nat k /\ 8 * lenZ z <= 11 * Z.of_nat k + 105.
Proof.
  set (x := List.repeat 0 (8 + 512 * k)). set (E := bomb_bits k ++ bits_of 5 0x1e ++ bits_of 32 (crc32 x)).
  assert (LE : lenZ E = 11 * Z.of_nat k + 42).
  { unfold E, bomb_bits, lenZ. rewrite !app_length, copies_length, app_length, !bits_of_length. lia. }
  exists (pack (pad E)), x.
  assert (P8 : (length (pad E) mod 8 = 0)%nat).
  { pose proof (pad_length E) as P. unfold lenZ in P. apply Nat2Z.inj. rewrite Nat2Z.inj_mod, P. change (Z.of_nat 8) with 8. rewrite Z.mul_comm, Z.mod_mul; lia. }
  assert (LZ : 8 * lenZ (pack (pad E)) = lenZ (pad E)).
  { unfold lenZ. rewrite pack_length. pose proof (Nat.div_mod (length (pad E)) 8 ltac:(lia)). lia. }
  pose proof (pad_length E) as P. unfold padded_size in P.
  split; [apply pack_bytes|]. split; [|split; [|split]].
  - replace (lenZ (pack (pad E))) with ((lenZ E + 63) / 64 * 8) by lia. apply Z.mod_mul. lia.
  - unfold valid_842. rewrite pack_bits by exact P8. unfold pad. set (m := Z.to_nat _). exists (repeat false m).
    unfold E, bomb_bits. rewrite <- !app_assoc. apply st_zeros. cbn [app]. apply bomb_loop; [lia|]. apply st_end.
  - unfold lenZ, x. rewrite repeat_length. lia.
  - rewrite LZ, P. rewrite LE. pose proof (Z.mul_div_le (11 * Z.of_nat k + 42 + 63) 64 ltac:(lia)). lia.
Qed.
Lemma expansion sw z x : valid_842 sw z x -> 11 * lenZ x + 512 * 37 <= 512 * (8 * lenZ z).
Proof.
  intros [rest H]. apply stream_expand in H as H'. rewrite app_length, bits_of_length, bytes_bits_length in H'. cbn [length] in H'.
  unfold lenZ. lia.
Qed.
