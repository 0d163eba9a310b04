(** Proofs of the properties of the checksum. *)
From Coq Require Import ZArith List Bool Lia.
From Verif Require Import SpecBits SpecCrc CBase BitsLemmas CrcTable CrcModel CrcProofs.
Import ListNotations.
Open Scope Z_scope.

Lemma c12 e addr buf len : is_bytes buf -> 0 <= len <= lenZ buf ->
  crc32_be e addr 0 buf len = Done (crc32 (firstn (Z.to_nat len) buf)).
Proof. intros. now apply crc32_be_spec. Qed.

Lemma c13_generator : crc32table_literal = crc32init_be.
Proof. vm_compute. reflexivity. Qed.
Lemma c13_check : forallb (fun k => forallb (fun i =>
    nth i (nth k crc32table_literal []) 0 =? crc32 (Z.of_nat i :: List.repeat 0 k)) (seq 0 256)) (seq 0 8) = true.
Proof. vm_compute. reflexivity. Qed.
Lemma c13_shape : length crc32table_literal = 8%nat /\ Forall (fun row => length row = 256%nat) crc32table_literal.
Proof. split; [reflexivity|]. apply Forall_forall. intros row H.
  assert (C : forallb (fun r => (length r =? 256)%nat) crc32table_literal = true) by (vm_compute; reflexivity).
  rewrite forallb_forall in C. apply Nat.eqb_eq. auto.
Qed.
Lemma c13_entries k i : (k < 8)%nat -> (i < 256)%nat ->
  nth i (nth k crc32table_literal []) 0 = crc32 (Z.of_nat i :: List.repeat 0 k).
Proof.
  intros Hk Hi. pose proof c13_check as C. rewrite forallb_forall in C. specialize (C k ltac:(apply in_seq; lia)).
  cbv beta in C. rewrite forallb_forall in C. specialize (C i ltac:(apply in_seq; lia)). now apply Z.eqb_eq.
Qed.

Lemma xorl_self l : xorl l l = repeat false (length l).
Proof. induction l; cbn; [reflexivity|]. rewrite IHl, xorb_nilpotent. reflexivity. Qed.
Lemma xorl_app a b c d : length a = length b -> xorl (a ++ c) (b ++ d) = xorl a b ++ xorl c d.
Proof. revert b. induction a; intros [|y b] H; try discriminate; cbn; auto. now rewrite IHa by (cbn in H; lia). Qed.
Lemma xorl_length a b : length a = length b -> length (xorl a b) = length a.
Proof. revert b. induction a; intros [|y b] H; try discriminate; cbn; auto. Qed.
Lemma xorl_differ a b : length a = length b -> a <> b -> In true (xorl a b).
Proof.
  revert b. induction a as [|x a IH]; intros [|y b] H N; try discriminate; [congruence|]. cbn.
  destruct (xorb x y) eqn:X; [now left|]. right. apply IH; [cbn in H; lia|]. intros ->. apply N.
  apply xorb_eq in X. now subst.
Qed.
Lemma crc_burst p q u v : length u = length v -> (length u <= 32)%nat -> u <> v ->
  crc_bits 0 (p ++ u ++ q) <> crc_bits 0 (p ++ v ++ q).
Proof.
  intros L L32 N E.
  assert (R0 : R 0) by (unfold R; lia).
  assert (X : crc_bits 0 (xorl (p ++ u ++ q) (p ++ v ++ q)) = 0).
  { change 0 with (Z.lxor 0 0) at 1. rewrite crc_bits_lxor; auto. 2: { rewrite !app_length. lia. }
    rewrite E. apply Z.lxor_nilpotent. }
  rewrite !xorl_app, !xorl_self in X by auto. revert X. apply crc_burst_nonzero.
  - now rewrite xorl_length.
  - now apply xorl_differ.
Qed.
Lemma c14 e e' addr addr' a b p u v q ca cb : is_bytes a -> is_bytes b ->
  bytes_bits a = p ++ u ++ q -> bytes_bits b = p ++ v ++ q -> length u = length v -> (length u <= 32)%nat -> u <> v ->
  crc32_be e addr 0 a (lenZ a) = Done ca -> crc32_be e' addr' 0 b (lenZ b) = Done cb -> ca <> cb.
Proof.
  intros Ha Hb Ea Eb L L32 N A B.
  rewrite crc32_be_spec in A by (auto; unfold lenZ; lia). rewrite crc32_be_spec in B by (auto; unfold lenZ; lia).
  injection A as <-. injection B as <-. unfold lenZ. rewrite !Nat2Z.id, !firstn_all. unfold crc32. rewrite Ea, Eb. now apply crc_burst.
Qed.
(** Consequence for buffers: changing a byte, or two adjacent ones. *)
Lemma c12_range e addr buf : is_bytes buf -> exists c, crc32_be e addr 0 buf (lenZ buf) = Done c /\ 0 <= c < 2 ^ 32.
Proof. intros H. eexists. split; [apply c12; auto; unfold lenZ; lia|]. apply crc32_R. Qed.
