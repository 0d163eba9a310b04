(** A short 842 stream for a block alternating with zero blocks: lemmas behind PropFinds.v. *)
From Coq Require Import ZArith List Bool Lia.
From Verif Require Import SpecBits SpecCrc Spec842 SpecCalls SpecOptimal SpecFinds CBase BitsLemmas CrcModel CrcProofs
  SerialCompModel SerialWriter SerialDict SerialIdeal SerialComp SerialValid SerialFacts Optimal OptFinds.
Import ListNotations.
Open Scope Z_scope.

Section Pairs.
Variable A : list Z.
Hypothesis LA : length A = 8%nat.
Hypothesis BA : is_bytes A.
Hypothesis NA : num A <> 0.
Let Z8 : list Z := repeat 0 8.
Definition alt (m : nat) : list Z := concat (repeat (A ++ Z8) m).
Lemma alt_S m : alt (S m) = alt m ++ A ++ Z8.
Proof. apply concat_repeat_S. Qed.
Lemma alt_len m : length (alt m) = (16 * m)%nat.
Proof. induction m as [|m IH]; [reflexivity|]. rewrite alt_S, !app_length, IH, LA. unfold Z8. rewrite repeat_length. lia. Qed.
Lemma alt_bytes m : is_bytes (alt m).
Proof.
  induction m as [|m IH]; [constructor|]. rewrite alt_S. apply is_bytes_app. split; auto. apply is_bytes_app. split; auto.
  unfold Z8, is_bytes. apply Forall_forall. intros x Hx. apply repeat_spec in Hx. subst x. unfold is_byte. lia.
Qed.
(** One more pair takes 18 bits. *)
Lemma alt_step m : (0 < m)%nat -> exists bs, lenZ bs = 18 /\ forall sw bs' x rest, stream sw (alt (S m)) bs' x rest -> stream sw (alt m) (bs ++ bs') x rest.
Proof.
  intros Hm. set (i := (2 * Z.of_nat m - 2) mod 256).
  exists (bits_of 5 0x19 ++ bits_of 8 i ++ bits_of 5 0x1c). split. { rewrite !lenZ_app, !lenZ_bits_of. reflexivity. }
  intros sw bs' x rest H. rewrite <- !app_assoc. eapply st_template; [lia|reflexivity| |].
  - eapply (args_index _ 8 i (16 * m - 16)%nat).
    + change (2 ^ Z.of_nat (index_bits 8)) with 256. apply Z.mod_pos_bound. lia.
    + rewrite alt_len. unfold refers. assert (W : window 8 = 2048) by reflexivity. rewrite W.
      replace (8 * (Z.of_nat (16 * m) / 8)) with (16 * Z.of_nat m).
      2:{ replace (Z.of_nat (16 * m)) with (2 * Z.of_nat m * 8) by lia. rewrite Z.div_mul by lia. lia. }
      split; [|lia]. unfold i. replace (Z.of_nat (16 * m - 16)) with (8 * (2 * Z.of_nat m - 2)) by lia.
      change 2048 with (8 * 256). rewrite Z.mul_mod_distr_l by lia. change (Z.of_nat 8) with 8. lia.
    + apply args_nil.
  - apply st_zeros. assert (SL : slice (16 * m - 16) 8 (alt m) = A).
    { destruct m as [|k]; [lia|]. rewrite alt_S. replace (16 * S k - 16)%nat with (length (alt k)) by (rewrite alt_len; lia).
      unfold slice. rewrite skipn_app, skipn_all2, Nat.sub_diag by lia. cbn [app skipn].
      rewrite firstn_app, LA, Nat.sub_diag, firstn_O, app_nil_r. apply firstn_all2. lia. }
    rewrite SL. rewrite <- app_assoc. fold Z8. rewrite <- alt_S. exact H.
Qed.
Lemma alt_run k : forall m, (0 < m)%nat -> exists bs, lenZ bs = 18 * Z.of_nat k /\
  forall sw bs' x rest, stream sw (alt (m + k)) bs' x rest -> stream sw (alt m) (bs ++ bs') x rest.
Proof.
  induction k as [|k IH]; intros m Hm.
  - exists []. split; [reflexivity|]. rewrite Nat.add_0_r. auto.
  - destruct (alt_step m Hm) as (b1 & L1 & S1). destruct (IH (S m) ltac:(lia)) as (b2 & L2 & S2).
    exists (b1 ++ b2). split. { rewrite lenZ_app. lia. }
    intros sw bs' x rest H. rewrite <- app_assoc. apply S1, S2. replace (S m + k)%nat with (m + S k)%nat by lia. exact H.
Qed.
Lemma alt_stream m : (0 < m)%nat -> exists z, valid_842 false z (alt m) /\ 8 * lenZ z = 64 * ((18 * Z.of_nat m + 93 + 63) / 64).
Proof.
  intros Hm. destruct (alt_run (m - 1) 1 ltac:(lia)) as (bs & LB & SB). replace (1 + (m - 1))%nat with m in SB by lia.
  set (E := (bits_of 5 0x00 ++ bytes_bits A ++ bits_of 5 0x1c ++ bs ++ bits_of 5 0x1e ++ bits_of 32 (crc32 (alt m)))).
  assert (LE : lenZ E = 18 * Z.of_nat m + 93).
  { unfold E. rewrite !lenZ_app, !lenZ_bits_of, LB. unfold lenZ. rewrite bytes_bits_length, LA. lia. }
  exists (pack (pad E)).
  assert (P8 : (length (pad E) mod 8 = 0)%nat).
  { pose proof (pad_length E) as P. unfold lenZ in P. apply Nat2Z.inj. rewrite Nat2Z.inj_mod, P. change (Z.of_nat 8) with 8. rewrite Z.mul_comm, Z.mod_mul; lia. }
  split.
  - unfold valid_842. rewrite pack_bits by exact P8. unfold pad. set (k := Z.to_nat _). exists (repeat false k).
    unfold E. rewrite <- !app_assoc. eapply st_template; [lia|reflexivity| |].
    + apply args_data; [exact LA|exact BA|]. apply args_nil.
    + cbn [app]. apply st_zeros. replace (A ++ repeat 0 8) with (alt 1) by (unfold alt; cbn [repeat concat]; now rewrite app_nil_r).
      apply SB. apply st_end.
  - pose proof (pad_length E) as P. assert (LZ : 8 * lenZ (pack (pad E)) = lenZ (pad E)).
    { unfold lenZ. rewrite pack_length. pose proof (Nat.div_mod (length (pad E)) 8 ltac:(lia)). lia. }
    rewrite LZ, P. unfold padded_size. rewrite LE. lia.
Qed.
Lemma alt_blocks m : blocks_of (alt m) = concat (repeat [A; Z8] m).
Proof.
  assert (E : alt m = concat (concat (repeat [A; Z8] m))).
  { unfold alt. induction m as [|k IH]; [reflexivity|]. cbn [repeat concat app]. rewrite IH. now rewrite app_assoc. }
  rewrite E. apply blocks_concat. clear E. induction m as [|k IH]; [constructor|]. cbn [repeat concat app]. constructor; auto.
Qed.
Lemma alt_pairs m : zero_pairs (alt m) = 0.
Proof.
  assert (L8 : (length (alt m) = 8 * (length (alt m) / 8))%nat).
  { rewrite alt_len. replace (16 * m)%nat with (2 * m * 8)%nat by lia. rewrite Nat.div_mul by lia. lia. }
  rewrite <- (zp_spec (alt m) (alt_bytes m) L8), alt_blocks.
  assert (G : forall k last, (last = None \/ last = Some Z8) -> zp last (concat (repeat [A; Z8] k)) = 0).
  { induction k as [|k IH]; intros last HL; [reflexivity|]. cbn [repeat concat app zp].
    change (be_val A) with (num A). change (be_val Z8) with 0. destruct (Z.eqb_spec (num A) 0); [contradiction|]. rewrite andb_false_r.
    cbn [same]. change (be_val A) with (num A). change (be_val Z8) with 0. destruct (Z.eqb_spec 0 (num A)); [congruence|]. cbn [andb].
    rewrite IH by auto. reflexivity. }
  apply G. auto.
Qed.
Lemma alt_sw e addr m out olen n m' : (0 < m)%nat -> is_bytes out -> 0 <= olen <= lenZ out ->
  sw842_compress e addr (alt m) out olen = Done (0, n, m') -> n <= words64 (18 * Z.of_nat m + 93).
Proof.
  intros Hm Bo Ho E. destruct (alt_stream m Hm) as (z & V & LZ).
  pose proof (optimal e addr (alt m) out olen n m' z (alt_bytes m) Bo Ho) as O.
  specialize (O ltac:(unfold lenZ; rewrite alt_len; replace (Z.of_nat (16 * m)) with (2 * Z.of_nat m * 8) by lia; apply Z.mod_mul; lia) E V).
  rewrite alt_pairs, LZ in O. unfold words64 in *. rewrite Z.mul_0_r, Z.add_0_r in O.
  set (c := (18 * Z.of_nat m + 93 + 63) / 64) in *.
  replace (64 * c + 63) with (63 + c * 64) in O by lia. rewrite Z.div_add in O by lia. change (63 / 64) with 0 in O. lia.
Qed.
End Pairs.
