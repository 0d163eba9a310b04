(** When the output of optsw842_compress is as short as possible: C65, the proved part.

    Reading the statements: [slice p n x] are the [n] bytes of [x] from position [p] on, [num] their value, and
    [slot n v] the place of the hash table for pieces of [n] bytes in which the value [v] is looked up (SpecFinds.v);
    [valid_842 false z x]: the bytes [z] are a hardware 842 stream for [x] (Spec842.v). *)
From Coq Require Import ZArith List Bool Lia.
From Verif Require Import SpecBits SpecCrc Spec842 SpecCalls SpecOptimal SpecFinds CBase BitsLemmas
  SerialCompModel SerialDict SerialIdeal SerialComp SerialValid OptCompModel OptComp OptProps Optimal PropOptimal OptFinds OptShort PropFinds.
Import ListNotations.
Open Scope Z_scope.

Lemma ideal_min inp z : is_bytes inp -> lenZ inp mod 8 = 0 -> valid_842 false z inp ->
  lenZ (ideal_bits inp) <= 8 * lenZ z + 6 * zero_pairs inp.
Proof.
  intros Bi H8 (rest & V).
  assert (L8 : (length inp = 8 * (length inp / 8))%nat).
  { unfold lenZ in H8. pose proof (Nat.div_mod (length inp) 8 ltac:(lia)). assert (Z.of_nat (length inp mod 8) = 0) by (rewrite Nat2Z.inj_mod; exact H8). lia. }
  assert (T0 : tail_of inp = []). { unfold tail_of. rewrite <- L8. apply skipn_all. }
  pose proof (blocks_tail inp) as BT. rewrite T0, app_nil_r in BT.
  pose proof (compare _ _ _ _ _ V eq_refl (blocks_of inp) init_dicts None 0 0%nat BT (blocks_len inp) Bi eq_refl dicts_ok_init ltac:(lia) eq_refl) as C.
  rewrite (zp_spec inp Bi L8) in C. change (pendc 0) with 0 in C. unfold fin_cost in C. cbn [length] in C.
  unfold ideal_bits. destruct (ideal_loop init_dicts 0 (blocks_of inp) None 0) as [B r]. rewrite T0.
  rewrite !lenZ_app, !lenZ_bits_of, rep_bits_opt_len. rewrite lenZ_app, lenZ_bits_of in C.
  assert (lenZ (bytes_bits z) = 8 * lenZ z) by (unfold lenZ; rewrite bytes_bits_length; lia).
  pose proof (lenZ_nonneg rest). change (lenZ (short_bits [])) with 0. lia.
Qed.

(** No block is zero, and no two different pieces of the same size have the same slot. *)
Definition apart (x : list Z) : Prop :=
  (forall k, (k < length x / 8)%nat -> slice (8 * k) 8 x <> repeat 0 8) /\
  forall n i j, In n [2; 4; 8]%nat -> (i < length x / n)%nat -> (j < length x / n)%nat ->
    slot n (num (slice (i * n) n x)) = slot n (num (slice (j * n) n x)) -> slice (i * n) n x = slice (j * n) n x.

Lemma apart_le x : is_bytes x -> lenZ x mod 8 = 0 -> apart x -> opt_size x <= lenZ (ideal_bits x) /\ zero_pairs x = 0.
Proof.
  intros Bx H8 [NZ SP].
  assert (L8 : (length x = 8 * (length x / 8))%nat).
  { unfold lenZ in H8. pose proof (Nat.div_mod (length x) 8 ltac:(lia)). assert (Z.of_nat (length x mod 8) = 0) by (rewrite Nat2Z.inj_mod; exact H8). lia. }
  split.
  - apply opt_le_ideal; auto.
    + apply Forall_forall. intros b Hb. unfold blocks_of in Hb. apply in_map_iff in Hb. destruct Hb as (k & <- & Hk). apply in_seq in Hk.
      intros E. apply (NZ k ltac:(lia)). apply zero_block; [now apply is_bytes_slice|apply slice_length; lia|exact E].
    + intros n Hn v w Hv Hw E. unfold items in Hv, Hw. apply in_map_iff in Hv, Hw.
      destruct Hv as (i & <- & Hi). destruct Hw as (j & <- & Hj). apply in_seq in Hi, Hj.
      f_equal. apply (SP n i j); auto; try lia. cbn [In]. lia.
  - unfold zero_pairs. rewrite (proj2 (Nat2Z.inj_iff _ 0)); [reflexivity|].
    destruct (filter _ _) as [|k ks] eqn:F; [reflexivity|]. exfalso.
    assert (I : In k (k :: ks)) by now left. rewrite <- F in I. apply filter_In in I. destruct I as [I Q]. apply in_seq in I. apply andb_true_iff in Q. destruct Q as [Q _].
    unfold zero_block_at in Q. apply andb_true_iff in Q. destruct Q as [Q _]. apply (NZ k ltac:(lia)). unfold slice.
    assert (LS : length (firstn 8 (skipn (8 * k) x)) = 8%nat) by (rewrite firstn_length, skipn_length; lia).
    revert LS Q. generalize (firstn 8 (skipn (8 * k) x)). intros l LS Q. rewrite <- LS. clear - Q.
    induction l as [|a l IH]; [reflexivity|]. cbn [forallb length repeat] in *. apply andb_true_iff in Q. destruct Q as [E Q].
    apply Z.eqb_eq in E. subst a. f_equal. auto.
Qed.

(** C65, the proved part: for data without zero blocks whose pieces do not share slots, the output of optsw842_compress is not
    longer than that of sw842_compress, and no hardware stream for the data is shorter. *)
Theorem C65_optsw842_shortest_partial : forall e iaddr oaddr inp out olen n m,
  is_bytes inp -> lenZ inp mod 8 = 0 -> inp <> [] -> apart inp ->
  is_bytes out -> 0 <= olen <= lenZ out -> iaddr mod 8 = 0 -> oaddr mod 8 = 0 ->
  optsw842_compress e iaddr oaddr inp out olen = Done (0, n, m) ->
  (forall e' addr out' olen' n' m', is_bytes out' -> 0 <= olen' <= lenZ out' ->
     sw842_compress e' addr inp out' olen' = Done (0, n', m') -> n <= n') /\
  (forall z, valid_842 false z inp -> n <= words64 (8 * lenZ z)).
Proof.
  intros e iaddr oaddr inp out olen n m Hi H8 HN HA Ho Hc A1 A2 E.
  destruct (apart_le inp Hi H8 HA) as [LE ZP].
  assert (EN : n = words64 (opt_size inp)).
  { destruct (C102_size e iaddr oaddr inp out olen Hi Ho Hc A1 A2 H8 HN) as [S F].
    destruct (Z.le_gt_cases (words64 (opt_size inp)) olen) as [C|C].
    - destruct (S C) as (m' & E'). congruence.
    - destruct (F C) as (m' & E'). rewrite E in E'. discriminate. }
  assert (W : n <= padded_size (ideal_bits inp)).
  { rewrite EN. unfold words64, padded_size. apply Z.mul_le_mono_nonneg_l; [lia|]. apply Z.div_le_mono; lia. }
  split.
  - intros e' addr out' olen' n' m' Ho' Hc' E'.
    pose proof (sw842_compress_ideal e' addr inp out' olen' Hi Ho' Hc') as (R1 & R2).
    assert (n' = padded_size (ideal_bits inp)) as ->; [|exact W].
    destruct (Z.le_gt_cases (padded_size (ideal_bits inp)) olen'); [destruct (Z.le_gt_cases (padded_size (ideal_bits inp)) UINT_MAX)|].
    + destruct (R1 ltac:(auto)) as (m2 & E2 & _). congruence.
    + destruct (R2 ltac:(auto)) as (m2 & E2 & _). rewrite E' in E2. discriminate.
    + destruct (R2 ltac:(auto)) as (m2 & E2 & _). rewrite E' in E2. discriminate.
  - intros z V. pose proof (ideal_min inp z Hi H8 V) as I. rewrite ZP in I.
    eapply Z.le_trans; [exact W|]. unfold words64, padded_size. apply Z.mul_le_mono_nonneg_l; [lia|]. apply Z.div_le_mono; lia.
Qed.
Print Assumptions C65_optsw842_shortest_partial.
Definition spread : list Z :=
  [1; 2; 3; 4; 5; 6; 7; 8] ++ [9; 8; 7; 6; 1; 2; 3; 4] ++ [5; 6; 9; 8; 21; 22; 5; 6] ++ [9; 8; 7; 6; 1; 2; 3; 4] ++ [9; 8; 7; 6; 1; 2; 3; 4].
Definition check_apart (x : list Z) : bool :=
  forallb (fun k => negb (num (slice (8 * k) 8 x) =? 0)) (seq 0 (length x / 8)) &&
  forallb (fun n => forallb (fun i => forallb (fun j =>
    negb (slot n (num (slice (i * n) n x)) =? slot n (num (slice (j * n) n x))) || if list_eq_dec Z.eq_dec (slice (i * n) n x) (slice (j * n) n x) then true else false)
    (seq 0 (length x / n))) (seq 0 (length x / n))) [2; 4; 8]%nat.
Lemma check_apart_ok x : check_apart x = true -> apart x.
Proof.
  unfold check_apart. intros H. apply andb_true_iff in H. destruct H as [H1 H2]. rewrite forallb_forall in H1, H2. split.
  - intros k Hk E. specialize (H1 k ltac:(apply in_seq; lia)). rewrite E in H1. discriminate.
  - intros n i j Hn Hi Hj E. specialize (H2 n Hn). rewrite forallb_forall in H2. specialize (H2 i ltac:(apply in_seq; lia)).
    rewrite forallb_forall in H2. specialize (H2 j ltac:(apply in_seq; lia)). rewrite E, Z.eqb_refl in H2. cbn [negb orb] in H2.
    destruct (list_eq_dec _ _ _); [assumption|discriminate].
Qed.
Example C65_partial_case : is_bytes spread /\ lenZ spread mod 8 = 0 /\ apart spread /\
  exists m m', optsw842_compress LE 0 0 spread (List.repeat 0 64) 64 = Done (0, 32, m) /\ sw842_compress LE 0 spread (List.repeat 0 64) 64 = Done (0, 32, m').
Proof. split; [isb|]. split; [reflexivity|]. split; [apply check_apart_ok; vm_compute; reflexivity|]. do 2 eexists. split; vm_compute; reflexivity. Qed.
