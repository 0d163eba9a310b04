(** C61 for the two compressors of the library: sw842_compress is at least as good as optsw842_compress. *)
From Coq Require Import ZArith List Bool Lia.
From Verif Require Import SpecBits SpecCrc Spec842 SpecCalls CBase BitsLemmas SerialCompModel SerialDict SerialIdeal SerialComp SerialValid PureDecoder SerialFacts SerialProps
  Expansion SpecOptimal Optimal OptCompModel OptProps PropSerial PropOpt PropOptimal.
Import ListNotations.
Open Scope Z_scope.

Lemma words64_whole b : b mod 8 = 0 -> words64 (8 * b) = b.
Proof.
  intros H. unfold words64. pose proof (Z.div_mod b 8 ltac:(lia)) as D. rewrite H in D.
  replace (8 * b + 63) with (63 + b / 8 * 64) by lia. rewrite Z.div_add by lia. change (63 / 64) with 0. lia.
Qed.

(** The bits of sw842_compress against any other stream for the data. *)
Lemma shortest_bits inp z : is_bytes inp -> lenZ inp mod 8 = 0 -> valid_842 false z inp -> lenZ (ideal_out inp) <= words64 (8 * lenZ z + 6 * zero_pairs inp).
Proof.
  intros Bi H8 (rest & V).
  assert (L8 : (length inp = 8 * (length inp / 8))%nat).
  { unfold lenZ in H8. pose proof (Nat.div_mod (length inp) 8 ltac:(lia)). assert (Z.of_nat (length inp mod 8) = 0) by (rewrite Nat2Z.inj_mod; exact H8). lia. }
  assert (T0 : tail_of inp = []). { unfold tail_of. rewrite <- L8. apply skipn_all. }
  pose proof (blocks_tail inp) as BT. rewrite T0, app_nil_r in BT.
  pose proof (compare _ _ _ _ _ V eq_refl (blocks_of inp) init_dicts None 0 0%nat BT (blocks_len inp) Bi eq_refl dicts_ok_init ltac:(lia) eq_refl) as C.
  rewrite (zp_spec inp Bi L8) in C. change (pendc 0) with 0 in C. unfold fin_cost in C. cbn [length] in C.
  assert (LI : lenZ (ideal_bits inp) <= 8 * lenZ z + 6 * zero_pairs inp).
  { unfold ideal_bits. destruct (ideal_loop init_dicts 0 (blocks_of inp) None 0) as [B r]. rewrite T0.
    rewrite !lenZ_app, !lenZ_bits_of, rep_bits_opt_len. rewrite lenZ_app, lenZ_bits_of in C.
    assert (lenZ (bytes_bits z) = 8 * lenZ z) by (unfold lenZ; rewrite bytes_bits_length; lia).
    pose proof (lenZ_nonneg rest). change (lenZ (short_bits [])) with 0. lia. }
  rewrite ideal_out_length. unfold padded_size, words64. apply Z.mul_le_mono_nonneg_l; [lia|]. apply Z.div_le_mono; lia.
Qed.

(** Whatever both compress: the output of sw842_compress is at most 6 bits longer for each pair of zero blocks, and without such a pair never longer. *)
Theorem C61_sw842_vs_optsw842 : forall e e' addr iaddr oaddr inp out out' olen olen' n m n' m',
  is_bytes inp -> lenZ inp mod 8 = 0 -> inp <> [] -> is_bytes out -> is_bytes out' -> 0 <= olen <= lenZ out -> 0 <= olen' <= lenZ out' ->
  iaddr mod 8 = 0 -> oaddr mod 8 = 0 ->
  sw842_compress e addr inp out olen = Done (0, n, m) -> optsw842_compress e' iaddr oaddr inp out' olen' = Done (0, n', m') ->
  n <= words64 (8 * n' + 6 * zero_pairs inp) /\ (zero_pairs inp = 0 -> n <= n').
Proof.
  intros e e' addr iaddr oaddr inp out out' olen olen' n m n' m' Bi M8 NE Bo Bo' H H' A1 A2 E E'.
  destruct (C17_optsw842_compress_contract inp Bi M8 NE) as (z & Bz & V & Z8 & _ & F). specialize (F e' iaddr oaddr out' olen' Bo' H' A1 A2). rewrite E' in F.
  destruct (lenZ z <=? olen'); [|discriminate F]. apply f_equal with (f := fun o => match o with Done (_, a, _) => a | _ => 0 end) in F. cbn [observed] in F. subst n'.
  pose proof (C61_sw842_shortest e addr inp out olen n m z Bi Bo H M8 E V) as L. split; [exact L|]. intros Q. rewrite Q, Z.mul_0_r, Z.add_0_r, words64_whole in L by exact Z8. exact L.
Qed.
Print Assumptions C61_sw842_vs_optsw842.

(** Without such a pair: room that is enough for optsw842_compress is enough for sw842_compress. *)
Theorem C61_sw842_fits_where_optsw842_fits : forall e e' addr iaddr oaddr inp out out' olen n' m',
  is_bytes inp -> lenZ inp mod 8 = 0 -> inp <> [] -> is_bytes out -> is_bytes out' -> 0 <= olen <= lenZ out -> olen <= lenZ out' ->
  iaddr mod 8 = 0 -> oaddr mod 8 = 0 -> zero_pairs inp = 0 -> n' <= UINT_MAX ->
  optsw842_compress e' iaddr oaddr inp out' olen = Done (0, n', m') ->
  exists n m, sw842_compress e addr inp out olen = Done (0, n, m) /\ n <= n'.
Proof.
  intros e e' addr iaddr oaddr inp out out' olen n' m' Bi M8 NE Bo Bo' H H' A1 A2 Q U E'.
  destruct (C17_optsw842_compress_contract inp Bi M8 NE) as (z & Bz & V & Z8 & _ & F). specialize (F e' iaddr oaddr out' olen Bo' ltac:(lia) A1 A2). rewrite E' in F.
  destruct (Z.leb_spec (lenZ z) olen) as [LZ|]; [|discriminate F]. apply f_equal with (f := fun o => match o with Done (_, a, _) => a | _ => 0 end) in F. cbn [observed] in F. subst n'.
  pose proof (shortest_bits inp z Bi M8 V) as L. rewrite Q, Z.mul_0_r, Z.add_0_r, words64_whole in L by exact Z8.
  destruct (sw842_compress_out e addr inp out olen Bi Bo H) as [(_ & _ & m & E & _)|(B & _)]; [|lia].
  exists (lenZ (ideal_out inp)), m. split; [exact E|exact L].
Qed.
Print Assumptions C61_sw842_fits_where_optsw842_fits.
(** The data of C65_optsw842_shortest_refuted: here sw842_compress is better. *)
Example C61_vs_case : is_bytes missed /\ lenZ missed mod 8 = 0 /\ missed <> [] /\ zero_pairs missed = 0 /\
  exists n m n' m', sw842_compress LE 0 missed (List.repeat 0 400) 400 = Done (0, n, m) /\ optsw842_compress LE 0 0 missed (List.repeat 0 400) 400 = Done (0, n', m') /\ n < n'.
Proof.
  split; [isb|]. split; [reflexivity|]. split; [discriminate|]. split; [reflexivity|].
  do 4 eexists. split; [vm_compute; reflexivity|]. split; [vm_compute; reflexivity|]. vm_compute. reflexivity.
Qed.
