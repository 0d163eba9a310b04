(** Proofs of the properties of optsw842_compress and optsw842_decompress. *)
From Coq Require Import ZArith List Bool Lia.
From Verif Require Import SpecBits SpecCrc Spec842 SpecCalls CBase BitsLemmas CrcModel CrcProofs
  SerialCompModel SerialDecompModel SerialWriter SerialDict SerialIdeal SerialComp SerialValid PureDecoder SerialReader SerialDecomp SerialFacts SerialProps
  OptCompModel OptDecompModel OptWriter OptComp OptDecomp.
Import ListNotations.
Open Scope Z_scope.

(** ** Decompressor *)
Lemma whole_id inp : lenZ inp mod 8 = 0 -> whole inp = inp.
Proof.
  intros H. unfold whole. apply firstn_all2. unfold lenZ in H. pose proof (Nat.div_mod (length inp) 8 ltac:(lia)).
  assert ((length inp mod 8 = 0)%nat) by (apply Nat2Z.inj; now rewrite Nat2Z.inj_mod). lia.
Qed.
Lemma qrun_of inp cap f p : qd_loop f cap [] (bytes_bits (whole inp)) = Some p -> qrun inp cap = Some p.
Proof.
  intros H. unfold qrun.
  assert (FU : (length (bytes_bits (whole inp)) < S (Z.to_nat (8 * lenZ inp)))%nat).
  { rewrite bytes_bits_length, whole_length. pose proof (Nat.mul_div_le (length inp) 8 ltac:(lia)). unfold lenZ. lia. }
  pose proof (qd_loop_fuel _ cap [] _ eq_refl FU) as NF.
  destruct (qd_loop (S (Z.to_nat (8 * lenZ inp))) cap [] (bytes_bits (whole inp))) as [p'|] eqn:E; [|congruence].
  destruct (Nat.le_ge_cases f (S (Z.to_nat (8 * lenZ inp)))) as [L|L].
  - apply (qd_loop_more _ _ _ _ _ _ H) in L. congruence.
  - apply (qd_loop_more _ _ _ _ _ _ E) in L. congruence.
Qed.
Lemma qrun_sound inp cap x rest : 0 <= cap -> qrun inp cap = Some (POk x rest) ->
  stream false [] (bytes_bits (whole inp)) x rest /\ is_bytes x /\ lenZ x <= cap.
Proof.
  intros Hc H. unfold qrun in H. apply qd_loop_sound in H; [tauto|reflexivity|constructor|exact Hc].
Qed.
Lemma qrun_stream inp cap x rest : 0 <= cap -> stream false [] (bytes_bits (whole inp)) x rest ->
  qrun inp cap = Some (if lenZ x <=? cap then POk x rest else PErr (- ENOSPC)).
Proof.
  intros Hc HS. destruct (qd_stream_complete cap _ _ _ _ HS) as [A B].
  destruct (Z.leb_spec (lenZ x) cap) as [L|L].
  - destruct (A L) as [f Hf]. eapply qrun_of; eauto.
  - destruct B as [f Hf]. { change (lenZ []) with 0. lia. } eapply qrun_of; eauto.
Qed.

Lemma odecomp_valid e iaddr oaddr inp out olen x :
  is_bytes inp -> is_bytes out -> 0 <= olen <= lenZ out -> olen < 2 ^ 63 -> iaddr mod 8 = 0 -> oaddr mod 8 = 0 ->
  valid_842 false (whole inp) x -> lenZ x <= olen ->
  optsw842_decompress e iaddr oaddr inp out olen = Done (0, lenZ x, x ++ skipn (length x) out).
Proof.
  intros Hi Ho Hc H63 HA HO (rest & HS) Hx.
  pose proof (optsw842_decompress_pure e iaddr oaddr inp out olen Hi Ho Hc H63 HA HO) as P.
  rewrite (qrun_stream _ olen _ _ ltac:(lia) HS) in P. destruct (Z.leb_spec (lenZ x) olen); [|lia].
  destruct P as (m & -> & _ & _ & ->). rewrite rdb_app by apply crc32_R. now rewrite Z.eqb_refl.
Qed.
Lemma odecomp_sound e iaddr oaddr inp out olen n m :
  is_bytes inp -> is_bytes out -> 0 <= olen <= lenZ out -> olen < 2 ^ 63 -> iaddr mod 8 = 0 -> oaddr mod 8 = 0 ->
  optsw842_decompress e iaddr oaddr inp out olen = Done (0, n, m) ->
  exists x, valid_842 false (whole inp) x /\ is_bytes x /\ n = lenZ x /\ lenZ x <= olen /\ m = x ++ skipn (length x) out.
Proof.
  intros Hi Ho Hc H63 HA HO E.
  pose proof (optsw842_decompress_pure e iaddr oaddr inp out olen Hi Ho Hc H63 HA HO) as P.
  destruct (qrun inp olen) as [[x rest|c|]|] eqn:PR; [| |contradiction|contradiction].
  - destruct P as (m' & Em & Bx & Lx & P). apply qrun_sound in PR; [|lia]. destruct PR as (HS & _ & _).
    rewrite P in E. destruct (rdb 32 rest) as [[crc b]|] eqn:R; [|discriminate].
    destruct (Z.eqb_spec crc (crc32 x)) as [->|]; cbn [negb] in E; [|discriminate].
    injection E as <- <-. apply rdb_some in R. destruct R as [-> _]. exists x. split; [exists b; exact HS|]. auto 10.
  - destruct P as (C & m' & P & _). rewrite P in E. injection E as -> _ _. unfold EINVAL, ENOSPC in C. lia.
Qed.

Lemma c20 e iaddr oaddr inp out olen x :
  is_bytes inp -> is_bytes out -> 0 <= olen <= lenZ out -> olen < 2 ^ 63 -> iaddr mod 8 = 0 -> oaddr mod 8 = 0 ->
  (observed (optsw842_decompress e iaddr oaddr inp out olen) = Done (0, lenZ x, x)
   <-> valid_842 false (firstn (8 * (length inp / 8)) inp) x /\ lenZ x <= olen).
Proof.
  intros Hi Ho Hc H63 HA HO. fold (whole inp). split.
  - intros E. destruct (optsw842_decompress e iaddr oaddr inp out olen) as [[[ret n] m]| |] eqn:D; try discriminate.
    cbn [observed] in E. injection E as -> -> E. apply odecomp_sound in D; auto.
    destruct D as (x' & V & B & N & L & ->). rewrite N, firstn_exact in E. subst x'. auto.
  - intros (V & L). rewrite (odecomp_valid e iaddr oaddr inp out olen x) by auto. cbn [observed]. now rewrite firstn_exact.
Qed.
Lemma c20_small e iaddr oaddr inp out olen x rest :
  is_bytes inp -> is_bytes out -> 0 <= olen <= lenZ out -> olen < 2 ^ 63 -> iaddr mod 8 = 0 -> oaddr mod 8 = 0 ->
  stream false [] (bytes_bits (firstn (8 * (length inp / 8)) inp)) x rest -> olen < lenZ x ->
  exists m, optsw842_decompress e iaddr oaddr inp out olen = Done (- ENOSPC, 0, m).
Proof.
  intros Hi Ho Hc H63 HA HO HS Hx. fold (whole inp) in HS.
  pose proof (optsw842_decompress_pure e iaddr oaddr inp out olen Hi Ho Hc H63 HA HO) as P.
  rewrite (qrun_stream _ olen _ _ ltac:(lia) HS) in P. destruct (Z.leb_spec (lenZ x) olen); [lia|].
  destruct P as (_ & m & P & _). eauto.
Qed.
Lemma c20_crc e iaddr oaddr inp out olen x c rest :
  is_bytes inp -> is_bytes out -> 0 <= olen <= lenZ out -> olen < 2 ^ 63 -> iaddr mod 8 = 0 -> oaddr mod 8 = 0 ->
  0 <= c < 2 ^ 32 -> stream false [] (bytes_bits (firstn (8 * (length inp / 8)) inp)) x (bits_of 32 c ++ rest) ->
  lenZ x <= olen -> c <> crc32 x ->
  exists m, optsw842_decompress e iaddr oaddr inp out olen = Done (- EINVAL, 0, m).
Proof.
  intros Hi Ho Hc H63 HA HO HC HS Hx NE. fold (whole inp) in HS.
  pose proof (optsw842_decompress_pure e iaddr oaddr inp out olen Hi Ho Hc H63 HA HO) as P.
  rewrite (qrun_stream _ olen _ _ ltac:(lia) HS) in P. destruct (Z.leb_spec (lenZ x) olen); [|lia].
  destruct P as (m & -> & _ & _ & ->). rewrite rdb_app by exact HC.
  destruct (Z.eqb_spec c (crc32 x)); [contradiction|]. cbn [negb]. eauto.
Qed.

Lemma c21 e iaddr oaddr inp out olen :
  is_bytes inp -> is_bytes out -> 0 <= olen <= lenZ out -> olen < 2 ^ 63 -> iaddr mod 8 = 0 -> oaddr mod 8 = 0 ->
  exists ret n m, optsw842_decompress e iaddr oaddr inp out olen = Done (ret, n, m) /\
    (ret = 0 \/ ((ret = - EINVAL \/ ret = - ENOSPC) /\ n = 0)) /\ 0 <= n <= olen /\
    exists w, is_bytes w /\ lenZ w <= olen /\ m = w ++ skipn (length w) out.
Proof.
  intros Hi Ho Hc H63 HA HO.
  pose proof (optsw842_decompress_pure e iaddr oaddr inp out olen Hi Ho Hc H63 HA HO) as P.
  destruct (qrun inp olen) as [[x rest|c|]|] eqn:PR; [| |contradiction|contradiction].
  - destruct P as (m & Em & Bx & Lx & ->). pose proof (lenZ_nonneg x).
    destruct (rdb 32 rest) as [[crc b]|]; [destruct (negb _)|];
      (do 3 eexists; split; [reflexivity|]; split; [auto|]; split; [lia|]; exists x; auto).
  - destruct P as (C & m & -> & K). do 3 eexists. split; [reflexivity|]. split; [auto|]. split; [lia|]. exact K.
Qed.
Lemma qd_loop_fuel5 fuel cap : forall out bits, al8 out -> (length bits < 5 * fuel)%nat -> qd_loop fuel cap out bits <> None.
Proof.
  induction fuel as [|f IH]; intros out bits HA Hf; [lia|]. cbn [qd_loop].
  destruct (qd_step cap out bits) as [[] r] eqn:E; [discriminate|].
  destruct r as [o b| |]; try discriminate.
  destruct (qd_step_sound _ _ _ _ _ _ HA E) as (_ & S2 & _ & _ & S4 & _). apply IH; auto. lia.
Qed.
Lemma c21_steps e inp out olen k :
  is_bytes inp -> is_bytes out -> 0 <= olen <= lenZ out -> olen < 2 ^ 63 -> 8 * lenZ inp / 5 + 1 <= Z.of_nat k ->
  odecomp_loop e k inp olen (mkP 0 0 0 0 out 0) <> NoFuel.
Proof.
  intros Hi Ho Hc H63 Hk E.
  assert (S0 : sko olen out (mkP 0 0 0 0 out 0) []).
  { unfold sko. cbn [q_mem q_pos]. rewrite Z.sub_0_r. now apply sk_init. }
  pose proof (odecomp_loop_ok e inp out olen Hi H63 k (mkP 0 0 0 0 out 0) []
    (bytes_bits (whole inp)) (rdo_init inp out) S0 eq_refl eq_refl) as L.
  assert (F : (length (bytes_bits (whole inp)) < 5 * k)%nat).
  { rewrite bytes_bits_length, whole_length. unfold lenZ in Hk. pose proof (Nat.mul_div_le (length inp) 8 ltac:(lia)).
    pose proof (Z.div_mod (8 * Z.of_nat (length inp)) 5 ltac:(lia)).
    pose proof (Z.mod_pos_bound (8 * Z.of_nat (length inp)) 5 ltac:(lia)). lia. }
  pose proof (qd_loop_fuel5 k olen [] _ eq_refl F) as NF.
  destruct (qd_loop k olen [] (bytes_bits (whole inp))) as [[x b|c|]|]; [| | |congruence].
  - destruct L as (? & L & _). congruence.
  - destruct L as (_ & ? & ? & L & _). congruence.
  - exact L.
Qed.

Definition al (iaddr oaddr : Z) : bool := (iaddr mod 8 =? 0) && (oaddr mod 8 =? 0).
Lemma al_true iaddr oaddr : al iaddr oaddr = true -> iaddr mod 8 = 0 /\ oaddr mod 8 = 0.
Proof. unfold al. rewrite andb_true_iff, !Z.eqb_eq. tauto. Qed.
Lemma al_cond iaddr oaddr : negb (iaddr mod 8 =? 0) || negb (oaddr mod 8 =? 0) = negb (al iaddr oaddr).
Proof. unfold al. now rewrite negb_andb. Qed.
Lemma odecomp_unaligned e iaddr oaddr inp out olen : al iaddr oaddr = false ->
  optsw842_decompress e iaddr oaddr inp out olen = sw842_decompress e oaddr inp out olen.
Proof. intros H. unfold optsw842_decompress. now rewrite al_cond, H. Qed.
Lemma ocomp_unaligned e iaddr oaddr inp out olen : al iaddr oaddr = false ->
  optsw842_compress e iaddr oaddr inp out olen =
    if negb (lenZ inp mod 8 =? 0) then Done (- EINVAL, olen, out) else sw842_compress e iaddr inp out olen.
Proof. intros H. unfold optsw842_compress. rewrite al_cond, H. destruct (negb (lenZ inp mod 8 =? 0)); reflexivity. Qed.
Lemma ocomp_ragged e iaddr oaddr inp out olen : lenZ inp mod 8 <> 0 ->
  optsw842_compress e iaddr oaddr inp out olen = Done (- EINVAL, olen, out).
Proof. intros H. unfold optsw842_compress. destruct (Z.eqb_spec (lenZ inp mod 8) 0); [contradiction|reflexivity]. Qed.
Lemma ocomp_empty e iaddr oaddr out olen : al iaddr oaddr = true -> optsw842_compress e iaddr oaddr [] out olen = Undef.
Proof. intros H. unfold optsw842_compress. rewrite al_cond, H. reflexivity. Qed.

Lemma odecomp_indep e e' iaddr iaddr' oaddr oaddr' z out out' olen :
  is_bytes z -> is_bytes out -> 0 <= olen <= lenZ out -> is_bytes out' -> olen <= lenZ out' -> olen < 2 ^ 63 ->
  al iaddr oaddr = al iaddr' oaddr' ->
  observed (optsw842_decompress e iaddr oaddr z out olen) = observed (optsw842_decompress e' iaddr' oaddr' z out' olen).
Proof.
  intros Hi Ho Hc Ho' Hc' H63 HA. destruct (al iaddr oaddr) eqn:A; symmetry in HA.
  - apply al_true in A, HA. destruct A as [A1 A2], HA as [A3 A4].
    pose proof (optsw842_decompress_pure e iaddr oaddr z out olen Hi Ho Hc H63 A1 A2) as P.
    pose proof (optsw842_decompress_pure e' iaddr' oaddr' z out' olen Hi Ho' ltac:(lia) H63 A3 A4) as P'.
    destruct (qrun z olen) as [[x rest|c|]|] eqn:PR; [| |contradiction|contradiction].
    + destruct P as (m & -> & _ & _ & ->). destruct P' as (m' & -> & _ & _ & ->).
      destruct (rdb 32 rest) as [[crc b]|]; [destruct (negb _)|]; cbn [observed]; rewrite ?firstn_exact; auto.
    + destruct P as (_ & m & -> & _). destruct P' as (_ & m' & -> & _). reflexivity.
  - rewrite !odecomp_unaligned by auto. now apply decomp_indep.
Qed.

(** ** Compressor *)
Lemma opt_len8 (inp : list Z) : lenZ inp mod 8 = 0 -> (length inp mod 8 = 0)%nat.
Proof. intros H. unfold lenZ in H. apply Nat2Z.inj. now rewrite Nat2Z.inj_mod. Qed.

Lemma c17 inp : is_bytes inp -> lenZ inp mod 8 = 0 -> inp <> [] ->
  exists z, is_bytes z /\ valid_842 false z inp /\ lenZ z mod 8 = 0 /\ lenZ z <= words64 (69 * (lenZ inp / 8) + 37) /\
  forall e iaddr oaddr out olen, is_bytes out -> 0 <= olen <= lenZ out -> iaddr mod 8 = 0 -> oaddr mod 8 = 0 ->
    observed (optsw842_compress e iaddr oaddr inp out olen) =
      if lenZ z <=? olen then Done (0, lenZ z, z) else Done (- ENOSPC, 0, []).
Proof.
  intros Hi HM HN. exists (opt_out inp). split; [apply opt_out_bytes|].
  split; [apply opt_out_valid; auto; now apply opt_len8|].
  split. { rewrite opt_out_length. unfold padded_size. rewrite Z.mul_comm. apply Z.mod_mul. lia. }
  split. { rewrite opt_out_length. pose proof (opt_bits_len inp Hi (opt_len8 _ HM)). unfold padded_size, words64.
    apply Z.mul_le_mono_nonneg_l; [lia|]. apply Z.div_le_mono; lia. }
  intros e iaddr oaddr out olen Ho Hc HA HO.
  destruct (optsw842_compress_out e iaddr oaddr inp out olen Hi Ho Hc HA HO HM HN) as [(A & m & -> & F & _)|(A & m & -> & _)]; cbn [observed].
  - apply Z.leb_le in A. rewrite A. now rewrite firstn_lenZ.
  - apply Z.leb_gt in A. now rewrite A.
Qed.

Lemma bmem_frame olen (out m : list Z) : 0 <= olen -> bmem (olen / 8) out m -> length m = length out /\ skipn (Z.to_nat olen) m = skipn (Z.to_nat olen) out.
Proof.
  intros H0 H. destruct H as (_ & L & S). split; auto.
  pose proof (Z.mul_div_le olen 8 ltac:(lia)). assert (0 <= olen / 8) by (apply Z.div_pos; lia).
  replace (Z.to_nat olen) with (Z.to_nat (8 * (olen / 8)) + (Z.to_nat olen - Z.to_nat (8 * (olen / 8))))%nat by lia.
  rewrite <- !skipn_add. now rewrite S.
Qed.

Lemma c18_bounds e iaddr oaddr inp out olen : is_bytes inp -> is_bytes out -> 0 <= olen <= lenZ out -> 
  (inp <> [] \/ iaddr mod 8 <> 0 \/ oaddr mod 8 <> 0) ->
  exists ret n m, optsw842_compress e iaddr oaddr inp out olen = Done (ret, n, m) /\
    0 <= n <= olen /\ length m = length out /\ skipn (Z.to_nat olen) m = skipn (Z.to_nat olen) out.
Proof.
  intros Hi Ho Hc HN.
  destruct (Z.eq_dec (lenZ inp mod 8) 0) as [HM|HM].
  2: { rewrite ocomp_ragged by auto. do 3 eexists. split; [reflexivity|]. split; [lia|auto]. }
  destruct (al iaddr oaddr) eqn:A.
  - apply al_true in A. destruct A as [A1 A2]. assert (N : inp <> []) by tauto.
    destruct (optsw842_compress_out e iaddr oaddr inp out olen Hi Ho Hc A1 A2 HM N) as [(A & m & -> & F & B)|(A & m & -> & B)].
    + apply bmem_frame in B; [|lia]. pose proof (lenZ_nonneg (opt_out inp)). do 3 eexists. split; [reflexivity|]. auto.
    + apply bmem_frame in B; [|lia]. do 3 eexists. split; [reflexivity|]. split; [lia|auto].
  - rewrite ocomp_unaligned by auto. destruct (Z.eqb_spec (lenZ inp mod 8) 0); [|contradiction]. now apply c03.
Qed.
Lemma c18_exact e iaddr oaddr inp out olen : is_bytes inp -> is_bytes out -> 0 <= olen <= lenZ out ->
  (inp = [] /\ iaddr mod 8 = 0 /\ oaddr mod 8 = 0 <-> optsw842_compress e iaddr oaddr inp out olen = Undef).
Proof.
  intros Hi Ho Hc. split.
  - intros (-> & A & B). apply ocomp_empty. unfold al. now rewrite A, B.
  - intros U. destruct inp as [|v inp].
    + destruct (Z.eq_dec (iaddr mod 8) 0), (Z.eq_dec (oaddr mod 8) 0); auto;
        destruct (c18_bounds e iaddr oaddr [] out olen Hi Ho Hc ltac:(tauto)) as (? & ? & ? & E & _); congruence.
    + destruct (c18_bounds e iaddr oaddr (v :: inp) out olen Hi Ho Hc ltac:(left; discriminate)) as (? & ? & ? & E & _). congruence.
Qed.

Lemma c19 e iaddr oaddr inp out olen ret n m : is_bytes inp -> is_bytes out -> 0 <= olen <= lenZ out ->
  optsw842_compress e iaddr oaddr inp out olen = Done (ret, n, m) -> ret <> 0 ->
  (lenZ inp mod 8 = 0 /\ ret = - ENOSPC /\ n = 0) \/ (lenZ inp mod 8 <> 0 /\ ret = - EINVAL /\ n = olen /\ m = out).
Proof.
  intros Hi Ho Hc E NZ.
  destruct (Z.eq_dec (lenZ inp mod 8) 0) as [HM|HM].
  2: { rewrite ocomp_ragged in E by auto. injection E as <- <- <-. auto. }
  left. split; auto. destruct (al iaddr oaddr) eqn:A.
  - destruct (list_eq_dec Z.eq_dec inp []) as [->|N]; [rewrite ocomp_empty in E by auto; discriminate|].
    apply al_true in A. destruct A as [A1 A2].
    destruct (optsw842_compress_out e iaddr oaddr inp out olen Hi Ho Hc A1 A2 HM N) as [(A & m' & E' & _)|(A & m' & E' & _)];
      rewrite E' in E; injection E as <- <- <-; [congruence|auto].
  - rewrite ocomp_unaligned in E by auto. destruct (Z.eqb_spec (lenZ inp mod 8) 0); [|contradiction]. cbn [negb] in E.
    destruct (sw842_compress_out e iaddr inp out olen Hi Ho Hc) as [(_ & _ & m' & E' & _)|(_ & m' & E' & _)];
      rewrite E' in E; injection E as <- <- <-; [congruence|auto].
Qed.

Lemma ocomp_indep e e' iaddr iaddr' oaddr oaddr' inp out out' olen :
  is_bytes inp -> is_bytes out -> 0 <= olen <= lenZ out -> is_bytes out' -> olen <= lenZ out' ->
  lenZ inp mod 8 = 0 -> al iaddr oaddr = al iaddr' oaddr' ->
  observed (optsw842_compress e iaddr oaddr inp out olen) = observed (optsw842_compress e' iaddr' oaddr' inp out' olen).
Proof.
  intros Hi Ho Hc Ho' Hc' HM HA. destruct (al iaddr oaddr) eqn:A; symmetry in HA.
  - destruct (list_eq_dec Z.eq_dec inp []) as [->|N]; [now rewrite !ocomp_empty by auto|].
    apply al_true in A, HA. destruct A as [A1 A2], HA as [A3 A4].
    destruct (c17 inp Hi HM N) as (z & _ & _ & _ & _ & C). rewrite !C; auto. lia.
  - rewrite !ocomp_unaligned by auto. destruct (Z.eqb_spec (lenZ inp mod 8) 0); [|contradiction]. cbn [negb].
    now apply comp_indep.
Qed.

(** ** Any compressor with any decompressor *)
Definition is_compressed (inp z : list Z) : Prop :=
  exists e out olen, is_bytes out /\ 0 <= olen <= lenZ out /\
    ((exists addr m, sw842_compress e addr inp out olen = Done (0, lenZ z, m) /\ firstn (length z) m = z) \/
     (exists iaddr oaddr m, optsw842_compress e iaddr oaddr inp out olen = Done (0, lenZ z, m) /\ firstn (length z) m = z)).
Lemma compressed_valid inp z : is_bytes inp -> lenZ inp mod 8 = 0 -> is_compressed inp z ->
  is_bytes z /\ valid_842 false z inp /\ valid_842 true z inp /\ lenZ z mod 8 = 0.
Proof.
  intros Hi HM (e & out & olen & Ho & Hc & H).
  assert (SW : forall addr m, sw842_compress e addr inp out olen = Done (0, lenZ z, m) -> firstn (length z) m = z ->
    is_bytes z /\ valid_842 false z inp /\ valid_842 true z inp /\ lenZ z mod 8 = 0).
  { intros addr m E F. pose proof (c04 _ _ _ _ _ _ _ Hi Ho Hc E) as (M & _).
    destruct (sw842_compress_out e addr inp out olen Hi Ho Hc) as [(A & B & m' & E' & F' & _)|(A & m' & E' & _)];
      rewrite E' in E; [|discriminate]. injection E as EZ <-.
    assert (EL : length z = length (ideal_out inp)) by (unfold lenZ in EZ; lia). rewrite EL, F' in F. subst z.
    split; [apply ideal_out_bytes|]. split; [apply ideal_out_valid; auto; right; now apply opt_len8|].
    split; [apply ideal_out_valid; auto|auto]. }
  destruct H as [(addr & m & E & F)|(iaddr & oaddr & m & E & F)]; [eauto|].
  destruct (al iaddr oaddr) eqn:A.
  - destruct (list_eq_dec Z.eq_dec inp []) as [->|N]; [rewrite ocomp_empty in E by auto; discriminate|].
    apply al_true in A. destruct A as [A1 A2].
    destruct (optsw842_compress_out e iaddr oaddr inp out olen Hi Ho Hc A1 A2 HM N) as [(A & m' & E' & F' & _)|(A & m' & E' & _)];
      rewrite E' in E; [|discriminate]. injection E as EZ <-.
    assert (EL : length z = length (opt_out inp)) by (unfold lenZ in EZ; lia). rewrite EL, F' in F. subst z.
    pose proof (opt_len8 _ HM). split; [apply opt_out_bytes|]. split; [now apply opt_out_valid|]. split; [now apply opt_out_valid|].
    rewrite opt_out_length. unfold padded_size. rewrite Z.mul_comm. apply Z.mod_mul. lia.
  - rewrite ocomp_unaligned in E by auto. destruct (Z.eqb_spec (lenZ inp mod 8) 0); [|contradiction]. cbn [negb] in E. eauto.
Qed.
Lemma c22_sw inp z e oaddr out olen : is_bytes inp -> lenZ inp mod 8 = 0 -> lenZ inp <= UINT_MAX -> is_compressed inp z ->
  is_bytes out -> lenZ inp <= olen <= lenZ out -> olen < 2 ^ 63 ->
  observed (sw842_decompress e oaddr z out olen) = Done (0, lenZ inp, inp).
Proof.
  intros Hi HM HU HC Ho Hc H63. destruct (compressed_valid inp z Hi HM HC) as (B & _ & V & _).
  pose proof (lenZ_nonneg inp). apply c05; auto; try lia. split; [auto|lia].
Qed.
Lemma c22_opt inp z e iaddr oaddr out olen : is_bytes inp -> lenZ inp mod 8 = 0 ->
  (lenZ inp <= UINT_MAX \/ iaddr mod 8 = 0 /\ oaddr mod 8 = 0) -> is_compressed inp z ->
  is_bytes out -> lenZ inp <= olen <= lenZ out -> olen < 2 ^ 63 ->
  observed (optsw842_decompress e iaddr oaddr z out olen) = Done (0, lenZ inp, inp).
Proof.
  intros Hi HM HU HC Ho Hc H63. destruct (al iaddr oaddr) eqn:A.
  - apply al_true in A. destruct A as [A1 A2]. destruct (compressed_valid inp z Hi HM HC) as (B & V & _ & M8).
    pose proof (lenZ_nonneg inp). apply c20; auto; try lia. fold (whole z). rewrite whole_id by auto. split; [auto|lia].
  - rewrite odecomp_unaligned by auto. apply c22_sw; auto. destruct HU as [|[A1 A2]]; auto.
    unfold al in A. rewrite A1, A2 in A. discriminate.
Qed.
Lemma c16 e e' iaddr oaddr iaddr' oaddr' inp out olen n m out2 olen2 :
  is_bytes inp -> lenZ inp mod 8 = 0 -> (lenZ inp <= UINT_MAX \/ iaddr' mod 8 = 0 /\ oaddr' mod 8 = 0) ->
  is_bytes out -> 0 <= olen <= lenZ out ->
  optsw842_compress e iaddr oaddr inp out olen = Done (0, n, m) ->
  is_bytes out2 -> lenZ inp <= olen2 <= lenZ out2 -> olen2 < 2 ^ 63 ->
  observed (optsw842_decompress e' iaddr' oaddr' (firstn (Z.to_nat n) m) out2 olen2) = Done (0, lenZ inp, inp).
Proof.
  intros Hi HM HU Ho Hc E Ho2 Hc2 H63.
  assert (NE : inp <> [] \/ iaddr mod 8 <> 0 \/ oaddr mod 8 <> 0).
  { destruct inp; [|left; discriminate]. right. destruct (al iaddr oaddr) eqn:A.
    - rewrite ocomp_empty in E by auto. discriminate.
    - unfold al in A. destruct (Z.eqb_spec (iaddr mod 8) 0), (Z.eqb_spec (oaddr mod 8) 0); try discriminate; auto. }
  destruct (c18_bounds e iaddr oaddr inp out olen Hi Ho Hc NE) as (r' & n' & m' & E' & N & L & _). rewrite E' in E. injection E as -> -> ->.
  assert (LF : length (firstn (Z.to_nat n) m) = Z.to_nat n) by (rewrite firstn_length; unfold lenZ in *; lia).
  apply c22_opt; auto. exists e, out, olen. split; auto. split; auto. right. exists iaddr, oaddr, m.
  rewrite LF. split; [|auto]. rewrite E'. unfold lenZ. rewrite LF, Z2Nat.id by lia. reflexivity.
Qed.

(** ** Alignment *)
Lemma c23 e e' iaddr oaddr iaddr' oaddr' inp out out' olen x :
  is_bytes inp -> is_bytes out -> 0 <= olen <= lenZ out -> is_bytes out' -> olen <= lenZ out' -> olen < 2 ^ 63 ->
  lenZ inp mod 8 = 0 -> valid_842 false inp x -> lenZ x <= UINT_MAX ->
  observed (optsw842_decompress e iaddr oaddr inp out olen) = observed (optsw842_decompress e' iaddr' oaddr' inp out' olen).
Proof.
  intros Hi Ho Hc Ho' Hc' H63 HM V HU.
  assert (G : forall e iaddr oaddr out, is_bytes out -> 0 <= olen <= lenZ out ->
    observed (optsw842_decompress e iaddr oaddr inp out olen) = if lenZ x <=? olen then Done (0, lenZ x, x) else Done (- ENOSPC, 0, [])).
  { clear - Hi H63 HM V HU. intros e iaddr oaddr out Ho Hc. destruct (al iaddr oaddr) eqn:A.
    - apply al_true in A. destruct A as [A1 A2]. destruct (Z.leb_spec (lenZ x) olen).
      + apply c20; auto. fold (whole inp). now rewrite whole_id.
      + destruct V as (rest & HS). destruct (c20_small e iaddr oaddr inp out olen x (bits_of 32 (crc32 x) ++ rest)) as (m & ->); auto.
        fold (whole inp). now rewrite whole_id.
    - rewrite odecomp_unaligned by auto. 
      assert (VT : valid_842 true inp x).
      { destruct V as (rest & HS). exists rest. clear - HS. revert HS. generalize (@nil Z), (bytes_bits inp), (bits_of 32 (crc32 x) ++ rest).
        intros o b r. induction 1; try (econstructor; eauto; fail). }
      destruct (Z.leb_spec (lenZ x) olen).
      + apply c05; auto.
      + destruct VT as (rest & HS). destruct (c15 e oaddr inp out olen x (bits_of 32 (crc32 x) ++ rest)) as (m & ->); auto. }
  rewrite !G; auto. lia.
Qed.

(** ** Truncated input *)
Lemma qd_stream_cut cap out bits x rest : stream false out bits x rest -> lenZ x <= cap ->
  forall c, bits = c ++ rest -> forall bs, cut bs c -> exists f, qd_loop f cap out bs = Some (PErr (- EINVAL)).
Proof.
  intros HS Hx. induction HS; intros c Ec bs' Hcut.
  - apply app_inv_tail in Ec. subst c. exists 1%nat. cbn [qd_loop]. unfold qd_step.
    rewrite <- (app_nil_r (bits_of 5 30)) in Hcut. apply cut_cases in Hcut. destruct Hcut as [L|(b & -> & Hc)].
    + now rewrite (cut_short _ _ _ L).
    + now apply cut_nil in Hc.
  - destruct (stream_prefix _ _ _ _ _ HS) as (c1 & -> & P). rewrite app_assoc in Ec. apply app_inv_tail in Ec. subst c.
    pose proof (stream_grows _ _ _ _ _ HS) as G. rewrite app_length, repeat_length in G.
    apply cut_cases in Hcut. destruct Hcut as [L|(b & -> & Hc)].
    + exists 1%nat. cbn [qd_loop]. unfold qd_step. now rewrite (cut_short _ _ _ L).
    + destruct (IHHS Hx c1 eq_refl b Hc) as [f Hf]. exists (S f). cbn [qd_loop]. unfold qd_step.
      rewrite rdb_app by (cbn; lia). change ((28 <? 26) || (28 =? 28)) with true. cbn [andb].
      rewrite Z.gtb_ltb. destruct (Z.ltb_spec cap (lenZ out + 8)); [unfold lenZ in *; lia|]. exact Hf.
  - destruct (stream_prefix _ _ _ _ _ HS) as (c1 & -> & P). rewrite !app_assoc in Ec. apply app_inv_tail in Ec. subst c.
    rewrite <- app_assoc in Hcut.
    pose proof (stream_grows _ _ _ _ _ HS) as G.
    assert (LC : length (copies (Z.to_nat n + 1) (last8 out)) = ((Z.to_nat n + 1) * 8)%nat)
      by (rewrite copies_length, last8_length; auto).
    rewrite app_length, LC in G.
    assert (ST : forall b, qd_step cap out (bits_of 5 27 ++ b) = (false, match rdb 6 b with
        | None => PErr (- EINVAL)
        | Some (rep, b2) =>
          if (length out =? 0)%nat then PErr (- EINVAL)
          else if lenZ out + (rep + 1) * 8 >? cap then PErr (- ENOSPC)
          else POk (out ++ copies (Z.to_nat (rep + 1)) (last8 out)) b2
        end)).
    { intros. unfold qd_step. now rewrite rdb_app by (cbn; lia). }
    apply cut_cases in Hcut. destruct Hcut as [L|(b & -> & Hc)].
    { exists 1%nat. cbn [qd_loop]. unfold qd_step. now rewrite (cut_short _ _ _ L). }
    apply cut_cases in Hc. destruct Hc as [L|(b' & -> & Hc)].
    { exists 1%nat. cbn [qd_loop]. rewrite ST. now rewrite (cut_short _ _ _ L). }
    destruct (IHHS Hx c1 eq_refl b' Hc) as [f Hf]. exists (S f). cbn [qd_loop]. rewrite ST.
    rewrite rdb_app by (cbn; lia). destruct (Nat.eqb_spec (length out) 0); [lia|].
    rewrite Z.gtb_ltb. destruct (Z.ltb_spec cap (lenZ out + (n + 1) * 8)); [unfold lenZ in *; lia|].
    replace (Z.to_nat (n + 1)) with (Z.to_nat n + 1)%nat by lia. exact Hf.
  - discriminate.
  - destruct (stream_prefix _ _ _ _ _ HS) as (c1 & -> & P).
    destruct (args_prefix _ _ _ _ _ H1) as (ca & -> & PA). rewrite !app_assoc in Ec. apply app_inv_tail in Ec. subst c.
    rewrite <- app_assoc in Hcut.
    destruct (template_sizes _ _ H0) as (TS & TL & TR). pose proof (args_len _ _ _ _ _ H1 TS) as AL.
    pose proof (stream_grows _ _ _ _ _ HS) as G.
    assert (L1 : lenZ out1 <= cap) by (unfold lenZ in *; lia).
    assert (ST : forall b, qd_step cap out (bits_of 5 op ++ b) =
       (false, match pd_acts cap acts out b with POk o b => POk o b | _ => PErr (- EINVAL) end)).
    { intros. unfold qd_step. rewrite rdb_app by (cbn; lia). 
      rewrite Z.gtb_ltb. destruct (Z.ltb_spec cap (lenZ out + 8)); [unfold lenZ in *; lia|]. now rewrite andb_false_r, H0. }
    apply cut_cases in Hcut. destruct Hcut as [L|(b & -> & Hc)].
    { exists 1%nat. cbn [qd_loop]. unfold qd_step. now rewrite (cut_short _ _ _ L). }
    apply cut_cases in Hc. destruct Hc as [L|(b2 & -> & Hc)].
    { exists 1%nat. cbn [qd_loop]. rewrite ST.
      now rewrite (pd_acts_cut cap acts out ca out1 PA TS L1 b L). }
    destruct (IHHS Hx c1 eq_refl b2 Hc) as [f Hf]. exists (S f). cbn [qd_loop]. rewrite ST.
    destruct (pd_acts_complete cap _ _ _ _ _ (PA b2) TS) as [A1 _]. rewrite A1 by auto. exact Hf.
Qed.

Lemma c48 e iaddr oaddr z out olen x rest k :
  is_bytes z -> is_bytes out -> 0 <= olen <= lenZ out -> olen < 2 ^ 63 -> iaddr mod 8 = 0 -> oaddr mod 8 = 0 ->
  stream false [] (bytes_bits z) x (bits_of 32 (crc32 x) ++ rest) ->
  (8 * k < length (bytes_bits z) - length rest)%nat -> lenZ x <= olen ->
  exists m, optsw842_decompress e iaddr oaddr (firstn k z) out olen = Done (- EINVAL, 0, m).
Proof.
  intros Hz Ho Hc H63 HA HO HS Hk Hx. assert (Hfz : is_bytes (firstn k z)) by now apply is_bytes_firstn.
  destruct (stream_prefix _ _ _ _ _ HS) as (c & EC & SP).
  pose proof (optsw842_decompress_pure e iaddr oaddr (firstn k z) out olen Hfz Ho Hc H63 HA HO) as P.
  set (k' := (8 * (length (firstn k z) / 8))%nat).
  assert (Lk : (k' <= k)%nat).
  { unfold k'. rewrite firstn_length. pose proof (Nat.mul_div_le (Nat.min k (length z)) 8 ltac:(lia)). lia. }

  assert (WH : whole (firstn k z) = firstn k' z).
  { unfold whole. fold k'. rewrite firstn_firstn. f_equal. lia. }
  assert (BK : bytes_bits (firstn k' z) = firstn (8 * k') (c ++ bits_of 32 (crc32 x))).
  { rewrite firstn_bits, EC, app_assoc. rewrite firstn_app.
    rewrite EC in Hk. rewrite !app_length in Hk. rewrite app_length.
    replace (8 * k' - _)%nat with 0%nat by lia. now rewrite firstn_O, app_nil_r. }
  rewrite EC in Hk. rewrite !app_length, bits_of_length in Hk.
  destruct (Nat.lt_ge_cases (8 * k') (length c)) as [L|L].
  + assert (CT : cut (bytes_bits (firstn k' z)) c).
    { exists (skipn (8 * k') c). rewrite BK, firstn_app. replace (8 * k' - length c)%nat with 0%nat by lia.
      rewrite firstn_O, app_nil_r. split; [|now rewrite firstn_skipn].
      intros E0. apply (f_equal (@length bool)) in E0. rewrite skipn_length in E0. change (length (@nil bool)) with 0%nat in E0. lia. }
    destruct (qd_stream_cut olen _ _ _ _ HS Hx c EC _ CT) as [f Hf]. rewrite <- WH in Hf. apply qrun_of in Hf. rewrite Hf in P.
    destruct P as (_ & m & P & _). eauto.
  + rewrite firstn_app, (firstn_all2 c) in BK by lia.
    pose proof (SP (firstn (8 * k' - length c) (bits_of 32 (crc32 x)))) as V. rewrite <- BK, <- WH in V.
    rewrite (qrun_stream _ olen _ _ ltac:(lia) V) in P. destruct (Z.leb_spec (lenZ x) olen); [|lia].
    destruct P as (m & _ & _ & _ & P). exists m. rewrite P. rewrite rdb_short; auto.
    rewrite firstn_length, bits_of_length. lia.
Qed.

Lemma c49 e iaddr oaddr z s out olen x :
  is_bytes z -> is_bytes s -> is_bytes out -> 0 <= olen <= lenZ out -> olen < 2 ^ 63 -> iaddr mod 8 = 0 -> oaddr mod 8 = 0 ->
  lenZ z mod 8 = 0 ->
  observed (optsw842_decompress e iaddr oaddr z out olen) = Done (0, lenZ x, x) ->
  observed (optsw842_decompress e iaddr oaddr (z ++ s) out olen) = Done (0, lenZ x, x).
Proof.
  intros Hz Hs Ho Hc H63 HA HO HM E. apply c20 in E; auto. destruct E as (V & L).
  apply c20; auto. { apply is_bytes_app; auto. } split; [|auto].
  fold (whole z) in V. rewrite (whole_id z HM) in V. fold (whole (z ++ s)).
  assert (W : exists t, whole (z ++ s) = z ++ t).
  { exists (firstn (8 * (length (z ++ s) / 8) - length z) s). unfold whole. rewrite firstn_app. f_equal. apply firstn_all2.
    pose proof (opt_len8 z HM) as M. rewrite app_length. pose proof (Nat.div_mod (length z) 8 ltac:(lia)).
    assert (length z / 8 <= (length z + length s) / 8)%nat by (apply Nat.div_le_mono; lia). lia. }
  destruct W as (t & ->). destruct V as (rest & HS). destruct (stream_prefix _ _ _ _ _ HS) as (c & EC & SP).
  exists (rest ++ bytes_bits t). rewrite bytes_bits_app, EC. rewrite <- !app_assoc. apply SP.
Qed.
