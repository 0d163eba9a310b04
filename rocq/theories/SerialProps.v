(** Proofs of the properties of sw842_compress and sw842_decompress. *)
From Coq Require Import ZArith List Bool Lia.
From Verif Require Import SpecBits SpecCrc Spec842 SpecCalls SpecRefs CBase BitsLemmas CrcModel CrcProofs
  SerialCompModel SerialDecompModel SerialWriter SerialDict SerialIdeal SerialComp SerialValid PureDecoder SerialReader SerialDecomp SerialFacts.
Import ListNotations.
Open Scope Z_scope.

Lemma firstn_lenZ (z : list Z) m : firstn (length z) m = z -> firstn (Z.to_nat (lenZ z)) m = z.
Proof. unfold lenZ. now rewrite Nat2Z.id. Qed.
Lemma firstn_exact (x y : list Z) : firstn (Z.to_nat (lenZ x)) (x ++ y) = x.
Proof. unfold lenZ. rewrite Nat2Z.id. now apply firstn_app_exact. Qed.

(** ** Decompressor *)
Lemma decomp_valid e oaddr inp out olen x :
  is_bytes inp -> is_bytes out -> 0 <= olen <= lenZ out -> olen < 2 ^ 63 ->
  valid_842 true inp x -> lenZ x <= olen ->
  sw842_decompress e oaddr inp out olen =
    if lenZ x >? UINT_MAX then Done (- ENOSPC, 0, x ++ skipn (length x) out) else Done (0, lenZ x, x ++ skipn (length x) out).
Proof.
  intros Hi Ho Hc H63 (rest & HS) Hx.
  pose proof (sw842_decompress_pure e oaddr inp out olen Hi Ho Hc H63) as P.
  rewrite (pure_run_stream _ _ olen _ _ HS) in P by lia. destruct (Z.leb_spec (lenZ x) olen); [|lia].
  destruct P as (m & -> & _ & _ & ->). rewrite rdb_app by apply crc32_R. now rewrite Z.eqb_refl.
Qed.
Lemma decomp_sound e oaddr inp out olen n m :
  is_bytes inp -> is_bytes out -> 0 <= olen <= lenZ out -> olen < 2 ^ 63 ->
  sw842_decompress e oaddr inp out olen = Done (0, n, m) ->
  exists x, valid_842 true inp x /\ is_bytes x /\ n = lenZ x /\ lenZ x <= olen /\ lenZ x <= UINT_MAX /\ m = x ++ skipn (length x) out.
Proof.
  intros Hi Ho Hc H63 E. pose proof (sw842_decompress_pure e oaddr inp out olen Hi Ho Hc H63) as P.
  destruct (pure_run inp olen) as [[x rest|c|]|] eqn:PR; [| | |contradiction].
  - destruct P as (m' & Em & Bx & Lx & P). apply pure_run_sound in PR; [|lia]. destruct PR as (HS & _ & _).
    rewrite P in E. destruct (rdb 32 rest) as [[crc b]|] eqn:R; [|discriminate].
    destruct (Z.eqb_spec crc (crc32 x)) as [->|]; cbn [negb] in E; [|discriminate].
    rewrite Z.gtb_ltb in E. destruct (Z.ltb_spec UINT_MAX (lenZ x)); [discriminate|]. injection E as <- <-.
    apply rdb_some in R. destruct R as [-> _]. exists x. split; [exists b; exact HS|]. auto 10.
  - destruct P as (C & m' & P & _). rewrite P in E. injection E as -> _ _. lia.
  - rewrite P in E. discriminate.
Qed.

Lemma c05 e oaddr inp out olen x :
  is_bytes inp -> is_bytes out -> 0 <= olen <= lenZ out -> olen < 2 ^ 63 ->
  (observed (sw842_decompress e oaddr inp out olen) = Done (0, lenZ x, x)
   <-> valid_842 true inp x /\ lenZ x <= olen /\ lenZ x <= UINT_MAX).
Proof.
  intros Hi Ho Hc H63. split.
  - intros E. destruct (sw842_decompress e oaddr inp out olen) as [[[ret n] m]| |] eqn:D; try discriminate.
    cbn [observed] in E. injection E as -> -> E. apply decomp_sound in D; auto.
    destruct D as (x' & V & B & N & L & U & ->). rewrite N, firstn_exact in E. subst x'. auto.
  - intros (V & L & U). rewrite (decomp_valid e oaddr inp out olen x) by auto. rewrite Z.gtb_ltb.
    destruct (Z.ltb_spec UINT_MAX (lenZ x)); [lia|]. cbn [observed]. now rewrite firstn_exact.
Qed.

Lemma c05_memory e oaddr inp out olen n m :
  is_bytes inp -> is_bytes out -> 0 <= olen <= lenZ out -> olen < 2 ^ 63 ->
  sw842_decompress e oaddr inp out olen = Done (0, n, m) ->
  exists x, valid_842 true inp x /\ n = lenZ x /\ m = x ++ skipn (length x) out.
Proof. intros Hi Ho Hc H63 E. apply decomp_sound in E; auto. destruct E as (x & V & _ & N & _ & _ & M). eauto. Qed.

Lemma c06_refuted : exists inp out olen, is_bytes inp /\ lenZ out = olen /\ is_bytes out /\ forall e oaddr,
  sw842_decompress e oaddr inp out olen = Undef.
Proof.
  exists [233; 11; 216; 0; 0; 0; 0; 0], (List.repeat 0 64), 64.
  split. { repeat constructor; unfold is_byte; lia. } split; [reflexivity|].
  split. { apply is_bytes_repeat. unfold is_byte; lia. } intros [] oaddr; vm_compute; reflexivity.
Qed.
Lemma c06_exact e oaddr inp out olen :
  is_bytes inp -> is_bytes out -> 0 <= olen <= lenZ out -> olen < 2 ^ 63 ->
  (sw842_decompress e oaddr inp out olen = Undef <->
   exists ds n rest,
    Forall (fun d => is_bytes d /\ (1 <= length d)%nat) ds /\ 0 <= n < 64 /\
    bytes_bits inp = concat (map short_template ds) ++ repeat_template n ++ rest /\
    (1 <= length (concat ds) <= 7)%nat /\ lenZ (concat ds) + 8 * (n + 1) <= olen).
Proof.
  intros Hi Ho Hc H63. pose proof (sw842_decompress_pure e oaddr inp out olen Hi Ho Hc H63) as P. split.
  - intros U. destruct (pure_run inp olen) as [[x rest|c|]|] eqn:PR; [| | |contradiction].
    + destruct P as (m & _ & _ & _ & P). rewrite P in U. destruct (rdb 32 rest) as [[crc b]|]; [|discriminate].
      destruct (negb _); [discriminate|]. destruct (_ >? _); discriminate.
    + destruct P as (C & m' & P & _). congruence.
    + apply pd_loop_undef in PR. exact PR.
  - intros (ds & n & rest & F & Hn & E & L & C).
    destruct (undef_pd_loop olen ds [] n rest F Hn L C) as [f Hf]. rewrite <- E in Hf.
    apply pure_run_of in Hf. rewrite Hf in P. exact P.
Qed.
Lemma c06_frame e oaddr inp out olen ret n m :
  is_bytes inp -> is_bytes out -> 0 <= olen <= lenZ out -> olen < 2 ^ 63 ->
  sw842_decompress e oaddr inp out olen = Done (ret, n, m) ->
  0 <= n <= olen /\ exists w, is_bytes w /\ lenZ w <= olen /\ m = w ++ skipn (length w) out.
Proof.
  intros Hi Ho Hc H63 E. pose proof (sw842_decompress_pure e oaddr inp out olen Hi Ho Hc H63) as P.
  destruct (pure_run inp olen) as [[x rest|c|]|] eqn:PR; [| | |contradiction].
  - destruct P as (m' & Em & Bx & Lx & P). rewrite P in E. pose proof (lenZ_nonneg x) as LX.
    destruct (rdb 32 rest) as [[crc b]|]; [destruct (negb _); [|destruct (_ >? _)]|]; injection E as <- <- <-;
      (split; [lia|]); exists x; auto.
  - destruct P as (C & m' & P & K). rewrite P in E. injection E as <- <- <-. split; [lia|]. exact K.
  - congruence.
Qed.

Lemma c07 e oaddr inp out olen ret n m :
  is_bytes inp -> is_bytes out -> 0 <= olen <= lenZ out -> olen < 2 ^ 63 ->
  sw842_decompress e oaddr inp out olen = Done (ret, n, m) -> ret <> 0 ->
  (ret = - EINVAL \/ ret = - ENOSPC \/ ret = - EOVERFLOW) /\ n = 0.
Proof.
  intros Hi Ho Hc H63 E NZ. pose proof (sw842_decompress_pure e oaddr inp out olen Hi Ho Hc H63) as P.
  destruct (pure_run inp olen) as [[x rest|c|]|] eqn:PR; [| | |contradiction].
  - destruct P as (m' & Em & Bx & Lx & P). rewrite P in E.
    destruct (rdb 32 rest) as [[crc b]|]; [destruct (negb _); [|destruct (_ >? _)]|]; injection E as <- <- <-; auto; lia.
  - destruct P as (C & m' & P & K). rewrite P in E. injection E as <- <- <-. apply pd_loop_good in PR. auto.
  - congruence.
Qed.

Lemma pd_loop_fuel5 fuel cap : forall out bits, (length bits < 5 * fuel)%nat -> pd_loop fuel cap out bits <> None.
Proof.
  induction fuel as [|f IH]; intros out bits Hf; [lia|]. cbn [pd_loop].
  destruct (pd_step cap out bits) as [[] r] eqn:E; [discriminate|].
  destruct r as [o b| |]; try discriminate.
  apply IH. destruct (pd_step_sound _ _ _ _ _ _ E) as (_ & _ & _ & S4 & _). lia.
Qed.
Lemma c08 e oaddr inp out olen :
  is_bytes inp -> is_bytes out -> 0 <= olen <= lenZ out -> olen < 2 ^ 63 ->
  sw842_decompress e oaddr inp out olen <> NoFuel /\
  (forall k, 8 * lenZ inp / 5 + 1 <= Z.of_nat k ->
     decomp_loop e k inp (mkReader 0 0 (lenZ inp), mkSink out 0 olen) <> NoFuel).
Proof.
  intros Hi Ho Hc H63. split.
  - intros E. pose proof (sw842_decompress_pure e oaddr inp out olen Hi Ho Hc H63) as P.
    destruct (pure_run inp olen) as [[x rest|c|]|] eqn:PR; [| | |contradiction].
    + destruct P as (m & _ & _ & _ & P). rewrite P in E. destruct (rdb 32 rest) as [[crc b]|]; [|discriminate].
      destruct (negb _); [discriminate|]. destruct (_ >? _); discriminate.
    + destruct P as (C & m' & P & _). congruence.
    + congruence.
  - intros k Hk E.
    pose proof (decomp_loop_ok e inp out olen Hi H63 k (mkReader 0 0 (lenZ inp)) (mkSink out 0 olen) []
      (bytes_bits inp) (rd_init inp) (sk_init olen out Ho Hc)) as L.
    assert (F : (length (bytes_bits inp) < 5 * k)%nat).
    { rewrite bytes_bits_length. unfold lenZ in Hk. pose proof (Z.div_mod (8 * Z.of_nat (length inp)) 5 ltac:(lia)).
      pose proof (Z.mod_pos_bound (8 * Z.of_nat (length inp)) 5 ltac:(lia)). lia. }
    pose proof (pd_loop_fuel5 k olen [] _ F) as NF.
    destruct (pd_loop k olen [] (bytes_bits inp)) as [[x b|c|]|]; [| | |congruence]; cbn [agrees] in L; rewrite E in L.
    + destruct L as (? & ? & ? & _). discriminate.
    + destruct L as (_ & ? & ? & ? & ? & _). discriminate.
    + discriminate.
Qed.

Lemma firstn_bits k z : bytes_bits (firstn k z) = firstn (8 * k) (bytes_bits z).
Proof.
  destruct (Nat.le_ge_cases k (length z)).
  - rewrite <- (firstn_skipn k z) at 2. rewrite bytes_bits_app, firstn_app_exact; auto.
    rewrite bytes_bits_length, firstn_length. lia.
  - rewrite firstn_all2 by auto. rewrite firstn_all2; auto. rewrite bytes_bits_length. lia.
Qed.
Lemma c09 e oaddr z out olen x rest k :
  is_bytes z -> is_bytes out -> 0 <= olen <= lenZ out -> olen < 2 ^ 63 ->
  stream true [] (bytes_bits z) x (bits_of 32 (crc32 x) ++ rest) ->
  (8 * k < length (bytes_bits z) - length rest)%nat ->
  (forall n m, sw842_decompress e oaddr (firstn k z) out olen <> Done (0, n, m)) /\
  (lenZ x <= olen -> exists m, sw842_decompress e oaddr (firstn k z) out olen = Done (- EOVERFLOW, 0, m)).
Proof.
  intros Hz Ho Hc H63 HS Hk. assert (Hfz : is_bytes (firstn k z)) by now apply is_bytes_firstn.
  destruct (stream_prefix _ _ _ _ _ HS) as (c & EC & SP).
  assert (BK : bytes_bits (firstn k z) = firstn (8 * k) (c ++ bits_of 32 (crc32 x))).
  { rewrite firstn_bits, EC, app_assoc. rewrite firstn_app.
    rewrite EC in Hk. rewrite !app_length in Hk. rewrite app_length.
    replace (8 * k - _)%nat with 0%nat by lia. now rewrite firstn_O, app_nil_r. }
  rewrite EC in Hk. rewrite !app_length, bits_of_length in Hk.
  split.
  - intros n m E. apply decomp_sound in E; auto. destruct E as (x' & (rest' & V) & _).
    destruct (stream_prefix _ _ _ _ _ V) as (c' & EC' & SP').
    pose proof (SP' (bits_of 32 (crc32 x') ++ rest' ++ skipn (8 * k) (bytes_bits z))) as V'.
    assert (EZ : c' ++ bits_of 32 (crc32 x') ++ rest' ++ skipn (8 * k) (bytes_bits z) = bytes_bits z).
    { rewrite <- (firstn_skipn (8 * k) (bytes_bits z)) at 2. rewrite <- firstn_bits, EC', <- !app_assoc. reflexivity. }
    rewrite EZ in V'. destruct (stream_det _ _ _ _ _ _ _ HS V') as [<- R]. apply app_inv_head in R.
    apply (f_equal (@length bool)) in EC'. rewrite BK, firstn_length in EC'.
    rewrite !app_length, !bits_of_length in EC'.
    assert (LC : length c = length c').
    { apply (f_equal (@length bool)) in EZ, R, EC. rewrite EC in EZ. rewrite !app_length in *. lia. }
    lia.
  - intros Hx. pose proof (sw842_decompress_pure e oaddr (firstn k z) out olen Hfz Ho Hc H63) as P.
    destruct (Nat.lt_ge_cases (8 * k) (length c)) as [L|L].
    + assert (CT : cut (bytes_bits (firstn k z)) c).
      { exists (skipn (8 * k) c). rewrite BK, firstn_app. replace (8 * k - length c)%nat with 0%nat by lia.
        rewrite firstn_O, app_nil_r. split; [|now rewrite firstn_skipn].
        intros E0. apply (f_equal (@length bool)) in E0. rewrite skipn_length in E0. cbn in E0. lia. }
      destruct (stream_cut olen _ _ _ _ _ HS Hx c EC _ CT) as [f Hf]. apply pure_run_of in Hf. rewrite Hf in P.
      destruct P as (_ & m & P & _). eauto.
    + rewrite firstn_app, (firstn_all2 c) in BK by lia.
      pose proof (SP (firstn (8 * k - length c) (bits_of 32 (crc32 x)))) as V. rewrite <- BK in V.
      rewrite (pure_run_stream _ _ olen _ _ V) in P by lia. destruct (Z.leb_spec (lenZ x) olen); [|lia].
      destruct P as (m & _ & _ & _ & P). exists m. rewrite P. rewrite rdb_short; auto.
      rewrite firstn_length, bits_of_length. lia.
Qed.

Lemma c10 e oaddr z out olen s r n m :
  is_bytes z -> is_bytes s -> is_bytes out -> 0 <= olen <= lenZ out -> olen < 2 ^ 63 ->
  sw842_decompress e oaddr z out olen = Done (r, n, m) -> r <> - EOVERFLOW ->
  exists m', sw842_decompress e oaddr (z ++ s) out olen = Done (r, n, m') /\ firstn (Z.to_nat n) m' = firstn (Z.to_nat n) m.
Proof.
  intros Hz Hs Ho Hc H63 E NE.
  pose proof (sw842_decompress_pure e oaddr z out olen Hz Ho Hc H63) as P.
  pose proof (sw842_decompress_pure e oaddr (z ++ s) out olen ltac:(apply is_bytes_app; auto) Ho Hc H63) as P'.
  assert (PA : forall p, pure_run z olen = Some p -> p <> PErr (- EOVERFLOW) -> pure_run (z ++ s) olen = Some (ext p (bytes_bits s))).
  { intros p Hp N. unfold pure_run in Hp. apply (pd_loop_append _ _ (bytes_bits s)) in Hp; auto.
    rewrite <- bytes_bits_app in Hp. eapply pure_run_of; eauto. }
  destruct (pure_run z olen) as [[x rest|c|]|] eqn:PR; [| | |contradiction].
  - rewrite (PA _ eq_refl) in P' by discriminate. cbn [ext] in P'.
    destruct P as (m1 & Em & _ & _ & P). destruct P' as (m2 & Em2 & _ & _ & P'). subst m1 m2.
    rewrite P in E. rewrite P'. destruct (rdb 32 rest) as [[crc b]|] eqn:R.
    + rewrite (rdb_more _ _ _ _ _ R). rewrite E. eauto.
    + congruence.
  - destruct P as (C & m1 & P & _). rewrite P in E. injection E as <- <- <-.
    rewrite (PA _ eq_refl) in P' by congruence. cbn [ext] in P'. destruct P' as (_ & m2 & -> & _). eauto.
  - congruence.
Qed.

Lemma c11 e oaddr z out olen x c rest :
  is_bytes z -> is_bytes out -> 0 <= olen <= lenZ out -> olen < 2 ^ 63 ->
  0 <= c < 2 ^ 32 -> stream true [] (bytes_bits z) x (bits_of 32 c ++ rest) -> lenZ x <= olen -> c <> crc32 x ->
  exists m, sw842_decompress e oaddr z out olen = Done (- EINVAL, 0, m).
Proof.
  intros Hi Ho Hc H63 HC HS Hx NE.
  pose proof (sw842_decompress_pure e oaddr z out olen Hi Ho Hc H63) as P.
  rewrite (pure_run_stream _ _ olen _ _ HS) in P by lia. destruct (Z.leb_spec (lenZ x) olen); [|lia].
  destruct P as (m & -> & _ & _ & ->). rewrite rdb_app by exact HC.
  destruct (Z.eqb_spec c (crc32 x)); [contradiction|]. cbn [negb]. eauto.
Qed.

Lemma c15 e oaddr z out olen x rest :
  is_bytes z -> is_bytes out -> 0 <= olen <= lenZ out -> olen < 2 ^ 63 ->
  stream true [] (bytes_bits z) x rest -> olen < lenZ x ->
  exists m, sw842_decompress e oaddr z out olen = Done (- ENOSPC, 0, m).
Proof.
  intros Hi Ho Hc H63 HS Hx.
  pose proof (sw842_decompress_pure e oaddr z out olen Hi Ho Hc H63) as P.
  rewrite (pure_run_stream _ _ olen _ _ HS) in P by lia. destruct (Z.leb_spec (lenZ x) olen); [lia|].
  destruct P as (_ & m & P & _). eauto.
Qed.

(** The decompressor's result does not depend on the host endianness, on the
    alignment or on the previous content of the output buffer. *)
Lemma decomp_indep e e' oaddr oaddr' z out out' olen :
  is_bytes z -> is_bytes out -> 0 <= olen <= lenZ out -> is_bytes out' -> olen <= lenZ out' -> olen < 2 ^ 63 ->
  observed (sw842_decompress e oaddr z out olen) = observed (sw842_decompress e' oaddr' z out' olen).
Proof.
  intros Hi Ho Hc Ho' Hc' H63.
  pose proof (sw842_decompress_pure e oaddr z out olen Hi Ho Hc H63) as P.
  pose proof (sw842_decompress_pure e' oaddr' z out' olen Hi Ho' ltac:(lia) H63) as P'.
  destruct (pure_run z olen) as [[x rest|c|]|] eqn:PR; [| | |contradiction].
  - destruct P as (m & -> & _ & _ & ->). destruct P' as (m' & -> & _ & _ & ->).
    destruct (rdb 32 rest) as [[crc b]|]; [destruct (negb _); [|destruct (_ >? _)]|]; cbn [observed]; rewrite ?firstn_exact; auto.
  - destruct P as (_ & m & -> & _). destruct P' as (_ & m' & -> & _). reflexivity.
  - now rewrite P, P'.
Qed.

(** ** Compressor *)
Lemma comp_indep e e' addr addr' inp out out' olen :
  is_bytes inp -> is_bytes out -> 0 <= olen <= lenZ out -> is_bytes out' -> olen <= lenZ out' ->
  observed (sw842_compress e addr inp out olen) = observed (sw842_compress e' addr' inp out' olen).
Proof.
  intros Hi Ho Hc Ho' Hc'.
  destruct (sw842_compress_out e addr inp out olen Hi Ho Hc) as [(A & B & m & -> & F & _)|(A & m & -> & _)];
  destruct (sw842_compress_out e' addr' inp out' olen Hi Ho' ltac:(lia)) as [(A' & B' & m' & -> & F' & _)|(A' & m' & -> & _)]; cbn [observed].
  - rewrite (firstn_lenZ _ m), (firstn_lenZ _ m'); auto.
  - lia.
  - lia.
  - reflexivity.
Qed.

Lemma c02 inp : is_bytes inp -> exists z, is_bytes z /\ valid_842 true z inp /\ forall e addr out olen, is_bytes out -> 0 <= olen <= lenZ out ->
  observed (sw842_compress e addr inp out olen) =
    if (lenZ z <=? olen) && (lenZ z <=? UINT_MAX) then Done (0, lenZ z, z) else Done (- ENOSPC, 0, []).
Proof.
  intros Hi. exists (ideal_out inp). split; [apply ideal_out_bytes|]. split; [apply ideal_out_valid; auto|].
  intros e addr out olen Ho Hc.
  destruct (sw842_compress_out e addr inp out olen Hi Ho Hc) as [(A & B & m & -> & F & _)|(A & m & -> & _)]; cbn [observed].
  - apply Z.leb_le in A. apply Z.leb_le in B. rewrite A, B. cbn [andb]. now rewrite firstn_lenZ.
  - assert ((lenZ (ideal_out inp) <=? olen) && (lenZ (ideal_out inp) <=? UINT_MAX) = false) as ->.
    { apply andb_false_iff. rewrite !Z.leb_gt. lia. } reflexivity.
Qed.

Lemma c03 e addr inp out olen : is_bytes inp -> is_bytes out -> 0 <= olen <= lenZ out ->
  exists ret n m, sw842_compress e addr inp out olen = Done (ret, n, m) /\
    0 <= n <= olen /\ length m = length out /\ skipn (Z.to_nat olen) m = skipn (Z.to_nat olen) out.
Proof.
  intros Hi Ho Hc.
  destruct (sw842_compress_out e addr inp out olen Hi Ho Hc) as [(A & B & m & -> & F & (M1 & _ & M2))|(A & m & -> & (M1 & _ & M2))].
  - pose proof (lenZ_nonneg (ideal_out inp)). do 3 eexists. split; [reflexivity|]. auto.
  - do 3 eexists. split; [reflexivity|]. split; [lia|]. auto.
Qed.

Lemma c04 e addr inp out olen n m : is_bytes inp -> is_bytes out -> 0 <= olen <= lenZ out ->
  sw842_compress e addr inp out olen = Done (0, n, m) ->
  n mod 8 = 0 /\ n <= words64 (max_bits (lenZ inp)) /\
  exists used k, bytes_bits (firstn (Z.to_nat n) m) = used ++ repeat false k /\ (k < 64)%nat /\
    stream true [] used inp (bits_of 32 (crc32 inp)).
Proof.
  intros Hi Ho Hc E.
  destruct (sw842_compress_out e addr inp out olen Hi Ho Hc) as [(A & B & m' & E' & F & _)|(A & m' & E' & _)].
  - rewrite E' in E. injection E as <- <-. split; [|split].
    + rewrite ideal_out_length. unfold padded_size. rewrite Z.mul_comm. apply Z.mod_mul. lia.
    + apply ideal_out_bound.
    + rewrite firstn_lenZ by auto. now apply ideal_out_split.
  - rewrite E' in E. discriminate.
Qed.
Lemma c04_enough e addr inp out olen : is_bytes inp -> is_bytes out -> 0 <= olen <= lenZ out ->
  words64 (max_bits (lenZ inp)) <= olen -> words64 (max_bits (lenZ inp)) <= UINT_MAX ->
  exists n m, sw842_compress e addr inp out olen = Done (0, n, m).
Proof.
  intros Hi Ho Hc L U. pose proof (ideal_out_bound inp) as B. fold (words64 (max_bits (lenZ inp))) in B.
  destruct (sw842_compress_out e addr inp out olen Hi Ho Hc) as [(_ & _ & m' & E' & _)|(A & _)]; [eauto|lia].
Qed.

Lemma c01 e e' addr oaddr inp out olen n m out2 olen2 :
  is_bytes inp -> lenZ inp <= UINT_MAX -> is_bytes out -> 0 <= olen <= lenZ out ->
  sw842_compress e addr inp out olen = Done (0, n, m) ->
  is_bytes out2 -> lenZ inp <= olen2 <= lenZ out2 -> olen2 < 2 ^ 63 ->
  observed (sw842_decompress e' oaddr (firstn (Z.to_nat n) m) out2 olen2) = Done (0, lenZ inp, inp).
Proof.
  intros Hi HU Ho Hc E Ho2 Hc2 H63. pose proof (lenZ_nonneg inp) as L0.
  destruct (sw842_compress_out e addr inp out olen Hi Ho Hc) as [(A & B & m' & E' & F & _)|(A & m' & E' & _)];
    rewrite E' in E; [|discriminate]. injection E as <- <-. rewrite firstn_lenZ by auto.
  apply c05; auto; try lia. { apply ideal_out_bytes. } split; [apply ideal_out_valid; auto|lia].
Qed.

Lemma c26 e addr inp out olen n m : is_bytes inp -> is_bytes out -> 0 <= olen <= lenZ out -> lenZ inp mod 8 = 0 ->
  sw842_compress e addr inp out olen = Done (0, n, m) -> valid_842 false (firstn (Z.to_nat n) m) inp.
Proof.
  intros Hi Ho Hc M E.
  destruct (sw842_compress_out e addr inp out olen Hi Ho Hc) as [(A & B & m' & E' & F & _)|(A & m' & E' & _)];
    rewrite E' in E; [|discriminate]. injection E as <- <-. rewrite firstn_lenZ by auto. apply ideal_out_valid; auto.
  right. unfold lenZ in M. apply Nat2Z.inj. now rewrite Nat2Z.inj_mod.
Qed.

(** ** Runs *)
Lemma same_refl b : same (Some b) b = true. Proof. cbn. apply Z.eqb_refl. Qed.
Lemma ideal_loop_run b n : forall ds pos rc B r, 0 <= rc <= 63 -> ideal_loop ds pos (repeat b n) (Some b) rc = (B, r) ->
  lenZ B = 11 * ((rc + Z.of_nat n) / 64) /\ r = (rc + Z.of_nat n) mod 64.
Proof.
  induction n; intros ds pos rc B r Hrc H; cbn [repeat ideal_loop] in H.
  - apply pair_inj in H. destruct H as [<- <-]. rewrite Z.add_0_r, Z.div_small, Z.mod_small by lia. split; [reflexivity|lia].
  - rewrite same_refl in H. destruct (Z.leb_spec (rc + 1) 63).
    + apply IHn in H; [|lia]. destruct H as [-> ->]. split; [do 2 f_equal|f_equal]; lia.
    + destruct (ideal_loop _ _ (repeat b n) _ 0) as [B' r'] eqn:E. apply pair_inj in H; destruct H as [<- <-].
      apply IHn in E; [|lia]. destruct E as [L ->]. rewrite lenZ_app, rep_bits_len, L.
      replace (rc + Z.of_nat (S n)) with (0 + Z.of_nat n + 1 * 64) by lia. rewrite Z.div_add, Z.mod_add by lia. split; [lia|reflexivity].
Qed.
Lemma lookup_init blk b n : lookup init_dicts blk b n = -1.
Proof. unfold lookup. do 9 (destruct n as [|n]; [reflexivity|]). reflexivity. Qed.
Definition is_D (a : action) : bool := match a with D _ => true | I _ => false end.
Lemma acts_ok_init blk acts : forall b, acts_ok init_dicts blk b acts = forallb is_D acts.
Proof.
  induction acts as [|a acts IH]; intros b; [reflexivity|]. cbn [acts_ok forallb]. rewrite IH. f_equal.
  destruct a; cbn [act_ok is_D]; auto. now rewrite lookup_init.
Qed.
Lemma choose_init blk : choose 25 0 init_dicts blk = 25%nat.
Proof.
  assert (G : forall k i, (i + k = 25)%nat -> (k <= 25)%nat -> choose k i init_dicts blk = 25%nat).
  { induction k; intros i E L; cbn [choose]; [lia|]. rewrite acts_ok_init.
    assert (T : forallb (fun j => negb (forallb is_D (row_acts j))) (seq 0 25) = true) by (vm_compute; reflexivity).
    rewrite forallb_forall in T. specialize (T i ltac:(apply in_seq; lia)). apply negb_true_iff in T. rewrite T. apply IHk; lia. }
  apply G; lia.
Qed.
Lemma blk_bits_init blk : length blk = 8%nat -> lenZ (blk_bits init_dicts blk) = if be_val blk =? 0 then 5 else 69.
Proof.
  intros L. unfold blk_bits, tmpl_bits. destruct (_ =? _); [apply lenZ_bits_of|].
  rewrite choose_init, lenZ_app, lenZ_bits_of. rewrite acts_bits_len; [reflexivity|]. rewrite L. vm_compute. lia.
Qed.
Lemma copies_S {A} n (l : list A) : copies (S n) l = l ++ copies n l.
Proof. reflexivity. Qed.
Lemma blocks_of_copies b m : length b = 8%nat -> blocks_of (copies m b) = repeat b m /\ tail_of (copies m b) = [].
Proof.
  intros L. assert (LC : length (copies m b) = (m * 8)%nat) by (rewrite copies_length, L; lia).
  unfold blocks_of, tail_of. rewrite LC, Nat.div_mul by lia. split.
  - clear LC. induction m; [reflexivity|]. cbn [seq map repeat]. rewrite copies_S. f_equal.
    + unfold slice. cbn [skipn Nat.mul]. now apply firstn_app_exact.
    + rewrite <- IHm. rewrite <- seq_shift, map_map. apply map_ext. intros k. unfold slice. f_equal.
      replace (8 * S k)%nat with (length b + 8 * k)%nat by lia. rewrite <- skipn_skipn. f_equal. now apply skipn_app_exact.
  - apply skipn_all2. lia.
Qed.
Lemma be_val_zero b : is_bytes b -> (be_val b = 0 <-> Forall (fun v => v = 0) b).
Proof.
  induction 1 as [|v b Hv Hb IH]; [split; auto|]. rewrite be_val_cons.
  pose proof (be_val_bound b Hb) as BB. unfold is_byte in Hv.
  assert (P : 0 < 256 ^ lenZ b) by (apply Z.pow_pos_nonneg; [lia|apply lenZ_nonneg]). split.
  - intros E. assert (v = 0 /\ be_val b = 0) as [-> E0] by nia. constructor; auto. now apply IH.
  - intros F. inversion F; subst. rewrite (proj2 IH); auto.
Qed.
(** Bits for [m >= 1] copies of one block. *)
Definition run_bits (zero : bool) (m : Z) : Z := (if zero then 5 else 69) + 11 * ((m - 1 + 63) / 64) + 37.
Lemma ideal_bits_run b m : length b = 8%nat -> (1 <= m)%nat ->
  lenZ (ideal_bits (copies m b)) = run_bits (be_val b =? 0) (Z.of_nat m).
Proof.
  intros L Hm. unfold ideal_bits. destruct (blocks_of_copies b m L) as [-> ->].
  destruct m as [|m]; [lia|]. cbn [repeat ideal_loop same].
  destruct (ideal_loop (next_dicts init_dicts b 0) _ (repeat b m) (Some b) 0) as [B r] eqn:E.
  apply ideal_loop_run in E; [|lia]. destruct E as [LB ->]. change (rep_bits_opt 0) with (@nil bool). cbn [app].
  rewrite !lenZ_app, LB, blk_bits_init, !lenZ_bits_of by auto. change (lenZ (short_bits [])) with 0. rewrite Z.add_0_l.
  unfold run_bits. replace (Z.of_nat (S m) - 1) with (Z.of_nat m) by lia.
  set (q := Z.of_nat m) in *. assert (0 <= q) by lia.
  assert (LR : lenZ (rep_bits_opt (q mod 64)) = if q mod 64 =? 0 then 0 else 11).
  { unfold rep_bits_opt. destruct (q mod 64 =? 0); [reflexivity|apply rep_bits_len]. }
  rewrite LR. pose proof (Z.div_mod q 64 ltac:(lia)). pose proof (Z.mod_pos_bound q 64 ltac:(lia)).
  destruct (Z.eqb_spec (q mod 64) 0) as [Z0|Z0].
  - replace ((q + 63) / 64) with (q / 64). lia. apply (Z.div_unique _ _ _ 63); lia.
  - replace ((q + 63) / 64) with (q / 64 + 1). lia. apply (Z.div_unique _ _ _ (q mod 64 - 1)); lia.
Qed.
Lemma c27 e addr b m out olen : is_bytes b -> length b = 8%nat -> (1 <= m)%nat -> is_bytes out -> 0 <= olen <= lenZ out ->
  let size := words64 ((if forallb (fun v => v =? 0) b then 5 else 69) + 11 * ((Z.of_nat m - 1 + 63) / 64) + 37) in
  size <= olen -> size <= UINT_MAX ->
  exists mem, sw842_compress e addr (copies m b) out olen = Done (0, size, mem).
Proof.
  intros Hb L Hm Ho Hc size S1 S2.
  assert (Hi : is_bytes (copies m b)).
  { clear Hm size S1 S2. induction m; [constructor|]. rewrite copies_S. apply is_bytes_app. auto. }
  assert (ES : lenZ (ideal_out (copies m b)) = size).
  { rewrite ideal_out_length. unfold padded_size. rewrite ideal_bits_run by auto. unfold size, words64, run_bits.
    destruct (forallb (fun v => v =? 0) b) eqn:F.
    - rewrite forallb_forall in F. rewrite (proj2 (be_val_zero b Hb)); [reflexivity|].
      apply Forall_forall. intros v Hv. apply F in Hv. now apply Z.eqb_eq.
    - destruct (Z.eqb_spec (be_val b) 0) as [Z0|Z0]; [|reflexivity]. apply be_val_zero in Z0; auto.
      exfalso. assert (T : forallb (fun v => v =? 0) b = true); [|congruence].
      apply forallb_forall. rewrite Forall_forall in Z0. intros v Hv. apply Z.eqb_eq. auto. }
  destruct (sw842_compress_out e addr (copies m b) out olen Hi Ho Hc) as [(A & B & mem & E & _)|(A & _)]; rewrite ES in *; [eauto|lia].
Qed.

(** ** References *)
Lemma refers_window w n i p : (n = 2 \/ n = 4 \/ n = 8)%nat -> refers w n i p -> in_window (mkRef w n p).
Proof.
  intros Hn (M & A & B). unfold in_window; cbn [ref_pos ref_size ref_written].
  pose proof (Z.mul_div_le (Z.of_nat w) 8 ltac:(lia)) as DL. split; [lia|].
  set (t := Z.of_nat w / 8) in *.
  assert (WE : window n = Z.of_nat n * 2 ^ Z.of_nat (index_bits n)) by reflexivity.
  assert (W8 : exists k, 8 * t - window n = Z.of_nat n * k).
  { rewrite WE. destruct Hn as [-> | [-> | ->]].
    - exists (4 * t - 2 ^ Z.of_nat (index_bits 2)). lia.
    - exists (2 * t - 2 ^ Z.of_nat (index_bits 4)). lia.
    - exists (t - 2 ^ Z.of_nat (index_bits 8)). lia. }
  assert (P8 : exists k, Z.of_nat p = Z.of_nat n * k).
  { exists (i + 2 ^ Z.of_nat (index_bits n) * (Z.of_nat p / window n)).
    rewrite (Z.div_mod (Z.of_nat p) (window n)) at 1. rewrite M, WE. ring.
    rewrite WE. destruct Hn as [-> | [-> | ->]]; cbn; lia. }
  destruct W8 as [a Ea]. destruct P8 as [b Eb]. rewrite Ea, Eb. 
  assert (a < b + 1) by (destruct Hn as [-> | [-> | ->]]; lia). destruct Hn as [-> | [-> | ->]]; lia.
Qed.
Lemma args_refs_ok out acts bits x rest : args out acts bits x rest -> Forall (fun a => act_size_ok a = true) acts ->
  exists refs, args_refs out acts bits x rest refs /\ Forall in_window refs.
Proof.
  induction 1; intros F; inversion F as [|? ? Fa F']; subst.
  - exists []. split; constructor.
  - destruct IHargs as (refs & A & B); auto. exists refs. split; auto. now constructor.
  - destruct IHargs as (refs & A & B); auto. apply size_cases in Fa. cbn [act_len] in Fa.
    exists (mkRef (length out) n p :: refs). split; [|constructor; auto; eapply refers_window; eauto].
    econstructor; eauto. apply H0.
Qed.
Lemma stream_refs_ok sw out bits x rest : stream sw out bits x rest ->
  exists refs, stream_refs out bits x rest refs /\ Forall in_window refs.
Proof.
  induction 1.
  - exists []. split; constructor.
  - destruct IHstream as (refs & A & B). exists refs. split; auto. now constructor.
  - destruct IHstream as (refs & A & B). exists (mkRef (length out) 8 (length out - 8) :: refs). split; [now constructor|]. constructor; auto.
    unfold in_window; cbn [ref_pos ref_size ref_written]. pose proof (Z.mul_div_le (Z.of_nat (length out)) 8 ltac:(lia)). cbn [window index_bits].
    change (window 8) with 2048. lia.
  - destruct IHstream as (refs & A & B). exists refs. split; auto. now constructor.
  - destruct IHstream as (refs & A & B). destruct (template_sizes _ _ H0) as (S1 & _).
    destruct (args_refs_ok _ _ _ _ _ H1 S1) as (refs1 & A1 & B1). exists (refs1 ++ refs). split; [econstructor; eauto|].
    now apply Forall_app.
Qed.
Lemma c25 e oaddr inp out olen n m :
  is_bytes inp -> is_bytes out -> 0 <= olen <= lenZ out -> olen < 2 ^ 63 ->
  sw842_decompress e oaddr inp out olen = Done (0, n, m) ->
  exists rest refs, stream_refs [] (bytes_bits inp) (firstn (Z.to_nat n) m) rest refs /\ Forall in_window refs.
Proof.
  intros Hi Ho Hc H63 E. apply decomp_sound in E; auto. destruct E as (x & (rest & V) & _ & -> & _ & _ & ->).
  destruct (stream_refs_ok _ _ _ _ _ V) as (refs & A & B). rewrite firstn_exact. eauto.
Qed.

(** ** Inputs longer than UINT_MAX *)
Lemma is_bytes_zeros n : is_bytes (List.repeat 0 n).
Proof. apply is_bytes_repeat. unfold is_byte; lia. Qed.
Lemma is_bytes_copies b m : is_bytes b -> is_bytes (copies m b).
Proof. intros Hb. induction m; [constructor|]. rewrite copies_S. apply is_bytes_app. auto. Qed.
Lemma c46 : exists inp, is_bytes inp /\ lenZ inp = 2 ^ 32 /\
  exists olen out, is_bytes out /\ lenZ out = olen /\ forall e addr, exists n m,
    sw842_compress e addr inp out olen = Done (0, n, m) /\
    forall e' oaddr out2 olen2, is_bytes out2 -> 0 <= olen2 <= lenZ out2 -> olen2 < 2 ^ 63 ->
      observed (sw842_decompress e' oaddr (firstn (Z.to_nat n) m) out2 olen2) = Done (- ENOSPC, 0, []).
Proof.
  remember (Z.to_nat (2 ^ 29)) as k eqn:K. assert (KZ : Z.of_nat k = 2 ^ 29) by (rewrite K; apply Z2Nat.id; lia). clear K.
  set (b := List.repeat 0 8). exists (copies k b).
  assert (Hb : is_bytes b) by apply is_bytes_zeros.
  assert (Hi : is_bytes (copies k b)) by now apply is_bytes_copies.
  assert (Hl : lenZ (copies k b) = 2 ^ 32) by (unfold lenZ; rewrite copies_length; change (length b) with 8%nat; lia).
  split; auto. split; auto.
  set (size := words64 ((if forallb (fun v => v =? 0) b then 5 else 69) + 11 * ((Z.of_nat k - 1 + 63) / 64) + 37)).
  assert (SZ : 0 <= size <= UINT_MAX) by (unfold size; rewrite KZ; vm_compute; split; discriminate).
  exists size, (List.repeat 0 (Z.to_nat size)). split; [apply is_bytes_zeros|].
  assert (LO : lenZ (List.repeat 0 (Z.to_nat size)) = size) by (unfold lenZ; rewrite repeat_length, Z2Nat.id; lia).
  split; auto. intros e addr.
  destruct (c27 e addr b k (List.repeat 0 (Z.to_nat size)) size Hb eq_refl ltac:(lia) ltac:(apply is_bytes_zeros) ltac:(lia) ltac:(lia) ltac:(lia)) as [m E].
  fold size in E. exists size, m. split; auto. intros e' oaddr out2 olen2 Ho2 Hc2 H63.
  destruct (sw842_compress_out e addr (copies k b) _ size Hi (is_bytes_zeros _) ltac:(rewrite LO; lia)) as [(A & B & m' & E' & F & _)|(A & m' & E' & _)];
    rewrite E' in E; [|discriminate]. injection E as E1 <-. rewrite <- E1. rewrite firstn_lenZ by auto.
  destruct (Z_le_gt_dec (lenZ (copies k b)) olen2) as [L|L].
  - rewrite (decomp_valid e' oaddr _ out2 olen2 (copies k b)); auto using ideal_out_bytes, ideal_out_valid.
    rewrite Hl. reflexivity.
  - destruct (ideal_out_valid true (copies k b) Hi (or_introl eq_refl)) as (rest & V).
    destruct (c15 e' oaddr _ out2 olen2 _ _ (ideal_out_bytes _) Ho2 Hc2 H63 V ltac:(lia)) as [m2 ->]. reflexivity.
Qed.

Lemma c47 sw sw' z x x' : valid_842 sw z x -> valid_842 sw' z x' -> x = x'.
Proof. intros [r H] [r' H']. now destruct (stream_det _ _ _ _ _ _ _ H H'). Qed.
