(** The other variants of the sample program for the CPU: proofs. *)
From Coq Require Import ZArith List Bool Lia Permutation.
From Verif Require Import SpecBits SpecCrc Spec842 SpecCalls CBase BitsLemmas
  SerialCompModel SerialDecompModel SerialDecomp SerialFacts SerialProps OptCompModel OptDecompModel OptProps OclModel SpecOcl OclItems OclProps InplaceProofs InplaceItems
  ChunkedModel SpecChunked ChunkedProofs SampleProofs BenchModel SpecBench BenchProofs CondenseModel.
Import ListNotations.
Open Scope Z_scope.

Lemma aset_put l c v : 0 <= c < lenZ l -> aset l c v = Done (put l (Z.to_nat c) [v]).
Proof.
  intros H. rewrite aset_ok by (unfold lenZ in *; lia). f_equal. unfold put. cbn [length app]. now replace (Z.to_nat c + 1)%nat with (S (Z.to_nat c)) by lia.
Qed.
Lemma bytes_put_in l p w : 0 <= p -> p + lenZ w <= lenZ l -> bytes_at (put l (Z.to_nat p) w) p (lenZ w) = w.
Proof.
  intros. unfold bytes_at. rewrite put_at by (unfold lenZ in *; lia). rewrite skipn_all2; [apply app_nil_r|]. rewrite slice_length; unfold lenZ in *; lia.
Qed.
Lemma bytes_put_out l p w q n : 0 <= p -> p + lenZ w <= lenZ l -> 0 <= q -> 0 <= n -> q + n <= lenZ l -> q + n <= p \/ p + lenZ w <= q -> bytes_at (put l (Z.to_nat p) w) q n = bytes_at l q n.
Proof.
  intros. apply bytes_at_same; auto; try lia. { unfold lenZ in *. rewrite put_length; lia. } { rewrite lenZ_put; lia. }
  intros r Hr. unfold lenZ in *. rewrite put_nth by lia. destruct (Nat.leb_spec (Z.to_nat p) r); auto. destruct (Nat.ltb_spec r (Z.to_nat p + length w)); auto. lia.
Qed.

(** * The positions *)
Lemma sum_app a b : sum (a ++ b) = sum a + sum b.
Proof. induction a as [|x a IH]; cbn [app sum fold_right]; [reflexivity|]. fold (sum (a ++ b)). fold (sum a). lia. Qed.
Lemma sum_nonneg l : (forall n, In n l -> 0 <= n) -> 0 <= sum l.
Proof. induction l as [|n l IH]; intros H; cbn [sum fold_right]; [lia|]. fold (sum l). assert (0 <= n) by (apply H; now left). assert (0 <= sum l) by (apply IH; intros; apply H; now right). lia. Qed.
Lemma positions_len sizes : forall pos, length (positions sizes pos) = length sizes.
Proof. induction sizes as [|n l IH]; intros pos; cbn [positions length]; auto. Qed.
Lemma positions_nth sizes : forall pos c, (forall n, In n sizes -> 0 <= n) -> 0 <= pos -> pos + sum sizes < 2 ^ 64 -> (c < length sizes)%nat ->
  nth c (positions sizes pos) 0 = pos + sum (firstn c sizes).
Proof.
  induction sizes as [|n l IH]; intros pos c HN HP HS Hc; cbn [length] in Hc; [lia|]. cbn [positions]. cbn [sum fold_right] in HS. fold (sum l) in HS.
  assert (0 <= n) by (apply HN; now left). assert (0 <= sum l) by (apply sum_nonneg; intros; apply HN; now right).
  destruct c as [|c]; [cbn [nth firstn sum fold_right]; lia|]. cbn [nth firstn sum fold_right]. fold (sum (firstn c l)). unfold u64. rewrite Z.mod_small by lia.
  rewrite IH; [lia|intros; apply HN; now right|lia|lia|lia].
Qed.
Lemma sum_step l c : (c < length l)%nat -> sum (firstn (S c) l) = sum (firstn c l) + nth c l 0.
Proof.
  intros H. rewrite <- (firstn_skipn c (firstn (S c) l)), firstn_firstn, sum_app. replace (Nat.min c (S c)) with c by lia. f_equal.
  rewrite skipn_firstn_comm. replace (S c - c)%nat with 1%nat by lia. rewrite <- (firstn_skipn c l) at 2. rewrite app_nth2 by (rewrite firstn_length; lia). rewrite firstn_length. replace (c - Nat.min c (length l))%nat with 0%nat by lia.
  destruct (skipn c l) eqn:E; [apply (f_equal (@length Z)) in E; rewrite skipn_length in E; cbn in E; lia|]. cbn. lia.
Qed.
Lemma sum_mono l c d : (forall n, In n l -> 0 <= n) -> (c <= d)%nat -> sum (firstn c l) <= sum (firstn d l).
Proof.
  intros HN H. rewrite <- (firstn_skipn c (firstn d l)), firstn_firstn, sum_app. replace (Nat.min c d) with c by lia.
  assert (0 <= sum (skipn c (firstn d l))); [|lia]. apply sum_nonneg. intros n Hn. apply HN. rewrite <- (firstn_skipn d l). apply in_or_app. left.
  rewrite <- (firstn_skipn c (firstn d l)). apply in_or_app. now right.
Qed.

(** * Moving the chunks together *)
Section Move.
Variable C num : Z.
Variable out sizes : list Z.
Hypothesis HC : 0 < C.
Hypothesis HN : 0 <= num.
Hypothesis BO : is_bytes out.
Hypothesis LO : lenZ out = C * num.
Hypothesis LS : lenZ sizes = num.
Hypothesis H64 : C * num < 2 ^ 64.
Hypothesis SZ : forall c, 0 <= c < num -> 0 <= nth (Z.to_nat c) sizes 0 <= C.
Let start (c : Z) : Z := sum (firstn (Z.to_nat c) sizes).

Lemma sizes_in n : In n sizes -> 0 <= n <= C.
Proof. intros H. apply (In_nth _ _ 0) in H. destruct H as (j & Hj & <-). specialize (SZ (Z.of_nat j) ltac:(unfold lenZ in *; lia)). now rewrite Nat2Z.id in SZ. Qed.
Lemma sum_sizes : 0 <= sum sizes <= C * num.
Proof. split; [apply sum_nonneg; intros; apply sizes_in; auto|]. rewrite <- LS. apply sum_bound. intros; now apply sizes_in. Qed.
Lemma start_ok c : 0 <= c < num -> 0 <= start c /\ start c + nth (Z.to_nat c) sizes 0 <= sum sizes.
Proof.
  intros Hc. assert (NN : forall n, In n sizes -> 0 <= n) by (intros; now apply sizes_in). split; [apply (sum_mono sizes 0); auto; lia|].
  unfold start. rewrite <- sum_step by (unfold lenZ in *; lia). rewrite <- (firstn_all sizes) at 2. apply sum_mono; auto. unfold lenZ in *. lia.
Qed.
Lemma start_disjoint c d : 0 <= c -> c < d -> d < num -> start c + nth (Z.to_nat c) sizes 0 <= start d.
Proof. intros. unfold start. rewrite <- sum_step by (unfold lenZ in *; lia). apply sum_mono; [intros; now apply sizes_in|lia]. Qed.
Lemma pos_start c : 0 <= c < num -> nth (Z.to_nat c) (positions sizes 0) 0 = start c.
Proof. intros. pose proof sum_sizes. rewrite positions_nth; auto; try lia. { intros; now apply sizes_in. } { unfold lenZ in *. lia. } Qed.

Lemma condense_ok : forall order cond, NoDup order -> (forall c, In c order -> 0 <= c < num) -> lenZ cond = sum sizes ->
  exists cond', condense C out sizes (positions sizes 0) order cond = Done cond' /\ lenZ cond' = sum sizes /\
  forall c, 0 <= c < num ->
    (In c order -> bytes_at cond' (start c) (nth (Z.to_nat c) sizes 0) = bytes_at out (C * c) (nth (Z.to_nat c) sizes 0)) /\
    (~ In c order -> bytes_at cond' (start c) (nth (Z.to_nat c) sizes 0) = bytes_at cond (start c) (nth (Z.to_nat c) sizes 0)).
Proof.
  induction order as [|d order IH]; intros cond ND IN LC; cbn [condense].
  - exists cond. split; auto. split; auto. intros c Hc. split; [intros []|auto].
  - apply NoDup_cons_iff in ND. destruct ND as [NI ND]. pose proof (IN d (or_introl eq_refl)) as Hd. unfold condense_one.
    rewrite aget_ok by (unfold lenZ in *; rewrite positions_len; lia). rewrite bind_done. rewrite pos_start by auto. rewrite aget_ok by (unfold lenZ in *; lia). rewrite bind_done.
    set (n := nth (Z.to_nat d) sizes 0). pose proof (SZ d Hd) as Hn. fold n in Hn. assert (CD : 0 <= C * d /\ C * d + C <= C * num) by nia.
    rewrite load_bytes_ok by lia. rewrite bind_done. change (slice (Z.to_nat (C * d)) (Z.to_nat n) out) with (bytes_at out (C * d) n). set (x := bytes_at out (C * d) n).
    assert (LX : lenZ x = n) by (apply bytes_at_len; lia). destruct (start_ok d Hd) as [S1 S2]. fold n in S2. rewrite store_bytes_ok by lia. rewrite bind_done.
    change (splice ?M ?o ?w) with (put M o w). destruct (IH (put cond (Z.to_nat (start d)) x)) as (cond' & -> & L' & P); auto. { intros; apply IN; now right. } { rewrite lenZ_put; lia. }
    exists cond'. split; auto. split; auto. intros c Hc. destruct (P c Hc) as [Pa Pb]. destruct (start_ok c Hc) as [S3 S4]. pose proof (SZ c Hc) as Hm. split.
    + intros I'. destruct (in_dec Z.eq_dec c order) as [i|ni]; auto. destruct I' as [<-|I']; [|contradiction]. rewrite Pb by auto. fold n. fold x. rewrite <- LX. apply bytes_put_in; lia.
    + intros NI'. assert (c <> d) by (intros ->; apply NI'; now left). rewrite Pb by (intros i; apply NI'; now right).
      apply bytes_put_out; try lia. rewrite LX. destruct (Z.lt_total c d) as [L|[L|L]]; [|lia|].
      * left. apply start_disjoint; lia.
      * right. unfold n. apply start_disjoint; lia.
Qed.
End Move.

(** A chunk that could not be compressed. *)
Lemma condense_undef C out sizes pos : lenZ out < SIZE_MAX -> 0 < C -> (forall c, 0 <= c < lenZ sizes -> 0 <= nth (Z.to_nat c) sizes 0) -> forall order cond c,
  In c order -> 0 <= c < lenZ sizes -> nth (Z.to_nat c) sizes 0 = SIZE_MAX -> condense C out sizes pos order cond = Undef.
Proof.
  intros LO HC SZ. induction order as [|d order IH]; intros cond c I' Hc E; [destruct I'|]. cbn [condense].
  assert (D : condense_one C out sizes pos d cond = Undef \/ exists cond', condense_one C out sizes pos d cond = Done cond').
  { unfold condense_one, aget. destruct (_ && _); [|now left]. rewrite bind_done. destruct (_ && _); [|now left]. rewrite bind_done. unfold load_bytes. destruct (_ && _); [|now left]. rewrite bind_done.
    unfold store_bytes. destruct (_ && _); [right; eauto|now left]. }
  destruct (Z.eq_dec d c) as [->|NE].
  - assert (X : condense_one C out sizes pos c cond = Undef); [|now rewrite X]. unfold condense_one, aget at 1. destruct (_ && _); [|reflexivity]. rewrite bind_done. rewrite aget_ok by (unfold lenZ in *; lia). rewrite bind_done.
    rewrite E. unfold load_bytes. destruct (Z.leb_spec 0 (C * c)); [|reflexivity]. destruct (Z.leb_spec (C * c + SIZE_MAX) (lenZ out)); [lia|reflexivity].
  - destruct D as [->|(cond' & ->)]; [reflexivity|]. rewrite bind_done. destruct I' as [X|I']; [contradiction|]. eapply IH; eauto.
Qed.

(** * One chunk at a time *)
Section Single.
Variable I : implementation.
Variable C : Z.
Hypothesis HC : 0 < C <= UINT_MAX.
Hypothesis HP : 0 < i_preferred I.
Hypothesis HCP : C mod i_preferred I = 0.
Hypothesis gcC : good_call (i_compress I).
Hypothesis gcD : good_call (i_decompress I).
Hypothesis codec : forall x, is_bytes x -> lenZ x = C -> exists z, coded I C x z /\ lenZ z mod i_preferred I = 0.
Variable iaddr oaddr daddr : Z.
Hypothesis HI : aligned I iaddr.
Hypothesis HO : aligned I oaddr.
Hypothesis HD : aligned I daddr.
Variable inp : list Z.
Variable num : Z.
Hypothesis Hb : is_bytes inp.
Hypothesis HN : 0 <= num.
Hypothesis HL : lenZ inp = C * num.
Let al_add a c : aligned I a -> aligned I (a + C * c).
Proof. unfold aligned. intros. rewrite <- Zplus_mod_idemp_r, <- Zmult_mod_idemp_l, HCP, Z.mul_0_l, Zmod_0_l, Z.add_0_r. auto. Qed.

Definition compressed1 (c : Z) (w : list Z) (n : Z) : Prop :=
  exists z, (coded I C (bytes_at inp (C * c) C) z /\ lenZ z mod i_preferred I = 0) /\
  ((lenZ z <= C /\ n = lenZ z /\ firstn (Z.to_nat n) w = z) \/ (C < lenZ z /\ n = SIZE_MAX)).

Lemma comp_one_ok b out sizes ok : 0 <= b -> 1 * b < num -> is_bytes out -> lenZ out = C * num -> lenZ sizes = num ->
  exists out' sizes', comp_one I C iaddr oaddr inp b (out, sizes, ok) = Done (out', sizes', ok) /\ is_bytes out' /\ lenZ out' = C * num /\ lenZ sizes' = num /\
    forall c, 0 <= c < num ->
      (c / 1 = b -> compressed1 c (bytes_at out' (C * c) C) (nth (Z.to_nat c) sizes' 0)) /\
      (c / 1 <> b -> bytes_at out' (C * c) C = bytes_at out (C * c) C /\ nth (Z.to_nat c) sizes' 0 = nth (Z.to_nat c) sizes 0).
Proof.
  intros B0 B1 BO LO LS. unfold comp_one. assert (CB : 0 <= C * b /\ C * b + C <= C * num) by nia.
  assert (L1 : forall v, lenZ (put sizes (Z.to_nat b) [v]) = num) by (intros v; rewrite lenZ_put; change (lenZ [v]) with 1; lia).
  rewrite aset_put by lia. rewrite bind_done. rewrite load_bytes_ok by lia. rewrite bind_done. rewrite load_bytes_ok by lia. rewrite bind_done.
  rewrite aget_ok by (specialize (L1 C); unfold lenZ in *; lia). rewrite bind_done. rewrite nth_put_in by (change (lenZ [C]) with 1; lia). rewrite Z.sub_diag. cbn [Z.to_nat nth].
  change (slice (Z.to_nat (C * b)) (Z.to_nat C) ?l) with (bytes_at l (C * b) C). set (x := bytes_at inp (C * b) C). set (co := bytes_at out (C * b) C).
  assert (BX : is_bytes x) by now apply is_bytes_slice. assert (LX : lenZ x = C) by (apply bytes_at_len; lia).
  assert (BC : is_bytes co) by now apply is_bytes_slice. assert (LC : lenZ co = C) by (apply bytes_at_len; lia).
  destruct (codec x BX LX) as (z & CZ & AZ). pose proof CZ as (BZ & HZ & _). specialize (HZ (iaddr + C * b) (oaddr + C * b) co ltac:(auto) ltac:(auto) BC LC).
  destruct (i_compress I (iaddr + C * b) (oaddr + C * b) x co C) as [[[r n] m]| |] eqn:E; cbn [observed] in HZ; try (destruct (lenZ z <=? C); discriminate).
  destruct (gc_frame _ gcC (iaddr + C * b) (oaddr + C * b) x co C r n m BX BC ltac:(lia) ltac:(unfold UINT_MAX in *; lia) E) as (_ & BM & LM & _). assert (LM' : lenZ m = C) by (unfold lenZ in *; lia).
  rewrite bind_done.
  assert (RES : exists v, (if r =? - ENOSPC then (0, SIZE_MAX) else (r, n)) = (0, v) /\ compressed1 b m v).
  { destruct (Z.leb_spec (lenZ z) C).
    - injection HZ as -> -> F. exists (lenZ z). split; [reflexivity|]. exists z. split; [split; auto|]. left. auto.
    - injection HZ as -> -> _. exists SIZE_MAX. split; [reflexivity|]. exists z. split; [split; auto|]. right. split; [lia|auto]. }
  destruct RES as (v & -> & Q). rewrite aset_put by (rewrite L1; lia). rewrite bind_done. rewrite store_bytes_ok by lia. rewrite bind_done. change (0 =? 0) with true. rewrite andb_true_r.
  change (splice ?M ?o ?w) with (put M o w). rewrite put_put by (change (lenZ [C]) with 1; change (lenZ [v]) with 1; lia).
  eexists _, _. split; [reflexivity|]. split; [now apply put_bytes|]. split; [rewrite lenZ_put; lia|]. split; [apply L1|].
  intros c Hc. rewrite Z.div_1_r. split.
  - intros ->. rewrite <- LM' at 3. rewrite bytes_put_in by lia. rewrite nth_put_in by (change (lenZ [v]) with 1; lia). rewrite Z.sub_diag. exact Q.
  - intros NE. split; [apply (at_put_out C out b 1 m c num); lia|]. apply nth_put_out; change (lenZ [v]) with 1; lia.
Qed.

Section Dec.
Variable saddr : Z.
Variable src sizes pos : list Z.
Hypothesis LSIZES : lenZ sizes = num.
Hypothesis LPOS : lenZ pos = num.
Hypothesis SRC : forall c, 0 <= c < num -> nth (Z.to_nat c) sizes 0 = SIZE_MAX \/
  exists z, coded I C (bytes_at inp (C * c) C) z /\ lenZ z <= C /\ nth (Z.to_nat c) sizes 0 = lenZ z /\ aligned I (saddr + nth (Z.to_nat c) pos 0) /\
    0 <= nth (Z.to_nat c) pos 0 /\ nth (Z.to_nat c) pos 0 + lenZ z <= lenZ src /\ bytes_at src (nth (Z.to_nat c) pos 0) (lenZ z) = z.

Lemma decomp_one_ok b dec dsizes ok : 0 <= b -> 1 * b < num -> is_bytes dec -> lenZ dec = C * num -> lenZ dsizes = num ->
  exists dec' dsizes', decomp_one I C daddr inp saddr src sizes pos b (dec, dsizes, ok) = Done (dec', dsizes', ok) /\ is_bytes dec' /\ lenZ dec' = C * num /\ lenZ dsizes' = num /\
    forall c, 0 <= c < num ->
      (c / 1 = b -> bytes_at dec' (C * c) C = bytes_at inp (C * c) C /\ nth (Z.to_nat c) dsizes' 0 = C) /\
      (c / 1 <> b -> bytes_at dec' (C * c) C = bytes_at dec (C * c) C /\ nth (Z.to_nat c) dsizes' 0 = nth (Z.to_nat c) dsizes 0).
Proof.
  intros B0 B1 BO LO LS. unfold decomp_one. assert (CB : 0 <= C * b /\ C * b + C <= C * num) by nia.
  assert (L1 : forall v, lenZ (put dsizes (Z.to_nat b) [v]) = num) by (intros v; rewrite lenZ_put; change (lenZ [v]) with 1; lia).
  rewrite aget_ok by (unfold lenZ in *; lia). rewrite bind_done. rewrite aset_put by lia. rewrite bind_done. rewrite aget_ok by (unfold lenZ in *; lia). rewrite bind_done.
  assert (FIN : forall m, is_bytes m -> m = bytes_at inp (C * b) C ->
    is_bytes (put dec (Z.to_nat (C * b)) m) /\ lenZ (put dec (Z.to_nat (C * b)) m) = C * num /\
    forall c, 0 <= c < num ->
      (c / 1 = b -> bytes_at (put dec (Z.to_nat (C * b)) m) (C * c) C = bytes_at inp (C * c) C /\ nth (Z.to_nat c) (put dsizes (Z.to_nat b) [C]) 0 = C) /\
      (c / 1 <> b -> bytes_at (put dec (Z.to_nat (C * b)) m) (C * c) C = bytes_at dec (C * c) C /\ nth (Z.to_nat c) (put dsizes (Z.to_nat b) [C]) 0 = nth (Z.to_nat c) dsizes 0)).
  { intros m BM EM. assert (LM : lenZ m = C) by (rewrite EM; apply bytes_at_len; lia). split; [now apply put_bytes|]. split; [rewrite lenZ_put; lia|]. intros c Hc. rewrite Z.div_1_r. split.
    - intros ->. rewrite <- LM at 3. rewrite bytes_put_in by lia. rewrite nth_put_in by (change (lenZ [C]) with 1; lia). rewrite Z.sub_diag. split; auto.
    - intros NE. split; [apply (at_put_out C dec b 1 m c num); lia|]. apply nth_put_out; change (lenZ [C]) with 1; lia. }
  destruct (SRC b ltac:(lia)) as [E|(z & (BZ & _ & DZ) & ZC & E & AP & P0 & P1 & SZ)]; rewrite E.
  - rewrite Z.eqb_refl. cbn [negb]. rewrite load_bytes_ok by lia. rewrite bind_done. change (slice (Z.to_nat (C * b)) (Z.to_nat C) ?l) with (bytes_at l (C * b) C).
    assert (LX : lenZ (bytes_at inp (C * b) C) = C) by (apply bytes_at_len; lia). rewrite store_bytes_ok by lia. rewrite bind_done. rewrite aset_put by (rewrite L1; lia). rewrite bind_done.
    change (splice ?M ?o ?w) with (put M o w). rewrite put_put by (change (lenZ [C]) with 1; lia).
    destruct (FIN (bytes_at inp (C * b) C)) as (F1 & F2 & F3); auto. { now apply is_bytes_slice. } eexists _, _. split; [reflexivity|]. split; [exact F1|]. split; [exact F2|]. split; [apply L1|exact F3].
  - assert (lenZ z <> SIZE_MAX) by (unfold SIZE_MAX, UINT_MAX in *; lia). destruct (Z.eqb_spec (lenZ z) SIZE_MAX) as [X|_]; [contradiction|]. cbn [negb].
    pose proof (lenZ_nonneg z). rewrite load_bytes_ok by lia. rewrite bind_done. rewrite load_bytes_ok by lia. rewrite bind_done. rewrite aget_ok by (specialize (L1 C); unfold lenZ in *; lia). rewrite bind_done.
    rewrite nth_put_in by (change (lenZ [C]) with 1; lia). rewrite Z.sub_diag. cbn [Z.to_nat nth]. set (p := nth (Z.to_nat b) pos 0) in *.
    change (slice (Z.to_nat p) (Z.to_nat (lenZ z)) src) with (bytes_at src p (lenZ z)). rewrite SZ. change (slice (Z.to_nat (C * b)) (Z.to_nat C) ?l) with (bytes_at l (C * b) C). set (cd := bytes_at dec (C * b) C).
    assert (BC : is_bytes cd) by now apply is_bytes_slice. assert (LC : lenZ cd = C) by (apply bytes_at_len; lia).
    specialize (DZ ZC (saddr + p) (daddr + C * b) cd AP ltac:(auto) BC LC).
    destruct (i_decompress I (saddr + p) (daddr + C * b) z cd C) as [[[r n] m]| |] eqn:ED; cbn [observed] in DZ; try discriminate.
    destruct (gc_frame _ gcD (saddr + p) (daddr + C * b) z cd C r n m BZ BC ltac:(lia) ltac:(unfold UINT_MAX in *; lia) ED) as (_ & BM & LM & _). assert (LM' : lenZ m = C) by (unfold lenZ in *; lia).
    injection DZ as -> -> F. assert (EM : m = bytes_at inp (C * b) C). { rewrite <- F. symmetry. apply firstn_all2. unfold lenZ in *. lia. }
    rewrite bind_done. rewrite aset_put by (rewrite L1; lia). rewrite bind_done. rewrite store_bytes_ok by lia. rewrite bind_done. change (splice ?M ?o ?w) with (put M o w). rewrite put_put by (change (lenZ [C]) with 1; lia).
    destruct (FIN m) as (F1 & F2 & F3); auto. eexists _, _. split; [reflexivity|]. split; [exact F1|]. split; [exact F2|]. split; [apply L1|exact F3].
Qed.
End Dec.

(** The end of the function. *)
Lemma total_ok out sizes : C * num < 2 ^ 64 -> lenZ sizes = num -> (forall c, 0 <= c < num -> compressed1 c (bytes_at out (C * c) C) (nth (Z.to_nat c) sizes 0)) ->
  total C sizes = sum (map (stored_size I) (chunks_of C inp)).
Proof.
  intros H64 LS CMP. assert (EN : lenZ inp / C = num) by (rewrite HL, Z.mul_comm; apply Z.div_mul; lia).
  set (g := fun n => if negb (n =? SIZE_MAX) then n else C). unfold total. change (fun t n => u64 (t + (if negb (n =? SIZE_MAX) then n else C))) with (fun t n => u64 (t + g n)).
  assert (EM : map g sizes = map (stored_size I) (chunks_of C inp)).
  { unfold chunks_of, chunk_numbers. rewrite EN, !map_map. apply (nth_ext _ _ 0 0); [rewrite !map_length, seq_length; unfold lenZ in *; lia|].
    intros j Hj. rewrite map_length in Hj. assert (Hc : 0 <= Z.of_nat j < num) by (unfold lenZ in *; lia).
    destruct (CMP _ Hc) as (z & (CZ & _) & Z1). rewrite Nat2Z.id in Z1.
    match goal with |- _ = nth j (map ?h _) 0 => rewrite (nth_indep (map h (seq 0 (Z.to_nat num))) 0 (h 0%nat)) by (rewrite map_length, seq_length; lia); rewrite (map_nth h), seq_nth by lia end.
    rewrite (nth_indep (map g sizes) 0 (g 0)) by (rewrite map_length; auto). rewrite map_nth.
    rewrite Nat.add_0_l. rewrite (coded_size I C _ z); auto.
    - unfold g. destruct Z1 as [(ZC & -> & _)|(ZC & ->)].
      + destruct (Z.leb_spec (lenZ z) C); [|lia]. destruct (Z.eqb_spec (lenZ z) SIZE_MAX); [unfold SIZE_MAX, UINT_MAX in *; lia|]. reflexivity.
      + destruct (Z.leb_spec (lenZ z) C); [lia|]. rewrite Z.eqb_refl. reflexivity.
    - now apply is_bytes_slice.
    - apply bytes_at_len; nia. }
  assert (GB : forall n, In n sizes -> 0 <= g n <= C).
  { intros n Hn. apply (In_nth _ _ 0) in Hn. destruct Hn as (j & Hj & <-). assert (Hc : 0 <= Z.of_nat j < num) by (unfold lenZ in *; lia).
    destruct (CMP _ Hc) as (z & _ & Z1). rewrite Nat2Z.id in Z1. unfold g. destruct (Z.eqb_spec (nth j sizes 0) SIZE_MAX); cbn [negb]; [lia|].
    destruct Z1 as [(ZC & -> & _)|(_ & X)]; [unfold lenZ in *; lia|contradiction]. }
  rewrite fold_sum, EM; [lia|intros; now apply GB|lia|]. rewrite Z.add_0_l. pose proof (sum_bound (map g sizes) C) as X. unfold lenZ in X. rewrite map_length in X.
  eapply Z.le_lt_trans; [apply X; intros n Hn; apply in_map_iff in Hn; destruct Hn as (q & <- & Hq); now apply GB|]. unfold lenZ in *. lia.
Qed.
Lemma finish_ok olen dec dsizes : C * num < 2 ^ 64 -> is_bytes dec -> lenZ dec = C * num -> lenZ dsizes = num ->
  (forall c, 0 <= c < num -> bytes_at dec (C * c) C = bytes_at inp (C * c) C /\ nth (Z.to_nat c) dsizes 0 = C) -> finish inp olen (dec, dsizes, true) = (true, Some olen, inp).
Proof.
  intros H64 BD LD LSD PDEC. assert (ED : dec = inp). { apply (chunks_all C num); auto; try lia. intros c Hc. now apply PDEC. }
  assert (EDS : dsizes = repeat C (Z.to_nat num)).
  { apply (nth_ext _ _ 0 0); [rewrite repeat_length; unfold lenZ in *; lia|]. intros j Hj. assert (Hc : 0 <= Z.of_nat j < num) by (unfold lenZ in *; lia).
    destruct (PDEC _ Hc) as [_ X]. rewrite Nat2Z.id in X. rewrite X, rep_nth; auto. lia. }
  unfold finish. cbn [negb]. rewrite (fold_sum (fun n => n)), map_id, EDS.
  2: { intros n Hn. rewrite EDS in Hn. apply repeat_spec in Hn. lia. }
  2: lia.
  2: { rewrite map_id, EDS. pose proof (sum_bound (repeat C (Z.to_nat num)) C) as X. unfold lenZ in X at 1. rewrite repeat_length in X. rewrite Z2Nat.id in X by lia. rewrite Z.add_0_l.
       eapply Z.le_lt_trans; [apply X; intros n Hn; apply repeat_spec in Hn; lia|lia]. }
  assert (SR : forall n, sum (repeat C n) = C * Z.of_nat n). { induction n as [|n IH]; [cbn; lia|]. cbn [repeat sum fold_right]. fold (sum (repeat C n)). lia. }
  rewrite SR, Z2Nat.id, Z.add_0_l by lia. rewrite HL, Z.eqb_refl. cbn [negb orb]. rewrite ED. replace (list_eqb inp inp) with true by (symmetry; now apply list_eqb_eq). reflexivity.
Qed.

(** The first loop. *)
Lemma first_loop corder junk : Permutation corder (chunk_numbers num) -> lenZ junk = num ->
  exists out sizes, run_batches (comp_one I C iaddr oaddr inp) corder (repeat 0 (Z.to_nat (num * C)), junk, true) = Done (out, sizes, true) /\ is_bytes out /\ lenZ out = C * num /\ lenZ sizes = num /\
  forall c, 0 <= c < num -> compressed1 c (bytes_at out (C * c) C) (nth (Z.to_nat c) sizes 0).
Proof.
  intros PC LJ. assert (Z0 : forall n, is_bytes (repeat 0 n)) by (intros; apply is_bytes_repeat; unfold is_byte; lia).
  destruct (numbers_perm _ _ PC) as [ND IN].
  destruct (run_ok C 1 num compressed1 (comp_one I C iaddr oaddr inp)) with (order := corder) (buf := repeat 0 (Z.to_nat (num * C))) (sizes := junk) (ok := true)
    as (out & sizes & -> & BO & LO & LS & P); auto.
  { intros. now apply comp_one_ok. }
  { intros b H. apply IN in H. lia. }
  { unfold lenZ. rewrite repeat_length. nia. }
  exists out, sizes. split; auto. split; auto. split; auto. split; auto. intros c Hc. apply (P c Hc). rewrite Z.div_1_r. now apply IN.
Qed.
(** The second loop and the end. *)
Lemma second_loop saddr src sizes pos dorder junk olen : C * num < 2 ^ 64 -> lenZ sizes = num -> lenZ pos = num ->
  (forall c, 0 <= c < num -> nth (Z.to_nat c) sizes 0 = SIZE_MAX \/
    exists z, coded I C (bytes_at inp (C * c) C) z /\ lenZ z <= C /\ nth (Z.to_nat c) sizes 0 = lenZ z /\ aligned I (saddr + nth (Z.to_nat c) pos 0) /\
      0 <= nth (Z.to_nat c) pos 0 /\ nth (Z.to_nat c) pos 0 + lenZ z <= lenZ src /\ bytes_at src (nth (Z.to_nat c) pos 0) (lenZ z) = z) ->
  Permutation dorder (chunk_numbers num) -> lenZ junk = num ->
  (s <- run_batches (decomp_one I C daddr inp saddr src sizes pos) dorder (repeat 0 (Z.to_nat (lenZ inp)), junk, true) ;; Done (finish inp olen s)) = Done (true, Some olen, inp).
Proof.
  intros H64 LS LP SRC PD LJ. assert (Z0 : forall n, is_bytes (repeat 0 n)) by (intros; apply is_bytes_repeat; unfold is_byte; lia).
  destruct (numbers_perm _ _ PD) as [ND IN].
  destruct (run_ok C 1 num (fun c w n => w = bytes_at inp (C * c) C /\ n = C) (decomp_one I C daddr inp saddr src sizes pos)) with (order := dorder) (buf := repeat 0 (Z.to_nat (lenZ inp))) (sizes := junk) (ok := true)
    as (dec & dsizes & -> & BD & LD & LSD & P); auto.
  { intros. now apply decomp_one_ok. }
  { intros b H. apply IN in H. lia. }
  { unfold lenZ in *. rewrite repeat_length. lia. }
  rewrite bind_done. f_equal. apply finish_ok; auto. intros c Hc. apply (P c Hc). rewrite Z.div_1_r. now apply IN.
Qed.

Lemma EN : lenZ inp / C = num.
Proof. rewrite HL, Z.mul_comm. apply Z.div_mul. lia. Qed.
Lemma map_mul_nth (l : list Z) j : (j < length l)%nat -> nth j (map (fun c => C * c) l) 0 = C * nth j l 0.
Proof. intros H. rewrite (nth_indep _ 0 (C * 0)) by (now rewrite map_length). apply (map_nth (fun c => C * c)). Qed.

Theorem single_ok caddr junk corder morder dorder : C * num < 2 ^ 64 -> lenZ (junk num) = num -> Permutation corder (chunk_numbers num) -> Permutation dorder (chunk_numbers num) ->
  single_core false I C iaddr oaddr daddr caddr inp junk corder morder dorder = Done (true, Some (sum (map (stored_size I) (chunks_of C inp))), inp).
Proof.
  intros H64 HJ PC PD. unfold single_core. rewrite EN. destruct (first_loop corder (junk num) PC HJ) as (out & sizes & -> & BO & LO & LS & CMP). rewrite bind_done. cbn [negb].
  assert (LF : length (from_to 0 num) = Z.to_nat num) by (unfold from_to; now rewrite map_length, seq_length).
  rewrite (second_loop oaddr out sizes (map (fun c => C * c) (from_to 0 num))); auto.
  - now rewrite (total_ok out sizes).
  - unfold lenZ. rewrite map_length, LF. lia.
  - intros c Hc. assert (NP : nth (Z.to_nat c) (map (fun c => C * c) (from_to 0 num)) 0 = C * c).
    { rewrite map_mul_nth by (rewrite LF; lia). f_equal. unfold from_to.
      rewrite (nth_indep _ 0 (0 + Z.of_nat 0)) by (rewrite map_length, seq_length; lia). rewrite (map_nth (fun i => 0 + Z.of_nat i)). rewrite seq_nth by lia. lia. }
    rewrite NP. destruct (CMP c Hc) as (z & (CZ & _) & [(ZC & N & F)|(_ & N)]); [right|now left]. exists z.
    split; auto. split; auto. split; auto. split; [now apply al_add|]. split; [nia|]. split; [nia|].
    etransitivity; [|exact F]. rewrite N. unfold bytes_at, slice. rewrite firstn_firstn. f_equal. lia.
Qed.

Theorem single_condense_ok caddr junk corder morder dorder : C * num < 2 ^ 64 -> (forall n, 0 <= n -> lenZ (junk n) = n) -> aligned I caddr ->
  Permutation corder (chunk_numbers num) -> Permutation morder (chunk_numbers num) -> Permutation dorder (chunk_numbers num) ->
  (forall c, 0 <= c < num -> exists z, coded I C (bytes_at inp (C * c) C) z /\ lenZ z <= C) ->
  single_core true I C iaddr oaddr daddr caddr inp junk corder morder dorder = Done (true, Some (sum (map (stored_size I) (chunks_of C inp))), inp).
Proof.
  intros H64 HJ AC PC PM PD FIT. unfold single_core. rewrite EN. destruct (first_loop corder (junk num) PC (HJ _ HN)) as (out & sizes & -> & BO & LO & LS & CMP). rewrite bind_done. cbn [negb].
  assert (UNIQ : forall x z z', is_bytes x -> lenZ x = C -> coded I C x z -> coded I C x z' -> lenZ z <= C -> lenZ z' <= C).
  { intros x z z' BX LX (_ & H & _) (_ & H' & _) L. specialize (H 0 0 x). specialize (H' 0 0 x). unfold aligned in *. rewrite Zmod_0_l in *. specialize (H eq_refl eq_refl BX LX). specialize (H' eq_refl eq_refl BX LX).
    destruct (Z.leb_spec (lenZ z) C); [|lia]. destruct (Z.leb_spec (lenZ z') C); auto. rewrite H in H'. discriminate. }
  assert (CMP' : forall c, 0 <= c < num -> exists z, coded I C (bytes_at inp (C * c) C) z /\ lenZ z mod i_preferred I = 0 /\ lenZ z <= C /\ nth (Z.to_nat c) sizes 0 = lenZ z /\ bytes_at out (C * c) (lenZ z) = z).
  { intros c Hc. assert (0 <= C * c /\ C * c + C <= C * num) by nia. destruct (CMP c Hc) as (z & (CZ & AZ) & H'). destruct (FIT c Hc) as (z' & CZ' & L).
    assert (LZ : lenZ z <= C) by (eapply (UNIQ (bytes_at inp (C * c) C) z' z); eauto; [now apply is_bytes_slice|apply bytes_at_len; lia]).
    destruct H' as [(ZC & N & F)|(? & _)]; [|lia]. exists z. split; auto. split; auto. split; auto. split; auto. etransitivity; [|exact F]. rewrite N. unfold bytes_at, slice. rewrite firstn_firstn. f_equal. lia. }
  assert (SZ : forall c, 0 <= c < num -> 0 <= nth (Z.to_nat c) sizes 0 <= C). { intros c Hc. destruct (CMP' c Hc) as (z & _ & _ & L & -> & _). unfold lenZ in *; lia. }
  assert (TS : total C sizes = sum sizes).
  { pose proof (sum_sizes C num out sizes LS SZ) as SS. unfold total.
    assert (EM : map (fun n => if negb (n =? SIZE_MAX) then n else C) sizes = sizes).
    { rewrite <- (map_id sizes) at 2. apply map_ext_in. intros n Hn. apply (sizes_in C num out sizes LS SZ) in Hn. destruct (Z.eqb_spec n SIZE_MAX); [unfold SIZE_MAX, UINT_MAX in *; lia|reflexivity]. }
    rewrite (fold_sum (fun n => if negb (n =? SIZE_MAX) then n else C)); rewrite ?EM; try lia. intros n Hn. apply (sizes_in C num out sizes LS SZ) in Hn. destruct (negb _); lia. }
  pose proof (sum_sizes C num out sizes LS SZ) as SS.
  destruct (numbers_perm _ _ PM) as [ND IN].
  destruct (condense_ok C num out sizes ltac:(lia) HN LO LS H64 SZ morder (junk (total C sizes))) as (cond & -> & LC & P); auto. { intros; now apply IN. } { rewrite TS. apply HJ. lia. }
  rewrite bind_done. rewrite (second_loop caddr cond sizes (positions sizes 0)); auto.
  - now rewrite (total_ok out sizes).
  - unfold lenZ. rewrite positions_len. exact LS.
  - intros c Hc. right. destruct (CMP' c Hc) as (z & CZ & AZ & ZC & N & F). exists z. split; auto. split; auto. split; auto.
    rewrite (pos_start C num out sizes LS H64 SZ c Hc). destruct (start_ok C num out sizes LS SZ c Hc) as [S1 S2]. rewrite N in S2.
    split; [|split; [lia|split; [lia|]]].
    + unfold aligned in *. rewrite Zplus_mod, AC, Z.add_0_l, Zmod_mod.
      assert (AL : forall k, (k <= length sizes)%nat -> sum (firstn k sizes) mod i_preferred I = 0).
      { induction k as [|k IH]; intros Hk; [apply Zmod_0_l|]. rewrite sum_step by lia. rewrite Zplus_mod, IH by lia. rewrite Z.add_0_l, Zmod_mod.
        destruct (CMP' (Z.of_nat k)) as (y & _ & AY & _ & E & _); [unfold lenZ in *; lia|]. rewrite Nat2Z.id in E. now rewrite E. }
      apply AL. unfold lenZ in *. lia.
    + destruct (P c Hc) as [Pa _]. rewrite N in Pa. rewrite Pa by (now apply IN). exact F.
Qed.

Theorem single_condense_undef caddr junk corder morder dorder c z : C * num < SIZE_MAX -> (forall n, 0 <= n -> lenZ (junk n) = n) ->
  Permutation corder (chunk_numbers num) -> Permutation morder (chunk_numbers num) -> 0 <= c < num -> coded I C (bytes_at inp (C * c) C) z -> C < lenZ z ->
  single_core true I C iaddr oaddr daddr caddr inp junk corder morder dorder = Undef.
Proof.
  intros H64 HJ PC PM Hc CZ L. unfold single_core. rewrite EN. destruct (first_loop corder (junk num) PC (HJ _ HN)) as (out & sizes & -> & BO & LO & LS & CMP). rewrite bind_done. cbn [negb].
  destruct (numbers_perm _ _ PM) as [ND IN]. rewrite (condense_undef C out sizes (positions sizes 0)) with (c := c); auto; try lia.
  - intros d Hd. destruct (CMP d ltac:(lia)) as (y & _ & [(_ & -> & _)|(_ & ->)]); [apply lenZ_nonneg|unfold SIZE_MAX; lia].
  - now apply IN.
  - assert (CB : 0 <= C * c /\ C * c + C <= C * num) by nia. destruct (CMP c Hc) as (y & (CY & _) & [(YC & _)|(_ & H')]); auto. exfalso.
    destruct CZ as (_ & H & _). destruct CY as (_ & H' & _). set (x := bytes_at inp (C * c) C) in *. assert (BX : is_bytes x) by now apply is_bytes_slice. assert (LX : lenZ x = C) by (apply bytes_at_len; lia).
    specialize (H 0 0 x). specialize (H' 0 0 x). unfold aligned in *. rewrite Zmod_0_l in *. specialize (H eq_refl eq_refl BX LX). specialize (H' eq_refl eq_refl BX LX).
    destruct (Z.leb_spec (lenZ z) C); [lia|]. destruct (Z.leb_spec (lenZ y) C); [|lia]. rewrite H in H'. discriminate.
Qed.
End Single.

(** * Batches *)
Lemma chunk_loop_bad call n istride ostride iaddr oaddr inp ilens j : 0 <= j < n -> n <= 2 ^ 32 -> nth (Z.to_nat j) ilens 0 <> SIZE_MAX -> load_bytes inp (u32 (j * istride)) (nth (Z.to_nat j) ilens 0) = Undef ->
  forall fuel i d ret rets out olens r, 0 <= i <= j -> chunk_loop call fuel n istride ostride iaddr oaddr inp ilens i (u32 (i * istride)) d ret rets out olens <> Done r.
Proof.
  intros Hj HN NM BAD. induction fuel as [|f IH]; intros i d ret rets out olens r Hi; cbn [chunk_loop]; (destruct (Z.ltb_spec i n); [|lia]); [discriminate|].
  destruct (aget ilens i) as [il| |] eqn:EA; try discriminate. rewrite bind_done.
  destruct (Z.eq_dec i j) as [->|NE].
  - assert (EI : il = nth (Z.to_nat j) ilens 0). { unfold aget in EA. destruct (_ && _); [|discriminate]. now injection EA. }
    rewrite EI. destruct (Z.eqb_spec (nth (Z.to_nat j) ilens 0) SIZE_MAX); [contradiction|]. rewrite BAD. discriminate.
  - assert (E1 : u32 (i + 1) = i + 1) by (unfold u32; apply Z.mod_small; lia). assert (E2 : u32 (u32 (i * istride) + istride) = u32 ((i + 1) * istride)).
    { unfold u32. rewrite Zplus_mod_idemp_l. f_equal. ring. }
    rewrite E1, E2. destruct (il =? SIZE_MAX); [apply IH; lia|].
    destruct (load_bytes inp _ il); try discriminate. rewrite bind_done. destruct (aget olens i); try discriminate. rewrite bind_done. destruct (_ >? _); [discriminate|].
    destruct (call _ _ _ _ _) as [[[r0 n0] m0]| |]; try discriminate. rewrite bind_done. cbv beta iota. destruct (aset rets i r0); try discriminate. rewrite bind_done. destruct (aset olens i n0); try discriminate. rewrite bind_done.
    apply IH. lia.
Qed.
Lemma run_bad body b : (forall s r, body b s <> Done r) -> forall order s r, In b order -> run_batches body order s <> Done r.
Proof.
  intros HB. induction order as [|c order IH]; intros s r I'; [destruct I'|]. cbn [run_batches]. destruct I' as [->|I'].
  - destruct (body b s) eqn:E; try discriminate. exfalso. eapply HB; eauto.
  - destruct (body c s); try discriminate. rewrite bind_done. now apply IH.
Qed.

Section Batches.
Variable I : implementation.
Variable C B : Z.
Hypothesis HC : 0 < C <= UINT_MAX.
Hypothesis HB : 0 < B.
Hypothesis HBC : B * C < 2 ^ 32.
Hypothesis HP : 0 < i_preferred I.
Hypothesis HCP : C mod i_preferred I = 0.
Hypothesis HCR : C mod i_required I = 0.
Hypothesis comp_single : as_single_calls (2 ^ 32) (i_compress I) (i_compress_chunked I).
Hypothesis decomp_single : as_single_calls (2 ^ 32) (i_decompress I) (i_decompress_chunked I).
Hypothesis codec : forall x, is_bytes x -> lenZ x = C -> exists z, coded I C x z.
Hypothesis comp_zero : forall n rets ia inp is il oa out os ol r a b c, i_compress_chunked I n rets ia inp is il oa out os ol = Done (r, a, b, c) -> r = 0.
Hypothesis decomp_chunked : i_decompress_chunked I = chunked (i_decompress I).
Variable iaddr oaddr daddr caddr : Z.
Hypothesis HI : aligned I iaddr.
Hypothesis HO : aligned I oaddr.
Variable inp : list Z.
Variable num : Z.
Hypothesis Hb : is_bytes inp.
Hypothesis HN : 0 <= num.
Hypothesis HL : lenZ inp = C * num.
Hypothesis H64 : C * num < SIZE_MAX.
Variable junk1 junk2 : Z -> list Z.
Hypothesis HJ1 : forall k, 0 <= k <= B -> lenZ (junk1 k) = k.
Hypothesis HJ2 : forall n, 0 <= n -> lenZ (junk2 n) = n.
Variable corder morder dorder : list Z.
Hypothesis PC : Permutation corder (batches B num).
Hypothesis PM : Permutation morder (chunk_numbers num).
Hypothesis PD : Permutation dorder (batches B num).

Lemma batches_first : exists out sizes,
  run_batches (comp_batch I C B iaddr oaddr inp num junk1) corder (repeat 0 (Z.to_nat (num * C)), junk2 num, true) = Done (out, sizes, true) /\ lenZ out = C * num /\ lenZ sizes = num /\
  forall c, 0 <= c < num -> compressed I C inp c (bytes_at out (C * c) C) (nth (Z.to_nat c) sizes 0).
Proof.
  assert (Z0 : forall n, is_bytes (repeat 0 n)) by (intros; apply is_bytes_repeat; unfold is_byte; lia).
  destruct (batches_perm B num HB corder PC) as (ND1 & IN1 & ALL1).
  destruct (run_ok C B num (compressed I C inp) (comp_batch I C B iaddr oaddr inp num junk1)) with (order := corder) (buf := repeat 0 (Z.to_nat (num * C))) (sizes := junk2 num) (ok := true)
    as (out & sizes & -> & BO & LO & LS & P); auto.
  { intros. eapply comp_batch_ok; eauto. }
  { unfold lenZ. rewrite repeat_length. nia. }
  exists out, sizes. split; auto. split; auto. split; auto. intros c Hc. apply (P c Hc); auto.
Qed.
Lemma coded_fits x z z' : is_bytes x -> lenZ x = C -> coded I C x z -> coded I C x z' -> lenZ z <= C -> lenZ z' = lenZ z.
Proof.
  intros BX LX (_ & H & _) (_ & H' & _) L. specialize (H 0 0 x). specialize (H' 0 0 x). unfold aligned in *. rewrite Zmod_0_l in *. specialize (H eq_refl eq_refl BX LX). specialize (H' eq_refl eq_refl BX LX).
  destruct (Z.leb_spec (lenZ z) C); [|lia]. destruct (Z.leb_spec (lenZ z') C); rewrite H in H'; [|discriminate]. now injection H'.
Qed.

(** The data of a chunk that cannot be compressed is not there. *)
Theorem batches_condense_undef c z : 0 <= c < num -> coded I C (bytes_at inp (C * c) C) z -> C < lenZ z ->
  condensed_core I C B iaddr oaddr daddr caddr inp junk1 junk2 corder morder dorder = Undef.
Proof.
  intros Hc CZ L. unfold condensed_core. rewrite HCR. change (0 =? 0) with true. cbn [negb]. rewrite andb_false_r. assert (EN : lenZ inp / C = num) by (rewrite HL, Z.mul_comm; apply Z.div_mul; lia). rewrite EN. destruct batches_first as (out & sizes & -> & LO & LS & CMP). rewrite bind_done. cbn [negb].
  destruct (numbers_perm _ _ PM) as [ND IN]. rewrite (condense_undef C out sizes (positions sizes 0)) with (c := c); auto; try lia.
  - intros d Hd. destruct (CMP d ltac:(lia)) as (y & _ & [(_ & -> & _)|(_ & ->)]); [apply lenZ_nonneg|unfold SIZE_MAX; lia].
  - now apply IN.
  - assert (CB : 0 <= C * c /\ C * c + C <= C * num) by nia. destruct (CMP c Hc) as (y & CY & [(YC & _)|(_ & H')]); auto. exfalso.
    assert (lenZ z = lenZ y); [|lia]. eapply (coded_fits (bytes_at inp (C * c) C)); eauto. { now apply is_bytes_slice. } apply bytes_at_len; lia.
Qed.

(** The last batch has two chunks or more, and one of them, not the last, gets smaller: the last is not where the library looks for it. *)
Theorem batches_condense_bad r : (forall c, 0 <= c < num -> exists z, coded I C (bytes_at inp (C * c) C) z /\ lenZ z <= C) ->
  (exists c z, 0 <= c /\ B * ((num - 1) / B) <= c < num - 1 /\ coded I C (bytes_at inp (C * c) C) z /\ lenZ z < C) ->
  condensed_core I C B iaddr oaddr daddr caddr inp junk1 junk2 corder morder dorder <> Done r.
Proof.
  intros FIT (c & z & C0 & Hc & CZ & L). unfold condensed_core. rewrite HCR. change (0 =? 0) with true. cbn [negb]. rewrite andb_false_r. assert (EN : lenZ inp / C = num) by (rewrite HL, Z.mul_comm; apply Z.div_mul; lia). rewrite EN. destruct batches_first as (out & sizes & -> & LO & LS & CMP). rewrite bind_done. cbn [negb].
  assert (CMP' : forall c z, 0 <= c < num -> coded I C (bytes_at inp (C * c) C) z -> lenZ z <= C -> nth (Z.to_nat c) sizes 0 = lenZ z).
  { intros d y Hd CY LY. assert (CB : 0 <= C * d /\ C * d + C <= C * num) by nia. destruct (CMP d Hd) as (y' & CY' & H'). assert (E : lenZ y' = lenZ y).
    { eapply (coded_fits (bytes_at inp (C * d) C)); eauto. { now apply is_bytes_slice. } apply bytes_at_len; lia. } destruct H' as [(_ & -> & _)|(X & _)]; [auto|lia]. }
  assert (SZ : forall c, 0 <= c < num -> 0 <= nth (Z.to_nat c) sizes 0 <= C).
  { intros d Hd. destruct (FIT d Hd) as (y & CY & LY). rewrite (CMP' d y Hd CY LY). split; [apply lenZ_nonneg|auto]. }
  assert (H64' : C * num < 2 ^ 64) by (unfold SIZE_MAX in *; lia).
  pose proof (sum_sizes C num out sizes LS SZ) as SS.
  assert (TS : total C sizes = sum sizes).
  { unfold total. assert (EM : map (fun n => if negb (n =? SIZE_MAX) then n else C) sizes = sizes).
    { rewrite <- (map_id sizes) at 2. apply map_ext_in. intros n Hn. apply (sizes_in C num out sizes LS SZ) in Hn. destruct (Z.eqb_spec n SIZE_MAX); [unfold SIZE_MAX, UINT_MAX in *; lia|reflexivity]. }
    rewrite (fold_sum (fun n => if negb (n =? SIZE_MAX) then n else C)); rewrite ?EM; try lia. intros n Hn. apply (sizes_in C num out sizes LS SZ) in Hn. destruct (negb _); lia. }
  destruct (numbers_perm _ _ PM) as [ND IN].
  destruct (condense_ok C num out sizes ltac:(lia) HN LO LS H64' SZ morder (junk2 (total C sizes))) as (cond & -> & LC & P); auto. { intros; now apply IN. } { rewrite TS. apply HJ2. lia. }
  rewrite bind_done. set (b := (num - 1) / B) in *. set (first := B * b) in *.
  pose proof (Z.div_mod (num - 1) B ltac:(lia)) as DM. pose proof (Z.mod_pos_bound (num - 1) B HB) as MB. fold b in DM. fold first in DM.
  assert (F0 : 0 <= b) by (apply Z.div_pos; lia). assert (F1 : 0 <= first) by (unfold first; nia). set (k := num - first) in *.
  assert (BK : batch_chunks B num first = k). { unfold batch_chunks. fold k. destruct (Z.ltb_spec k B); lia. }
  assert (INB : In b dorder). { apply (Permutation_in _ (Permutation_sym PD)). unfold batches. destruct (numbers_perm _ _ (Permutation_refl (chunk_numbers ((num + B - 1) / B)))) as [_ X]. apply X. split; auto.
    replace (num + B - 1) with (num - 1 + 1 * B) by ring. rewrite Z.div_add by lia. fold b. lia. }
  assert (BAD : forall s r, decomp_batch_condensed I C daddr inp B num junk1 caddr cond sizes (positions sizes 0) b s <> Done r).
  { intros [[dec dsizes] ok] r'. unfold decomp_batch_condensed. fold first. rewrite BK. rewrite aget_ok by (unfold lenZ in *; rewrite positions_len; lia). rewrite bind_done.
    rewrite (pos_start C num out sizes LS H64' SZ first) by lia. set (p := sum (firstn (Z.to_nat first) sizes)).
    destruct (start_ok C num out sizes LS SZ first ltac:(lia)) as [S1 S2]. fold p in S1, S2. pose proof (SZ first ltac:(lia)).
    destruct (store_bytes dsizes first _) as [ds| |]; try discriminate. rewrite bind_done. rewrite load_bytes_ok by lia. rewrite bind_done. rewrite load_bytes_ok by lia. rewrite bind_done.
    destruct (load_bytes dec _ _) as [cd| |]; try discriminate. rewrite bind_done. destruct (load_bytes ds first k) as [ol| |]; try discriminate. rewrite bind_done.
    rewrite decomp_chunked. unfold chunked. set (src := slice (Z.to_nat p) _ cond). set (il := slice (Z.to_nat first) _ sizes).
    assert (LSRC : lenZ src = lenZ cond - p) by (unfold src; pose proof (bytes_at_len cond p (lenZ cond - p)) as X; unfold bytes_at in X; apply X; lia).
    assert (NI : nth (Z.to_nat (k - 1)) il 0 = nth (Z.to_nat (num - 1)) sizes 0).
    { unfold il. pose proof (nth_bytes_at sizes first k (Z.to_nat (k - 1)) ltac:(lia)) as X. unfold bytes_at in X. rewrite X by (unfold lenZ in *; lia). f_equal. lia. }
    pose proof (SZ (num - 1) ltac:(lia)) as SL.
    match goal with |- bind ?x _ <> _ => assert (Q : forall r, x <> Done r) end.
    { intros rr. change (chunk_loop (i_decompress I) (S (Z.to_nat k)) k C C (caddr + p) (daddr + C * first) src il 0 (u32 (0 * C)) 0 0 (junk1 k) cd ol <> Done rr).
      apply (chunk_loop_bad (i_decompress I) k C C _ _ src il (k - 1)); try lia.
      - nia.
      - rewrite NI. unfold SIZE_MAX, UINT_MAX in *. lia.
      - rewrite NI. unfold u32. rewrite Z.mod_small by nia. unfold load_bytes. destruct (Z.leb_spec ((k - 1) * C + nth (Z.to_nat (num - 1)) sizes 0) (lenZ src)) as [LE|LE]; [|rewrite andb_false_r; reflexivity].
        exfalso. rewrite LSRC, LC in LE.
        (* the sum of the sizes of the batch *)
        assert (SUM : forall d, first <= d <= num - 1 -> sum (firstn (Z.to_nat d) sizes) + (if c <? d then 1 else 0) <= p + (d - first) * C).
        { intros d Hd. replace d with (first + Z.of_nat (Z.to_nat (d - first))) by lia. assert (Z.of_nat (Z.to_nat (d - first)) <= num - 1 - first) by lia. set (t := Z.to_nat (d - first)) in *. clearbody t. clear Hd d.
          induction t as [|t IH].
          - replace (first + Z.of_nat 0) with first by lia. fold p. destruct (Z.ltb_spec c first); lia.
          - specialize (IH ltac:(lia)). replace (Z.to_nat (first + Z.of_nat (S t))) with (S (Z.to_nat (first + Z.of_nat t))) by lia. rewrite sum_step by (unfold lenZ in *; lia).
            pose proof (SZ (first + Z.of_nat t) ltac:(lia)). destruct (Z.eq_dec (first + Z.of_nat t) c) as [EC|NC].
            + rewrite EC in *. rewrite (CMP' c z) in * by (auto; lia). destruct (Z.ltb_spec c c); [lia|]. destruct (Z.ltb_spec c (first + Z.of_nat (S t))); lia.
            + destruct (Z.ltb_spec c (first + Z.of_nat t)); destruct (Z.ltb_spec c (first + Z.of_nat (S t))); lia. }
        specialize (SUM (num - 1) ltac:(lia)). destruct (Z.ltb_spec c (num - 1)); [|lia].
        assert (ALL : sum sizes = sum (firstn (Z.to_nat (num - 1)) sizes) + nth (Z.to_nat (num - 1)) sizes 0).
        { rewrite <- sum_step by (unfold lenZ in *; lia). f_equal. symmetry. apply firstn_all2. unfold lenZ in *. lia. }
        nia. }
    destruct (chunk_loop _ _ _ _ _ _ _ _ _ _ _ _ _ _ _) as [x| |] eqn:E; try discriminate. exfalso. eapply Q; eauto. }
  pose proof (run_bad _ b BAD dorder) as R. destruct (run_batches _ dorder _) as [x| |] eqn:E; try discriminate. exfalso. eapply R; eauto.
Qed.
End Batches.

(** * The two implementations *)
(** The compressor can store the chunk [x] in as many bytes as it has. *)
Definition fits (I : implementation) (x : list Z) : Prop := exists n z, observed (i_compress I 0 0 x (repeat 0 (length x)) (lenZ x)) = Done (0, n, z).

Lemma coded_room I C x z : lenZ x = C -> 0 < C -> coded I C x z -> (fits I x <-> lenZ z <= C).
Proof.
  intros LX HC (_ & H & _). unfold fits. rewrite LX. specialize (H 0 0 (repeat 0 (length x))). unfold aligned in H. rewrite Zmod_0_l in H. rewrite H; auto.
  - destruct (Z.leb_spec (lenZ z) C); split; auto; [eauto| |lia]. intros (n & y & E). discriminate.
  - apply is_bytes_repeat. unfold is_byte. lia.
  - unfold lenZ in *. rewrite repeat_length. lia.
Qed.
Lemma sw_codec' e C x : 0 < C <= UINT_MAX -> is_bytes x -> lenZ x = C -> exists z, coded (sw842_implementation e) C x z /\ lenZ z mod i_preferred (sw842_implementation e) = 0.
Proof. intros HC Hx LX. destruct (sw_codec e C x HC Hx LX) as (z & Hz). exists z. split; auto. apply Z.mod_1_r. Qed.
Lemma opt_codec' e C x : 0 < C <= UINT_MAX -> C mod 8 = 0 -> is_bytes x -> lenZ x = C ->
  exists z, coded (optsw842_implementation e) C x z /\ lenZ z mod i_preferred (optsw842_implementation e) = 0.
Proof.
  intros HC C8 Hx LX. destruct (c17 x Hx ltac:(congruence)) as (z & BZ & VZ & Z8 & _ & H). { intros ->. unfold lenZ in LX. cbn in LX. lia. }
  exists z. split; auto. split; auto. unfold aligned. cbn [i_preferred optsw842_implementation]. split.
  - intros ia oa o HA HO Ho LO. cbn [i_compress optsw842_implementation]. unfold optsw842_compress_f. rewrite H by (auto; lia). reflexivity.
  - intros ZC ia oa o HA HO Ho LO. cbn [i_decompress optsw842_implementation]. unfold optsw842_decompress_f. rewrite <- LX at 2. apply c20; auto; try lia; try (unfold UINT_MAX in *; lia). split; [|lia].
    rewrite firstn_all2; auto. apply Nat2Z.inj_le. rewrite Nat2Z.inj_mul, Nat2Z.inj_div. change (Z.of_nat 8) with 8. fold (lenZ z). pose proof (Z.div_mod (lenZ z) 8 ltac:(lia)). lia.
Qed.
Lemma impl_facts e I C : In I [sw842_implementation e; optsw842_implementation e] -> 0 < C <= UINT_MAX -> C mod i_preferred I = 0 ->
  0 < i_preferred I /\ C mod i_required I = 0 /\ good_call (i_compress I) /\ good_call (i_decompress I) /\
  as_single_calls (2 ^ 32) (i_compress I) (i_compress_chunked I) /\ as_single_calls (2 ^ 32) (i_decompress I) (i_decompress_chunked I) /\
  (forall x, is_bytes x -> lenZ x = C -> exists z, coded I C x z /\ lenZ z mod i_preferred I = 0) /\
  (forall n rets ia inp is il oa out os ol r a b c, i_compress_chunked I n rets ia inp is il oa out os ol = Done (r, a, b, c) -> r = 0) /\
  i_decompress_chunked I = chunked (i_decompress I).
Proof.
  intros [<-|[<-|[]]] HC HCP; cbn [i_preferred i_required i_compress i_decompress i_compress_chunked i_decompress_chunked sw842_implementation optsw842_implementation] in *.
  - split; [lia|]. split; [apply Z.mod_1_r|]. split; [apply good_sw_compress|]. split; [apply good_sw_decompress|]. split; [apply (c28 e); left; reflexivity|]. split; [apply (c28 e); right; left; reflexivity|].
    split; [intros; now apply sw_codec'|]. split; [intros; eapply chunked_ret; eauto|reflexivity].
  - split; [lia|]. split; [apply Z.mod_1_r|]. split; [apply good_optsw_compress|]. split; [apply good_optsw_decompress|]. split; [apply (c28 e); right; right; left; reflexivity|].
    split; [apply (c28 e); right; right; right; left; reflexivity|]. split; [intros; now apply opt_codec'|]. split; [intros; eapply chunked_ret; eauto|reflexivity].
Qed.
Lemma in_chunks C inp num x : 0 < C -> lenZ inp = C * num -> 0 <= num -> In x (chunks_of C inp) <-> exists c, 0 <= c < num /\ x = bytes_at inp (C * c) C.
Proof.
  intros HC HL HN. assert (EN : lenZ inp / C = num) by (rewrite HL, Z.mul_comm; apply Z.div_mul; lia). unfold chunks_of. rewrite EN. rewrite in_map_iff.
  destruct (numbers_perm _ _ (Permutation_refl (chunk_numbers num))) as [_ X]. split; intros (c & H); exists c; [destruct H as [<- H]|destruct H as [H ->]]; rewrite ?X in *; auto.
Qed.
(** The arguments of the functions: the implementation, sizes and alignments; every order. *)
Definition setting (e : endian) (I : implementation) (C iaddr oaddr daddr caddr : Z) (inp : list Z) (num : Z) : Prop :=
  In I [sw842_implementation e; optsw842_implementation e] /\ 0 < C <= UINT_MAX /\ C mod i_preferred I = 0 /\
  iaddr mod i_preferred I = 0 /\ oaddr mod i_preferred I = 0 /\ daddr mod i_preferred I = 0 /\ caddr mod i_preferred I = 0 /\
  is_bytes inp /\ 0 <= num /\ lenZ inp = C * num /\ C * num < SIZE_MAX.

Theorem variant_single e I C iaddr oaddr daddr caddr inp num junk corder morder dorder : setting e I C iaddr oaddr daddr caddr inp num -> lenZ (junk num) = num ->
  Permutation corder (chunk_numbers num) -> Permutation dorder (chunk_numbers num) ->
  single_core false I C iaddr oaddr daddr caddr inp junk corder morder dorder = Done (true, Some (sum (map (stored_size I) (chunks_of C inp))), inp).
Proof.
  intros (HI & HC & HCP & A1 & A2 & A3 & A4 & Hb & HN & HL & H64) HJ P1 P2. destruct (impl_facts e I C HI HC HCP) as (F1 & F2 & F3 & F4 & F5 & F6 & F7 & F8 & F9).
  eapply single_ok; eauto. unfold SIZE_MAX in *. lia.
Qed.
Theorem variant_condense e I C iaddr oaddr daddr caddr inp num junk corder morder dorder : setting e I C iaddr oaddr daddr caddr inp num -> (forall n, 0 <= n -> lenZ (junk n) = n) ->
  Permutation corder (chunk_numbers num) -> Permutation morder (chunk_numbers num) -> Permutation dorder (chunk_numbers num) ->
  (forall x, In x (chunks_of C inp) -> fits I x) ->
  single_core true I C iaddr oaddr daddr caddr inp junk corder morder dorder = Done (true, Some (sum (map (stored_size I) (chunks_of C inp))), inp).
Proof.
  intros (HI & HC & HCP & A1 & A2 & A3 & A4 & Hb & HN & HL & H64) HJ P1 P2 P3 FIT. destruct (impl_facts e I C HI HC HCP) as (F1 & F2 & F3 & F4 & F5 & F6 & F7 & F8 & F9).
  eapply single_condense_ok; eauto. { unfold SIZE_MAX in *. lia. }
  intros c Hc. assert (CB : 0 <= C * c /\ C * c + C <= C * num) by nia. assert (LX : lenZ (bytes_at inp (C * c) C) = C) by (apply bytes_at_len; lia).
  destruct (F7 (bytes_at inp (C * c) C)) as (z & CZ & _); auto. { now apply is_bytes_slice. } exists z. split; auto. apply (coded_room I C _ _ LX); auto; try lia. apply FIT. apply (in_chunks C inp num); eauto; lia.
Qed.
Theorem variant_condense_undef e I C iaddr oaddr daddr caddr inp num junk corder morder dorder : setting e I C iaddr oaddr daddr caddr inp num -> (forall n, 0 <= n -> lenZ (junk n) = n) ->
  Permutation corder (chunk_numbers num) -> Permutation morder (chunk_numbers num) ->
  (exists x, In x (chunks_of C inp) /\ ~ fits I x) ->
  single_core true I C iaddr oaddr daddr caddr inp junk corder morder dorder = Undef.
Proof.
  intros (HI & HC & HCP & A1 & A2 & A3 & A4 & Hb & HN & HL & H64) HJ P1 P2 (x & IX & NF). destruct (impl_facts e I C HI HC HCP) as (F1 & F2 & F3 & F4 & F5 & F6 & F7 & F8 & F9).
  apply (in_chunks C inp num) in IX; auto; try lia. destruct IX as (c & Hc & ->). assert (CB : 0 <= C * c /\ C * c + C <= C * num) by nia. assert (LX : lenZ (bytes_at inp (C * c) C) = C) by (apply bytes_at_len; lia).
  destruct (F7 (bytes_at inp (C * c) C)) as (z & CZ & _); auto. { now apply is_bytes_slice. }
  eapply single_condense_undef with (c := c) (z := z); eauto. destruct (Z.le_gt_cases (lenZ z) C) as [L|L]; auto. exfalso. apply NF. apply (coded_room I C _ z LX); auto; lia.
Qed.
Theorem variant_batches_undef e I C B iaddr oaddr daddr caddr inp num junk1 junk2 corder morder dorder : setting e I C iaddr oaddr daddr caddr inp num -> 0 < B -> B * C < 2 ^ 32 ->
  (forall n, 0 <= n -> lenZ (junk1 n) = n) -> (forall n, 0 <= n -> lenZ (junk2 n) = n) ->
  Permutation corder (batches B num) -> Permutation morder (chunk_numbers num) ->
  (exists x, In x (chunks_of C inp) /\ ~ fits I x) ->
  condensed_core I C B iaddr oaddr daddr caddr inp junk1 junk2 corder morder dorder = Undef.
Proof.
  intros (HI & HC & HCP & A1 & A2 & A3 & A4 & Hb & HN & HL & H64) HB HBC HJ1 HJ2 P1 P2 (x & IX & NF). destruct (impl_facts e I C HI HC HCP) as (F1 & F2 & F3 & F4 & F5 & F6 & F7 & F8 & F9).
  apply (in_chunks C inp num) in IX; auto; try lia. destruct IX as (c & Hc & ->). assert (CB : 0 <= C * c /\ C * c + C <= C * num) by nia. assert (LX : lenZ (bytes_at inp (C * c) C) = C) by (apply bytes_at_len; lia).
  destruct (F7 (bytes_at inp (C * c) C)) as (z & CZ & _); auto. { now apply is_bytes_slice. }
  eapply batches_condense_undef with (c := c) (z := z) (num := num); eauto; [intros x BX LX'; destruct (F7 x BX LX') as (y & Y & _); eauto|intros; apply HJ1; lia|].
  destruct (Z.le_gt_cases (lenZ z) C) as [L|L]; auto. exfalso. apply NF. apply (coded_room I C _ z LX); auto; lia.
Qed.
Theorem variant_batches_bad e I C B iaddr oaddr daddr caddr inp num junk1 junk2 corder morder dorder r : setting e I C iaddr oaddr daddr caddr inp num -> 0 < B -> B * C < 2 ^ 32 ->
  (forall n, 0 <= n -> lenZ (junk1 n) = n) -> (forall n, 0 <= n -> lenZ (junk2 n) = n) ->
  Permutation corder (batches B num) -> Permutation morder (chunk_numbers num) -> Permutation dorder (batches B num) ->
  (exists c, 0 <= c /\ B * ((num - 1) / B) <= c < num - 1 /\ stored_size I (bytes_at inp (C * c) C) < C) ->
  condensed_core I C B iaddr oaddr daddr caddr inp junk1 junk2 corder morder dorder <> Done r.
Proof.
  intros S HB HBC HJ1 HJ2 P1 P2 P3 (c & C0 & Hc & SS). pose proof S as (HI & HC & HCP & A1 & A2 & A3 & A4 & Hb & HN & HL & H64). destruct (impl_facts e I C HI HC HCP) as (F1 & F2 & F3 & F4 & F5 & F6 & F7 & F8 & F9).
  assert (LEN : forall d, 0 <= d < num -> lenZ (bytes_at inp (C * d) C) = C) by (intros; apply bytes_at_len; nia). assert (BY : forall d, is_bytes (bytes_at inp (C * d) C)) by (intros; now apply is_bytes_slice).
  assert (D : (exists d z, 0 <= d < num /\ coded I C (bytes_at inp (C * d) C) z /\ C < lenZ z) \/ forall d, 0 <= d < num -> exists z, coded I C (bytes_at inp (C * d) C) z /\ lenZ z <= C).
  { assert (X : forall m : nat, Z.of_nat m <= num -> (exists d z, 0 <= d < num /\ coded I C (bytes_at inp (C * d) C) z /\ C < lenZ z) \/ forall d, 0 <= d < Z.of_nat m -> exists z, coded I C (bytes_at inp (C * d) C) z /\ lenZ z <= C).
    { induction m as [|m IH]; intros Hm; [right; intros; lia|]. destruct (IH ltac:(lia)) as [E|A]; [now left|]. destruct (F7 _ (BY (Z.of_nat m)) (LEN (Z.of_nat m) ltac:(lia))) as (z & CZ & _).
      destruct (Z.le_gt_cases (lenZ z) C) as [L|L]; [right|left; exists (Z.of_nat m), z; split; [lia|auto]]. intros d Hd. destruct (Z.eq_dec d (Z.of_nat m)) as [->|]; [eauto|apply A; lia]. }
    destruct (X (Z.to_nat num) ltac:(lia)) as [E|A]; [now left|right]. intros d Hd. apply A. lia. }
  destruct D as [(d & z & Hd & CZ & L)|FIT].
  - rewrite (variant_batches_undef e I C B iaddr oaddr daddr caddr inp num); auto; [discriminate|]. exists (bytes_at inp (C * d) C). split; [apply (in_chunks C inp num); eauto; lia|]. rewrite (coded_room I C _ z (LEN d Hd)) by (auto; lia). lia.
  - eapply batches_condense_bad with (num := num); eauto; [intros x BX LX'; destruct (F7 x BX LX') as (y & Y & _); eauto|intros; apply HJ1; lia|].
    destruct (FIT c ltac:(lia)) as (z & CZ & L). exists c, z. split; auto. split; auto. split; auto. rewrite (coded_size I C _ z) in SS; auto; [|apply LEN; lia]. destruct (Z.leb_spec (lenZ z) C); lia.
Qed.

(** * Whatever the library does *)
Lemma finish_honest inp olen s o d : finish inp olen s = (true, o, d) -> d = inp.
Proof.
  destruct s as [[dec ds] ok]. unfold finish. destruct ok; [|discriminate]. cbn [negb]. destruct (negb _); [discriminate|]. cbn [orb]. destruct (list_eqb inp dec) eqn:E; [|discriminate]. cbn [negb].
  intros H. injection H as _ <-. now apply list_eqb_eq in E.
Qed.
Theorem variants_honest I C B iaddr oaddr daddr caddr inp junk1 junk2 corder morder dorder o d :
  (exists cond, single_core cond I C iaddr oaddr daddr caddr inp junk2 corder morder dorder = Done (true, o, d)) \/
  condensed_core I C B iaddr oaddr daddr caddr inp junk1 junk2 corder morder dorder = Done (true, o, d) -> d = inp.
Proof.
  intros [(cond & H)|H]; revert H; [unfold single_core|unfold condensed_core; destruct ((B >? 1) && _); [discriminate|]];
    (destruct (run_batches _ corder _) as [[[out sizes] ok]| |]; try discriminate; rewrite bind_done; destruct ok; [|discriminate]; cbn [negb]); [destruct cond|].
  all: try (destruct (condense _ _ _ _ _ _); try discriminate; rewrite bind_done).
  all: destruct (run_batches _ dorder _) as [s| |]; try discriminate; rewrite bind_done; intros H; injection H as H; eapply finish_honest; eauto.
Qed.
