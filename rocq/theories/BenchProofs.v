(** The sample program for the CPU: proofs. *)
From Coq Require Import ZArith List Bool Lia Permutation.
From Verif Require Import SpecBits SpecCrc Spec842 SpecCalls CBase BitsLemmas
  SerialCompModel SerialDecompModel SerialDecomp SerialFacts SerialProps OptCompModel OptDecompModel OptProps OclModel SpecOcl OclItems OclProps InplaceProofs InplaceItems
  ChunkedModel SpecChunked ChunkedProofs SampleProofs BenchModel SpecBench.
Import ListNotations.
Open Scope Z_scope.

(** * Chunks of a buffer *)
Lemma at_put_in C out first k w c : 0 < C -> 0 <= first <= c -> c < first + k -> lenZ w = C * k -> C * (first + k) <= lenZ out ->
  bytes_at (put out (Z.to_nat (C * first)) w) (C * c) C = bytes_at w (C * (c - first)) C.
Proof.
  intros HC H1 H2 HW HO. assert (0 <= C * first /\ C * first <= C * c /\ C * c + C <= C * (first + k)) by nia. assert (0 <= C * (c - first) /\ C * (c - first) + C <= C * k) by nia.
  assert (PL : length (put out (Z.to_nat (C * first)) w) = length out) by (apply put_length; unfold lenZ in *; nia).
  apply (nth_ext _ _ 0 0). { pose proof (bytes_at_len (put out (Z.to_nat (C * first)) w) (C * c) C). pose proof (bytes_at_len w (C * (c - first)) C). unfold lenZ in *. lia. }
  intros p Hp. pose proof (bytes_at_len (put out (Z.to_nat (C * first)) w) (C * c) C ltac:(lia) ltac:(lia) ltac:(unfold lenZ in *; lia)) as L. unfold lenZ in *.
  rewrite !nth_bytes_at by lia. rewrite put_nth by lia.
  destruct (Nat.leb_spec (Z.to_nat (C * first)) (Z.to_nat (C * c) + p)); [|lia]. destruct (Nat.ltb_spec (Z.to_nat (C * c) + p) (Z.to_nat (C * first) + length w)); [|lia].
  cbn [andb]. f_equal. lia.
Qed.
Lemma at_put_out C out first k w c num : 0 < C -> 0 <= first -> 0 <= c < num -> c < first \/ first + k <= c -> 0 <= k -> lenZ w = C * k -> C * (first + k) <= lenZ out -> C * num <= lenZ out ->
  bytes_at (put out (Z.to_nat (C * first)) w) (C * c) C = bytes_at out (C * c) C.
Proof.
  intros HC HF Hc H2 HK HW HO HN. assert (0 <= C * first) by nia. assert (0 <= C * c /\ C * c + C <= C * num) by nia.
  assert (PL : length (put out (Z.to_nat (C * first)) w) = length out) by (apply put_length; unfold lenZ in *; nia).
  apply bytes_at_same; try lia. { unfold lenZ in *. lia. }
  intros q Hq. rewrite put_nth by (unfold lenZ in *; nia).
  destruct (Nat.leb_spec (Z.to_nat (C * first)) q); auto. destruct (Nat.ltb_spec q (Z.to_nat (C * first) + length w)); auto. exfalso. unfold lenZ in *. nia.
Qed.
Lemma nth_put_in l first w c : 0 <= first <= c -> c < first + lenZ w -> first + lenZ w <= lenZ l -> nth (Z.to_nat c) (put l (Z.to_nat first) w) 0 = nth (Z.to_nat (c - first)) w 0.
Proof.
  intros. unfold lenZ in *. rewrite put_nth by lia. destruct (Nat.leb_spec (Z.to_nat first) (Z.to_nat c)); [|lia]. destruct (Nat.ltb_spec (Z.to_nat c) (Z.to_nat first + length w)); [|lia].
  cbn [andb]. f_equal. lia.
Qed.
Lemma nth_put_out l first w c : 0 <= first -> 0 <= c -> c < first \/ first + lenZ w <= c -> first + lenZ w <= lenZ l -> nth (Z.to_nat c) (put l (Z.to_nat first) w) 0 = nth (Z.to_nat c) l 0.
Proof.
  intros. unfold lenZ in *. rewrite put_nth by lia. destruct (Nat.leb_spec (Z.to_nat first) (Z.to_nat c)); auto. destruct (Nat.ltb_spec (Z.to_nat c) (Z.to_nat first + length w)); auto; lia.
Qed.
Lemma lenZ_put l first w : 0 <= first -> first + lenZ w <= lenZ l -> lenZ (put l (Z.to_nat first) w) = lenZ l.
Proof. intros. unfold lenZ in *. rewrite put_length; lia. Qed.
Lemma put_put l first w w' : lenZ w = lenZ w' -> 0 <= first -> first + lenZ w <= lenZ l -> put (put l (Z.to_nat first) w) (Z.to_nat first) w' = put l (Z.to_nat first) w'.
Proof.
  intros. unfold lenZ in *. apply (nth_ext _ _ 0 0); [rewrite !put_length; rewrite ?put_length; lia|]. intros p Hp. rewrite !put_nth by (rewrite ?put_length; lia).
  replace (length w') with (length w) by lia. destruct (_ && _); reflexivity.
Qed.

Lemma rep_nth (v : Z) n : forall j, (j < n)%nat -> nth j (repeat v n) 0 = v.
Proof. induction n as [|n IH]; intros [|j] H; try lia; cbn; auto. apply IH. lia. Qed.

(** * The loops over the batches *)
Section Run.
Variable C B num : Z.
Hypothesis HC : 0 < C.
Hypothesis HB : 0 < B.
Hypothesis HN : 0 <= num.

Lemma batch_range b c : 0 <= b -> B * b < num -> 0 <= c < num ->
  let k := batch_chunks B num (B * b) in 0 < k <= B /\ B * b + k <= num /\ (c / B = b <-> B * b <= c < B * b + k).
Proof.
  intros Hb HL Hc. cbv zeta. unfold batch_chunks. pose proof (Z.div_mod c B ltac:(lia)). pose proof (Z.mod_pos_bound c B HB).
  destruct (Z.ltb_spec (num - B * b) B); (split; [lia|]; split; [lia|]; split; [intros <-; nia|intros; nia]).
Qed.

Variable Q : Z -> list Z -> Z -> Prop.
Lemma run_ok body :
  (forall b buf sizes ok, 0 <= b -> B * b < num -> is_bytes buf -> lenZ buf = C * num -> lenZ sizes = num ->
    exists buf' sizes', body b (buf, sizes, ok) = Done (buf', sizes', ok) /\ is_bytes buf' /\ lenZ buf' = C * num /\ lenZ sizes' = num /\
    forall c, 0 <= c < num ->
      (c / B = b -> Q c (bytes_at buf' (C * c) C) (nth (Z.to_nat c) sizes' 0)) /\
      (c / B <> b -> bytes_at buf' (C * c) C = bytes_at buf (C * c) C /\ nth (Z.to_nat c) sizes' 0 = nth (Z.to_nat c) sizes 0)) ->
  forall order buf sizes ok, NoDup order -> (forall b, In b order -> 0 <= b /\ B * b < num) -> is_bytes buf -> lenZ buf = C * num -> lenZ sizes = num ->
  exists buf' sizes', run_batches body order (buf, sizes, ok) = Done (buf', sizes', ok) /\ is_bytes buf' /\ lenZ buf' = C * num /\ lenZ sizes' = num /\
    forall c, 0 <= c < num ->
      (In (c / B) order -> Q c (bytes_at buf' (C * c) C) (nth (Z.to_nat c) sizes' 0)) /\
      (~ In (c / B) order -> bytes_at buf' (C * c) C = bytes_at buf (C * c) C /\ nth (Z.to_nat c) sizes' 0 = nth (Z.to_nat c) sizes 0).
Proof.
  intros HBD. induction order as [|b order IH]; intros buf sizes ok ND IN Hb LB LS; cbn [run_batches].
  - exists buf, sizes. split; auto. split; auto. split; auto. split; auto. intros c Hc. split; [intros []|auto].
  - apply NoDup_cons_iff in ND. destruct ND as [NI ND']. destruct (IN b (or_introl eq_refl)) as [B0 B1].
    destruct (HBD b buf sizes ok B0 B1 Hb LB LS) as (buf1 & sizes1 & -> & b1 & L1 & S1 & P1). rewrite bind_done.
    destruct (IH buf1 sizes1 ok ND' ltac:(intros; apply IN; now right) b1 L1 S1) as (buf2 & sizes2 & -> & b2 & L2 & S2 & P2).
    exists buf2, sizes2. split; auto. split; auto. split; auto. split; auto. intros c Hc. destruct (P1 c Hc) as [P1a P1b]. destruct (P2 c Hc) as [P2a P2b]. split.
    + intros HI. destruct (in_dec Z.eq_dec (c / B) order) as [i|n]; auto. destruct HI as [E|HI]; [|contradiction]. destruct (P2b n) as [-> ->]. auto.
    + intros HI. assert (c / B <> b) by (intros E; apply HI; left; auto). assert (~ In (c / B) order) by (intros E; apply HI; right; auto).
      destruct (P2b H0) as [-> ->]. auto.
Qed.
Lemma batches_perm order : Permutation order (batches B num) -> NoDup order /\ (forall b, In b order -> 0 <= b /\ B * b < num) /\ forall c, 0 <= c < num -> In (c / B) order.
Proof.
  intros P. destruct (numbers_perm _ _ P) as [ND IN]. split; auto.
  pose proof (Z.div_mod (num + B - 1) B ltac:(lia)). pose proof (Z.mod_pos_bound (num + B - 1) B HB). split.
  - intros b Hb. apply IN in Hb. split; [lia|]. nia.
  - intros c Hc. apply IN. pose proof (Z.div_mod c B ltac:(lia)). pose proof (Z.mod_pos_bound c B HB). split; [apply Z.div_pos; lia|]. nia.
Qed.
End Run.

(** * The two iterations *)
Section Codec.
Variable I : implementation.
Variable C B : Z.
Hypothesis HC : 0 < C <= UINT_MAX.
Hypothesis HB : 0 < B.
Hypothesis HBC : B * C < 2 ^ 32.
Hypothesis HP : 0 < i_preferred I.
Hypothesis HCP : C mod i_preferred I = 0.
Hypothesis comp_single : as_single_calls (2 ^ 32) (i_compress I) (i_compress_chunked I).
Hypothesis decomp_single : as_single_calls (2 ^ 32) (i_decompress I) (i_decompress_chunked I).
Definition aligned (a : Z) : Prop := a mod i_preferred I = 0.
Definition coded (x z : list Z) : Prop :=
  is_bytes z /\
  (forall ia oa o, aligned ia -> aligned oa -> is_bytes o -> lenZ o = C ->
     observed (i_compress I ia oa x o C) = if lenZ z <=? C then Done (0, lenZ z, z) else Done (- ENOSPC, 0, [])) /\
  (lenZ z <= C -> forall ia oa o, aligned ia -> aligned oa -> is_bytes o -> lenZ o = C -> observed (i_decompress I ia oa z o C) = Done (0, C, x)).
Hypothesis codec : forall x, is_bytes x -> lenZ x = C -> exists z, coded x z.
(** The chunked functions report success in total. *)
Hypothesis comp_zero : forall n rets ia inp is il oa out os ol r a b c, i_compress_chunked I n rets ia inp is il oa out os ol = Done (r, a, b, c) -> r = 0.
Hypothesis decomp_zero : forall n rets ia inp is il oa out os ol r a b c, i_decompress_chunked I n rets ia inp is il oa out os ol = Done (r, a, b, c) -> r = 0.

Lemma aligned_add a c : aligned a -> aligned (a + C * c).
Proof. unfold aligned. intros. rewrite <- Zplus_mod_idemp_r, <- Zmult_mod_idemp_l, HCP, Z.mul_0_l, Zmod_0_l, Z.add_0_r. auto. Qed.

Variable iaddr oaddr daddr : Z.
Hypothesis HI : aligned iaddr.
Hypothesis HO : aligned oaddr.
Hypothesis HD : aligned daddr.
Variable inp : list Z.
Variable num : Z.
Hypothesis Hb : is_bytes inp.
Hypothesis HN : 0 <= num.
Hypothesis HL : lenZ inp = C * num.
Variable junk : Z -> list Z.
Hypothesis HJ : forall k, 0 <= k <= B -> lenZ (junk k) = k.

Definition compressed (c : Z) (w : list Z) (n : Z) : Prop :=
  exists z, coded (bytes_at inp (C * c) C) z /\
  ((lenZ z <= C /\ n = lenZ z /\ firstn (Z.to_nat n) w = z) \/ (C < lenZ z /\ n = SIZE_MAX)).

Lemma mark_full_nth rets : forall sizes j, length rets = length sizes -> (j < length sizes)%nat ->
  nth j (mark_full 0 rets sizes) 0 = if nth j rets 0 =? - ENOSPC then SIZE_MAX else nth j sizes 0.
Proof.
  induction rets as [|r rets IH]; intros [|n sizes] j HL' HJ'; cbn [length] in *; try lia. cbn [mark_full]. destruct j as [|j]; [reflexivity|]. cbn [nth]. apply IH; lia.
Qed.
Lemma mark_full_len rets : forall sizes, length rets = length sizes -> length (mark_full 0 rets sizes) = length sizes.
Proof. induction rets as [|r rets IH]; intros [|n sizes] HL'; cbn [length mark_full] in *; try lia. f_equal. apply IH. lia. Qed.

Lemma slice_chunk (l : list Z) p k j : (j < Z.to_nat k)%nat -> 0 <= p -> C * p + C * k <= lenZ l ->
  slice (Z.to_nat (Z.of_nat j * C)) (Z.to_nat C) (slice (Z.to_nat (C * p)) (Z.to_nat (C * k)) l) = bytes_at l (C * (p + Z.of_nat j)) C.
Proof.
  intros Hj Hp HLl. assert (Z.of_nat j * C + C <= C * k) by nia. unfold bytes_at, slice. rewrite skipn_firstn_comm, firstn_firstn, skipn_skipn. f_equal; [lia|]. f_equal. nia.
Qed.

Lemma comp_batch_ok b out sizes ok : 0 <= b -> B * b < num -> is_bytes out -> lenZ out = C * num -> lenZ sizes = num ->
  exists out' sizes', comp_batch I C B iaddr oaddr inp num junk b (out, sizes, ok) = Done (out', sizes', ok) /\ is_bytes out' /\ lenZ out' = C * num /\ lenZ sizes' = num /\
    forall c, 0 <= c < num ->
      (c / B = b -> compressed c (bytes_at out' (C * c) C) (nth (Z.to_nat c) sizes' 0)) /\
      (c / B <> b -> bytes_at out' (C * c) C = bytes_at out (C * c) C /\ nth (Z.to_nat c) sizes' 0 = nth (Z.to_nat c) sizes 0).
Proof.
  intros Hb0 Hb1 Ho LO LS. pose proof (batch_range B num HB HN b) as BR. cbv zeta in BR. destruct (BR (B * b) Hb0 Hb1 ltac:(nia)) as (K1 & K2 & _).
  unfold comp_batch. set (first := B * b) in *. set (k := batch_chunks B num first) in *. assert (F0 : 0 <= first) by (unfold first; nia).
  assert (CF : 0 <= C * first /\ 0 <= C * k /\ C * first + C * k <= C * num) by nia.
  assert (LR : lenZ (repeat C (Z.to_nat k)) = k) by (unfold lenZ; rewrite repeat_length; lia).
  rewrite store_bytes_ok by lia. rewrite bind_done. change (splice ?M ?o ?w) with (put M o w). set (sizes1 := put sizes (Z.to_nat first) (repeat C (Z.to_nat k))).
  assert (LS1 : lenZ sizes1 = num) by (unfold sizes1; rewrite lenZ_put; lia).
  rewrite load_bytes_ok by lia. rewrite bind_done. rewrite load_bytes_ok by lia. rewrite bind_done. rewrite load_bytes_ok by lia. rewrite bind_done.
  set (cin := slice (Z.to_nat (C * first)) (Z.to_nat (C * k)) inp). set (cout := slice (Z.to_nat (C * first)) (Z.to_nat (C * k)) out).
  assert (LI : lenZ cin = C * k) by (unfold cin; pose proof (bytes_at_len inp (C * first) (C * k)) as X; unfold bytes_at in X; apply X; lia).
  assert (LCO : lenZ cout = C * k) by (unfold cout; pose proof (bytes_at_len out (C * first) (C * k)) as X; unfold bytes_at in X; apply X; lia).
  assert (BI : is_bytes cin) by now apply is_bytes_slice. assert (BO : is_bytes cout) by now apply is_bytes_slice.
  assert (EO : slice (Z.to_nat first) (Z.to_nat k) sizes1 = repeat C (Z.to_nat k)).
  { unfold sizes1. rewrite put_at by (unfold lenZ in *; rewrite ?repeat_length; lia). rewrite skipn_all2; [apply app_nil_r|]. rewrite repeat_length, slice_length; unfold lenZ in *; lia. }
  rewrite EO. set (lens := repeat C (Z.to_nat k)) in *.
  assert (NL : forall j, (j < Z.to_nat k)%nat -> nth j lens 0 = C) by (intros; unfold lens; now apply rep_nth).
  assert (LV : forall j, live k lens j <-> (j < Z.to_nat k)%nat).
  { intros j. unfold live. split; [tauto|]. intros Hj. split; auto. rewrite NL by auto. unfold SIZE_MAX, UINT_MAX in *. lia. }
  assert (SG : forall j, (j < Z.to_nat k)%nat -> exists z, coded (bytes_at inp (C * (first + Z.of_nat j)) C) z /\
     single (i_compress I) (iaddr + C * first) cin C lens (oaddr + C * first) cout C lens j = if lenZ z <=? C then Done (0, lenZ z, z) else Done (- ENOSPC, 0, [])).
  { intros j Hj. destruct (codec (bytes_at inp (C * (first + Z.of_nat j)) C)) as (z & Hz). { now apply is_bytes_slice. } { apply bytes_at_len; nia. }
    exists z. split; auto. destruct Hz as (_ & Hz & _). unfold single. rewrite NL by auto. unfold cin, cout. rewrite !slice_chunk by (auto; lia).
    replace (iaddr + C * first + Z.of_nat j * C) with (iaddr + C * (first + Z.of_nat j)) by lia. replace (oaddr + C * first + Z.of_nat j * C) with (oaddr + C * (first + Z.of_nat j)) by lia.
    apply Hz; try apply aligned_add; auto. { now apply is_bytes_slice. } { apply bytes_at_len; nia. } }
  destruct (comp_single k (junk k) (iaddr + C * first) cin C lens (oaddr + C * first) cout C lens) as (ret & rets' & olens' & out' & E & PL & _ & LEN1 & LEN2 & LEN3 & BY & _); auto; try lia.
  - unfold UINT_MAX in *. nia.
  - unfold areas. split; [auto|]. split; [auto|]. split; [apply HJ; lia|]. split; [lia|]. split; [lia|]. intros j Hj. apply LV in Hj. rewrite NL by auto. unfold UINT_MAX in *. nia.
  - nia.
  - nia.
  - intros j Hj. apply LV in Hj. destruct (SG j Hj) as (z & _ & ->). destruct (lenZ z <=? C); eexists; reflexivity.
  - rewrite E. rewrite bind_done. assert (ret = 0) by (eapply comp_zero; eauto). subst ret. rewrite Z.eqb_refl, andb_true_r.
    assert (LJ : length (junk k) = Z.to_nat k) by (pose proof (HJ k ltac:(lia)); unfold lenZ in *; lia).
    assert (LL : length lens = Z.to_nat k) by (unfold lens; apply repeat_length).
    set (sz := mark_full 0 rets' olens'). assert (LSZ : lenZ sz = k) by (unfold sz, lenZ; rewrite mark_full_len; lia).
    rewrite store_bytes_ok by lia. rewrite bind_done. assert (LO' : lenZ out' = C * k) by (unfold lenZ in *; lia). rewrite store_bytes_ok by lia. rewrite bind_done.
    change (splice ?M ?o ?w) with (put M o w). unfold sizes1. rewrite put_put by lia.
    exists (put out (Z.to_nat (C * first)) out'), (put sizes (Z.to_nat first) sz). split; [reflexivity|]. split; [now apply put_bytes|].
    split; [rewrite lenZ_put; lia|]. split; [rewrite lenZ_put; lia|].
    intros c Hc. destruct (BR c Hb0 Hb1 Hc) as (_ & _ & RG). fold first in RG. fold k in RG. split.
    + intros EB. apply RG in EB. rewrite (at_put_in C out first k) by lia. rewrite nth_put_in by lia.
      set (j := Z.to_nat (c - first)). assert (Hj : (j < Z.to_nat k)%nat) by (unfold j; lia).
      destruct (SG j Hj) as (z & CZ & SZ). replace (first + Z.of_nat j) with c in CZ by (unfold j; lia). exists z. split; auto.
      pose proof (PL j (proj2 (LV j) Hj)) as PJ. rewrite SZ in PJ. unfold sz. rewrite mark_full_nth by lia.
      unfold seen in PJ. destruct (Z.leb_spec (lenZ z) C) as [ZC|ZC].
      * left. injection PJ as P1 P2 P3. rewrite <- P1. change (0 =? - ENOSPC) with false. cbv iota. split; auto. split; auto.
        rewrite <- P2 in *. etransitivity; [|symmetry; exact P3]. unfold bytes_at, slice. replace (C * (c - first)) with (Z.of_nat j * C) by (unfold j; rewrite Z2Nat.id by lia; ring).
        rewrite firstn_firstn. f_equal. lia.
      * right. injection PJ as P1 P2 P3. rewrite <- P1. rewrite Z.eqb_refl. auto.
    + intros NB. assert (OUT : c < first \/ first + k <= c). { destruct (Z.lt_ge_cases c first); auto. destruct (Z.lt_ge_cases c (first + k)); auto. exfalso. apply NB, RG. lia. }
      split; [apply (at_put_out C out first k out' c num); lia|apply nth_put_out; lia].
Qed.

Lemma copy_raw_ok sizes : lenZ sizes = num -> forall todo dec dsizes, (forall c, In c todo -> 0 <= c < num) -> is_bytes dec -> lenZ dec = C * num -> lenZ dsizes = num ->
  exists dec' dsizes', copy_raw C inp sizes todo dec dsizes = Done (dec', dsizes') /\ is_bytes dec' /\ lenZ dec' = C * num /\ lenZ dsizes' = num /\
  forall c, 0 <= c < num ->
    (In c todo /\ nth (Z.to_nat c) sizes 0 = SIZE_MAX -> bytes_at dec' (C * c) C = bytes_at inp (C * c) C /\ nth (Z.to_nat c) dsizes' 0 = C) /\
    (~ (In c todo /\ nth (Z.to_nat c) sizes 0 = SIZE_MAX) -> bytes_at dec' (C * c) C = bytes_at dec (C * c) C /\ nth (Z.to_nat c) dsizes' 0 = nth (Z.to_nat c) dsizes 0).
Proof.
  intros LSZ. induction todo as [|c todo IH]; intros dec dsizes IN BD LD LS; cbn [copy_raw].
  - exists dec, dsizes. split; auto. split; auto. split; auto. split; auto. intros c Hc. split; [intros [[] _]|auto].
  - pose proof (IN c (or_introl eq_refl)) as Hc. assert (Hc' : 0 <= C * c /\ C * c + C <= C * num) by nia.
    rewrite aget_ok by (unfold lenZ in *; lia). rewrite bind_done. set (n := nth (Z.to_nat c) sizes 0). destruct (Z.eqb_spec n SIZE_MAX) as [EN|EN].
    + rewrite load_bytes_ok by lia. rewrite bind_done. change (slice (Z.to_nat (C * c)) (Z.to_nat C) inp) with (bytes_at inp (C * c) C). set (x := bytes_at inp (C * c) C).
      assert (LX : lenZ x = C) by (apply bytes_at_len; lia). rewrite store_bytes_ok by lia. rewrite bind_done. rewrite aset_ok by (unfold lenZ in *; lia). rewrite bind_done.
      change (splice ?M ?o ?w) with (put M o w). set (dec1 := put dec (Z.to_nat (C * c)) x).
      assert (B1 : is_bytes dec1) by (apply put_bytes; auto; now apply is_bytes_slice). assert (L1 : lenZ dec1 = C * num) by (unfold dec1; rewrite lenZ_put; lia).
      set (ds1 := firstn (Z.to_nat c) dsizes ++ C :: skipn (S (Z.to_nat c)) dsizes).
      assert (DS1 : ds1 = put dsizes (Z.to_nat c) [C]). { unfold ds1, put. cbn [length app]. replace (Z.to_nat c + 1)%nat with (S (Z.to_nat c)) by lia. reflexivity. }
      assert (LD1 : lenZ ds1 = num). { rewrite DS1, lenZ_put; change (lenZ [C]) with 1; lia. }
      destruct (IH dec1 ds1 ltac:(intros; apply IN; now right) B1 L1 LD1) as (dec2 & ds2 & -> & B2 & L2 & D2 & P). exists dec2, ds2. split; auto. split; auto. split; auto. split; auto.
      intros d Hd. destruct (P d Hd) as [Pa Pb]. destruct (Z.eq_dec d c) as [->|ND].
      * assert (SELF : bytes_at dec1 (C * c) C = x /\ nth (Z.to_nat c) ds1 0 = C).
        { split.
          - unfold dec1. rewrite (at_put_in C dec c 1 x c) by lia. rewrite Z.sub_diag, Z.mul_0_r. unfold bytes_at, slice. cbn [Z.to_nat skipn]. apply firstn_all2. unfold lenZ in *. lia.
          - rewrite DS1, nth_put_in by (change (lenZ [C]) with 1; lia). now rewrite Z.sub_diag. }
        split; [|intros X; exfalso; apply X; split; [now left|auto]]. intros _.
        destruct (in_dec Z.eq_dec c todo) as [i|ni]; [apply Pa; auto|]. destruct Pb as [-> ->]; [tauto|]. auto.
      * assert (OTHER : bytes_at dec1 (C * d) C = bytes_at dec (C * d) C /\ nth (Z.to_nat d) ds1 0 = nth (Z.to_nat d) dsizes 0).
        { split; [apply (at_put_out C dec c 1 x d num); lia|]. rewrite DS1. apply nth_put_out; change (lenZ [C]) with 1; lia. }
        split.
        -- intros [[E|i] X]; [lia|]. apply Pa. auto.
        -- intros X. destruct Pb as [-> ->]; auto. intros [i Y]. apply X. split; auto. now right.
    + destruct (IH dec dsizes ltac:(intros; apply IN; now right) BD LD LS) as (dec2 & ds2 & -> & B2 & L2 & D2 & P). exists dec2, ds2. split; auto. split; auto. split; auto. split; auto.
      intros d Hd. destruct (P d Hd) as [Pa Pb]. split.
      * intros [[E|i] X]; [subst d; contradiction|]. apply Pa. auto.
      * intros X. apply Pb. intros [i Y]. apply X. split; auto. now right.
Qed.
Lemma in_from_to a k c : In c (from_to a k) <-> a <= c < a + k.
Proof.
  unfold from_to. rewrite in_map_iff. split.
  - intros (i & <- & Hi). apply in_seq in Hi. lia.
  - intros H. exists (Z.to_nat (c - a)). split; [lia|]. apply in_seq. lia.
Qed.

Section Dec.
Variable out sizes : list Z.
Hypothesis BOUT : is_bytes out.
Hypothesis LOUT : lenZ out = C * num.
Hypothesis LSIZES : lenZ sizes = num.
Hypothesis CMP : forall c, 0 <= c < num -> compressed c (bytes_at out (C * c) C) (nth (Z.to_nat c) sizes 0).

Lemma decomp_batch_ok b dec dsizes ok : 0 <= b -> B * b < num -> is_bytes dec -> lenZ dec = C * num -> lenZ dsizes = num ->
  exists dec' dsizes', decomp_batch I C B oaddr daddr inp num junk out sizes b (dec, dsizes, ok) = Done (dec', dsizes', ok) /\ is_bytes dec' /\ lenZ dec' = C * num /\ lenZ dsizes' = num /\
    forall c, 0 <= c < num ->
      (c / B = b -> bytes_at dec' (C * c) C = bytes_at inp (C * c) C /\ nth (Z.to_nat c) dsizes' 0 = C) /\
      (c / B <> b -> bytes_at dec' (C * c) C = bytes_at dec (C * c) C /\ nth (Z.to_nat c) dsizes' 0 = nth (Z.to_nat c) dsizes 0).
Proof.
  intros Hb0 Hb1 Ho LO LS. pose proof (batch_range B num HB HN b) as BR. cbv zeta in BR. destruct (BR (B * b) Hb0 Hb1 ltac:(nia)) as (K1 & K2 & _).
  unfold decomp_batch. set (first := B * b) in *. set (k := batch_chunks B num first) in *. assert (F0 : 0 <= first) by (unfold first; nia).
  assert (CF : 0 <= C * first /\ 0 <= C * k /\ C * first + C * k <= C * num) by nia.
  assert (LR : lenZ (repeat C (Z.to_nat k)) = k) by (unfold lenZ; rewrite repeat_length; lia).
  rewrite store_bytes_ok by lia. rewrite bind_done. change (splice ?M ?o ?w) with (put M o w). set (ds1 := put dsizes (Z.to_nat first) (repeat C (Z.to_nat k))).
  assert (LS1 : lenZ ds1 = num) by (unfold ds1; rewrite lenZ_put; lia).
  rewrite load_bytes_ok by lia. rewrite bind_done. rewrite load_bytes_ok by lia. rewrite bind_done. rewrite load_bytes_ok by lia. rewrite bind_done. rewrite load_bytes_ok by lia. rewrite bind_done.
  set (cin := slice (Z.to_nat (C * first)) (Z.to_nat (C * k)) out). set (cout := slice (Z.to_nat (C * first)) (Z.to_nat (C * k)) dec). set (ilens := slice (Z.to_nat first) (Z.to_nat k) sizes).
  assert (LI : lenZ cin = C * k) by (unfold cin; pose proof (bytes_at_len out (C * first) (C * k)) as X; unfold bytes_at in X; apply X; lia).
  assert (LCO : lenZ cout = C * k) by (unfold cout; pose proof (bytes_at_len dec (C * first) (C * k)) as X; unfold bytes_at in X; apply X; lia).
  assert (LIL : lenZ ilens = k) by (unfold ilens; pose proof (bytes_at_len sizes first k) as X; unfold bytes_at in X; apply X; lia).
  assert (BI : is_bytes cin) by now apply is_bytes_slice. assert (BO : is_bytes cout) by now apply is_bytes_slice.
  assert (EO : slice (Z.to_nat first) (Z.to_nat k) ds1 = repeat C (Z.to_nat k)).
  { unfold ds1. rewrite put_at by (unfold lenZ in *; rewrite ?repeat_length; lia). rewrite skipn_all2; [apply app_nil_r|]. rewrite repeat_length, slice_length; unfold lenZ in *; lia. }
  rewrite EO. set (lens := repeat C (Z.to_nat k)) in *.
  assert (NL : forall j, (j < Z.to_nat k)%nat -> nth j lens 0 = C) by (intros; unfold lens; now apply rep_nth).
  assert (NI : forall j, (j < Z.to_nat k)%nat -> nth j ilens 0 = nth (Z.to_nat (first + Z.of_nat j)) sizes 0).
  { intros j Hj. unfold ilens. pose proof (nth_bytes_at sizes first k j Hj) as X. unfold bytes_at in X. rewrite X by (unfold lenZ in *; lia). f_equal. lia. }
  assert (SG : forall j, live k ilens j -> (0 <= nth j ilens 0 <= C) /\
     single (i_decompress I) (oaddr + C * first) cin C ilens (daddr + C * first) cout C lens j = Done (0, C, bytes_at inp (C * (first + Z.of_nat j)) C)).
  { intros j [Hj NM]. destruct (CMP (first + Z.of_nat j)) as (z & (BZ & _ & DZ) & [(ZC & N & W)|(_ & N)]); [lia| |rewrite NI in NM by auto; contradiction].
    rewrite <- NI in N, W by auto. split; [unfold lenZ in *; lia|]. unfold single. rewrite NL by auto.
    replace (slice (Z.to_nat (Z.of_nat j * C)) (Z.to_nat (nth j ilens 0)) cin) with z.
    - replace (oaddr + C * first + Z.of_nat j * C) with (oaddr + C * (first + Z.of_nat j)) by lia. replace (daddr + C * first + Z.of_nat j * C) with (daddr + C * (first + Z.of_nat j)) by lia.
      unfold cout. rewrite slice_chunk by (auto; lia). apply DZ; try apply aligned_add; auto. { now apply is_bytes_slice. } { apply bytes_at_len; nia. }
    - etransitivity; [symmetry; exact W|]. rewrite <- (slice_chunk out first k j) by (auto; lia). fold cin. unfold slice. rewrite firstn_firstn. f_equal. lia. }
  destruct (decomp_single k (junk k) (oaddr + C * first) cin C ilens (daddr + C * first) cout C lens) as (ret & rets' & olens' & out' & E & PL & SKIP & LEN1 & LEN2 & LEN3 & BY & _); auto; try lia.
  - unfold UINT_MAX in *. nia.
  - unfold areas. split; [auto|]. split; [auto|]. split; [apply HJ; lia|]. split; [lia|]. split; [lia|]. intros j Hj. destruct (SG j Hj) as [R _]. destruct Hj as [Hj _]. rewrite NL by auto. unfold UINT_MAX in *. nia.
  - nia.
  - nia.
  - intros j Hj. destruct (SG j Hj) as (_ & ->). eexists; reflexivity.
  - rewrite E. rewrite bind_done. assert (ret = 0) by (eapply decomp_zero; eauto). subst ret. rewrite Z.eqb_refl, andb_true_r.
    assert (LL : length lens = Z.to_nat k) by (unfold lens; apply repeat_length).
    assert (LOL : lenZ olens' = k) by (unfold lenZ; lia). assert (LO' : lenZ out' = C * k) by (unfold lenZ in *; lia).
    rewrite store_bytes_ok by lia. rewrite bind_done. rewrite store_bytes_ok by lia. rewrite bind_done.
    change (splice ?M ?o ?w) with (put M o w). unfold ds1. rewrite put_put by lia. set (dec1 := put dec (Z.to_nat (C * first)) out'). set (ds2 := put dsizes (Z.to_nat first) olens').
    destruct (copy_raw_ok sizes LSIZES (from_to first k) dec1 ds2) as (dec2 & ds3 & -> & B2 & L2 & D2 & P).
    { intros c Hc. apply in_from_to in Hc. lia. } { now apply put_bytes. } { unfold dec1. rewrite lenZ_put; lia. } { unfold ds2. rewrite lenZ_put; lia. }
    rewrite bind_done. exists dec2, ds3. split; [reflexivity|]. split; auto. split; auto. split; auto.
    intros c Hc. destruct (BR c Hb0 Hb1 Hc) as (_ & _ & RG). fold first in RG. fold k in RG. destruct (P c Hc) as [Pa Pb]. rewrite in_from_to in Pa, Pb. split.
    + intros EB. apply RG in EB. destruct (Z.eq_dec (nth (Z.to_nat c) sizes 0) SIZE_MAX) as [RAW|COD]; [apply Pa; auto|].
      destruct Pb as [-> ->]; [tauto|]. unfold dec1, ds2. rewrite (at_put_in C dec first k) by lia. rewrite nth_put_in by lia.
      set (j := Z.to_nat (c - first)). assert (Hj : (j < Z.to_nat k)%nat) by (unfold j; lia).
      assert (LV : live k ilens j). { split; auto. rewrite NI by auto. replace (first + Z.of_nat j) with c by (unfold j; lia). auto. }
      pose proof (PL j LV) as PJ. destruct (SG j LV) as (_ & SJ). rewrite SJ in PJ. unfold seen in PJ. injection PJ as P1 P2 P3. rewrite <- P2 in P3.
      replace (first + Z.of_nat j) with c in P3 by (unfold j; lia). rewrite P3. split; [|auto]. unfold bytes_at. do 2 f_equal. unfold j. rewrite Z2Nat.id by lia. ring.
    + intros NB. assert (OUT : ~ first <= c < first + k) by (intros X; apply NB, RG; lia). destruct Pb as [-> ->]; [tauto|].
      split; [apply (at_put_out C dec first k out' c num); lia|apply nth_put_out; lia].
Qed.
End Dec.
End Codec.

(** * The whole benchmark *)
Lemma fold_sum (g : Z -> Z) (l : list Z) : (forall n, In n l -> 0 <= g n) -> forall t, 0 <= t -> t + sum (map g l) < 2 ^ 64 -> fold_left (fun t n => u64 (t + g n)) l t = t + sum (map g l).
Proof.
  induction l as [|n l IH]; intros HG t Ht HS; cbn [fold_left map sum fold_right] in *; [lia|]. fold (sum (map g l)) in *.
  assert (0 <= g n) by (apply HG; now left). assert (0 <= sum (map g l)).
  { clear - HG. induction l as [|a l IH]; cbn; [lia|]. fold (sum (map g l)). assert (0 <= g a) by (apply HG; right; now left). assert (0 <= sum (map g l)) by (apply IH; intros ? [->|]; apply HG; cbn; auto). lia. }
  unfold u64 at 2. rewrite Z.mod_small by lia. rewrite IH; [lia| |lia|lia]. intros; apply HG; now right.
Qed.
Lemma sum_bound (l : list Z) C : (forall n, In n l -> n <= C) -> sum l <= C * lenZ l.
Proof.
  induction l as [|n l IH]; intros H; cbn [sum fold_right]; [unfold lenZ; cbn; lia|]. fold (sum l). assert (n <= C) by (apply H; now left).
  assert (sum l <= C * lenZ l) by (apply IH; intros; apply H; now right). replace (lenZ (n :: l)) with (lenZ l + 1) by (unfold lenZ; cbn [length]; lia). lia.
Qed.

Section Whole.
Variable I : implementation.
Variable C B : Z.
Hypothesis HC : 0 < C <= UINT_MAX.
Hypothesis HB : 0 < B.
Hypothesis HBC : B * C < 2 ^ 32.
Hypothesis HP : 0 < i_preferred I.
Hypothesis HCP : C mod i_preferred I = 0.
Hypothesis HCR : C mod i_required I = 0.
Hypothesis comp_single : as_single_calls (2 ^ 32) (i_compress I) (i_compress_chunked I).
Hypothesis decomp_single : as_single_calls (2 ^ 32) (i_decompress I) (i_decompress_chunked I).
Hypothesis codec : forall x, is_bytes x -> lenZ x = C -> exists z, coded I C x z.
Hypothesis comp_zero : forall n rets ia inp is il oa out os ol r a b c, i_compress_chunked I n rets ia inp is il oa out os ol = Done (r, a, b, c) -> r = 0.
Hypothesis decomp_zero : forall n rets ia inp is il oa out os ol r a b c, i_decompress_chunked I n rets ia inp is il oa out os ol = Done (r, a, b, c) -> r = 0.

Lemma coded_size x z : is_bytes x -> lenZ x = C -> coded I C x z -> stored_size I x = if lenZ z <=? C then lenZ z else C.
Proof.
  intros Hx LX (_ & H & _). unfold stored_size. rewrite LX. rewrite H; try (unfold aligned; apply Zmod_0_l).
  - destruct (lenZ z <=? C); reflexivity.
  - apply is_bytes_repeat. unfold is_byte. lia.
  - unfold lenZ in *. rewrite repeat_length. lia.
Qed.

Lemma core_ok iaddr oaddr daddr inp junk1 junk2 corder dorder num :
  iaddr mod i_preferred I = 0 -> oaddr mod i_preferred I = 0 -> daddr mod i_preferred I = 0 ->
  is_bytes inp -> 0 <= num -> lenZ inp = C * num -> C * num < 2 ^ 64 ->
  (forall k, 0 <= k <= B -> lenZ (junk1 k) = k) -> lenZ (junk2 num) = num ->
  Permutation corder (batches B num) -> Permutation dorder (batches B num) ->
  benchmark_core I C B iaddr oaddr daddr inp junk1 junk2 corder dorder = Done (true, Some (sum (map (stored_size I) (chunks_of C inp))), inp).
Proof.
  intros AI AO AD Hi HN HL H64 HJ1 HJ2 PC PD. unfold benchmark_core. rewrite HCR. change (0 =? 0) with true. cbn [negb]. rewrite andb_false_r.
  assert (EN : lenZ inp / C = num) by (rewrite HL, Z.mul_comm; apply Z.div_mul; lia). rewrite EN.
  assert (Z0 : forall n, is_bytes (repeat 0 n)) by (intros; apply is_bytes_repeat; unfold is_byte; lia).
  destruct (batches_perm B num HB corder PC) as (ND1 & IN1 & ALL1). destruct (batches_perm B num HB dorder PD) as (ND2 & IN2 & ALL2).
  destruct (run_ok C B num (compressed I C inp) (comp_batch I C B iaddr oaddr inp num junk1)) with (order := corder) (buf := repeat 0 (Z.to_nat (num * C))) (sizes := junk2 num) (ok := true)
    as (out & sizes & -> & BO & LO & LS & P); auto.
  { intros. eapply comp_batch_ok; eauto. }
  { unfold lenZ. rewrite repeat_length. nia. }
  rewrite bind_done. cbn [negb].
  assert (CMP : forall c, 0 <= c < num -> compressed I C inp c (bytes_at out (C * c) C) (nth (Z.to_nat c) sizes 0)) by (intros c Hc; apply (P c Hc); auto).
  destruct (run_ok C B num (fun c w n => w = bytes_at inp (C * c) C /\ n = C) (decomp_batch I C B oaddr daddr inp num junk1 out sizes)) with (order := dorder) (buf := repeat 0 (Z.to_nat (lenZ inp))) (sizes := junk2 num) (ok := true)
    as (dec & dsizes & -> & BD & LD & LSD & PDEC); auto.
  { intros. eapply decomp_batch_ok; eauto. }
  { unfold lenZ in *. rewrite repeat_length. lia. }
  rewrite bind_done. cbn [negb].
  assert (ED : dec = inp). { apply (chunks_all C num); auto; try lia. intros c Hc. destruct (PDEC c Hc) as [X _]. apply X; auto. }
  assert (EDS : dsizes = repeat C (Z.to_nat num)).
  { apply (nth_ext _ _ 0 0); [rewrite repeat_length; unfold lenZ in *; lia|]. intros j Hj. assert (Hc : 0 <= Z.of_nat j < num) by (unfold lenZ in *; lia).
    destruct (PDEC _ Hc) as [X _]. destruct X as [_ X]; auto. rewrite Nat2Z.id in X. rewrite X, rep_nth; auto. lia. }
  rewrite (fold_sum (fun n => n)), map_id, EDS.
  2: { intros n Hn. rewrite EDS in Hn. apply repeat_spec in Hn. lia. }
  2: lia.
  2: { rewrite map_id, EDS. pose proof (sum_bound (repeat C (Z.to_nat num)) C) as X. unfold lenZ in X at 1. rewrite repeat_length in X. rewrite Z2Nat.id in X by lia. rewrite Z.add_0_l.
       eapply Z.le_lt_trans; [apply X; intros n Hn; apply repeat_spec in Hn; lia|lia]. }
  assert (SR : forall n, sum (repeat C n) = C * Z.of_nat n). { induction n as [|n IH]; [cbn; lia|]. cbn [repeat sum fold_right]. fold (sum (repeat C n)). lia. }
  rewrite SR, Z2Nat.id, Z.add_0_l by lia. rewrite HL, Z.eqb_refl. cbn [negb orb]. rewrite ED. replace (list_eqb inp inp) with true by (symmetry; now apply list_eqb_eq). cbn [negb].
  rewrite ?ED. f_equal. f_equal. f_equal. f_equal.
  (* the total *)
  set (g := fun n => if negb (n =? SIZE_MAX) then n else C). unfold total. change (fun t n => u64 (t + (if negb (n =? SIZE_MAX) then n else C))) with (fun t n => u64 (t + g n)).
  assert (EM : map g sizes = map (stored_size I) (chunks_of C inp)).
  { unfold chunks_of, chunk_numbers. rewrite EN, !map_map. apply (nth_ext _ _ 0 0); [rewrite !map_length, seq_length; unfold lenZ in *; lia|].
    intros j Hj. rewrite map_length in Hj. assert (Hc : 0 <= Z.of_nat j < num) by (unfold lenZ in *; lia).
    destruct (CMP _ Hc) as (z & CZ & Z1). rewrite Nat2Z.id in Z1.
    match goal with |- _ = nth j (map ?h _) 0 => rewrite (nth_indep (map h (seq 0 (Z.to_nat num))) 0 (h 0%nat)) by (rewrite map_length, seq_length; lia); rewrite (map_nth h), seq_nth by lia end.
    rewrite (nth_indep (map g sizes) 0 (g 0)) by (rewrite map_length; auto). rewrite map_nth.
    rewrite Nat.add_0_l. rewrite (coded_size _ z); auto.
    - unfold g. destruct Z1 as [(ZC & -> & _)|(ZC & ->)].
      + destruct (Z.leb_spec (lenZ z) C); [|lia]. destruct (Z.eqb_spec (lenZ z) SIZE_MAX); [unfold SIZE_MAX, UINT_MAX in *; lia|]. reflexivity.
      + destruct (Z.leb_spec (lenZ z) C); [lia|]. rewrite Z.eqb_refl. reflexivity.
    - now apply is_bytes_slice.
    - apply bytes_at_len; nia. }
  assert (GB : forall n, In n sizes -> 0 <= g n <= C).
  { intros n Hn. apply (In_nth _ _ 0) in Hn. destruct Hn as (j & Hj & <-). assert (Hc : 0 <= Z.of_nat j < num) by (unfold lenZ in *; lia).
    destruct (CMP _ Hc) as (z & _ & Z1). rewrite Nat2Z.id in Z1. unfold g. destruct (Z.eqb_spec (nth j sizes 0) SIZE_MAX); cbn [negb]; [lia|].
    destruct Z1 as [(ZC & -> & _)|(_ & X)]; [unfold lenZ in *; lia|contradiction]. }
  rewrite fold_sum, EM; [lia|intros; now apply GB|lia|]. rewrite Z.add_0_l. pose proof (sum_bound (map g sizes) C) as X. unfold lenZ in X. rewrite map_length in X.
  eapply Z.le_lt_trans; [apply X; intros n Hn; apply in_map_iff in Hn; destruct Hn as (q & <- & Hq); now apply GB|]. unfold lenZ in *. lia.
Qed.
End Whole.

(** * The two implementations *)
Lemma sw_codec e C x : 0 < C <= UINT_MAX -> is_bytes x -> lenZ x = C -> exists z, coded (sw842_implementation e) C x z.
Proof.
  intros HC Hx LX. destruct (c02 x Hx) as (z & BZ & VZ & H). exists z. split; auto. split.
  - intros ia oa o _ _ Ho LO. cbn [i_compress sw842_implementation]. unfold sw842_compress_f. rewrite H by (auto; lia). destruct (Z.leb_spec (lenZ z) C); cbn [andb]; auto.
    destruct (Z.leb_spec (lenZ z) UINT_MAX); [reflexivity|lia].
  - intros ZC ia oa o _ _ Ho LO. cbn [i_decompress sw842_implementation]. unfold sw842_decompress_f. rewrite <- LX at 2. apply c05; auto; try lia; try (unfold UINT_MAX in *; lia). repeat split; auto; lia.
Qed.
Lemma opt_codec e C x : 0 < C <= UINT_MAX -> C mod 8 = 0 -> is_bytes x -> lenZ x = C -> exists z, coded (optsw842_implementation e) C x z.
Proof.
  intros HC C8 Hx LX. destruct (c17 x Hx ltac:(congruence)) as (z & BZ & VZ & Z8 & _ & H). { intros ->. unfold lenZ in LX. cbn in LX. lia. }
  exists z. split; auto. unfold aligned. cbn [i_preferred optsw842_implementation]. split.
  - intros ia oa o HA HO Ho LO. cbn [i_compress optsw842_implementation]. unfold optsw842_compress_f. rewrite H by (auto; lia). reflexivity.
  - intros ZC ia oa o HA HO Ho LO. cbn [i_decompress optsw842_implementation]. unfold optsw842_decompress_f. rewrite <- LX at 2. apply c20; auto; try lia; try (unfold UINT_MAX in *; lia). split; [|lia].
    rewrite firstn_all2; auto. apply Nat2Z.inj_le. rewrite Nat2Z.inj_mul, Nat2Z.inj_div. change (Z.of_nat 8) with 8. fold (lenZ z). pose proof (Z.div_mod (lenZ z) 8 ltac:(lia)). lia.
Qed.
Theorem bench_ok e I C B iaddr oaddr daddr inp junk1 junk2 corder dorder num :
  In I [sw842_implementation e; optsw842_implementation e] ->
  0 < C <= UINT_MAX -> 0 < B -> B * C < 2 ^ 32 -> C mod i_preferred I = 0 ->
  iaddr mod i_preferred I = 0 -> oaddr mod i_preferred I = 0 -> daddr mod i_preferred I = 0 ->
  is_bytes inp -> 0 <= num -> lenZ inp = C * num -> C * num < 2 ^ 64 ->
  (forall k, 0 <= k <= B -> lenZ (junk1 k) = k) -> lenZ (junk2 num) = num ->
  Permutation corder (batches B num) -> Permutation dorder (batches B num) ->
  benchmark_core I C B iaddr oaddr daddr inp junk1 junk2 corder dorder = Done (true, Some (sum (map (stored_size I) (chunks_of C inp))), inp).
Proof.
  intros [<-|[<-|[]]] HC HB HBC HCP AI AO AD Hi HN HL H64 J1 J2 PC PD.
  - eapply core_ok with (num := num); eauto; cbn [i_preferred i_required i_compress i_decompress i_compress_chunked i_decompress_chunked sw842_implementation]; try lia; try apply Z.mod_1_r.
    + apply (c28 e). left. reflexivity.
    + apply (c28 e). right. left. reflexivity.
    + intros. now apply sw_codec.
    + intros. eapply chunked_ret; eauto.
    + intros. eapply chunked_ret; eauto.
  - eapply core_ok with (num := num); eauto; cbn [i_preferred i_required i_compress i_decompress i_compress_chunked i_decompress_chunked optsw842_implementation]; try lia; try apply Z.mod_1_r.
    + apply (c28 e). right. right. left. reflexivity.
    + apply (c28 e). right. right. right. left. reflexivity.
    + intros. now apply opt_codec.
    + intros. eapply chunked_ret; eauto.
    + intros. eapply chunked_ret; eauto.
Qed.

(** * The driver *)
Lemma land_high x k : 0 <= k <= 64 -> 0 <= x < 2 ^ 64 -> Z.land x (2 ^ 64 - 1 - (2 ^ k - 1)) = x / 2 ^ k * 2 ^ k.
Proof.
  intros Hk Hx. assert (P : 0 < 2 ^ k) by (apply Z.pow_pos_nonneg; lia). replace (2 ^ 64 - 1 - (2 ^ k - 1)) with (Z.shiftl (Z.ones (64 - k)) k).
  2: { rewrite Z.shiftl_mul_pow2, Z.ones_equiv by lia. unfold Z.pred. rewrite Z.mul_add_distr_r, <- Z.pow_add_r by lia. replace (64 - k + k) with 64 by lia. lia. }
  rewrite <- Z.shiftl_mul_pow2, <- Z.shiftr_div_pow2 by lia. apply Z.bits_inj'. intros i Hi. rewrite Z.land_spec, !Z.shiftl_spec by lia.
  destruct (Z.ltb_spec i k); [rewrite !Z.testbit_neg_r with (n := i - k) by lia; apply andb_false_r|]. rewrite Z.shiftr_spec by lia. replace (i - k + k) with i by lia.
  destruct (Z.ltb_spec i 64); [rewrite Z.ones_spec_low by lia; apply andb_true_r|]. rewrite Z.ones_spec_high by lia. rewrite andb_false_r. symmetry.
  destruct (Z.eq_dec x 0) as [->|]; [apply Z.bits_0|]. apply Z.bits_above_log2; [lia|]. apply Z.lt_le_trans with 64; [|lia]. apply Z.log2_lt_pow2; lia.
Qed.
Lemma next_multiple n k : 0 <= k <= 63 -> 0 <= n -> n + 2 ^ k <= 2 ^ 64 ->
  let m := nextMultipleOfChunkSize n (2 ^ k) in m mod 2 ^ k = 0 /\ n <= m < n + 2 ^ k.
Proof.
  intros Hk Hn H. cbv zeta. unfold nextMultipleOfChunkSize. assert (P : 0 < 2 ^ k) by (apply Z.pow_pos_nonneg; lia).
  unfold u64. rewrite (Z.mod_small (n + (2 ^ k - 1))) by lia. rewrite land_high by lia. split; [apply Z.mod_mul; lia|].
  pose proof (Z.div_mod (n + (2 ^ k - 1)) (2 ^ k) ltac:(lia)). pose proof (Z.mod_pos_bound (n + (2 ^ k - 1)) (2 ^ k) P). lia.
Qed.
Lemma read_file_ok f k : 0 <= k <= 63 -> is_bytes f -> lenZ f + 2 ^ k <= 2 ^ 64 ->
  is_bytes (read_file f (2 ^ k)) /\ lenZ (read_file f (2 ^ k)) = nextMultipleOfChunkSize (lenZ f) (2 ^ k).
Proof.
  intros Hk Hf H. pose proof (next_multiple (lenZ f) k Hk ltac:(unfold lenZ; lia) H) as N. cbv zeta in N. unfold read_file. split.
  - apply is_bytes_app. split; auto. apply is_bytes_repeat. unfold is_byte. lia.
  - unfold lenZ in *. rewrite app_length, repeat_length. lia.
Qed.
Lemma read_file_padded f k : 0 <= k <= 63 -> lenZ f + 2 ^ k <= 2 ^ 64 -> read_file f (2 ^ k) = padded (2 ^ k) f.
Proof.
  intros Hk H. pose proof (next_multiple (lenZ f) k Hk ltac:(unfold lenZ; lia) H) as N. cbv zeta in N. unfold read_file, padded. f_equal. f_equal.
  assert (0 < 2 ^ k) by (apply Z.pow_pos_nonneg; lia). set (m := nextMultipleOfChunkSize (lenZ f) (2 ^ k)) in *. destruct N as [N1 N2].
  assert (- lenZ f mod 2 ^ k = m - lenZ f). { apply Z.mod_divide in N1; [|lia]. destruct N1 as [q Q]. symmetry. apply (Z.mod_unique _ _ (- q)); [lia|]. nia. }
  rewrite H1. unfold lenZ in *. lia.
Qed.
Lemma test_string_ok : is_bytes TEST_STRING /\ lenZ TEST_STRING = 32.
Proof. split; [apply is_bytes_b; reflexivity|reflexivity]. Qed.

Lemma simple_ok e I iaddr oaddr daddr inp :
  In I [sw842_implementation e; optsw842_implementation e] -> iaddr mod i_preferred I = 0 -> oaddr mod i_preferred I = 0 -> daddr mod i_preferred I = 0 ->
  is_bytes inp -> lenZ inp mod 8 = 0 -> 8 <= lenZ inp -> 2 * lenZ inp <= UINT_MAX ->
  exists d, simple_test I iaddr oaddr daddr inp (repeat 0 (Z.to_nat (lenZ inp * 2))) (repeat 0 (length inp)) = Done (true, lenZ inp, d) /\ firstn (length inp) d = inp.
Proof.
  intros HI AI AO AD Hb H8 HL HU. set (out := repeat 0 (Z.to_nat (lenZ inp * 2))). set (dec := repeat 0 (length inp)).
  assert (Z0 : forall n, is_bytes (repeat 0 n)) by (intros; apply is_bytes_repeat; unfold is_byte; lia).
  assert (LO : lenZ out = 2 * lenZ inp) by (unfold lenZ, out; rewrite repeat_length; unfold lenZ in *; lia).
  assert (LD : lenZ dec = lenZ inp) by (unfold lenZ, dec; now rewrite repeat_length).
  assert (BO : is_bytes out) by apply Z0. assert (BD : is_bytes dec) by apply Z0.
  assert (ROOM : words64 (69 * (lenZ inp / 8) + 37) <= 2 * lenZ inp).
  { unfold words64. pose proof (Z.div_mod (lenZ inp) 8 ltac:(lia)) as D. set (q := lenZ inp / 8) in *. pose proof (Z.mul_div_le (69 * q + 37 + 63) 64 ltac:(lia)).
    assert ((69 * q + 37 + 63) / 64 <= 2 * q); [|lia]. apply Z.lt_succ_r. apply Z.div_lt_upper_bound; lia. }
  (* what the two calls do *)
  assert (RT : exists n m, i_compress I iaddr oaddr inp out (lenZ out) = Done (0, n, m) /\ 0 <= n <= lenZ m /\
     observed (i_decompress I oaddr daddr (firstn (Z.to_nat n) m) dec (lenZ dec)) = Done (0, lenZ inp, inp)).
  { destruct HI as [<-|[<-|[]]].
    - cbn [i_compress i_decompress sw842_implementation]. unfold sw842_compress_f, sw842_decompress_f.
      destruct (c04_enough e iaddr inp out (lenZ out)) as (n & m & E); auto; try (unfold lenZ; lia).
      { unfold max_bits. rewrite H8. change (0 =? 0) with true. cbv iota. rewrite Z.add_0_r. lia. } { unfold max_bits. rewrite H8. change (0 =? 0) with true. cbv iota. rewrite Z.add_0_r. lia. }
      exists n, m. split; auto. destruct (c03 e iaddr inp out (lenZ out)) as (r' & n' & m' & E' & R & L & _); auto; try (unfold lenZ; lia). rewrite E in E'. injection E' as <- <- <-.
      split; [unfold lenZ in *; lia|]. apply (c01 e e iaddr daddr inp out (lenZ out) n m dec (lenZ dec)); auto; unfold UINT_MAX in *; try lia; unfold lenZ; lia.
    - cbn [i_compress i_decompress i_preferred optsw842_implementation] in *. unfold optsw842_compress_f, optsw842_decompress_f.
      assert (NE : inp <> []) by (intros ->; unfold lenZ in HL; cbn in HL; lia). destruct (c17 inp Hb H8 NE) as (z & BZ & VZ & Z8 & ZL & H).
      pose proof (H e iaddr oaddr out (lenZ out) (Z0 _) ltac:(unfold lenZ; lia) AI AO) as HO. destruct (Z.leb_spec (lenZ z) (lenZ out)); [|lia].
      destruct (c18_bounds e iaddr oaddr inp out (lenZ out)) as (r' & n' & m' & E' & R & L & _); auto; try (unfold lenZ; lia). rewrite E' in HO. cbn [observed] in HO. injection HO as -> -> F.
      exists (lenZ z), m'. split; auto. split; [unfold lenZ in *; lia|]. apply (c16 e e iaddr oaddr oaddr daddr inp out (lenZ out) (lenZ z) m' dec (lenZ dec)); auto; unfold UINT_MAX in *; try lia; unfold lenZ; lia. }
  destruct RT as (n & m & E & R & D). unfold simple_test. rewrite E, bind_done. change (negb (0 =? 0)) with false. cbv iota.
  rewrite load_bytes_ok by lia. rewrite bind_done. unfold slice. cbn [Z.to_nat skipn].
  destruct (i_decompress I oaddr daddr (firstn (Z.to_nat n) m) dec (lenZ dec)) as [[[r' n'] m']| |]; try discriminate. cbn [observed] in D. injection D as -> -> F.
  rewrite bind_done. change (negb (0 =? 0)) with false. cbv iota. rewrite Z.eqb_refl. cbn [andb]. unfold lenZ in F. rewrite Nat2Z.id in F. rewrite F. exists m'. split; auto. do 3 f_equal. now apply list_eqb_eq.
Qed.

Theorem driver_ok e I k B iaddr oaddr daddr junk1 junk2 corder dorder file :
  In I [sw842_implementation e; optsw842_implementation e] -> 3 <= k -> 0 < B -> B * 2 ^ k < 2 ^ 32 -> 2 ^ k < 2 ^ 31 ->
  iaddr mod i_preferred I = 0 -> oaddr mod i_preferred I = 0 -> daddr mod i_preferred I = 0 ->
  (forall n, 0 <= n -> lenZ (junk1 n) = n /\ lenZ (junk2 n) = n) ->
  (forall num, Permutation (corder num) (batches B num) /\ Permutation (dorder num) (batches B num)) ->
  (forall f, file = Some f -> is_bytes f /\ f <> [] /\ lenZ f + 2 ^ k <= 2 ^ 64) ->
  compdecomp I (2 ^ k) B iaddr oaddr daddr junk1 junk2 corder dorder file = Done (0, match file with Some f => padded (2 ^ k) f | None => TEST_STRING end).
Proof.
  intros HI Hk HB HBC H31 AI AO AD HJ HO HF.
  assert (RF : match file with Some f => padded (2 ^ k) f | None => TEST_STRING end = match file with Some f => read_file f (2 ^ k) | None => TEST_STRING end).
  { destruct file as [f|]; auto. destruct (HF f eq_refl) as (_ & _ & LF). symmetry. apply read_file_padded; auto. assert (k < 31) by (apply (Z.pow_lt_mono_r_iff 2); lia). lia. }
  rewrite RF. clear RF. assert (K30 : k < 31) by (apply (Z.pow_lt_mono_r_iff 2); lia).
  assert (E8 : 2 ^ k = 8 * 2 ^ (k - 3)) by (change 8 with (2 ^ 3); rewrite <- Z.pow_add_r by lia; f_equal; lia). assert (P : 0 < 2 ^ (k - 3)) by (apply Z.pow_pos_nonneg; lia).
  set (inp := match file with Some f => read_file f (2 ^ k) | None => TEST_STRING end).
  assert (A : is_bytes inp /\ 8 <= lenZ inp /\ lenZ inp < 2 ^ 64 /\ lenZ inp mod 8 = 0 /\ (lenZ inp > 2 ^ k -> lenZ inp mod 2 ^ k = 0)).
  { unfold inp. destruct file as [f|].
    - destruct (HF f eq_refl) as (Bf & NE & LF). destruct (read_file_ok f k ltac:(lia) Bf LF) as [RB ->].
      pose proof (next_multiple (lenZ f) k ltac:(lia) ltac:(unfold lenZ; lia) LF) as N. cbv zeta in N. set (m := nextMultipleOfChunkSize (lenZ f) (2 ^ k)) in *. destruct N as [N1 N2].
        assert (1 <= lenZ f) by (destruct f; [contradiction|unfold lenZ; cbn [length]; lia]). apply Z.mod_divide in N1; [|lia]. destruct N1 as (q & Q).
        assert (0 < q) by nia. split; auto. split; [nia|]. split; [lia|]. split; [rewrite Q, E8; replace (q * (8 * 2 ^ (k - 3))) with (q * 2 ^ (k - 3) * 8) by ring; apply Z.mod_mul; lia|].
        intros _. rewrite Q. apply Z.mod_mul. lia.
    - destruct test_string_ok as [T1 T2]. rewrite T2. split; auto. split; [lia|]. split; [lia|]. split; [reflexivity|]. intros G. assert (k < 5) by (apply (Z.pow_lt_mono_r_iff 2); lia).
      assert (k = 3 \/ k = 4) as [-> | ->] by lia; reflexivity. }
  destruct A as (A1 & A2 & A3 & A4 & A5). unfold compdecomp. fold inp. destruct (Z.gtb_spec (lenZ inp) (2 ^ k)) as [G|G].
  - specialize (A5 ltac:(lia)). destruct (HO (lenZ inp / 2 ^ k)) as [HO1 HO2]. set (num := lenZ inp / 2 ^ k) in *.
    pose proof (Z.div_mod (lenZ inp) (2 ^ k) ltac:(lia)) as D. fold num in D. assert (0 <= num) by (apply Z.div_pos; lia).
    rewrite (bench_ok e I (2 ^ k) B iaddr oaddr daddr inp junk1 junk2 _ _ num); auto; try lia.
    + unfold UINT_MAX. lia.
    + destruct HI as [<-|[<-|[]]]; cbn [i_preferred sw842_implementation optsw842_implementation]; [apply Z.mod_1_r|]. rewrite E8, Z.mul_comm. apply Z.mod_mul. lia.
    + intros. now apply HJ.
    + now apply HJ.
  - destruct (simple_ok e I iaddr oaddr daddr inp) as (d & -> & F); auto; [unfold UINT_MAX; lia|]. rewrite bind_done. unfold lenZ. now rewrite Nat2Z.id, F.
Qed.

Theorem driver_empty e k B iaddr oaddr daddr junk1 junk2 corder dorder : 0 <= k < 31 -> oaddr mod 8 = 0 -> iaddr mod 8 = 0 ->
  compdecomp (sw842_implementation e) (2 ^ k) B iaddr oaddr daddr junk1 junk2 corder dorder (Some []) = Done (1, []) /\
  compdecomp (optsw842_implementation e) (2 ^ k) B iaddr oaddr daddr junk1 junk2 corder dorder (Some []) = Undef.
Proof.
  intros Hk HO HI. assert (P : 0 < 2 ^ k < 2 ^ 31) by (split; [apply Z.pow_pos_nonneg; lia|apply Z.pow_lt_mono_r; lia]).
  assert (R : read_file [] (2 ^ k) = []).
  { unfold read_file, nextMultipleOfChunkSize. cbn [app length lenZ Z.of_nat]. unfold u64. rewrite Z.mod_small by lia. rewrite land_high by lia. rewrite Z.div_small by lia. reflexivity. }
  unfold compdecomp. rewrite R. cbn [lenZ length Z.of_nat]. destruct (Z.gtb_spec 0 (2 ^ k)); [lia|]. rewrite Z.mul_0_l. cbn [Z.to_nat repeat]. unfold simple_test. split.
  - cbn [i_compress sw842_implementation]. unfold sw842_compress_f.
    destruct (c02 [] (Forall_nil _)) as (z & BZ & VZ & HZ). specialize (HZ e iaddr [] 0 (Forall_nil _) ltac:(unfold lenZ; cbn; lia)).
    assert (0 < lenZ z). { destruct VZ as (rest & ST). destruct z as [|b z]; [|unfold lenZ; cbn [length]; lia]. exfalso. change (bytes_bits []) with (@nil bool) in ST. inversion ST. }
    destruct (Z.leb_spec (lenZ z) 0); [lia|]. cbn [andb] in HZ. change (lenZ (@nil Z)) with 0 in *. destruct (sw842_compress e iaddr [] [] 0) as [[[r n] m]| |]; try discriminate. cbn [observed] in HZ. injection HZ as -> -> _.
    rewrite bind_done. reflexivity.
  - cbn [i_compress optsw842_implementation]. unfold optsw842_compress_f. assert (X : optsw842_compress e iaddr oaddr [] [] (lenZ (@nil Z)) = Undef); [|rewrite X; reflexivity].
    apply c18_exact; auto; [constructor|constructor|unfold lenZ; cbn; lia].
Qed.

(** * Whatever the library does *)
Lemma core_honest I C B iaddr oaddr daddr inp junk1 junk2 corder dorder o d :
  benchmark_core I C B iaddr oaddr daddr inp junk1 junk2 corder dorder = Done (true, o, d) -> d = inp.
Proof.
  unfold benchmark_core. destruct ((B >? 1) && _); [discriminate|]. destruct (run_batches _ corder _) as [[[out sizes] ok]| |]; try discriminate. rewrite bind_done.
  destruct ok; [|discriminate]. cbn [negb]. destruct (run_batches _ dorder _) as [[[dec dsizes] ok]| |]; try discriminate. rewrite bind_done. destruct ok; [|discriminate]. cbn [negb].
  destruct (negb _); [discriminate|]. cbn [orb]. destruct (list_eqb inp dec) eqn:E; [|discriminate]. cbn [negb]. intros H. injection H as _ <-. now apply list_eqb_eq in E.
Qed.
Theorem driver_honest I k B iaddr oaddr daddr junk1 junk2 corder dorder file d : 0 <= k <= 63 -> (forall f, file = Some f -> lenZ f + 2 ^ k <= 2 ^ 64) ->
  compdecomp I (2 ^ k) B iaddr oaddr daddr junk1 junk2 corder dorder file = Done (0, d) ->
  d = match file with Some f => padded (2 ^ k) f | None => TEST_STRING end.
Proof.
  intros Hk HF. assert (RF : match file with Some f => padded (2 ^ k) f | None => TEST_STRING end = match file with Some f => read_file f (2 ^ k) | None => TEST_STRING end).
  { destruct file as [f|]; auto. symmetry. apply read_file_padded; auto. }
  rewrite RF. clear RF. unfold compdecomp. set (inp := match file with Some f => read_file f (2 ^ k) | None => TEST_STRING end).
  destruct (lenZ inp >? 2 ^ k).
  - destruct (benchmark_core _ _ _ _ _ _ _ _ _ _ _) as [[[[] o] x]| |] eqn:E; try discriminate. rewrite bind_done. intros H. injection H as <-. now apply core_honest in E.
  - unfold simple_test. destruct (i_compress I iaddr oaddr inp _ _) as [[[err olen] m]| |]; try discriminate. rewrite bind_done. destruct (negb (err =? 0)); [discriminate|].
    destruct (load_bytes m 0 olen); try discriminate. rewrite bind_done. destruct (i_decompress I _ _ _ _ _) as [[[err' dlen] d']| |]; try discriminate. rewrite bind_done.
    destruct (negb (err' =? 0)); [discriminate|]. rewrite bind_done. destruct (lenZ inp =? dlen) eqn:E1; [|discriminate]. cbn [andb]. destruct (list_eqb inp _) eqn:E2; [|discriminate].
    intros H. injection H as <-. apply Z.eqb_eq in E1. apply list_eqb_eq in E2. rewrite <- E1. unfold lenZ. now rewrite Nat2Z.id.
Qed.
