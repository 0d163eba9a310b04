(** Proofs about the chunked functions. *)
From Coq Require Import ZArith List Bool Lia.
From Verif Require Import SpecBits SpecCrc Spec842 SpecCalls CBase BitsLemmas CrcModel CrcProofs
  SerialCompModel SerialDecompModel SerialWriter SerialDict SerialIdeal SerialComp SerialValid PureDecoder SerialReader SerialDecomp SerialFacts SerialProps
  OptCompModel OptDecompModel OptWriter OptComp OptDecomp OptProps ChunkedModel SpecChunked.
Import ListNotations.
Open Scope Z_scope.

(** What the single-chunk functions guarantee. *)
Record good_call (call : chunk_func) : Prop := mkGood {
  gc_local : forall a b ib out out' cap, is_bytes ib -> is_bytes out -> is_bytes out' ->
    0 <= cap <= lenZ out -> cap <= lenZ out' -> cap < 2 ^ 63 -> firstn (Z.to_nat cap) out = firstn (Z.to_nat cap) out' ->
    observed (call a b ib out cap) = observed (call a b ib out' cap);
  gc_frame : forall a b ib out cap r n m, is_bytes ib -> is_bytes out -> 0 <= cap <= lenZ out -> cap < 2 ^ 63 ->
    call a b ib out cap = Done (r, n, m) ->
    0 <= n <= cap /\ is_bytes m /\ length m = length out /\ skipn (Z.to_nat cap) m = skipn (Z.to_nat cap) out }.

Lemma w_frame (w out : list Z) (cap : Z) : lenZ w <= cap -> cap <= lenZ out ->
  length (w ++ skipn (length w) out) = length out /\
  skipn (Z.to_nat cap) (w ++ skipn (length w) out) = skipn (Z.to_nat cap) out.
Proof.
  intros H1 H2. unfold lenZ in *. split.
  - rewrite app_length, skipn_length. lia.
  - rewrite skipn_app, skipn_all2 by lia. cbn [app]. rewrite skipn_add. f_equal. lia.
Qed.

Lemma good_sw_compress e : good_call (sw842_compress_f e).
Proof.
  constructor; unfold sw842_compress_f; intros.
  - now apply comp_indep.
  - destruct (sw842_compress_out e a ib out cap H H0 H1) as [(A & B & m' & E & F & (M1 & M2 & M3))|(A & m' & E & (M1 & M2 & M3))];
      rewrite E in H3; injection H3 as <- <- <-; (split; [|tauto]).
    + pose proof (lenZ_nonneg (ideal_out ib)). lia.
    + lia.
Qed.
Lemma good_sw_decompress e : good_call (sw842_decompress_f e).
Proof.
  constructor; unfold sw842_decompress_f; intros.
  - apply decomp_indep; auto.
  - apply c06_frame in H3; auto. destruct H3 as (N & w & W1 & W2 & ->). split; auto.
    split; [apply is_bytes_app; split; auto; now apply is_bytes_skipn|]. apply w_frame; lia.
Qed.
Lemma good_optsw_compress e : good_call (optsw842_compress_f e).
Proof.
  constructor; unfold optsw842_compress_f; intros.
  - destruct (Z.eq_dec (lenZ ib mod 8) 0) as [M|M]; [now apply ocomp_indep|].
    rewrite !ocomp_ragged by auto. cbn [observed]. now rewrite H5.
  - destruct (Z.eq_dec (lenZ ib mod 8) 0) as [HM|HM].
    2: { rewrite ocomp_ragged in H3 by auto. injection H3 as <- <- <-. split; [lia|auto]. }
    destruct (al a b) eqn:A.
    + destruct (list_eq_dec Z.eq_dec ib []) as [->|N]; [rewrite ocomp_empty in H3 by auto; discriminate|].
      apply al_true in A. destruct A as [A1 A2].
      destruct (optsw842_compress_out e a b ib out cap H H0 H1 A1 A2 HM N) as [(A & m' & E & F & B)|(A & m' & E & B)];
        rewrite E in H3; injection H3 as <- <- <-; pose proof B as (B1 & _); apply bmem_frame in B; try lia; (split; [|tauto]).
      * pose proof (lenZ_nonneg (opt_out ib)). lia.
      * lia.
    + rewrite ocomp_unaligned in H3 by auto. destruct (Z.eqb_spec (lenZ ib mod 8) 0); [|contradiction]. cbn [negb] in H3.
      exact (gc_frame _ (good_sw_compress e) a b _ _ _ _ _ _ H H0 H1 H2 H3).
Qed.
Lemma good_optsw_decompress e : good_call (optsw842_decompress_f e).
Proof.
  constructor; unfold optsw842_decompress_f; intros.
  - now apply odecomp_indep.
  - destruct (al a b) eqn:A.
    + apply al_true in A. destruct A as [A1 A2].
      destruct (c21 e a b ib out cap H H0 H1 H2 A1 A2) as (r' & n' & m' & E & _ & N & w & W1 & W2 & ->).
      rewrite E in H3. injection H3 as <- <- <-. split; auto.
      split; [apply is_bytes_app; split; auto; now apply is_bytes_skipn|]. apply w_frame; lia.
    + rewrite odecomp_unaligned in H3 by auto. exact (gc_frame _ (good_sw_decompress e) a b _ _ _ _ _ _ H H0 H1 H2 H3).
Qed.

(** ** Lists *)
Lemma slice_ext (a b : list Z) d c : length a = length b -> (forall k, (d <= k < d + c)%nat -> nth k a 0 = nth k b 0) ->
  slice d c a = slice d c b.
Proof.
  intros L H. apply nth_ext with (d := 0) (d' := 0).
  - unfold slice. rewrite !firstn_length, !skipn_length. lia.
  - intros k Hk. unfold slice in *. rewrite firstn_length, skipn_length in Hk.
    rewrite !nth_firstn_gen by lia. rewrite !nth_skipn_gen. apply H. lia.
Qed.
Lemma slice_front (a b : list Z) d c k : (d + c <= k)%nat -> (k <= length a)%nat -> slice d c (firstn k a ++ b) = slice d c a.
Proof.
  intros H L. unfold slice. rewrite skipn_app, firstn_app, skipn_length, firstn_length.
  replace (c - _)%nat with 0%nat by lia. rewrite firstn_O, app_nil_r, skipn_firstn_comm, firstn_firstn. f_equal. lia.
Qed.
Lemma slice_len_le (a : list Z) d c : (d + c <= length a)%nat -> length (slice d c a) = c.
Proof. intros. now apply slice_length. Qed.

Section Run.
Variable call : chunk_func.
Hypothesis GC : good_call call.
Variables (n istride ostride iaddr oaddr : Z) (inp ilens olens out rets : list Z).
Hypothesis Hinp : is_bytes inp.
Hypothesis Hout : is_bytes out.
Hypothesis Hn : 0 <= n <= UINT_MAX.
Hypothesis Hlens : lenZ ilens = n /\ lenZ olens = n /\ lenZ rets = n.
Hypothesis Hos : 0 <= ostride.
Hypothesis Hnw : (n - 1) * ostride < 2 ^ 32.
Notation il j := (nth j ilens 0).
Notation ol j := (nth j olens 0).
Notation dst j := (Z.of_nat j * ostride).
Notation src j := (Z.of_nat j * istride mod 2 ^ 32).
Hypothesis Hregion : forall j, (j < Z.to_nat n)%nat -> il j <> SIZE_MAX ->
  0 <= il j /\ src j + il j <= lenZ inp /\ 0 <= ol j <= ostride /\ dst j + ol j <= lenZ out /\ ol j < 2 ^ 63.
(** Every chunk that is not skipped is processed without undefined behaviour by the single-chunk function. *)
Definition single1 j : outcome (Z * Z * list Z) :=
  observed (call (iaddr + src j) (oaddr + dst j) (slice (Z.to_nat (src j)) (Z.to_nat (il j)) inp)
             (slice (Z.to_nat (dst j)) (Z.to_nat (ol j)) out) (ol j)).
Hypothesis Hdef : forall j, (j < Z.to_nat n)%nat -> il j <> SIZE_MAX -> exists r k bs, single1 j = Done (r, k, bs).

Definition chunk_done (rets' olens' out' : list Z) (j : nat) : Prop :=
  if il j =? SIZE_MAX then nth j rets' 0 = nth j rets 0 /\ nth j olens' 0 = ol j
  else 0 <= nth j olens' 0 <= ol j /\
    single1 j = Done (nth j rets' 0, nth j olens' 0, slice (Z.to_nat (dst j)) (Z.to_nat (nth j olens' 0)) out').
Record cinv (i : nat) (rets' olens' out' : list Z) : Prop := mkCinv {
  ci_rl : length rets' = length rets;
  ci_ol : length olens' = length olens;
  ci_out : length out' = length out;
  ci_bytes : is_bytes out';
  ci_done : forall j, (j < i)%nat -> chunk_done rets' olens' out' j;
  ci_todo : forall j, (i <= j)%nat -> nth j rets' 0 = nth j rets 0 /\ nth j olens' 0 = ol j;
  ci_rest : forall k, (forall j, (j < i)%nat -> il j <> SIZE_MAX -> ~ (dst j <= Z.of_nat k < dst j + ol j)) -> nth k out' 0 = nth k out 0 }.

Lemma dst_lt i : (i < Z.to_nat n)%nat -> 0 <= dst i < 2 ^ 32.
Proof using Hn Hos Hnw. clear - Hn Hos Hnw. intros H. split; [nia|]. nia. Qed.
Lemma aset_nth (l : list Z) (i : nat) v : (i < length l)%nat ->
  exists l', aset l (Z.of_nat i) v = Done l' /\ length l' = length l /\ nth i l' 0 = v /\ (forall j, j <> i -> nth j l' 0 = nth j l 0).
Proof using.
  clear. intros H. unfold aset. destruct (Z.leb_spec 0 (Z.of_nat i)); [|lia]. destruct (Z.ltb_spec (Z.of_nat i) (lenZ l)); [|unfold lenZ in *; lia].
  cbn [andb]. rewrite Nat2Z.id. eexists. split; [reflexivity|].
  split; [now apply upd_length|]. split; [now apply nth_upd_same|]. intros. apply nth_upd_other; auto.
Qed.

Lemma chunk_loop_ok k : forall i ret rets' olens' out', (i + k = Z.to_nat n)%nat -> cinv i rets' olens' out' ->
  exists rets1 olens1 out1,
    chunk_loop call (S k) n istride ostride iaddr oaddr inp ilens (Z.of_nat i) (src i) (u32 (dst i)) ret rets' out' olens'
      = Done (0, rets1, olens1, out1) /\ cinv (Z.to_nat n) rets1 olens1 out1.
Proof.
  induction k as [|k IH]; intros i ret rets' olens' out' Hi Ci; cbn [chunk_loop].
  - destruct (Z.ltb_spec (Z.of_nat i) n); [lia|]. do 3 eexists. split; [reflexivity|]. replace (Z.to_nat n) with i by lia. exact Ci.
  - destruct (Z.ltb_spec (Z.of_nat i) n); [|lia].
    assert (Hin : (i < Z.to_nat n)%nat) by lia. destruct Hlens as (LI & LO & LR).
    assert (AI : aget ilens (Z.of_nat i) = Done (il i)).
    { unfold aget. destruct (Z.leb_spec 0 (Z.of_nat i)); [|lia]. destruct (Z.ltb_spec (Z.of_nat i) (lenZ ilens)); [|lia]. cbn [andb]. now rewrite Nat2Z.id. }
    rewrite AI, bind_done.
    assert (N1 : u32 (Z.of_nat i + 1) = Z.of_nat (S i)).
    { unfold u32. unfold UINT_MAX in Hn. rewrite Z.mod_small; lia. }
    assert (N2 : u32 (src i + istride) = src (S i)).
    { unfold u32. rewrite Z.add_mod_idemp_l by lia. f_equal. lia. }
    assert (N3 : u32 (u32 (dst i) + ostride) = u32 (dst (S i))).
    { unfold u32. rewrite Z.add_mod_idemp_l by lia. f_equal. lia. }
    rewrite N1, N2, N3. pose proof (dst_lt i Hin) as D.
    destruct (Z.eqb_spec (il i) SIZE_MAX) as [E|NE].
    + apply IH; [lia|]. destruct Ci. constructor; [assumption|assumption|assumption|assumption| | | ].
      * intros j Hj. destruct (Nat.eq_dec j i) as [->|]; [|apply ci_done0; lia].
        unfold chunk_done. rewrite E. change (SIZE_MAX =? SIZE_MAX) with true. cbv iota. apply ci_todo0. lia.
      * intros j Hj. apply ci_todo0. lia.
      * intros p Hp. apply ci_rest0. intros j Hj. apply Hp. lia.
    + destruct (Hregion i Hin NE) as (R1 & R2 & R3 & R4 & R5).
      pose proof (Z.mod_pos_bound (Z.of_nat i * istride) (2 ^ 32) ltac:(lia)) as SB.
      assert (LB : load_bytes inp (src i) (il i) = Done (slice (Z.to_nat (src i)) (Z.to_nat (il i)) inp)).
      { unfold load_bytes. destruct (Z.leb_spec 0 (src i)); [|lia]. destruct (Z.leb_spec (src i + il i) (lenZ inp)); [|lia]. reflexivity. }
      rewrite LB, bind_done.
      destruct (ci_todo _ _ _ _ Ci i ltac:(lia)) as [TR TO].
      assert (AO : aget olens' (Z.of_nat i) = Done (ol i)).
      { unfold aget. destruct (Z.leb_spec 0 (Z.of_nat i)); [|lia].
        destruct (Z.ltb_spec (Z.of_nat i) (lenZ olens')) as [|B]; [|unfold lenZ in *; rewrite (ci_ol _ _ _ _ Ci) in B; lia].
        cbn [andb]. now rewrite Nat2Z.id, TO. }
      rewrite AO, bind_done.
      assert (UD : u32 (dst i) = dst i) by (unfold u32; apply Z.mod_small; lia). rewrite UD.
      pose proof (ci_out _ _ _ _ Ci) as LOUT. pose proof (ci_bytes _ _ _ _ Ci) as BOUT.
      rewrite Z.gtb_ltb. destruct (Z.ltb_spec (lenZ out') (dst i)) as [B|_]; [unfold lenZ in *; rewrite LOUT in B; lia|].
      set (d := Z.to_nat (dst i)) in *. set (ib := slice (Z.to_nat (src i)) (Z.to_nat (il i)) inp) in *.
      assert (Bib : is_bytes ib) by now apply is_bytes_slice.
      assert (LS : length (slice d (Z.to_nat (ol i)) out) = Z.to_nat (ol i)).
      { apply slice_length. unfold d, lenZ in *. lia. }
      assert (SAME : slice d (Z.to_nat (ol i)) out' = slice d (Z.to_nat (ol i)) out).
      { apply slice_ext; auto. intros p Hp. apply (ci_rest _ _ _ _ Ci). intros j Hj NEj.
        destruct (Hregion j ltac:(lia) NEj) as (_ & _ & Q3 & _ & _). unfold d in Hp. nia. }
      assert (LSK : lenZ (skipn d out') = lenZ out - dst i) by (unfold lenZ in *; rewrite skipn_length, LOUT; unfold d; lia).
      pose proof (gc_local _ GC (iaddr + src i) (oaddr + dst i) ib (skipn d out') (slice d (Z.to_nat (ol i)) out) (ol i) Bib
        (is_bytes_skipn _ _ BOUT) (is_bytes_slice _ _ _ Hout) ltac:(lia) ltac:(unfold lenZ; rewrite LS; lia) R5) as LOC.
      assert (FE : firstn (Z.to_nat (ol i)) (skipn d out') = firstn (Z.to_nat (ol i)) (slice d (Z.to_nat (ol i)) out)).
      { rewrite <- SAME. unfold slice. rewrite firstn_firstn. f_equal. lia. }
      specialize (LOC FE).
      destruct (Hdef i Hin NE) as (r & q & bs & SG). assert (SG' := SG). unfold single1 in SG'. fold d in SG'. fold ib in SG'. rewrite SG' in LOC.
      destruct (call (iaddr + src i) (oaddr + dst i) ib (skipn d out') (ol i)) as [[[r1 q1] m]| |] eqn:CL; try discriminate.
      cbn [observed] in LOC. injection LOC as -> -> EB. 
      destruct (gc_frame _ GC _ _ ib (skipn d out') (ol i) _ _ _ Bib (is_bytes_skipn _ _ BOUT) ltac:(lia) R5 CL) as (Q & BM & LM & SM).
      rewrite bind_done.
      destruct (aset_nth rets' i r) as (rets1 & -> & RL1 & RN1 & RO1).
      { rewrite (ci_rl _ _ _ _ Ci). unfold lenZ in *. lia. }
      rewrite bind_done.
      destruct (aset_nth olens' i q) as (olens1 & -> & OL1 & ON1 & OO1).
      { rewrite (ci_ol _ _ _ _ Ci). unfold lenZ in *. lia. }
      rewrite bind_done.
      assert (LD : (d <= length out')%nat) by (rewrite LOUT; unfold d, lenZ in *; lia).
      assert (LF : length (firstn d out') = d) by (rewrite firstn_length; lia).
      apply IH; [lia|]. destruct Ci. constructor.
      * congruence.
      * congruence.
      * rewrite app_length, LF, LM, skipn_length. lia.
      * apply is_bytes_app. split; auto. now apply is_bytes_firstn.
      * intros j Hj. destruct (Nat.eq_dec j i) as [->|NJ].
        -- unfold chunk_done. destruct (Z.eqb_spec (il i) SIZE_MAX); [contradiction|]. rewrite RN1, ON1. split; [auto|].
           rewrite SG. f_equal. f_equal. rewrite <- EB. unfold slice. fold d. rewrite skipn_app, (skipn_all2 (firstn d out')) by lia.
           rewrite LF, Nat.sub_diag. reflexivity.
        -- assert (Hji : (j < i)%nat) by lia. specialize (ci_done0 j Hji). unfold chunk_done in *. rewrite RO1, OO1 by auto.
           destruct (Z.eqb_spec (il j) SIZE_MAX); [auto|]. destruct ci_done0 as [Q0 E0]. split; auto. rewrite E0. do 2 f_equal.
           symmetry. apply slice_front; auto. destruct (Hregion j ltac:(lia) n0) as (_ & _ & Q3 & _ & _).
           unfold d. nia.
      * intros j Hj. rewrite RO1, OO1 by lia. apply ci_todo0. lia.
      * intros p Hp. 
        assert (OLD : nth p out' 0 = nth p out 0) by (apply ci_rest0; intros j Hj; apply Hp; lia).
        rewrite <- OLD. pose proof (Hp i ltac:(lia) NE) as NI.
        destruct (Nat.lt_ge_cases p d) as [L|L].
        -- rewrite app_nth1 by lia. apply nth_firstn_gen. lia.
        -- rewrite app_nth2 by lia. rewrite LF.
           assert (PC : (Z.to_nat (ol i) <= p - d)%nat) by (unfold d in *; lia).
           transitivity (nth (p - d - Z.to_nat (ol i)) (skipn (Z.to_nat (ol i)) m) 0).
           { rewrite nth_skipn_gen. f_equal. lia. }
           rewrite SM, !nth_skipn_gen. f_equal. lia.
Qed.

Lemma chunked_ok : exists rets' olens' out',
  chunked call n rets iaddr inp istride ilens oaddr out ostride olens = Done (0, rets', olens', out') /\
  length rets' = length rets /\ length olens' = length olens /\ length out' = length out /\ is_bytes out' /\
  (forall j, (j < Z.to_nat n)%nat -> chunk_done rets' olens' out' j) /\
  (forall k, (forall j, (j < Z.to_nat n)%nat -> il j <> SIZE_MAX -> ~ (dst j <= Z.of_nat k < dst j + ol j)) -> nth k out' 0 = nth k out 0).
Proof.
  unfold chunked.
  destruct (chunk_loop_ok (Z.to_nat n) 0 0 rets olens out) as (r & o & m & E & []).
  { lia. }
  { constructor; auto. intros; lia. }
  exists r, o, m. split; [exact E|]. auto 10.
Qed.
End Run.

Lemma chunked_spec call : good_call call -> as_single_calls (2 ^ 32) call (chunked call).
Proof.
  intros G n rets iaddr inp istride ilens oaddr out ostride olens Hi Ho Hn (L1 & L2 & L3 & IS & OS & AR) WI WO DF.
  assert (SRC : forall j, (j < Z.to_nat n)%nat -> Z.of_nat j * istride mod 2 ^ 32 = Z.of_nat j * istride).
  { intros j Hj. apply Z.mod_small. split; [nia|]. nia. }
  assert (EQ : forall j, (j < Z.to_nat n)%nat ->
    single1 call istride ostride iaddr oaddr inp ilens olens out j = single call iaddr inp istride ilens oaddr out ostride olens j).
  { intros j Hj. unfold single1, single. now rewrite SRC. }
  destruct (chunked_ok call G n istride ostride iaddr oaddr inp ilens olens out rets) as (r & o & m & E & A1 & A2 & A3 & A4 & D & RS); auto.
  { intros j Hj NE. rewrite SRC by auto. apply AR. now split. }
  { intros j Hj NE. destruct (DF j) as [[[a b] c] E]; [now split|]. exists a, b, c. now rewrite EQ. }
  exists 0, r, o, m. split; [exact E|]. split.
  { intros j [Hj NE]. specialize (D j Hj). unfold chunk_done in D. destruct (Z.eqb_spec (nth j ilens 0) SIZE_MAX); [contradiction|].
    rewrite <- EQ by auto. apply D. }
  split.
  { intros j Hj E0. specialize (D j Hj). unfold chunk_done in D. rewrite E0 in D. exact D. }
  do 4 (split; auto).
  intros k Hk. apply RS. intros j Hj NE. apply Hk. now split.
Qed.

Lemma chunk_loop_ret call fuel : forall n istride ostride iaddr oaddr inp ilens i s d ret rets out olens r a b c,
  chunk_loop call fuel n istride ostride iaddr oaddr inp ilens i s d ret rets out olens = Done (r, a, b, c) -> r = 0.
Proof.
  induction fuel as [|f IH]; intros until c; cbn [chunk_loop]; destruct (i <? n); try discriminate; try (intros [= <-]; reflexivity).
  destruct (aget ilens i) as [il| |]; try discriminate. rewrite bind_done.
  destruct (il =? SIZE_MAX); [apply IH|].
  destruct (load_bytes inp s il) as [ib| |]; try discriminate. rewrite bind_done.
  destruct (aget olens i) as [cp| |]; try discriminate. rewrite bind_done.
  destruct (d >? lenZ out); try discriminate.
  destruct (call _ _ _ _ _) as [[[r1 n1] m]| |]; try discriminate. rewrite bind_done.
  destruct (aset rets i r1) as [rr| |]; try discriminate. rewrite bind_done.
  destruct (aset olens i n1) as [oo| |]; try discriminate. rewrite bind_done. apply IH.
Qed.
Lemma chunked_ret call n rets iaddr inp istride ilens oaddr out ostride olens r a b c :
  chunked call n rets iaddr inp istride ilens oaddr out ostride olens = Done (r, a, b, c) -> r = 0.
Proof. apply chunk_loop_ret. Qed.

(** ** The 32-bit offsets wrap *)
Lemma wrap_load (A pad B : list Z) : lenZ A = 8 -> load_bytes (A ++ pad ++ B) 0 8 = Done A.
Proof.
  intros L. unfold load_bytes. destruct (Z.leb_spec (0 + 8) (lenZ (A ++ pad ++ B))) as [|H].
  2: { unfold lenZ in *. rewrite app_length in H. lia. }
  cbn [Z.leb andb]. change (Z.to_nat 0) with 0%nat. rewrite skipn_O.
  replace (Z.to_nat 8) with (length A) by (unfold lenZ in L; lia). rewrite firstn_app, firstn_all, Nat.sub_diag, firstn_O. now rewrite app_nil_r.
Qed.
Lemma chunk_loop_base call (inp inp' ilens : list Z) n istride ostride iaddr oaddr : istride mod 2 ^ 32 = 0 ->
  (forall i il, aget ilens i = Done il -> load_bytes inp 0 il = load_bytes inp' 0 il) ->
  forall fuel i d ret rets out olens,
  chunk_loop call fuel n istride ostride iaddr oaddr inp ilens i 0 d ret rets out olens =
  chunk_loop call fuel n istride ostride iaddr oaddr inp' ilens i 0 d ret rets out olens.
Proof.
  intros M H. induction fuel as [|f IH]; intros; cbn [chunk_loop]; destruct (i <? n); auto.
  assert (U : u32 (0 + istride) = 0) by exact M. rewrite U.
  destruct (aget ilens i) as [il| |] eqn:A; auto. rewrite !bind_done. destruct (il =? SIZE_MAX); [apply IH|]. rewrite (H _ _ A).
  destruct (load_bytes inp' 0 il) as [ib| |]; auto. rewrite !bind_done.
  destruct (aget olens i) as [cp| |]; auto. rewrite !bind_done.
  destruct (d >? lenZ out); auto.
  destruct (call _ _ _ _ _) as [[[r1 n1] m]| |]; auto. rewrite !bind_done.
  destruct (aset rets i r1) as [rr| |]; auto. rewrite !bind_done.
  destruct (aset olens i n1) as [oo| |]; auto. rewrite !bind_done. apply IH.
Qed.
Definition wrap_out := List.repeat 170 64.
Definition wrapA := List.repeat 0 8.
Definition wrapB := [1;2;3;4;5;6;7;8].
Lemma wrap_run pad : exists rets olens out,
  sw842_compress_chunked LE 2 [9;9] 0 (wrapA ++ pad ++ wrapB) (2 ^ 32) [8;8] 0 wrap_out 32 [32;32] = Done (0, rets, olens, out) /\ slice 0 (Z.to_nat (nth 0 olens 0)) out = slice 32 (Z.to_nat (nth 1 olens 0)) out /\ nth 1 olens 0 = 8.
Proof.
  assert (E : sw842_compress_chunked LE 2 [9;9] 0 (wrapA ++ pad ++ wrapB) (2 ^ 32) [8;8] 0 wrap_out 32 [32;32] =
              sw842_compress_chunked LE 2 [9;9] 0 wrapA (2 ^ 32) [8;8] 0 wrap_out 32 [32;32]).
  { unfold sw842_compress_chunked, chunked. apply chunk_loop_base; [reflexivity|]. intros i il A.
    assert (il = 8) as ->.
    { unfold aget in A. destruct ((0 <=? i) && (i <? lenZ [8;8])) eqn:C; try discriminate.
      apply andb_true_iff in C. destruct C as [C1 C2]. apply Z.leb_le in C1. apply Z.ltb_lt in C2. change (lenZ [8;8]) with 2 in C2.
      assert (i = 0 \/ i = 1) as [-> | ->] by lia; injection A as <-; reflexivity. }
    rewrite (wrap_load wrapA pad wrapB eq_refl). symmetry. rewrite <- (wrap_load wrapA [] [] eq_refl). reflexivity. }
  rewrite E. do 3 eexists. split; [vm_compute; reflexivity|]. split; vm_compute; reflexivity.
Qed.
Lemma wrap_slice (A pad B : list Z) k : (length A + length pad)%nat = k -> length B = 8%nat -> slice k 8 (A ++ pad ++ B) = B.
Proof.
  intros L LB. unfold slice. rewrite app_assoc, skipn_app, skipn_all2 by (rewrite app_length; lia).
  rewrite app_length, L, Nat.sub_diag. cbn [app skipn]. rewrite <- LB. apply firstn_all.
Qed.
Lemma wrap_refuted : ~ as_single_calls (2 ^ 33) (sw842_compress_f LE) (sw842_compress_chunked LE).
Proof.
  intros H.
  set (pad := List.repeat 0 (Z.to_nat (2 ^ 32 - 8))).
  assert (LP : lenZ pad = 2 ^ 32 - 8) by (unfold pad, lenZ; rewrite repeat_length; lia).
  assert (BP : is_bytes pad) by apply is_bytes_zeros.
  clearbody pad.
  set (inp := wrapA ++ pad ++ wrapB).
  assert (BI : is_bytes inp).
  { unfold inp. rewrite !is_bytes_app. split; [apply is_bytes_zeros|]. split; auto. unfold wrapB. repeat constructor; lia. }
  assert (LI : lenZ inp = 2 ^ 32 + 8) by (unfold inp, lenZ in *; rewrite !app_length; change (length wrapA) with 8%nat; change (length wrapB) with 8%nat; lia).
  assert (S0 : slice 0 8 inp = wrapA) by reflexivity.
  assert (S1 : slice (Z.to_nat (2 ^ 32)) 8 inp = wrapB).
  { apply wrap_slice; [|reflexivity]. unfold lenZ in LP. change (length wrapA) with 8%nat. lia. }
  assert (BO : is_bytes wrap_out) by (apply is_bytes_repeat; unfold is_byte; lia).
  assert (LJ : forall j, live 2 [8;8] j -> j = 0%nat \/ j = 1%nat).
  { intros j [Hj _]. change (Z.to_nat 2) with 2%nat in Hj. lia. }
  assert (E0 : single (sw842_compress_f LE) 0 inp (2 ^ 32) [8;8] 0 wrap_out 32 [32;32] 0 = observed (sw842_compress LE 0 wrapA (slice 0 32 wrap_out) 32)).
  { unfold single. change (Z.to_nat (Z.of_nat 0 * 2 ^ 32)) with 0%nat. change (Z.to_nat (nth 0 [8; 8] 0)) with 8%nat. rewrite S0. reflexivity. }
  assert (E1 : single (sw842_compress_f LE) 0 inp (2 ^ 32) [8;8] 0 wrap_out 32 [32;32] 1 = observed (sw842_compress LE (2 ^ 32) wrapB (slice 32 32 wrap_out) 32)).
  { unfold single. change (Z.of_nat 1 * 2 ^ 32) with (2 ^ 32). change (Z.to_nat (nth 1 [8; 8] 0)) with 8%nat. rewrite S1. reflexivity. }
  destruct (H 2 [9;9] 0 inp (2 ^ 32) [8;8] 0 wrap_out 32 [32;32]) as (ret & rets & olens & out & E & P & _); auto.
  - unfold UINT_MAX. lia.
  - do 5 (split; [reflexivity || lia|]). intros j Hj. apply LJ in Hj. rewrite LI. change (lenZ wrap_out) with 64.
    destruct Hj as [-> | ->]; cbn [nth]; lia.
  - lia.
  - lia.
  - intros j Hj. apply LJ in Hj. destruct Hj as [-> | ->]; [rewrite E0|rewrite E1]; eexists; vm_compute; reflexivity.
  - destruct (wrap_run pad) as (r & o & m & F & _ & N). fold inp in F. rewrite F in E. injection E as <- <- <- <-.
    specialize (P 1%nat). rewrite E1 in P. unfold seen in P. rewrite N in P.
    assert (L : live 2 [8;8] 1) by (split; [change (Z.to_nat 2) with 2%nat; lia|discriminate]). specialize (P L).
    vm_compute in P. discriminate.
Qed.

(** ** More than UINT_MAX chunks *)
Lemma aget_repeat v (n : nat) i : 0 <= i < Z.of_nat n -> aget (List.repeat v n) i = Done v.
Proof.
  intros H. unfold aget, lenZ. rewrite repeat_length. destruct (Z.leb_spec 0 i); [|lia]. destruct (Z.ltb_spec i (Z.of_nat n)); [|lia].
  cbn [andb]. f_equal. apply nth_error_nth with (x := v). apply nth_error_repeat. lia.
Qed.
Lemma chunked_spins call fuel : forall n istride ostride iaddr oaddr inp i s d ret rets out olens,
  UINT_MAX < n -> 0 <= i <= UINT_MAX ->
  chunk_loop call fuel n istride ostride iaddr oaddr inp (List.repeat SIZE_MAX (Z.to_nat n)) i s d ret rets out olens = NoFuel.
Proof.
  induction fuel as [|f IH]; intros n is os ia oa inp i s d ret rets out olens H Hi; cbn [chunk_loop]; destruct (Z.ltb_spec i n); auto; try lia.
  rewrite aget_repeat by lia. rewrite bind_done. change (SIZE_MAX =? SIZE_MAX) with true. cbv iota.
  apply IH; auto. unfold u32, UINT_MAX in *. pose proof (Z.mod_pos_bound (i + 1) (2 ^ 32)). lia.
Qed.

Lemma c28 e f g : In (f, g) [(sw842_compress_f e, sw842_compress_chunked e); (sw842_decompress_f e, sw842_decompress_chunked e);
    (optsw842_compress_f e, optsw842_compress_chunked e); (optsw842_decompress_f e, optsw842_decompress_chunked e)] ->
  as_single_calls (2 ^ 32) f g.
Proof.
  cbn [In]. intros [H|[H|[H|[H|[]]]]]; apply pair_inj in H; destruct H as [<- <-]; apply chunked_spec;
    [apply good_sw_compress|apply good_sw_decompress|apply good_optsw_compress|apply good_optsw_decompress].
Qed.
Lemma c30 f g : as_single_calls (2 ^ 32) f g ->
  forall n rets iaddr inp istride ilens oaddr out ostride olens n' rets' inp' ilens' out' olens' j r1 a1 b1 m1 r2 a2 b2 m2,
  is_bytes inp -> is_bytes out -> 0 <= n <= UINT_MAX -> areas n rets inp istride ilens out ostride olens ->
  (n - 1) * istride < 2 ^ 32 -> (n - 1) * ostride < 2 ^ 32 ->
  (forall i, live n ilens i -> exists v, single f iaddr inp istride ilens oaddr out ostride olens i = Done v) ->
  is_bytes inp' -> is_bytes out' -> 0 <= n' <= UINT_MAX -> areas n' rets' inp' istride ilens' out' ostride olens' ->
  (n' - 1) * istride < 2 ^ 32 -> (n' - 1) * ostride < 2 ^ 32 ->
  (forall i, live n' ilens' i -> exists v, single f iaddr inp' istride ilens' oaddr out' ostride olens' i = Done v) ->
  live n ilens j -> live n' ilens' j ->
  nth j ilens 0 = nth j ilens' 0 -> nth j olens 0 = nth j olens' 0 ->
  slice (Z.to_nat (Z.of_nat j * istride)) (Z.to_nat (nth j ilens 0)) inp = slice (Z.to_nat (Z.of_nat j * istride)) (Z.to_nat (nth j ilens 0)) inp' ->
  slice (Z.to_nat (Z.of_nat j * ostride)) (Z.to_nat (nth j olens 0)) out = slice (Z.to_nat (Z.of_nat j * ostride)) (Z.to_nat (nth j olens 0)) out' ->
  g n rets iaddr inp istride ilens oaddr out ostride olens = Done (r1, a1, b1, m1) ->
  g n' rets' iaddr inp' istride ilens' oaddr out' ostride olens' = Done (r2, a2, b2, m2) ->
  seen a1 b1 m1 ostride j = seen a2 b2 m2 ostride j.
Proof.
  intros H n rets iaddr inp istride ilens oaddr out ostride olens n' rets' inp' ilens' out' olens' j r1 a1 b1 m1 r2 a2 b2 m2
    A1 A2 A3 A4 A5 A6 A7 B1 B2 B3 B4 B5 B6 B7 L1 L2 EI EO SI SO G1 G2.
  destruct (H n rets iaddr inp istride ilens oaddr out ostride olens A1 A2 A3 A4 A5 A6 A7) as (r & a & b & m & E & P & _).
  rewrite G1 in E. injection E as <- <- <- <-.
  destruct (H n' rets' iaddr inp' istride ilens' oaddr out' ostride olens' B1 B2 B3 B4 B5 B6 B7) as (r & a & b & m & E & Q & _).
  rewrite G2 in E. injection E as <- <- <- <-.
  specialize (P j L1). specialize (Q j L2).
  assert (X : single f iaddr inp istride ilens oaddr out ostride olens j = single f iaddr inp' istride ilens' oaddr out' ostride olens' j).
  { unfold single. now rewrite SI, SO, EI, EO. }
  rewrite P, Q in X. assert (Y : forall A (u v : A), Done u = Done v -> u = v) by (intros A u v [= ->]; reflexivity). now apply Y.
Qed.
Lemma c50 : exists n ilens, 0 <= n <= SIZE_MAX /\ lenZ ilens = n /\
  forall f fuel istride ostride iaddr oaddr inp rets out olens,
  chunk_loop f fuel n istride ostride iaddr oaddr inp ilens 0 0 0 0 rets out olens = NoFuel.
Proof.
  exists (UINT_MAX + 1), (List.repeat SIZE_MAX (Z.to_nat (UINT_MAX + 1))). split; [unfold UINT_MAX, SIZE_MAX; lia|].
  split; [unfold lenZ; rewrite repeat_length; unfold UINT_MAX; lia|].
  intros. apply chunked_spins; unfold UINT_MAX; lia.
Qed.
Lemma c30_skip f g : as_single_calls (2 ^ 32) f g ->
  forall n rets iaddr inp istride ilens oaddr out ostride olens j,
  is_bytes inp -> is_bytes out -> 0 <= n <= UINT_MAX -> areas n rets inp istride ilens out ostride olens ->
  (n - 1) * istride < 2 ^ 32 -> (n - 1) * ostride < 2 ^ 32 ->
  (forall i, live n ilens i -> exists v, single f iaddr inp istride ilens oaddr out ostride olens i = Done v) ->
  (j < Z.to_nat n)%nat -> nth j ilens 0 = SIZE_MAX ->
  exists ret rets' olens' out',
    g n rets iaddr inp istride ilens oaddr out ostride olens = Done (ret, rets', olens', out') /\
    nth j rets' 0 = nth j rets 0 /\ nth j olens' 0 = nth j olens 0 /\
    slice (Z.to_nat (Z.of_nat j * ostride)) (Z.to_nat ostride) out' = slice (Z.to_nat (Z.of_nat j * ostride)) (Z.to_nat ostride) out.
Proof.
  intros H n rets iaddr inp istride ilens oaddr out ostride olens j A1 A2 A3 A4 A5 A6 A7 Hj E.
  destruct (H n rets iaddr inp istride ilens oaddr out ostride olens A1 A2 A3 A4 A5 A6 A7) as (r & a & b & m & G & _ & S & _ & _ & L & _ & F).
  exists r, a, b, m. split; auto. destruct (S j Hj E) as [S1 S2]. split; auto. split; auto.
  apply slice_ext; auto. intros k Hk. apply F. intros i Hi. destruct A4 as (_ & _ & _ & _ & OS & A4). destruct (A4 i Hi) as (_ & _ & A & _).
  assert (i <> j) by (intros ->; destruct Hi; contradiction). nia.
Qed.
