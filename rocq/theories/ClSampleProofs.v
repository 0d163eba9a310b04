(** The OpenCL sample program as a whole. *)
From Coq Require Import ZArith List Bool Lia Permutation.
From Verif Require Import SpecBits SpecCrc Spec842 SpecCalls CBase BitsLemmas CrcProofs
  SerialCompModel SerialDecompModel SerialIdeal SerialComp SerialValid PureDecoder SerialDecomp SerialFacts
  OptCompModel OptDecompModel OptWriter OptDecomp OptComp OptProps OclModel OclPure OclProofs SpecOcl OclItems OclProps OclExt InplaceModel SpecInplace InplaceProofs InplaceItems InplaceSmall
  SpecNull NullProofs NullItems SampleModel SampleProofs BenchModel SpecBench BenchProofs ClSampleModel SpecClSample.
Import ListNotations.
Open Scope Z_scope.

(** * Decompression in place without the arrays *)
Lemma iloop_room e ioff ilen cap cap' : cap <= cap' -> forall f p p', iloop e f ioff ilen cap p = Done (0, p') -> iloop e f ioff ilen cap' p = Done (0, p').
Proof.
  intros HC. induction f as [|f IH]; intros p p' H; [discriminate|]. cbn [iloop] in *. apply bind_inv in H. destruct H as ([r p1] & K & H).
  destruct (kstep_inv e _ _ _ _ _ _ K) as (_ & _ & NZ & KX).
  assert (RS : room_same cap cap' r).
  { destruct r as [c|b]; [|right; eauto]. injection H as -> _. now destruct NZ. }
  rewrite (KX _ ilen cap' (reads_refl _ _ _ _ _) RS), bind_done. destruct r as [c|[]]; auto.
Qed.
Lemma inplace_room e mem ioff ilen cap cap' n m : inplace_core e mem ioff ilen cap = Done (0, n, m) -> cap <= cap' -> inplace_core e mem ioff ilen cap' = Done (0, n, m).
Proof.
  intros D C. unfold inplace_core in *.
  repeat (apply bind_inv in D; let l := fresh "l" in let E := fresh "E" in destruct D as (l & E & D); rewrite E, bind_done; clear E; cbv beta in D;
          match type of D with context [iloop] => idtac end).
  apply bind_inv in D. destruct D as ([c k] & K & D).
  assert (C0 : c = 0). { destruct (Z.eqb_spec c 0); auto. cbn [negb] in D. injection D as E _ _. contradiction. }
  subst c. rewrite (iloop_room e ioff ilen cap cap' C _ _ _ K), bind_done. exact D.
Qed.

Section Inplace.
Variable e : endian.
Variable C n : Z.
Hypothesis C8 : C mod 8 = 0.
Hypothesis C24 : 24 <= C < 2 ^ 63.
Hypothesis Hn : 0 <= n <= 2 ^ 64 - 256.
Variable map : option (list Z).
Hypothesis Hmap : forall l, map = Some l -> Permutation l (chunk_numbers n).
Variable inb : list Z.
(** The arguments of the kernel. *)
Definition iargs : cl_args := mkA MaybeCompressed C C inb 0 None 0 n map.

(** What chunk content [w] becomes [x] in place. *)
Definition iholds (w x : list Z) : Prop :=
  lenZ x = C /\ ((firstn 16 w <> MARKER /\ w = x) \/
    exists z, packed e C w z /\ lenZ z mod 8 = 0 /\ stays_ahead (C - lenZ z) z /\ denotes_842 z x).

Lemma iitem_none mem g c x : 0 <= g < n -> opt_get map g g = Done c -> 0 <= c < n -> is_bytes mem -> C * c + C + 2 <= lenZ mem ->
  iholds (bytes_at mem (C * c) C) x -> is_bytes x /\ iwork_item e iargs g (mkM mem None None) = Done (mkM (put mem (Z.to_nat (C * c)) x) None None).
Proof.
  intros Hg Hm Hc HB HF [LX HH]. unfold iwork_item, iargs. cbn [a_num a_map a_outoff a_size a_stride a_ilen m_out m_olen m_ret opt_get]. destruct (Z.geb_spec g n); [lia|].
  rewrite Hm, bind_done. cbv zeta. rewrite (oaddr8 0 C c) by auto. rewrite Z.add_0_l, bind_done. set (o := C * c) in *. assert (O0 : 0 <= o) by (unfold o; nia).
  rewrite load_bytes_ok by lia. rewrite bind_done. change (Z.to_nat 16) with 16%nat. set (ch := bytes_at mem o C) in *.
  assert (LC : lenZ ch = C) by (apply bytes_at_len; lia).
  assert (S1 : slice (Z.to_nat o) 16 mem = firstn 16 ch). { unfold ch, bytes_at. rewrite firstn_slice by lia. reflexivity. }
  rewrite S1. destruct HH as [[NM E]|(z & PK & Z8 & SA & DN)].
  - destruct (list_eqb (firstn 16 ch) MARKER) eqn:LE; [apply list_eqb_eq in LE; contradiction|]. cbn [negb]. rewrite <- E. split; [now apply is_bytes_slice|].
    unfold item_done. cbn [m_olen m_ret opt_set]. rewrite !bind_done. do 2 f_equal. unfold ch, bytes_at. symmetry. apply put_self.
  - destruct (packed_facts e C ch z PK ltac:(lia)) as (MK & NV & BZ & LZ & _).
    rewrite MK. replace (list_eqb MARKER MARKER) with true by reflexivity. cbn [negb].
    assert (ZP : 0 < lenZ z). { destruct DN as (rest & S & _). destruct z; [now apply stream_nonempty in S|]. rewrite lenZ_cons. unfold lenZ. lia. }
    rewrite load64_ok by lia. replace (slice (Z.to_nat (o + 16)) 8 mem) with (slice 16 8 ch).
    2: { unfold ch, bytes_at. rewrite slice_slice by lia. f_equal. lia. }
    rewrite bind_done, NV. destruct (Z.eqb_spec (lenZ z) 0) as [Z0|Z0]; [lia|]. rewrite bind_done.
    unfold u64. rewrite Z.mod_small by lia. rewrite (div8 (C - lenZ z)).
    2: { rewrite Zminus_mod, Z8, C8. reflexivity. }
    replace (o + (C - lenZ z) - o) with (C - lenZ z) by lia.
    set (M := skipn (Z.to_nat o) mem). assert (BM : is_bytes M) by now apply is_bytes_skipn.
    assert (LMM : lenZ M = lenZ mem - o) by (unfold M, lenZ in *; rewrite skipn_length; lia).
    assert (FI : bytes_at M (C - lenZ z) (lenZ z) = z).
    { rewrite <- BZ at 3. unfold ch, bytes_at. rewrite slice_slice by lia. unfold M, slice. now rewrite skipn_skipn. }
    pose proof (inplace_copy e M (C - lenZ z) (lenZ z) C BM ltac:(lia) Z8 ltac:(lia) ltac:(lia) ltac:(lia) ltac:(lia)) as IC. rewrite FI in IC. specialize (IC SA).
    assert (BzB : is_bytes z). { rewrite <- FI. now apply is_bytes_slice. }
    destruct (core_good e z (lenZ z) M C x BzB BM ltac:(lia) Z8 ltac:(lia) ltac:(lia)) as [BX CG]; auto; [|lia|].
    { rewrite firstn_all2 by (unfold lenZ; lia). exact DN. }
    rewrite CG in IC. split; auto. rewrite (inplace_room _ _ _ _ _ SIZE_MAX _ _ IC) by (unfold SIZE_MAX; lia). rewrite bind_done. cbn [opt_set]. rewrite !bind_done.
    do 2 f_equal. unfold put, M. now rewrite skipn_skipn.
Qed.

Variable mem0 : list Z.
Variable x : Z -> list Z.
Hypothesis B0 : is_bytes mem0.
Hypothesis L0 : C * n + 2 <= lenZ mem0.
Hypothesis H0 : forall c, 0 <= c < n -> iholds (bytes_at mem0 (C * c) C) (x c).

Definition ifull : cl_mem := mkM mem0 (Some (repeat 0 (Z.to_nat n))) (Some (repeat 0 (Z.to_nat n))).
Hypothesis BI : is_bytes inb.
Lemma ifull_layout : layout_ok 2 iargs ifull.
Proof.
  split; cbn [ifull iargs m_out m_olen m_ret a_num a_size a_stride a_inoff a_outoff a_in a_map]; auto; try lia; try (split; auto; lia).
  - eexists. split; [reflexivity|]. unfold lenZ. rewrite repeat_length. split; [lia|]. apply Forall_forall. intros y Hy. apply repeat_spec in Hy. lia.
  - eexists. split; [reflexivity|]. unfold lenZ. rewrite repeat_length. lia.
Qed.

Record JInv (D : Z -> bool) (mem : list Z) : Prop := {
  ji_B : is_bytes mem;
  ji_len : length mem = length mem0;
  ji_chunks : forall c, 0 <= c < n -> bytes_at mem (C * c) C = if D c then x c else bytes_at mem0 (C * c) C }.

Lemma jstep D mem g : JInv D mem -> 0 <= g -> (g < n -> D (cmap iargs g) = false) ->
  exists mem', iwork_item e iargs g (mkM mem None None) = Done (mkM mem' None None) /\ JInv (if g <? n then add D (cmap iargs g) else D) mem'.
Proof.
  intros [JB JL JC] Hg HD. destruct (Z.ltb_spec g n) as [G|G].
  2: { exists mem. split; [|constructor; auto]. unfold iwork_item, iargs. cbn [a_num]. destruct (Z.geb_spec g n); [reflexivity|lia]. }
  specialize (HD G). destruct (cmap_ok iargs ifull ifull_layout g) as [CM CR]; [cbn [iargs a_num]; lia|]. cbn [iargs a_num a_map] in CM, CR. set (c := cmap iargs g) in *.
  assert (CC : forall d, 0 <= d < n -> 0 <= C * d /\ C * d + C <= C * n) by (intros; nia). pose proof (CC c CR) as CCc.
  assert (LM : lenZ mem = lenZ mem0) by (unfold lenZ; lia).
  destruct (iitem_none mem g c (x c)) as [BX E]; auto; try lia.
  { rewrite JC by auto. rewrite HD. auto. }
  eexists. split; [exact E|]. destruct (H0 c CR) as [LX _].
  constructor.
  - now apply put_bytes.
  - rewrite put_length; auto. unfold lenZ in *. lia.
  - intros d Hd. unfold add. pose proof (CC d Hd) as CCd. destruct (Z.eqb_spec d c) as [->|N].
    + rewrite orb_true_r. unfold bytes_at. rewrite put_at by (unfold lenZ in *; lia). rewrite skipn_all2; [apply app_nil_r|]. rewrite slice_length; unfold lenZ in *; lia.
    + rewrite orb_false_r. rewrite <- JC by auto. apply bytes_at_same; try lia.
      { rewrite put_length; auto. unfold lenZ in *. lia. } { unfold lenZ. rewrite put_length by (unfold lenZ in *; lia). unfold lenZ in *. lia. }
      intros q Hq. rewrite put_nth by (unfold lenZ in *; lia).
      destruct (Nat.leb_spec (Z.to_nat (C * c)) q); auto. destruct (Nat.ltb_spec q (Z.to_nat (C * c) + length (x c))); auto. exfalso. apply N. unfold lenZ in *. nia.
Qed.
Lemma jrun order : forall D mem, JInv D mem -> NoDup order -> (forall g, In g order -> 0 <= g /\ (g < n -> D (cmap iargs g) = false)) ->
  exists mem', irun_items e iargs order (mkM mem None None) = Done (mkM mem' None None) /\ JInv (done_after iargs D order) mem'.
Proof.
  induction order as [|g order IH]; intros D mem HI ND HG; cbn [irun_items done_after fold_left]; [eauto|].
  inversion ND as [|? ? NI ND']; subst. destruct (HG g (or_introl eq_refl)) as [G0 GD].
  destruct (jstep D mem g HI G0 GD) as (m1 & -> & I1). rewrite bind_done. apply IH; auto.
  intros h Hh. destruct (HG h (or_intror Hh)) as [Hh0 HD]. split; auto. intros HN. change (a_num iargs) with n. destruct (Z.ltb_spec g n); auto.
  unfold add. rewrite HD by auto. destruct (Z.eqb_spec (cmap iargs h) (cmap iargs g)) as [E|]; auto.
  apply (cmap_inj iargs ifull ifull_layout) in E; try (cbn [iargs a_num]; lia). subst. contradiction.
Qed.
Theorem inplace_run order : Permutation order (chunk_numbers (global_size n)) ->
  exists mem', irun_items e iargs order (mkM mem0 None None) = Done (mkM mem' None None) /\ length mem' = length mem0 /\ forall c, 0 <= c < n -> bytes_at mem' (C * c) C = x c.
Proof.
  intros P. destruct (jrun order (fun _ => false) mem0) as (mem' & E & [JB JL JC]).
  - constructor; auto.
  - eapply Permutation_NoDup; [apply Permutation_sym; exact P|]. apply numbers_nodup.
  - intros g Hg. split; auto. apply (Permutation_in _ P) in Hg. apply in_numbers in Hg. lia.
  - exists mem'. split; auto. split; auto. intros c Hc. rewrite JC by auto.
    destruct (cmap_surj iargs ifull ifull_layout c) as (g & Hg & EG); [cbn [iargs a_num]; lia|]. cbn [iargs a_num] in Hg. rewrite <- EG at 1. rewrite done_after_in; auto; [|cbn [iargs a_num]; lia].
    apply (Permutation_in _ (Permutation_sym P)). apply in_numbers. pose proof (global_size_ge n Hn). lia.
Qed.
End Inplace.

(** * The compression loops *)
Section Steps.
Variable e : endian.
Variable C : Z.
Hypothesis C8 : C mod 8 = 0.
Hypothesis C72 : 72 <= C < 2 ^ 62.

Lemma aset_put l c v : 0 <= c < lenZ l -> aset l c v = Done (put l (Z.to_nat c) [v]).
Proof. intros H. rewrite aset_ok by auto. f_equal. unfold put. cbn [length app]. f_equal. f_equal. f_equal. lia. Qed.
Lemma olens_facts l c v w : 0 <= c < lenZ l -> lenZ (put l (Z.to_nat c) [v]) = lenZ l /\ aget (put l (Z.to_nat c) [v]) c = Done v /\ aset (put l (Z.to_nat c) [v]) c w = Done (put l (Z.to_nat c) [w]).
Proof.
  intros H. assert (L : lenZ (put l (Z.to_nat c) [v]) = lenZ l). { unfold lenZ. rewrite put_length; auto. cbn [length]. unfold lenZ in *. lia. }
  split; auto. split.
  - rewrite aget_ok by lia. f_equal. rewrite put_nth by (cbn [length]; unfold lenZ in *; lia). cbn [length].
    destruct (Nat.leb_spec (Z.to_nat c) (Z.to_nat c)); [|lia]. destruct (Nat.ltb_spec (Z.to_nat c) (Z.to_nat c + 1)); [|lia]. rewrite Nat.sub_diag. reflexivity.
  - rewrite aset_put by lia. f_equal. apply put_put; try reflexivity; try lia. change (lenZ [v]) with 1. lia.
Qed.

Lemma chunk_compressed base oaddr inp out c n : base mod 8 = 0 -> oaddr mod 8 = 0 -> is_bytes inp -> is_bytes out -> C * 2 <= lenZ out -> 0 <= c < n -> C * n <= lenZ inp ->
  exists m, optsw842_compress e (base + C * c) oaddr (slice (Z.to_nat (C * c)) (Z.to_nat C) inp) out (C * 2) = Done (0, lenZ (opt_out (bytes_at inp (C * c) C)), m).
Proof.
  intros HB HT Hi Ho LO Hc LI. assert (CC : 0 <= C * c /\ C * c + C <= C * n) by nia. change (slice (Z.to_nat (C * c)) (Z.to_nat C) inp) with (bytes_at inp (C * c) C).
  set (x := bytes_at inp (C * c) C). assert (Hx : is_bytes x) by now apply is_bytes_slice. assert (LX : lenZ x = C) by (apply bytes_at_len; lia).
  assert (X8 : lenZ x mod 8 = 0) by congruence. assert (XN : x <> []) by (intros E; rewrite E, lenZ_nil in LX; lia).
  assert (HA : (base + C * c) mod 8 = 0). { rewrite <- Zplus_mod_idemp_r, <- Zmult_mod_idemp_l, C8, Z.mul_0_l, Z.add_0_r. auto. }
  destruct (opt_room C C8 C72 x Hx LX) as [ZR Z8].
  destruct (optsw842_compress_out e (base + C * c) oaddr x out (C * 2) Hx Ho ltac:(lia) HA HT X8 XN) as [(A & m & -> & _)|(A & _)]; [eauto|lia].
Qed.
Lemma maybe_step_proj base taddr inp tmp c n out olens out' : base mod 8 = 0 -> taddr mod 8 = 0 -> is_bytes inp -> is_bytes (tmp c) -> lenZ (tmp c) = C * 2 -> 0 <= c < n -> C * n <= lenZ inp -> lenZ olens = n ->
  sample_maybe e C base taddr inp (tmp c) c out = Done out' ->
  maybe_step e C base taddr inp tmp c (out, olens) = Done (out', put olens (Z.to_nat c) [lenZ (opt_out (bytes_at inp (C * c) C))]).
Proof.
  intros HB HT Hi Ht LT Hc LI LN H. assert (CC : 0 <= C * c /\ C * c + C <= C * n) by nia. unfold maybe_step, sample_maybe in *.
  rewrite load_bytes_ok in H by lia. rewrite bind_done in H. rewrite load_bytes_ok by lia. rewrite bind_done. rewrite aset_put, bind_done by lia.
  destruct (olens_facts olens c (C * 2) (lenZ (opt_out (bytes_at inp (C * c) C))) ltac:(lia)) as (_ & E1 & E2). rewrite E1, bind_done.
  destruct (chunk_compressed base taddr inp (tmp c) c n) as [m E]; auto; try lia. rewrite E, bind_done in H. rewrite E, bind_done, E2, bind_done.
  destruct (_ >? _).
  - rewrite H. reflexivity.
  - apply bind_inv in H. destruct H as (o1 & -> & H). rewrite bind_done. apply bind_inv in H. destruct H as (o2 & -> & H). rewrite bind_done. apply bind_inv in H. destruct H as (z & -> & H). rewrite bind_done, H. reflexivity.
Qed.
Lemma always_step_proj base obase inp c n out olens out' : base mod 8 = 0 -> obase mod 8 = 0 -> is_bytes inp -> is_bytes out -> lenZ out = C * 2 * n -> 0 <= c < n -> C * n <= lenZ inp -> lenZ olens = n ->
  sample_always e C base obase inp c out = Done out' ->
  always_step e C base obase inp c (out, olens) = Done (out', put olens (Z.to_nat c) [lenZ (opt_out (bytes_at inp (C * c) C))]).
Proof.
  intros HB HT Hi Ho LO Hc LI LN H. assert (CC : 0 <= C * c /\ C * c + C <= C * n) by nia. assert (CD : 0 <= C * 2 * c /\ C * 2 * c + C * 2 <= C * 2 * n) by nia. unfold always_step, sample_always in *.
  rewrite load_bytes_ok in H by lia. rewrite bind_done in H. rewrite load_bytes_ok by lia. rewrite bind_done. rewrite aset_put, bind_done by lia.
  destruct (olens_facts olens c (C * 2) (lenZ (opt_out (bytes_at inp (C * c) C))) ltac:(lia)) as (_ & E1 & E2). rewrite E1, bind_done.
  destruct (chunk_compressed base (obase + C * 2 * c) inp (skipn (Z.to_nat (C * 2 * c)) out) c n) as [m E]; auto; try lia.
  { replace (C * 2 * c) with (C * (2 * c)) by lia. rewrite <- Zplus_mod_idemp_r, <- Zmult_mod_idemp_l, C8, Z.mul_0_l, Z.add_0_r. auto. }
  { now apply is_bytes_skipn. } { unfold lenZ in *. rewrite skipn_length. lia. }
  rewrite E, bind_done in H. rewrite E, bind_done, E2, bind_done. injection H as <-. reflexivity.
Qed.

(** The loop with the sizes and the loop without. *)
Lemma run_steps_proj body body' (S n : Z) (size : Z -> Z) :
  (forall c out olens out', 0 <= c < n -> is_bytes out -> lenZ out = S * n -> lenZ olens = n -> body' c out = Done out' -> body c (out, olens) = Done (out', put olens (Z.to_nat c) [size c])) ->
  (forall c out out', 0 <= c < n -> is_bytes out -> lenZ out = S * n -> body' c out = Done out' -> is_bytes out' /\ lenZ out' = S * n) ->
  forall order out olens out', (forall c, In c order -> 0 <= c < n) -> is_bytes out -> lenZ out = S * n -> lenZ olens = n -> sample_run body' order out = Done out' ->
  exists olens', run_steps body order (out, olens) = Done (out', olens') /\ lenZ olens' = n /\
    forall c, 0 <= c < n -> nth (Z.to_nat c) olens' 0 = if in_dec Z.eq_dec c order then size c else nth (Z.to_nat c) olens 0.
Proof.
  intros HB HL. induction order as [|c order IH]; intros out olens out' IN Ho LO LN H; cbn [sample_run run_steps] in *.
  - injection H as <-. exists olens. split; auto.
  - apply bind_inv in H. destruct H as (o1 & E & H). assert (Hc : 0 <= c < n) by (apply IN; now left). destruct (HL c out o1) as [B1 L1]; auto.
    rewrite (HB c out olens o1) by auto. rewrite bind_done.
    assert (LP : lenZ (put olens (Z.to_nat c) [size c]) = n). { unfold lenZ. rewrite put_length; [auto|]. cbn [length]. unfold lenZ in *. lia. }
    destruct (IH o1 (put olens (Z.to_nat c) [size c]) out') as (olens' & E' & L' & N'); auto. { intros d Hd. apply IN. now right. }
    exists olens'. split; auto. split; auto. intros d Hd. rewrite N' by auto. destruct (in_dec Z.eq_dec d order) as [I|I], (in_dec Z.eq_dec d (c :: order)) as [J|J]; auto.
    + destruct J. now right.
    + destruct J as [<-|J]; [|contradiction]. rewrite put_nth by (cbn [length]; unfold lenZ in *; lia). cbn [length].
      destruct (Nat.leb_spec (Z.to_nat c) (Z.to_nat c)); [|lia]. destruct (Nat.ltb_spec (Z.to_nat c) (Z.to_nat c + 1)); [|lia]. rewrite Nat.sub_diag. reflexivity.
    + rewrite put_nth by (cbn [length]; unfold lenZ in *; lia). cbn [length]. assert (d <> c) by (intros ->; apply J; now left).
      destruct (Nat.leb_spec (Z.to_nat c) (Z.to_nat d)); auto. destruct (Nat.ltb_spec (Z.to_nat d) (Z.to_nat c + 1)); auto. lia.
Qed.
End Steps.

(** * The sizes *)
Lemma to_int_congr x : exists q, to_int x = x - 2 ^ 32 * q.
Proof. exists ((x + 2 ^ 31) / 2 ^ 32). unfold to_int. pose proof (Z.div_mod (x + 2 ^ 31) (2 ^ 32) ltac:(lia)). lia. Qed.
Lemma to_int_shift x q : to_int (x - 2 ^ 32 * q) = to_int x.
Proof. unfold to_int. replace (x - 2 ^ 32 * q + 2 ^ 31) with (x + 2 ^ 31 + (- q) * 2 ^ 32) by lia. rewrite Z.mod_add by lia. reflexivity. Qed.
Lemma to_int_u64 t n : to_int (u64 (to_int t + n)) = to_int (t + n).
Proof.
  destruct (to_int_congr t) as [q ->]. unfold u64. rewrite Z.mod_eq by lia. replace (2 ^ 64) with (2 ^ 32 * 2 ^ 32) by reflexivity.
  rewrite <- Z.mul_assoc, to_int_shift. replace (t - 2 ^ 32 * q + n) with (t + n - 2 ^ 32 * q) by lia. apply to_int_shift.
Qed.
Lemma accumulate_sum l : forall t, fold_left (fun t n => to_int (u64 (t + n))) l (to_int t) = to_int (t + sum l).
Proof.
  induction l as [|n l IH]; intros t; cbn [fold_left]. { cbn. now rewrite Z.add_0_r. }
  rewrite to_int_u64, IH. f_equal. cbn [sum fold_right]. fold (sum l). lia.
Qed.
Lemma accumulate_ok l : accumulate l = u64 (to_int (sum l)).
Proof. unfold accumulate. change 0 with (to_int 0) at 1. now rewrite accumulate_sum. Qed.
Lemma reported l : 0 <= sum l < 2 ^ 64 -> (accumulate l = sum l <-> sum l < 2 ^ 31 \/ 2 ^ 64 - 2 ^ 31 <= sum l).
Proof.
  intros H. rewrite accumulate_ok. unfold to_int, u64. set (s := sum l) in *. pose proof (Z.div_mod (s + 2 ^ 31) (2 ^ 32) ltac:(lia)) as D. pose proof (Z.mod_pos_bound (s + 2 ^ 31) (2 ^ 32) ltac:(lia)) as B.
  set (r := (s + 2 ^ 31) mod 2 ^ 32) in *. set (q := (s + 2 ^ 31) / 2 ^ 32) in *.
  destruct (Z.lt_ge_cases r (2 ^ 31)) as [L|L].
  - assert (E : (r - 2 ^ 31) mod 2 ^ 64 = r - 2 ^ 31 + 2 ^ 64). { symmetry. apply (Z.mod_unique _ _ (-1)); lia. } rewrite E. lia.
  - rewrite Z.mod_small by lia. lia.
Qed.

Lemma filter_split {A} (p : A -> bool) l : Permutation (filter (fun i => negb (p i)) l ++ filter p l) l.
Proof.
  induction l as [|y l IH]; [constructor|]. cbn [filter]. destruct (p y); cbn [negb].
  - apply Permutation_sym. eapply perm_trans; [|apply Permutation_middle]. constructor. now apply Permutation_sym.
  - cbn [app]. now constructor.
Qed.
Lemma shuffle_perm C l n : lenZ l = n -> Permutation (shuffle_map C l) (chunk_numbers n).
Proof. intros <-. unfold shuffle_map, chunk_numbers, lenZ. rewrite Nat2Z.id. apply (filter_split (fun i => nth (Z.to_nat i) l 0 >=? C)). Qed.

(** * The benchmark *)
Lemma compressed_opt C x : C mod 8 = 0 -> 72 <= C < 2 ^ 62 -> is_bytes x -> lenZ x = C -> forall z, compressed_to x z <-> z = opt_out x.
Proof.
  intros C8 C72 Hx LX. destruct (opt_room C C8 C72 x Hx LX) as [ZR Z8]. assert (X8 : lenZ x mod 8 = 0) by congruence. assert (XN : x <> []) by (intros E; rewrite E, lenZ_nil in LX; lia).
  assert (LR : lenZ (repeat 0 (2 * length x)) = 2 * lenZ x) by (unfold lenZ; rewrite repeat_length; lia).
  assert (K : forall e, observed (optsw842_compress e 0 0 x (repeat 0 (2 * length x)) (2 * lenZ x)) = Done (0, lenZ (opt_out x), opt_out x)).
  { intros e. destruct (optsw842_compress_out e 0 0 x (repeat 0 (2 * length x)) (2 * lenZ x)) as [(A & m & -> & F & _)|(A & _)]; auto; try lia; try reflexivity.
    - apply is_bytes_repeat. unfold is_byte. lia.
    - cbn [observed]. unfold lenZ at 2. now rewrite Nat2Z.id, F. }
  intros z. split.
  - intros H. specialize (H LE). rewrite K in H. injection H as _ H. congruence.
  - intros -> e. apply K.
Qed.

Lemma store_all (d w : list Z) : lenZ w = lenZ d -> store_bytes d 0 w = Done w.
Proof.
  intros L. rewrite store_bytes_ok by (unfold lenZ in *; lia). unfold splice. change (Z.to_nat 0) with 0%nat. cbn [firstn app]. rewrite skipn_all2 by (unfold lenZ in *; lia). now rewrite app_nil_r.
Qed.
Lemma store_len (d w : list Z) i d' : store_bytes d i w = Done d' -> lenZ d' = lenZ d.
Proof. unfold store_bytes. destruct (_ && _) eqn:E; [|discriminate]. intros H. injection H as <-. apply andb_prop in E. destruct E as [E1 E2]. apply Z.leb_le in E1, E2. unfold lenZ, splice in *. rewrite !app_length, firstn_length, skipn_length. lia. Qed.
Lemma host_len e f' size st ord same dv inb out osz mp d : host_decompress e f' size st ord same dv inb out osz mp = Done (Some d) -> lenZ d = lenZ out.
Proof.
  unfold host_decompress. destruct (same && _); [discriminate|]. destruct (_ && _); [discriminate|]. destruct (lenZ inb =? 0); [discriminate|]. intros H.
  apply bind_inv in H. destruct H as (m & _ & H). apply bind_inv in H. destruct H as (h & E & H). injection H as <-. eapply store_len; eauto.
Qed.

Section Bench.
Variable e : endian.
Variable f : sample_format.
Variables C n base taddr obase : Z.
Variable tmp : Z -> list Z.
Variable inp : list Z.
Variable corder : list Z.
Hypothesis C8 : C mod 8 = 0.
Hypothesis C72 : 72 <= C.
Hypothesis Hn : 1 <= n.
Hypothesis H63 : 2 * C * (n + 1) <= 2 ^ 63.
Hypothesis HB : base mod 8 = 0.
Hypothesis HT : taddr mod 8 = 0.
Hypothesis HO : obase mod 8 = 0.
Hypothesis HTM : forall c, is_bytes (tmp c) /\ lenZ (tmp c) = C * 2.
Hypothesis HI : is_bytes inp.
Hypothesis LI : lenZ inp = C * n.
Hypothesis PC : Permutation corder (chunk_numbers n).

Definition chunk (c : Z) : list Z := bytes_at inp (C * c) C.
Definition sizes : list Z := map (fun c => lenZ (opt_out (chunk c))) (chunk_numbers n).
Definition stride : Z := match f with Always => C * 2 | _ => C end.
Definition steps := match f with Always => always_step e C base obase inp | _ => maybe_step e C base taddr inp tmp end.
Definition steps' := match f with Always => sample_always e C base obase inp | _ => fun c => sample_maybe e C base taddr inp (tmp c) c end.
Definition zeros : list Z := repeat 0 (Z.to_nat (n * stride)).

Lemma C62 : 72 <= C < 2 ^ 62. Proof. nia. Qed.
Lemma chunk_len c : 0 <= c < n -> lenZ (chunk c) = C.
Proof. intros H. apply bytes_at_len; nia. Qed.
Lemma chunk_bytes c : is_bytes (chunk c).
Proof. now apply is_bytes_slice. Qed.
Lemma step_ok c out : 0 <= c < n -> is_bytes out -> lenZ out = stride * n ->
  exists w, steps' c out = Done (put out (Z.to_nat (stride * c)) w) /\ is_bytes w /\ lenZ w = stride /\ (f = Always \/ stored e C (chunk c) w).
Proof.
  intros Hc Ho LO. unfold steps', stride in *. pose proof C62. destruct f.
  - destruct (sample_always_ok e C C8 C62 base obase inp c n out) as (w & ? & ? & ? & ?); auto; try lia. exists w. auto.
  - destruct (HTM c). destruct (sample_maybe_exact e C C8 C62 base taddr inp (tmp c) c n out) as (w & ? & ? & ? & ?); auto; try lia. exists w. auto.
  - destruct (HTM c). destruct (sample_maybe_exact e C C8 C62 base taddr inp (tmp c) c n out) as (w & ? & ? & ? & ?); auto; try lia. exists w. auto.
Qed.
Lemma steps_run : exists out, sample_run steps' corder zeros = Done out /\ run_steps steps corder (zeros, repeat 0 (Z.to_nat n)) = Done (out, sizes) /\
  is_bytes out /\ lenZ out = stride * n /\ forall c, 0 <= c < n -> f = Always \/ stored e C (chunk c) (bytes_at out (stride * c) stride).
Proof.
  destruct (numbers_perm _ _ PC) as [NDC INC]. assert (SP : C <= stride <= C * 2) by (unfold stride; destruct f; lia).
  assert (LZ : lenZ zeros = stride * n) by (unfold lenZ, zeros; rewrite repeat_length; nia).
  assert (BZ : is_bytes zeros) by (apply is_bytes_repeat; unfold is_byte; lia).
  destruct (sample_run_ok steps' stride n (fun c w => f = Always \/ stored e C (chunk c) w) ltac:(lia) ltac:(lia) step_ok corder zeros) as (out & E & BO & LO & Q & _); auto; [apply INC|].
  exists out. split; auto.
  destruct (run_steps_proj steps steps' stride n (fun c => lenZ (opt_out (chunk c)))) with (order := corder) (out := zeros) (olens := repeat 0 (Z.to_nat n)) (out' := out) as (olens & E' & L' & N'); auto.
  - intros c o ol o' Hc Ho LOo LL H. pose proof C62. unfold steps, steps', stride in *. destruct f.
    + apply always_step_proj with (n := n); auto; lia.
    + destruct (HTM c). apply maybe_step_proj with (n := n); auto; lia.
    + destruct (HTM c). apply maybe_step_proj with (n := n); auto; lia.
  - intros c o o' Hc Ho LOo H. destruct (step_ok c o Hc Ho LOo) as (w & E1 & BW & LW & _). rewrite E1 in H. injection H as <-. split; [now apply put_bytes|].
    unfold lenZ. rewrite put_length; auto. unfold lenZ in *. nia.
  - apply INC.
  - unfold lenZ. rewrite repeat_length. lia.
  - split.
    + rewrite E'. do 2 f_equal. apply (nth_ext _ _ 0 0). { unfold sizes. rewrite map_length, numbers_length. unfold lenZ in *. lia. }
      intros i Hi. pose proof (N' (Z.of_nat i) ltac:(unfold lenZ in *; lia)) as Ni. rewrite Nat2Z.id in Ni. rewrite Ni.
      destruct (in_dec Z.eq_dec (Z.of_nat i) corder) as [_|NI]; [|destruct NI; apply INC; unfold lenZ in *; lia].
      unfold sizes, chunk_numbers. rewrite map_map. rewrite (nth_indep _ 0 (lenZ (opt_out (chunk (Z.of_nat 0%nat))))) by (rewrite map_length, seq_length; unfold lenZ in *; lia).
      rewrite (map_nth (fun k => lenZ (opt_out (chunk (Z.of_nat k))))). rewrite seq_nth by (unfold lenZ in *; lia). reflexivity.
    + split; auto. split; auto. intros c Hc. apply Q. now apply INC.
Qed.

Variable use_map : bool.
Variable dev : list Z.
Variable order : list Z.
Hypothesis HD : is_bytes dev.
Hypothesis LD : lenZ dev = match f with Inplace => lenZ inp + 64 | _ => lenZ inp end.
Hypothesis PO : Permutation order (chunk_numbers (global_size n)).
Hypothesis HM : f <> Always -> forall c, 0 <= c < n -> not_mistaken (chunk c).
Hypothesis HC : f = Inplace -> forall c, 0 <= c < n -> not_caught_up (chunk c).

Lemma num_eq st : 0 < st <= C * 2 -> u64 (st * n + st - 1) / st = n.
Proof.
  intros HS. unfold u64. rewrite Z.mod_small by nia. replace (st * n + st - 1) with ((st - 1) + n * st) by lia. rewrite Z.div_add by lia. rewrite Z.div_small; lia.
Qed.
Theorem cl_benchmark : cl_benchmark_core e f use_map C base taddr obase tmp dev inp corder order = Done (true, accumulate sizes, inp).
Proof.
  unfold cl_benchmark_core. assert (EN : lenZ inp / C = n) by (rewrite LI, Z.mul_comm; apply Z.div_mul; lia). rewrite EN.
  fold stride steps zeros. destruct steps_run as (out & E & E' & BO & LO & Q). rewrite E', bind_done. set (mp := if use_map then Some (shuffle_map C sizes) else None).
  assert (HMP : forall l, mp = Some l -> Permutation l (chunk_numbers n)).
  { unfold mp. destruct use_map; [|discriminate]. intros l HL. injection HL as <-. apply shuffle_perm. unfold lenZ, sizes. rewrite map_length, numbers_length. lia. }
  assert (SELF : lenZ (repeat 0 (Z.to_nat (lenZ inp))) = lenZ inp) by (unfold lenZ; rewrite repeat_length; lia).
  assert (LAST : forall d : list Z, lenZ d = lenZ inp -> list_eqb (firstn (Z.to_nat (lenZ inp)) d) inp = true -> d = inp).
  { intros d L H. apply list_eqb_eq in H. rewrite firstn_all2 in H by (unfold lenZ in *; lia). auto. }
  pose proof C62 as CC.
  destruct f eqn:Ef.
  - pose proof (sample_round_trip_exact e AlwaysCompressed C n base taddr obase tmp dev inp corder order mp C8 C72 Hn H63 HB HT HO HTM HD LD HI LI PC PO HMP ltac:(discriminate)) as RT.
    unfold compress_benchmark_core in RT. rewrite EN in RT. unfold zeros, stride, steps' in E. rewrite Ef in E. rewrite E, bind_done in RT.
    unfold stride. rewrite Ef. apply bind_inv in RT. destruct RT as (r & R & RT). rewrite R, bind_done. destruct r as [d|]; [|discriminate].
    injection RT as RT. rewrite RT. rewrite (LAST d); auto. rewrite <- SELF. eapply host_len; eauto.
  - pose proof (sample_round_trip_exact e MaybeCompressed C n base taddr obase tmp dev inp corder order mp C8 C72 Hn H63 HB HT HO HTM HD LD HI LI PC PO HMP) as RT.
    assert (HMM : MaybeCompressed = MaybeCompressed -> forall c, 0 <= c < n -> C - 24 < lenZ (opt_out (bytes_at inp (C * c) C)) -> firstn 16 (bytes_at inp (C * c) C) <> MARKER).
    { intros _ c Hc G. apply (HM ltac:(discriminate) c Hc (opt_out (chunk c))). { apply (compressed_opt C); auto. apply chunk_bytes. now apply chunk_len. } rewrite chunk_len by auto. exact G. }
    specialize (RT HMM). unfold compress_benchmark_core in RT. rewrite EN in RT. unfold zeros, stride, steps' in E. rewrite Ef in E. rewrite E, bind_done in RT.
    unfold stride. rewrite Ef. apply bind_inv in RT. destruct RT as (r & R & RT). rewrite R, bind_done. destruct r as [d|]; [|discriminate].
    injection RT as RT. rewrite RT. rewrite (LAST d); auto. rewrite <- SELF. eapply host_len; eauto.
  - assert (ES : stride = C) by (unfold stride; now rewrite Ef). rewrite ES in *. unfold host_inplace. rewrite LO, LI. rewrite Z.eqb_refl. cbn [negb orb]. destruct (Z.eqb_spec (C * n) 0) as [Z0|_]; [nia|].
    rewrite num_eq by lia. rewrite store_bytes_ok by (unfold lenZ in *; lia). rewrite bind_done. change (splice dev (Z.to_nat 0) out) with (put dev 0 out). set (mem0 := put dev 0 out).
    assert (LM : lenZ mem0 = C * n + 64). { unfold mem0, lenZ. rewrite put_length by (unfold lenZ in *; lia). unfold lenZ in *. lia. }
    assert (BM : is_bytes mem0) by now apply put_bytes.
    assert (AT : forall p k, 0 <= p -> 0 <= k -> p + k <= lenZ out -> bytes_at mem0 p k = bytes_at out p k).
    { intros p k P0 K0 PK. apply (nth_ext _ _ 0 0). { unfold bytes_at. rewrite !slice_length; unfold lenZ in *; lia. }
      intros i Hi. unfold bytes_at in Hi. rewrite slice_length in Hi by (unfold lenZ in *; lia). rewrite !nth_bytes_at by (unfold lenZ in *; lia). unfold mem0. rewrite put_nth by (unfold lenZ in *; lia).
      destruct (Nat.leb_spec 0 (Z.to_nat p + i)); [|lia]. destruct (Nat.ltb_spec (Z.to_nat p + i) (0 + length out)); [|unfold lenZ in *; lia]. cbn [andb]. f_equal. lia. }
    assert (IH : forall c, 0 <= c < n -> iholds e C (bytes_at mem0 (C * c) C) (chunk c)).
    { intros c Hc. rewrite AT by nia. split; [now apply chunk_len|]. assert (CT : compressed_to (chunk c) (opt_out (chunk c))). { apply (compressed_opt C); auto. apply chunk_bytes. now apply chunk_len. }
      destruct (opt_room C C8 C62 (chunk c) (chunk_bytes c) (chunk_len c Hc)) as [_ Z8].
      destruct (Q c Hc) as [?|[[-> G]|PK]]; [discriminate| |].
      - left. split; auto. apply (HM ltac:(discriminate) c Hc _ CT). rewrite chunk_len by auto. exact G.
      - right. exists (opt_out (chunk c)). split; auto. split; auto. split.
        + pose proof (HC eq_refl c Hc _ CT) as S. rewrite chunk_len in S by auto. apply S. destruct (packed_facts e C _ _ PK ltac:(lia)) as (_ & _ & _ & LZ & _). lia.
        + apply opt_denotes. apply chunk_bytes. rewrite chunk_len by auto. exact C8. }
    destruct (inplace_run e C n C8 ltac:(lia) ltac:(nia) mp HMP mem0 mem0 chunk BM ltac:(lia) IH BM order PO) as (mem' & R & LM' & CH). unfold iargs in R. rewrite R, bind_done. cbn [m_out].
    assert (LF : lenZ (firstn (Z.to_nat (C * n)) mem') = C * n) by (apply lenZ_firstn; unfold lenZ in *; lia).
    assert (EQ : firstn (Z.to_nat (C * n)) mem' = inp).
    { apply (chunks_all C n); try lia. intros c Hc. fold (chunk c). rewrite <- (CH c Hc). unfold bytes_at, slice. rewrite skipn_firstn_comm, firstn_firstn. f_equal. nia. }
    rewrite EQ. rewrite store_all by lia. rewrite !bind_done. do 3 f_equal. rewrite firstn_all2 by (unfold lenZ in *; lia). now apply list_eqb_eq.
Qed.
End Bench.

(** * The program *)
Lemma cl_simple_ok e iaddr oaddr dev rv inp : iaddr mod 8 = 0 -> oaddr mod 8 = 0 -> is_bytes inp -> lenZ inp mod 8 = 0 -> 8 <= lenZ inp <= 65536 -> is_bytes dev -> lenZ dev = Z.max 1 (lenZ inp) ->
  exists d, cl_simple_test e iaddr oaddr dev rv inp (repeat 0 (Z.to_nat (lenZ inp * 2))) (repeat 0 (length inp)) = Done (true, lenZ inp, d) /\ firstn (length inp) d = inp.
Proof.
  intros AI AO Hb H8 HL BD LD. set (out := repeat 0 (Z.to_nat (lenZ inp * 2))). set (dec := repeat 0 (length inp)).
  assert (Z0 : forall n, is_bytes (repeat 0 n)) by (intros; apply is_bytes_repeat; unfold is_byte; lia).
  assert (LO : lenZ out = 2 * lenZ inp) by (unfold lenZ, out; rewrite repeat_length; unfold lenZ in *; lia).
  assert (LE' : lenZ dec = lenZ inp) by (unfold lenZ, dec; now rewrite repeat_length).
  assert (NE : inp <> []) by (intros ->; unfold lenZ in HL; cbn in HL; lia).
  assert (ZB : 0 < lenZ (opt_out inp) <= 99999 /\ lenZ (opt_out inp) <= 2 * lenZ inp /\ lenZ (opt_out inp) mod 8 = 0).
  { destruct (opt_denotes inp Hb H8) as (rest & ST & _). assert (0 < lenZ (opt_out inp)). { destruct (opt_out inp); [|unfold lenZ; cbn [length]; lia]. exfalso. change (bytes_bits []) with (@nil bool) in ST. inversion ST. }
    rewrite opt_out_length in *. pose proof (opt_bits_len inp Hb (opt_len8 _ H8)) as B. unfold padded_size in *.
    pose proof (Z.div_mod (lenZ inp) 8 ltac:(lia)) as D. split; [|split; [|rewrite Z.mul_comm; apply Z.mod_mul; lia]].
    all: match goal with |- context [?b / 64] => assert (b / 64 <= (69 * (lenZ inp / 8) + 37 + 63) / 64) by (apply Z.div_le_mono; lia) end; pose proof (Z.mul_div_le (69 * (lenZ inp / 8) + 37 + 63) 64 ltac:(lia)).
    - lia.
    - assert ((69 * (lenZ inp / 8) + 37 + 63) / 64 <= 2 * (lenZ inp / 8)); [|lia]. apply Z.lt_succ_r. apply Z.div_lt_upper_bound; lia. }
  destruct ZB as (ZB & Z2 & Z8). pose proof (opt_denotes inp Hb H8) as DN. pose proof (opt_out_bytes inp) as BZ.
  destruct (optsw842_compress_out e iaddr oaddr inp out (lenZ out)) as [(A & m & E & F & MM)|(A & _)]; auto; try lia; [apply Z0|].
  unfold cl_simple_test. rewrite E, bind_done. change (negb (0 =? 0)) with false. cbv iota.
  assert (LM : (length (opt_out inp) <= length m)%nat). { rewrite <- F. rewrite firstn_length. lia. }
  rewrite load_bytes_ok by (unfold lenZ in *; lia). rewrite bind_done. unfold slice. cbn [Z.to_nat skipn]. replace (Z.to_nat (lenZ (opt_out inp))) with (length (opt_out inp)) by (unfold lenZ; lia). rewrite F.
  assert (X : observed (cl842_decompress e dev rv (opt_out inp) dec (lenZ dec)) = Done (0, lenZ inp, inp)).
  { apply cl842_exact; auto; try lia. rewrite LE'. auto. split; auto. lia. }
  destruct (cl842_decompress e dev rv (opt_out inp) dec (lenZ dec)) as [[[r' n'] m']| |]; try discriminate. cbn [observed] in X. injection X as -> -> G.
  rewrite bind_done. change (negb (0 =? 0)) with false. cbv iota. rewrite Z.eqb_refl. cbn [andb]. unfold lenZ in G. rewrite Nat2Z.id in G. rewrite G. exists m'. split; auto. do 3 f_equal. now apply list_eqb_eq.
Qed.

Theorem cl_driver e f use_map k base taddr obase tmp dev rv corder order file :
  7 <= k <= 16 -> base mod 8 = 0 -> taddr mod 8 = 0 -> obase mod 8 = 0 ->
  (forall c, is_bytes (tmp c) /\ lenZ (tmp c) = 2 ^ k * 2) -> (forall n, 0 <= n -> is_bytes (dev n) /\ lenZ (dev n) = n) ->
  (forall n, Permutation (corder n) (chunk_numbers n) /\ Permutation (order n) (chunk_numbers n)) ->
  (forall x, file = Some x -> is_bytes x /\ x <> [] /\ lenZ x <= 2 ^ 61) ->
  (forall x c, file = Some x -> In c (chunks_of (2 ^ k) (padded (2 ^ k) x)) -> (f <> Always -> not_mistaken c) /\ (f = Inplace -> not_caught_up c)) ->
  cl_compdecomp e f use_map (2 ^ k) base taddr obase tmp dev rv corder order file = Done (0, match file with Some x => padded (2 ^ k) x | None => TEST_STRING end).
Proof.
  intros Hk HB HT HO HTM HD HP HF HC. assert (PK : 128 <= 2 ^ k <= 65536) by (split; [change 128 with (2 ^ 7)|change 65536 with (2 ^ 16)]; apply Z.pow_le_mono_r; lia).
  assert (E8 : 2 ^ k = 8 * 2 ^ (k - 3)) by (change 8 with (2 ^ 3); rewrite <- Z.pow_add_r by lia; f_equal; lia).
  assert (C8 : 2 ^ k mod 8 = 0) by (rewrite E8, Z.mul_comm; apply Z.mod_mul; lia).
  unfold cl_compdecomp. destruct file as [x|].
  - destruct (HF x eq_refl) as (Bx & NE & LX). pose proof (fun c => HC x c eq_refl) as HC'. rewrite <- (read_file_padded x k) in HC' by lia. rewrite <- (read_file_padded x k) by lia. set (inp := read_file x (2 ^ k)) in *.
    destruct (read_file_ok x k ltac:(lia) Bx ltac:(lia)) as [RB RL]. fold inp in RB, RL.
    pose proof (next_multiple (lenZ x) k ltac:(lia) ltac:(unfold lenZ; lia) ltac:(lia)) as N. cbv zeta in N. rewrite <- RL in N. destruct N as [N1 N2].
    assert (1 <= lenZ x) by (destruct x; [contradiction|unfold lenZ; cbn [length]; lia]). apply Z.mod_divide in N1; [|lia]. destruct N1 as (n & Q). assert (Hn : 1 <= n) by nia.
    assert (EN : lenZ inp / 2 ^ k = n) by (rewrite Q; apply Z.div_mul; lia).
    destruct (Z.gtb_spec (lenZ inp) (2 ^ k)) as [G|G].
    + rewrite EN. set (sz := match f with Inplace => lenZ inp + 64 | _ => lenZ inp end). assert (0 <= sz) by (unfold sz; destruct f; lia). destruct (HD sz) as [D1 D2]; auto.
      destruct (HP n) as [P1 _]. destruct (HP (global_size n)) as [_ P2].
      assert (IC : forall c, 0 <= c < n -> In (chunk (2 ^ k) inp c) (chunks_of (2 ^ k) inp)).
      { intros c Hc. unfold chunks_of. rewrite EN. unfold chunk. apply (in_map (fun c => bytes_at inp (2 ^ k * c) (2 ^ k))). unfold chunk_numbers. apply in_map_iff. exists (Z.to_nat c). split; [lia|]. apply in_seq. lia. }
      rewrite (cl_benchmark e f (2 ^ k) n base taddr obase tmp inp (corder n)); auto; try lia.
      * intros NA c Hc. now apply (HC' (chunk (2 ^ k) inp c) (IC c Hc)).
      * intros NA c Hc. now apply (HC' (chunk (2 ^ k) inp c) (IC c Hc)).
    + assert (EL : lenZ inp = 2 ^ k) by nia. destruct (HD (Z.max 1 (lenZ inp))) as [D1 D2]; [lia|].
      destruct (cl_simple_ok e base obase (dev (Z.max 1 (lenZ inp))) rv inp) as (d & -> & F); auto; try lia; [congruence|]. rewrite bind_done. unfold lenZ. now rewrite Nat2Z.id, F.
  - destruct test_string_ok as [T1 T2]. destruct (Z.gtb_spec (lenZ TEST_STRING) (2 ^ k)) as [G|G]; [lia|]. destruct (HD (Z.max 1 (lenZ TEST_STRING))) as [D1 D2]; [lia|].
    destruct (cl_simple_ok e base obase (dev (Z.max 1 (lenZ TEST_STRING))) rv TEST_STRING) as (d & -> & F); auto; try lia. rewrite bind_done. unfold lenZ. now rewrite Nat2Z.id, F.
Qed.

Lemma inplace_len e C st ord same dv inb osz mp d : host_inplace e C st ord same dv inb osz mp = Done (Some d) -> lenZ d = osz.
Proof.
  unfold host_inplace. destruct (negb same); [discriminate|]. cbn [orb]. destruct (Z.eqb_spec (lenZ inb) osz) as [L|]; [|discriminate]. cbn [negb]. destruct (lenZ inb =? 0); [discriminate|]. intros H.
  apply bind_inv in H. destruct H as (b & _ & H). apply bind_inv in H. destruct H as (m & _ & H). apply bind_inv in H. destruct H as (h & E & H). injection H as <-. rewrite <- L. eapply store_len; eauto.
Qed.
Theorem cl_honest e f use_map k base taddr obase tmp dev rv corder order file d : 0 <= k <= 63 -> (forall x, file = Some x -> lenZ x + 2 ^ k <= 2 ^ 64) ->
  cl_compdecomp e f use_map (2 ^ k) base taddr obase tmp dev rv corder order file = Done (0, d) -> d = match file with Some x => padded (2 ^ k) x | None => TEST_STRING end.
Proof.
  intros Hk HF. assert (RF : match file with Some x => padded (2 ^ k) x | None => TEST_STRING end = match file with Some x => read_file x (2 ^ k) | None => TEST_STRING end).
  { destruct file as [x|]; auto. symmetry. apply read_file_padded; auto. }
  rewrite RF. clear RF. unfold cl_compdecomp. set (inp := match file with Some x => read_file x (2 ^ k) | None => TEST_STRING end).
  destruct (lenZ inp >? 2 ^ k).
  - intros H. apply bind_inv in H. destruct H as ([[r o] d'] & E & H). destruct r; [|discriminate]. injection H as <-. unfold cl_benchmark_core in E. apply bind_inv in E. destruct E as ([out olens] & _ & E).
    apply bind_inv in E. destruct E as ([d|] & R & E); [|discriminate]. injection E as LEQ _ <-. apply list_eqb_eq in LEQ.
    assert (L : lenZ d = lenZ inp).
    { destruct f; [apply host_len in R|apply host_len in R|now apply inplace_len in R]; rewrite R; unfold lenZ; rewrite repeat_length; lia. }
    rewrite firstn_all2 in LEQ by (unfold lenZ in *; lia). auto.
  - unfold cl_simple_test. intros H. apply bind_inv in H. destruct H as ([[r dlen] d'] & E & H). destruct r; [|discriminate]. injection H as <-.
    apply bind_inv in E. destruct E as ([[err olen] m] & _ & E). destruct (negb (err =? 0)); [discriminate|]. apply bind_inv in E. destruct E as (z & _ & E). apply bind_inv in E. destruct E as ([[err' dl] dd] & _ & E).
    destruct (negb (err' =? 0)); [discriminate|]. injection E as E <- <-. apply andb_prop in E. destruct E as [E1 E2]. apply Z.eqb_eq in E1. apply list_eqb_eq in E2. rewrite <- E1. unfold lenZ. now rewrite Nat2Z.id.
Qed.
Theorem cl_empty e f use_map k base taddr obase tmp dev rv corder order : 0 <= k < 31 -> base mod 8 = 0 -> obase mod 8 = 0 ->
  cl_compdecomp e f use_map (2 ^ k) base taddr obase tmp dev rv corder order (Some []) = Undef.
Proof.
  intros Hk HI HO. assert (P : 0 < 2 ^ k < 2 ^ 31) by (split; [apply Z.pow_pos_nonneg; lia|apply Z.pow_lt_mono_r; lia]).
  assert (R : read_file [] (2 ^ k) = []).
  { unfold read_file, nextMultipleOfChunkSize. cbn [app length lenZ Z.of_nat]. unfold u64. rewrite Z.mod_small by lia. rewrite land_high by lia. rewrite Z.div_small by lia. reflexivity. }
  unfold cl_compdecomp. rewrite R. cbn [lenZ length Z.of_nat]. destruct (Z.gtb_spec 0 (2 ^ k)); [lia|]. rewrite Z.mul_0_l. cbn [Z.to_nat repeat]. unfold cl_simple_test.
  assert (X : optsw842_compress e base obase [] [] (lenZ (@nil Z)) = Undef); [|rewrite X; reflexivity]. apply c18_exact; auto; [constructor|constructor|unfold lenZ; cbn; lia].
Qed.

(** * The size *)
Theorem cl_size e f use_map C n base taddr obase tmp dev inp corder order :
  C mod 8 = 0 -> 72 <= C -> 1 <= n -> 2 * C * (n + 1) <= 2 ^ 63 -> base mod 8 = 0 -> taddr mod 8 = 0 -> obase mod 8 = 0 ->
  (forall c, is_bytes (tmp c) /\ lenZ (tmp c) = C * 2) -> is_bytes inp -> lenZ inp = C * n ->
  is_bytes dev -> lenZ dev = match f with Inplace => lenZ inp + 64 | _ => lenZ inp end -> Permutation corder (chunk_numbers n) -> Permutation order (chunk_numbers (global_size n)) ->
  (forall c, In c (chunks_of C inp) -> (f <> Always -> not_mistaken c) /\ (f = Inplace -> not_caught_up c)) ->
  exists zs size, Forall2 compressed_to (chunks_of C inp) zs /\
    cl_benchmark_core e f use_map C base taddr obase tmp dev inp corder order = Done (true, size, inp) /\ (size = sum (map lenZ zs) <-> sum (map lenZ zs) < 2 ^ 31).
Proof.
  intros C8 C72 Hn H63 HB HT HO HTM HI LI HD LD PC PO HC. assert (EN : lenZ inp / C = n) by (rewrite LI, Z.mul_comm; apply Z.div_mul; lia). assert (CC : 72 <= C < 2 ^ 62) by nia.
  assert (IC : forall c, 0 <= c < n -> In (chunk C inp c) (chunks_of C inp)).
  { intros c Hc. unfold chunks_of. rewrite EN. unfold chunk. apply (in_map (fun c => bytes_at inp (C * c) C)). unfold chunk_numbers. apply in_map_iff. exists (Z.to_nat c). split; [lia|]. apply in_seq. lia. }
  assert (CH : Forall (fun x => is_bytes x /\ lenZ x = C) (chunks_of C inp)).
  { apply Forall_forall. intros x Hx. unfold chunks_of in Hx. rewrite EN in Hx. apply in_map_iff in Hx. destruct Hx as (c & <- & Hc). unfold chunk_numbers in Hc. apply in_map_iff in Hc. destruct Hc as (i & <- & Hi). apply in_seq in Hi.
    split; [apply is_bytes_slice; auto|apply bytes_at_len; nia]. }
  exists (map opt_out (chunks_of C inp)), (accumulate (sizes C n inp)). split; [|split].
  - clear - CH C8 CC. induction CH as [|x l [Hx Lx] _ IH]; cbn [map]; constructor; auto. apply (compressed_opt C); auto.
  - apply cl_benchmark; auto.
    + intros NA c Hc. now apply (HC (chunk C inp c) (IC c Hc)).
    + intros NA c Hc. now apply (HC (chunk C inp c) (IC c Hc)).
  - assert (ES : sizes C n inp = map lenZ (map opt_out (chunks_of C inp))) by (unfold sizes, chunks_of; rewrite EN, !map_map; reflexivity).
    rewrite ES. set (l := map lenZ _).
    assert (B : 0 <= sum l <= (2 * C) * lenZ (chunks_of C inp)).
    { unfold l. clear - CH C8 CC. induction CH as [|x r [Hx Lx] _ IH]; [cbn; unfold lenZ; cbn; lia|]. destruct (opt_room C C8 CC x Hx Lx) as [R _].
      change (0 <= lenZ (opt_out x) + sum (map lenZ (map opt_out r)) <= 2 * C * lenZ (x :: r)). rewrite lenZ_cons. assert (0 <= lenZ (opt_out x)) by (unfold lenZ; lia). lia. }
    assert (LC : lenZ (chunks_of C inp) = n) by (unfold lenZ, chunks_of; rewrite map_length, EN, numbers_length; lia). rewrite LC in B.
    rewrite reported by nia. split; [|lia]. intros [?|?]; auto. nia.
Qed.

(** * Chunks of at most 560 bytes *)
Lemma opt_ends x : is_bytes x -> lenZ x mod 8 = 0 -> ends_with_crc (opt_out x) x.
Proof.
  intros Hx H8. eexists. split.
  - rewrite opt_out_bits. unfold pad. apply opt_bits_stream; auto. now apply opt_len8.
  - rewrite app_length, bits_of_length, repeat_length. pose proof (padded_ge (opt_bits x)). lia.
Qed.
Lemma small_not_caught C x : C mod 8 = 0 -> 72 <= C <= 560 -> is_bytes x -> lenZ x = C -> not_caught_up x.
Proof.
  intros C8 HC Hx LX z HZ L. apply (compressed_opt C) in HZ; auto; [|lia]. subst z. destruct (opt_room C C8 ltac:(lia) x Hx LX) as [_ Z8].
  apply (small_ahead (lenZ x) (opt_out x) x); auto; try lia. apply opt_ends; auto. congruence.
Qed.
Lemma chunks_ok C inp c : 0 < C -> is_bytes inp -> In c (chunks_of C inp) -> is_bytes c /\ lenZ c = C.
Proof.
  intros HC HI Hx. unfold chunks_of in Hx. apply in_map_iff in Hx. destruct Hx as (q & <- & Hc). unfold chunk_numbers in Hc. apply in_map_iff in Hc. destruct Hc as (i & <- & Hi). apply in_seq in Hi.
  pose proof (Z.mul_div_le (lenZ inp) C HC). assert (0 <= lenZ inp / C) by (apply Z.div_pos; [unfold lenZ|]; lia). split; [apply is_bytes_slice; auto|apply bytes_at_len; nia].
Qed.
