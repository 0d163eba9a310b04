(** The sample program's round trip. *)
From Coq Require Import ZArith List Bool Lia Permutation.
From Verif Require Import SpecBits SpecCrc Spec842 SpecCalls CBase BitsLemmas CrcProofs
  SerialCompModel SerialDecompModel SerialIdeal SerialComp SerialValid PureDecoder SerialDecomp SerialFacts
  OptCompModel OptDecompModel OptWriter OptDecomp OptComp OptProps OclModel OclPure OclProofs SpecOcl OclItems OclProps OclExt InplaceModel SpecInplace InplaceProofs InplaceItems
  SpecNull NullProofs NullItems SampleModel.
Import ListNotations.
Open Scope Z_scope.

(** * Writing next to what was written *)
Lemma put_adj M o a b : (o + length a + length b <= length M)%nat -> put (put M o a) (o + length a) b = put M o (a ++ b).
Proof.
  intros H. apply (nth_ext _ _ 0 0).
  - rewrite !put_length; rewrite ?put_length; rewrite ?app_length; lia.
  - intros p _. rewrite !put_nth by (rewrite ?put_length; rewrite ?app_length; lia). rewrite app_length.
    destruct (Nat.leb_spec (o + length a) p), (Nat.ltb_spec p (o + length a + length b)), (Nat.leb_spec o p), (Nat.ltb_spec p (o + length a)),
      (Nat.ltb_spec p (o + (length a + length b))); cbn [andb]; try lia; auto.
    + rewrite app_nth2 by lia. f_equal. lia.
    + rewrite app_nth1 by lia. reflexivity.
Qed.
Lemma put_more M o w k : (o + length w + k <= length M)%nat -> put M o w = put M o (w ++ slice (o + length w) k M).
Proof.
  intros H. assert (LS : length (slice (o + length w) k M) = k) by (apply slice_length; lia). apply (nth_ext _ _ 0 0).
  - rewrite !put_length; rewrite ?app_length; lia.
  - intros p _. rewrite !put_nth by (rewrite ?app_length; lia). rewrite app_length, LS.
    destruct (Nat.leb_spec o p), (Nat.ltb_spec p (o + length w)), (Nat.ltb_spec p (o + (length w + k))); cbn [andb]; try lia; auto.
    + rewrite app_nth1 by lia. reflexivity.
    + rewrite app_nth2 by lia. unfold slice. rewrite nth_firstn_lt by lia. rewrite <- (firstn_skipn (o + length w) M) at 1.
      rewrite app_nth2 by (rewrite firstn_length; lia). f_equal. rewrite firstn_length. lia.
Qed.

(** * One chunk *)
Section S.
Variable e : endian.
Variable C : Z.
Hypothesis C8 : C mod 8 = 0.
Hypothesis C72 : 72 <= C < 2 ^ 62.

Lemma opt_room x : is_bytes x -> lenZ x = C -> lenZ (opt_out x) <= 2 * C - 48 /\ lenZ (opt_out x) mod 8 = 0.
Proof.
  intros Hx HL. rewrite opt_out_length. assert (H8 : lenZ x mod 8 = 0) by congruence. pose proof (opt_bits_len x Hx (opt_len8 _ H8)) as B. rewrite HL in B. unfold padded_size.
  split; [|rewrite Z.mul_comm; apply Z.mod_mul; lia].
  pose proof (Z.div_mod C 8 ltac:(lia)) as D.
  match goal with |- 8 * (?b / 64) <= _ => assert (b / 64 <= (69 * (C / 8) + 37 + 63) / 64) by (apply Z.div_le_mono; lia) end.
  pose proof (Z.mul_div_le (69 * (C / 8) + 37 + 63) 64 ltac:(lia)). lia.
Qed.
Lemma opt_denotes x : is_bytes x -> lenZ x mod 8 = 0 -> denotes_842 (opt_out x) x.
Proof.
  intros Hx H8. destruct (opt_out_valid false x Hx (opt_len8 _ H8)) as (rest & ST). eexists. split; [exact ST|]. rewrite app_length, bits_of_length. lia.
Qed.

(** What is in the buffer for a chunk [x]. *)
Definition mixed (x w : list Z) : Prop := w = x \/ exists z, packed e C w z /\ lenZ z mod 8 = 0 /\ denotes_842 z x.
Definition stored (x w : list Z) : Prop := w = x /\ C - 24 < lenZ (opt_out x) \/ packed e C w (opt_out x).
Lemma stored_mixed x w : is_bytes x -> lenZ x = C -> stored x w -> mixed x w.
Proof.
  intros Hx LX [[-> _]|P]; [now left|]. right. exists (opt_out x). split; auto. destruct (opt_room x Hx LX) as [_ Z8]. split; auto. apply opt_denotes; auto. congruence.
Qed.
Lemma sample_maybe_exact base taddr inp tmp c n out : base mod 8 = 0 -> taddr mod 8 = 0 -> is_bytes inp -> is_bytes tmp -> lenZ tmp = C * 2 -> is_bytes out ->
  0 <= c < n -> C * n <= lenZ inp -> lenZ out = C * n ->
  exists w, sample_maybe e C base taddr inp tmp c out = Done (put out (Z.to_nat (C * c)) w) /\ is_bytes w /\ lenZ w = C /\ stored (bytes_at inp (C * c) C) w.
Proof.
  intros HB HT Hi Ht LT Ho Hc LI LO. unfold sample_maybe. assert (CC : 0 <= C * c /\ C * c + C <= C * n) by nia.
  rewrite load_bytes_ok by lia. rewrite bind_done. set (x := bytes_at inp (C * c) C). change (slice (Z.to_nat (C * c)) (Z.to_nat C) inp) with x.
  assert (Hx : is_bytes x) by now apply is_bytes_slice. assert (LX : lenZ x = C) by (apply bytes_at_len; lia).
  assert (X8 : lenZ x mod 8 = 0) by congruence. assert (XN : x <> []) by (intros E; rewrite E, lenZ_nil in LX; lia).
  assert (HA : (base + C * c) mod 8 = 0). { rewrite <- Zplus_mod_idemp_r, <- Zmult_mod_idemp_l, C8, Z.mul_0_l, Z.add_0_r. auto. }
  destruct (opt_room x Hx LX) as [ZR Z8]. set (z := opt_out x) in *. assert (ZP : 0 <= lenZ z) by (unfold lenZ; lia).
  pose proof (optsw842_compress_out e (base + C * c) taddr x tmp (C * 2) Hx Ht ltac:(lia) HA HT X8 XN) as CO. fold z in CO. destruct CO as [(A & m & -> & F & BM)|(A & _)]; [|lia].
  rewrite bind_done. destruct (Z.gtb_spec (lenZ z) (C - 16 - 8)) as [G|G].
  - rewrite store_bytes_ok by lia. exists x. split; [reflexivity|]. split; auto. split; auto. left. split; [reflexivity|]. fold x z. lia.
  - change (lenZ MARKER) with 16. rewrite store_bytes_ok by (change (lenZ MARKER) with 16; lia). rewrite bind_done.
    change (splice out (Z.to_nat (C * c)) MARKER) with (put out (Z.to_nat (C * c)) MARKER).
    assert (L1 : lenZ (put out (Z.to_nat (C * c)) MARKER) = lenZ out).
    { unfold lenZ. rewrite put_length; auto. change (length MARKER) with 16%nat. unfold lenZ in *. lia. }
    unfold store64. set (nb := native_bytes e 8 (lenZ z)). assert (LN : length nb = 8%nat) by apply native_bytes_length.
    rewrite store_bytes_ok by (unfold lenZ in *; lia). rewrite bind_done.
    change (splice ?M ?o ?b) with (put M o b). replace (Z.to_nat (C * c + 16)) with (Z.to_nat (C * c) + length MARKER)%nat by (change (length MARKER) with 16%nat; lia).
    rewrite put_adj by (change (length MARKER) with 16%nat; unfold lenZ in *; lia).
    destruct BM as (_ & BM & _).
    rewrite load_bytes_ok by (unfold lenZ in *; lia). rewrite bind_done. change (Z.to_nat 0) with 0%nat. unfold slice at 1. cbn [skipn].
    replace (Z.to_nat (lenZ z)) with (length z) by (unfold lenZ; lia). rewrite F.
    set (hd := MARKER ++ nb). assert (LH : length hd = 24%nat) by (unfold hd; rewrite app_length, LN; reflexivity).
    set (k := Z.to_nat (C - 24 - lenZ z)).
    rewrite (put_more out (Z.to_nat (C * c)) hd k) by (unfold k, lenZ in *; lia). set (pad := slice (Z.to_nat (C * c) + length hd) k out).
    assert (LP : length pad = k) by (apply slice_length; unfold k, lenZ in *; lia).
    assert (L2 : lenZ (put out (Z.to_nat (C * c)) (hd ++ pad)) = lenZ out).
    { unfold lenZ. rewrite put_length; auto. rewrite app_length. unfold k, lenZ in *. lia. }
    rewrite store_bytes_ok by lia. change (splice ?M ?o ?b) with (put M o b).
    replace (Z.to_nat (C * c + (C - lenZ z))) with (Z.to_nat (C * c) + length (hd ++ pad))%nat by (rewrite app_length, LH, LP; unfold k; lia).
    rewrite put_adj by (rewrite app_length, LH, LP; unfold k, lenZ in *; lia).
    assert (LW : lenZ ((hd ++ pad) ++ z) = C) by (unfold lenZ in *; rewrite !app_length, LH, LP; unfold k, lenZ; lia).
    exists ((hd ++ pad) ++ z). split; [reflexivity|]. split.
    { rewrite !is_bytes_app. unfold hd. rewrite is_bytes_app. repeat split; try apply native_bytes_bytes; try apply opt_out_bytes; [repeat constructor; lia|now apply is_bytes_slice]. }
    split; auto. right. fold x z. exists pad. split; auto. unfold hd. now rewrite <- !app_assoc.
Qed.
Lemma sample_maybe_ok base taddr inp tmp c n out : base mod 8 = 0 -> taddr mod 8 = 0 -> is_bytes inp -> is_bytes tmp -> lenZ tmp = C * 2 -> is_bytes out ->
  0 <= c < n -> C * n <= lenZ inp -> lenZ out = C * n ->
  exists w, sample_maybe e C base taddr inp tmp c out = Done (put out (Z.to_nat (C * c)) w) /\ is_bytes w /\ lenZ w = C /\ mixed (bytes_at inp (C * c) C) w.
Proof.
  intros HB HT Hi Ht LT Ho Hc LI LO. destruct (sample_maybe_exact base taddr inp tmp c n out) as (w & E & BW & LW & SW); auto. exists w. repeat split; auto.
  apply stored_mixed; auto. { now apply is_bytes_slice. } apply bytes_at_len; nia.
Qed.

Lemma sample_always_ok base obase inp c n out : base mod 8 = 0 -> obase mod 8 = 0 -> is_bytes inp -> is_bytes out ->
  0 <= c < n -> C * n <= lenZ inp -> lenZ out = C * 2 * n ->
  exists w, sample_always e C base obase inp c out = Done (put out (Z.to_nat (C * 2 * c)) w) /\ is_bytes w /\ lenZ w = C * 2 /\
    exists k, k mod 8 = 0 /\ 0 <= k <= C * 2 - 48 /\ denotes_842 (firstn (Z.to_nat k) w) (bytes_at inp (C * c) C).
Proof.
  intros HB HO Hi Ho Hc LI LO. unfold sample_always. assert (CC : 0 <= C * c /\ C * c + C <= C * n) by nia. assert (CD : 0 <= C * 2 * c /\ C * 2 * c + C * 2 <= C * 2 * n) by nia.
  rewrite load_bytes_ok by lia. rewrite bind_done. set (x := bytes_at inp (C * c) C). change (slice (Z.to_nat (C * c)) (Z.to_nat C) inp) with x.
  assert (Hx : is_bytes x) by now apply is_bytes_slice. assert (LX : lenZ x = C) by (apply bytes_at_len; lia).
  assert (X8 : lenZ x mod 8 = 0) by congruence. assert (XN : x <> []) by (intros E; rewrite E, lenZ_nil in LX; lia).
  assert (HA : (base + C * c) mod 8 = 0). { rewrite <- Zplus_mod_idemp_r, <- Zmult_mod_idemp_l, C8, Z.mul_0_l, Z.add_0_r. auto. }
  assert (HD : (obase + C * 2 * c) mod 8 = 0). { replace (C * 2 * c) with (C * (2 * c)) by lia. rewrite <- Zplus_mod_idemp_r, <- Zmult_mod_idemp_l, C8, Z.mul_0_l, Z.add_0_r. auto. }
  destruct (opt_room x Hx LX) as [ZR Z8]. set (z := opt_out x) in *. assert (ZP : 0 <= lenZ z) by (unfold lenZ; lia).
  set (o := Z.to_nat (C * 2 * c)). assert (LS : lenZ (skipn o out) = lenZ out - C * 2 * c) by (unfold lenZ in *; rewrite skipn_length; unfold o; lia).
  pose proof (optsw842_compress_out e (base + C * c) (obase + C * 2 * c) x (skipn o out) (C * 2) Hx (is_bytes_skipn _ _ Ho) ltac:(lia) HA HD X8 XN) as CO. fold z in CO. destruct CO as [(A & m & -> & F & BM)|(A & _)]; [|lia].
  rewrite bind_done. pose proof BM as (BB & _). destruct (bmem_frame (C * 2) _ _ ltac:(lia) BM) as [LM SM].
  exists (firstn (Z.to_nat (C * 2)) m). assert (LW : length (firstn (Z.to_nat (C * 2)) m) = Z.to_nat (C * 2)) by (rewrite firstn_length; unfold lenZ in *; lia).
  split. { f_equal. unfold put. rewrite LW. rewrite <- skipn_skipn. rewrite <- SM. now rewrite firstn_skipn. }
  split; [now apply is_bytes_firstn|]. split; [unfold lenZ; lia|]. exists (lenZ z). split; auto. split; [lia|].
  rewrite firstn_firstn, Nat.min_l by (unfold lenZ in *; lia). unfold lenZ. rewrite Nat2Z.id, F. now apply opt_denotes.
Qed.
End S.

(** * All chunks *)
Lemma sample_run_ok body (S n : Z) (Q : Z -> list Z -> Prop) : 0 < S -> 0 <= n ->
  (forall c out, 0 <= c < n -> is_bytes out -> lenZ out = S * n -> exists w, body c out = Done (put out (Z.to_nat (S * c)) w) /\ is_bytes w /\ lenZ w = S /\ Q c w) ->
  forall order out, NoDup order -> (forall c, In c order -> 0 <= c < n) -> is_bytes out -> lenZ out = S * n ->
  exists out', sample_run body order out = Done out' /\ is_bytes out' /\ lenZ out' = S * n /\
    (forall c, In c order -> Q c (bytes_at out' (S * c) S)) /\
    (forall c, 0 <= c < n -> ~ In c order -> bytes_at out' (S * c) S = bytes_at out (S * c) S).
Proof.
  intros HS Hn HB. induction order as [|c order IH]; intros out ND IN Ho LO; cbn [sample_run].
  - exists out. repeat split; auto. intros c [].
  - inversion ND as [|? ? NI ND']; subst. assert (Hc : 0 <= c < n) by (apply IN; now left). destruct (HB c out Hc Ho LO) as (w & -> & BW & LW & QW). rewrite bind_done.
    assert (CC : forall d, 0 <= d < n -> 0 <= S * d /\ S * d + S <= S * n) by (intros; nia). pose proof (CC c Hc).
    assert (LP : lenZ (put out (Z.to_nat (S * c)) w) = S * n). { unfold lenZ. rewrite put_length; unfold lenZ in *; lia. }
    destruct (IH (put out (Z.to_nat (S * c)) w) ND') as (out' & E & B & L & IQ & IN'); auto.
    { intros d Hd. apply IN. now right. } { now apply put_bytes. }
    exists out'. split; auto. split; auto. split; auto.
    assert (SELF : bytes_at (put out (Z.to_nat (S * c)) w) (S * c) S = w).
    { unfold bytes_at. rewrite put_at by (unfold lenZ in *; lia). rewrite skipn_all2; [apply app_nil_r|]. rewrite slice_length; unfold lenZ in *; lia. }
    split.
    + intros d [<-|Hd]; auto. rewrite IN' by auto. now rewrite SELF.
    + intros d Hd ND2. rewrite IN' by (auto; intros ?; apply ND2; now right). pose proof (CC d Hd).
      apply bytes_at_same; try lia. { unfold lenZ in *. lia. }
      intros q Hq. rewrite put_nth by (unfold lenZ in *; lia).
      destruct (Nat.leb_spec (Z.to_nat (S * c)) q); auto. destruct (Nat.ltb_spec q (Z.to_nat (S * c) + length w)); auto. exfalso.
      apply ND2. left. unfold lenZ in *. nia.
Qed.

Lemma numbers_perm order n : Permutation order (chunk_numbers n) -> NoDup order /\ forall c, In c order <-> 0 <= c < n.
Proof.
  intros P. split.
  - apply (Permutation_NoDup (Permutation_sym P)). unfold chunk_numbers. apply FinFun.Injective_map_NoDup; [intros x y; lia|apply seq_NoDup].
  - intros c. split.
    + intros H. apply (Permutation_in _ P) in H. unfold chunk_numbers in H. apply in_map_iff in H. destruct H as (k & <- & K). apply in_seq in K. lia.
    + intros H. apply (Permutation_in _ (Permutation_sym P)). unfold chunk_numbers. apply in_map_iff. exists (Z.to_nat c). split; [lia|]. apply in_seq. lia.
Qed.
Lemma chunks_all C n (a b : list Z) : 0 < C -> lenZ a = C * n -> lenZ b = C * n -> (forall c, 0 <= c < n -> bytes_at a (C * c) C = bytes_at b (C * c) C) -> a = b.
Proof.
  intros HC LA LB H. apply (nth_ext _ _ 0 0); [unfold lenZ in *; lia|]. intros p Hp.
  set (c := Z.of_nat p / C). pose proof (Z.div_mod (Z.of_nat p) C ltac:(lia)) as D. pose proof (Z.mod_pos_bound (Z.of_nat p) C HC) as B. fold c in D.
  assert (Hc : 0 <= c < n). { split; [apply Z.div_pos; lia|]. unfold c. apply Z.div_lt_upper_bound; unfold lenZ in *; lia. }
  pose proof (H c Hc) as E. apply (f_equal (fun l => nth (p - Z.to_nat (C * c)) l 0)) in E.
  rewrite !nth_bytes_at in E by (unfold lenZ in *; nia). replace (Z.to_nat (C * c) + (p - Z.to_nat (C * c)))%nat with p in E by nia. exact E.
Qed.

Definition stride_of (f : cl_format) (C : Z) : Z := match f with AlwaysCompressed => C * 2 | MaybeCompressed => C end.
Theorem sample_round_trip_exact e f C n base taddr obase tmp dev inp corder order map :
  C mod 8 = 0 -> 72 <= C -> 1 <= n -> 2 * C * (n + 1) <= 2 ^ 63 -> base mod 8 = 0 -> taddr mod 8 = 0 -> obase mod 8 = 0 ->
  (forall c, is_bytes (tmp c) /\ lenZ (tmp c) = C * 2) -> is_bytes dev -> lenZ dev = lenZ inp -> is_bytes inp -> lenZ inp = C * n ->
  Permutation corder (chunk_numbers n) -> Permutation order (chunk_numbers (global_size n)) -> (forall l, map = Some l -> Permutation l (chunk_numbers n)) ->
  (f = MaybeCompressed -> forall c, 0 <= c < n -> C - 24 < lenZ (opt_out (bytes_at inp (C * c) C)) -> firstn 16 (bytes_at inp (C * c) C) <> MARKER) ->
  compress_benchmark_core e f C base taddr obase tmp dev inp corder order map = Done true.
Proof.
  intros C8 C72 Hn H63 HB HT HO HTM HD LD HI LI PC PO PM HM. unfold compress_benchmark_core.
  assert (EN : lenZ inp / C = n) by (rewrite LI, Z.mul_comm; apply Z.div_mul; lia). rewrite EN.
  destruct (numbers_perm _ _ PC) as [NDC INC]. assert (C62 : C < 2 ^ 62) by nia.
  fold (stride_of f C). set (S := stride_of f C). assert (HS : C <= S <= C * 2) by (unfold S, stride_of; destruct f; lia).
  set (out := repeat 0 (Z.to_nat (n * S))). assert (LO : lenZ out = S * n) by (unfold lenZ, out; rewrite repeat_length; nia).
  assert (BO : is_bytes out) by (apply is_bytes_repeat; unfold is_byte; lia).
  set (body := match f with AlwaysCompressed => _ | MaybeCompressed => _ end).
  set (x := fun c => bytes_at inp (C * c) C).
  set (Q := fun c w => match f with
      | AlwaysCompressed => exists k, k mod 8 = 0 /\ 0 <= k <= C * 2 - 48 /\ denotes_842 (firstn (Z.to_nat k) w) (x c)
      | MaybeCompressed => stored e C (x c) w end).
  destruct (sample_run_ok body S n Q ltac:(lia) ltac:(lia)) with (order := corder) (out := out) as (buf & -> & BB & LB & QB & _); auto; [|apply INC|].
  { intros c o Hc Ho LOo. unfold body, Q, S, stride_of in *. destruct f.
    - destruct (sample_always_ok e C C8 ltac:(lia) base obase inp c n o) as (w & ? & ? & ? & ?); auto; try lia. exists w. auto.
    - destruct (HTM c). destruct (sample_maybe_exact e C C8 ltac:(lia) base taddr inp (tmp c) c n o) as (w & ? & ? & ? & ?); auto; try lia. exists w. auto. }
  rewrite bind_done. unfold host_decompress. cbn [andb].
  assert (NUM : u64 (lenZ buf + S - 1) / S = n).
  { unfold u64. rewrite Z.mod_small by (rewrite LB; nia). rewrite LB. replace (S * n + S - 1) with ((S - 1) + n * S) by lia. rewrite Z.div_add by lia. rewrite Z.div_small; lia. }
  rewrite NUM.
  assert (G : (match f with MaybeCompressed => true | AlwaysCompressed => false end) && negb (lenZ buf =? lenZ inp) = false).
  { destruct f; [reflexivity|]. cbn [andb]. rewrite LB, LI. unfold S, stride_of. now rewrite Z.eqb_refl. }
  rewrite G. destruct (Z.eqb_spec (lenZ buf) 0) as [Z0|_]; [nia|].
  set (a := mkA f C S buf 0 None 0 n map). set (m0 := mkM dev None None).
  assert (NL : nlayout_ok a m0).
  { split; cbn [a a_num a_size a_stride a_inoff a_outoff a_in a_ilen a_map m0 m_out m_olen m_ret]; try discriminate; try (split; auto; lia); auto; try nia.
    - split; [lia|]. unfold S, stride_of. destruct f; auto. rewrite <- Z.mul_mod_idemp_l, C8 by lia. reflexivity.
    - split; auto. nia. }
  assert (CH : forall c, 0 <= c < a_num a -> chunk_holds e a m0 c (x c)).
  { intros c Hc. cbn [a a_num] in Hc. pose proof (QB c (proj2 (INC c) Hc)) as HQ. unfold chunk_holds, in_pos, room.
    cbn [a a_num a_size a_stride a_inoff a_outoff a_in a_ilen a_map m0 m_out m_olen m_ret a_format]. rewrite Z.add_0_l.
    assert (LX : lenZ (x c) = C) by (apply bytes_at_len; nia). assert (SC : 0 <= S * c /\ S * c + S <= S * n) by nia.
    unfold Q, S, stride_of in *. destruct f.
    - destruct HQ as (k & K8 & KB & KD). exists k. split; [lia|]. split; auto. split.
      { replace (bytes_at buf (C * 2 * c) k) with (firstn (Z.to_nat k) (bytes_at buf (C * 2 * c) (C * 2))); auto.
        unfold bytes_at, slice. rewrite firstn_firstn. f_equal. lia. }
      split; lia.
    - split; [lia|]. split; [lia|]. cbv zeta. assert (BX : is_bytes (x c)) by now apply is_bytes_slice. destruct HQ as [[E GT]|PK].
      + left. rewrite E. split; [exact (HM eq_refl c Hc GT)|reflexivity].
      + right. exists (opt_out (x c)). split; auto. destruct (opt_room C C8 ltac:(lia) (x c) BX LX) as [_ Z8]. split; auto. split; [|lia]. apply opt_denotes; auto. congruence. }
  destruct (well_formed e a m0 x NL CH order) as (m' & -> & LM & RS & _).
  { unfold schedule. cbn [a a_num]. auto. }
  rewrite bind_done. cbn [m0 m_out] in LM.
  assert (LF : lenZ (firstn (Z.to_nat (lenZ inp)) (m_out m')) = lenZ inp) by (apply lenZ_firstn; unfold lenZ in *; lia).
  assert (LR : lenZ (repeat 0 (Z.to_nat (lenZ inp))) = lenZ inp) by (unfold lenZ; rewrite repeat_length; lia).
  rewrite store_bytes_ok by lia. rewrite !bind_done. f_equal.
  assert (EQ : firstn (Z.to_nat (lenZ inp)) (m_out m') = inp).
  { rewrite firstn_all2 by (unfold lenZ in *; lia). apply (chunks_all C n); try lia. { unfold lenZ in *. lia. }
    intros c Hc. destruct (RS c Hc) as [R _]. unfold out_pos in R. cbn [a a_size a_outoff] in R. rewrite Z.add_0_l in R.
    assert (LX : lenZ (x c) = C) by (apply bytes_at_len; nia). rewrite LX in R. exact R. }
  rewrite EQ. unfold splice. change (Z.to_nat 0) with 0%nat. cbn [firstn app]. rewrite skipn_all2 by (unfold lenZ in *; lia). rewrite app_nil_r.
  rewrite firstn_all2 by (unfold lenZ; lia). now apply list_eqb_eq.
Qed.

Theorem sample_round_trip e f C n base taddr obase tmp dev inp corder order map :
  C mod 8 = 0 -> 72 <= C -> 1 <= n -> 2 * C * (n + 1) <= 2 ^ 63 -> base mod 8 = 0 -> taddr mod 8 = 0 -> obase mod 8 = 0 ->
  (forall c, is_bytes (tmp c) /\ lenZ (tmp c) = C * 2) -> is_bytes dev -> lenZ dev = lenZ inp -> is_bytes inp -> lenZ inp = C * n ->
  Permutation corder (chunk_numbers n) -> Permutation order (chunk_numbers (global_size n)) -> (forall l, map = Some l -> Permutation l (chunk_numbers n)) ->
  (f = MaybeCompressed -> forall c, 0 <= c < n -> firstn 16 (bytes_at inp (C * c) C) <> MARKER) ->
  compress_benchmark_core e f C base taddr obase tmp dev inp corder order map = Done true.
Proof. intros. eapply sample_round_trip_exact; eauto. Qed.

Theorem sample_short e f size base taddr obase tmp dev inp order map : lenZ inp < size ->
  compress_benchmark_core e f size base taddr obase tmp dev inp [] order map = Done false.
Proof.
  intros HS. unfold compress_benchmark_core. rewrite Z.div_small by (unfold lenZ in *; lia). cbn [sample_run bind]. rewrite Z.mul_0_l. change (repeat 0 (Z.to_nat 0)) with (@nil Z).
  unfold host_decompress. cbn [andb lenZ length Z.of_nat].
  destruct f; cbn [andb bind Z.eqb]; [reflexivity|]. destruct (lenZ inp); reflexivity.
Qed.
