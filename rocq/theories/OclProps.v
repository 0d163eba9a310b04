(** Lemmas behind PropOcl.v. *)
From Coq Require Import ZArith List Bool Lia Permutation.
From Verif Require Import SpecBits SpecCrc Spec842 SpecCalls CBase BitsLemmas SerialIdeal SerialValid PureDecoder SerialFacts SerialDecomp OptDecompModel OptDecomp OptProps OclModel SpecOcl OclPure OclProofs OclItems.
Import ListNotations.
Open Scope Z_scope.

Lemma firstn_pre {A} (x l : list A) : firstn (Z.to_nat (lenZ x)) (x ++ l) = x.
Proof. unfold lenZ. rewrite Nat2Z.id, firstn_app, Nat.sub_diag, firstn_all, firstn_O. apply app_nil_r. Qed.

Lemma stream_nonempty sw out x rest : ~ stream sw out [] x rest.
Proof.
  intros ST. remember [] as b eqn:E. destruct ST; apply (f_equal (@length bool)) in E; rewrite app_length, bits_of_length in E; cbn in E; lia.
Qed.

(** Where the kernel may read when it is given [ilen] bytes of input. *)
Lemma readable_words inp ilen : 0 <= ilen -> 8 * ((ilen + 7) / 8) <= lenZ inp -> readable inp ilen.
Proof.
  intros H0 H. split; auto. intros i Hi Hl. pose proof (Z.div_mod (ilen + 7) 8 ltac:(lia)). pose proof (Z.mod_pos_bound (ilen + 7) 8 ltac:(lia)). lia.
Qed.
Lemma readable_all inp : lenZ inp mod 8 = 0 -> readable inp (lenZ inp).
Proof. intros H. split; [unfold lenZ; lia|]. intros i Hi Hl. pose proof (Z.div_mod (lenZ inp) 8 ltac:(lia)). lia. Qed.

Definition words_of (inp : list Z) (ilen : Z) : list Z := firstn (Z.to_nat (8 * (ilen / 8))) inp.
Lemma whole_words inp ilen : 0 <= ilen <= lenZ inp -> whole (firstn (Z.to_nat ilen) inp) = words_of inp ilen.
Proof.
  intros H. unfold whole, words_of. rewrite firstn_firstn. rewrite firstn_length. f_equal. unfold lenZ in H.
  rewrite Nat.min_l with (n := Z.to_nat ilen) by lia. pose proof (Nat.mul_div_le (Z.to_nat ilen) 8 ltac:(lia)).
  rewrite Nat.min_l by lia. rewrite Z2Nat.inj_mul by (try apply Z.div_pos; lia). change (Z.to_nat 8) with 8%nat. f_equal.
  rewrite Z2Nat.inj_div by lia. reflexivity.
Qed.

Lemma core_exact e inp ilen out olen x : is_bytes inp -> is_bytes out -> 0 <= ilen -> 8 * ((ilen + 7) / 8) <= lenZ inp -> 0 <= olen <= lenZ out -> olen < 2 ^ 63 ->
  (observed (decompress_core e inp ilen out olen) = Done (0, lenZ x, x) <-> denotes_842 (words_of inp ilen) x /\ lenZ x <= olen).
Proof.
  intros Hi Ho HL HR Hc H63. pose proof (core_pure e inp ilen out olen Hi Ho (readable_words _ _ HL HR) Hc H63) as C.
  assert (ilen <= lenZ inp). { pose proof (Z.div_mod (ilen + 7) 8 ltac:(lia)). pose proof (Z.mod_pos_bound (ilen + 7) 8 ltac:(lia)). lia. }
  unfold krun in C. rewrite whole_words in C by lia. set (bits := bytes_bits (words_of inp ilen)) in *.
  assert (FU : (length bits < S (Z.to_nat (8 * lenZ inp)))%nat).
  { unfold bits. rewrite bytes_bits_length. unfold words_of. rewrite firstn_length. unfold lenZ. lia. }
  destruct (kd_meaning (lenZ out) olen bits _ Hc FU) as (A1 & A2 & A3 & p & A4 & A5 & A6).
  split.
  - intros E. rewrite A4 in C. destruct p as [y rest|c|].
    + destruct C as (m & -> & B & F & _ & D). rewrite D in E. destruct (rdb 32 rest) as [[v r]|] eqn:R; [|discriminate].
      cbn [observed] in E. rewrite firstn_pre in E. injection E as _ ->. destruct (A3 _ _ A4) as (ST & _). split; auto. exists rest. split; auto. apply rdb_enough. eauto.
    + destruct C as (CN & C). cbv zeta in C. destruct C as (_ & _ & C). rewrite C in E. cbn [observed] in E. injection E as -> _ _. lia.
    + rewrite C in E. discriminate.
  - intros ((rest & ST & L) & HX). rewrite (A1 _ _ ST HX) in C. destruct C as (m & -> & B & F & _ & D). rewrite D.
    apply rdb_enough in L. destruct L as (v & r & ->). cbn [observed]. now rewrite firstn_pre.
Qed.
Lemma core_small e inp ilen out olen x : is_bytes inp -> is_bytes out -> 0 <= ilen -> 8 * ((ilen + 7) / 8) <= lenZ inp -> 0 <= olen -> olen + 2 <= lenZ out -> olen < 2 ^ 63 ->
  denotes_842 (words_of inp ilen) x -> olen < lenZ x -> exists m, decompress_core e inp ilen out olen = Done (- ENOSPC, 0, m).
Proof.
  intros Hi Ho HL HR Hc H2 H63 (rest & ST & L) HX. pose proof (core_pure e inp ilen out olen Hi Ho (readable_words _ _ HL HR) ltac:(lia) H63) as C.
  assert (ilen <= lenZ inp). { pose proof (Z.div_mod (ilen + 7) 8 ltac:(lia)). pose proof (Z.mod_pos_bound (ilen + 7) 8 ltac:(lia)). lia. }
  unfold krun in C. rewrite whole_words in C by lia. set (bits := bytes_bits (words_of inp ilen)) in *.
  assert (FU : (length bits < S (Z.to_nat (8 * lenZ inp)))%nat).
  { unfold bits. rewrite bytes_bits_length. unfold words_of. rewrite firstn_length. unfold lenZ. lia. }
  destruct (kd_meaning (lenZ out) olen bits _ ltac:(lia) FU) as (A1 & A2 & _). destruct (A2 _ _ ST HX) as [K|[? _]]; [|lia].
  rewrite K in C. destruct C as (_ & C). cbv zeta in C. destruct C as (_ & _ & C). eauto.
Qed.
Lemma core_bounds e inp ilen out olen : is_bytes inp -> is_bytes out -> 0 <= ilen -> 8 * ((ilen + 7) / 8) <= lenZ inp -> 0 <= olen -> olen + 2 <= lenZ out -> olen < 2 ^ 63 ->
  exists ret n m, decompress_core e inp ilen out olen = Done (ret, n, m) /\
    (ret = 0 \/ ((ret = - EINVAL \/ ret = - ENOSPC) /\ n = 0)) /\ 0 <= n <= olen /\
    exists w, is_bytes w /\ lenZ w <= olen /\ m = w ++ skipn (length w) out.
Proof.
  intros Hi Ho HL HR Hc H2 H63. pose proof (core_fun e inp ilen out olen Hi Ho (readable_words _ _ HL HR) Hc H2 H63) as C.
  pose proof (core_res_code (firstn (Z.to_nat ilen) inp) olen Hc) as K. destruct (core_res _ _) as [[r n] w]. destruct C as (B & F & N1 & N2 & E).
  exists r, n, (w ++ skipn (length w) out). split; auto. split; [|split; [|eauto]].
  - destruct K as [->|K]; auto. right. split; auto. apply N2. destruct K as [-> | ->]; discriminate.
  - destruct (Z.eq_dec r 0) as [R|R]; [rewrite N1 by auto|rewrite N2 by auto]; unfold lenZ in *; lia.
Qed.
(** A stream that fits is decoded without touching anything behind [olen]. *)

(** ** The kernel *)
Section Batch.
Variable e : endian.
Variable a : cl_args.
Variable m : cl_mem.
Hypothesis Hly : layout_ok 2 a m.

Lemma elem_some l c : elem (Some l) c = nth (Z.to_nat c) l 0. Proof. reflexivity. Qed.
Lemma batch_res order : sizes_ok a \/ chunks_ok e a -> schedule a order -> exists m', run_items e a order m = Done m' /\
  length (m_out m') = length (m_out m) /\
  (forall c, 0 <= c < a_num a -> let '(r, n, w) := item_res e a c (elem (m_olen m) c) in
    elem (m_ret m') c = r /\ elem (m_olen m') c = n /\ (lenZ w <= a_size a -> bytes_at (m_out m') (out_pos a c) (lenZ w) = w)) /\
  (forall p, (Z.of_nat p < a_outoff a \/ a_outoff a + a_size a * a_num a <= Z.of_nat p) -> nth p (m_out m') 0 = nth p (m_out m) 0).
Proof.
  intros HF HS. destruct (ly_olen _ _ _ Hly) as (L & EL & _). destruct (ly_ret _ _ _ Hly) as (R & ER & _).
  destruct (run_all e a m Hly HF L R EL ER order HS) as (m' & E & I). exists m'. split; auto. split; [apply (iv_len _ _ _ _ _ _ _ I)|]. split.
  - intros c Hc. rewrite EL. cbn [elem]. destruct (item_res e a c (nth (Z.to_nat c) L 0)) as [[r n] w] eqn:IR.
    assert (RW : res e a L c = (r, n, w)) by exact IR.
    destruct (iv_L _ _ _ _ _ _ _ I) as (L' & EL' & _ & NL). destruct (iv_R _ _ _ _ _ _ _ I) as (R' & ER' & _ & NR).
    rewrite EL', ER'. cbn [elem]. rewrite NL, NR by auto. unfold res_ret, res_n. rewrite RW. split; [reflexivity|]. split; [reflexivity|].
    intros LW. pose proof (Inv_chunk e a m Hly L R m' c I Hc) as IC. unfold res_w in IC. rewrite RW in IC. auto.
  - intros p Hp. eapply Inv_outside; eauto.
Qed.
Lemma cap_ok c : 0 <= c < a_num a -> 0 <= elem (m_olen m) c <= a_size a.
Proof.
  intros Hc. destruct (ly_olen _ _ _ Hly) as (L & EL & LL & F). rewrite EL. cbn [elem]. rewrite Forall_forall in F. apply F, nth_In. unfold lenZ in LL. lia.
Qed.
Lemma bytes_at_len (l : list Z) p n : 0 <= p -> 0 <= n -> p + n <= lenZ l -> lenZ (bytes_at l p n) = n.
Proof. intros. unfold bytes_at, lenZ in *. rewrite slice_length; lia. Qed.

Lemma batch_always order : sizes_ok a -> schedule a order -> exists m', run_items e a order m = Done m' /\
  length (m_out m') = length (m_out m) /\
  (forall c, 0 <= c < a_num a ->
    let z := bytes_at (a_in a) (in_pos a c) (elem (a_ilen a) c) in
    (forall x, elem (m_ret m') c = 0 /\ elem (m_olen m') c = lenZ x /\ bytes_at (m_out m') (out_pos a c) (lenZ x) = x
       <-> denotes_842 z x /\ lenZ x <= elem (m_olen m) c) /\
    (forall x, denotes_842 z x -> elem (m_olen m) c < lenZ x -> elem (m_ret m') c = - ENOSPC) /\
    (elem (m_ret m') c = 0 \/ ((elem (m_ret m') c = - EINVAL \/ elem (m_ret m') c = - ENOSPC) /\ elem (m_olen m') c = 0))) /\
  (forall p, (Z.of_nat p < a_outoff a \/ a_outoff a + a_size a * a_num a <= Z.of_nat p) -> nth p (m_out m') 0 = nth p (m_out m) 0).
Proof.
  intros HF HS. destruct (batch_res order (or_introl HF) HS) as (m' & E & LM & RES & OUT). exists m'. split; auto. split; auto. split; auto.
  intros c Hc z. specialize (RES c Hc). unfold item_res in RES. destruct HF as (FA & l & EI & LI & SZ). rewrite FA in RES. fold z in RES.
  destruct (SZ c Hc) as (Z0 & Z8 & ZF). pose proof (cap_ok c Hc) as CK. set (cap := elem (m_olen m) c) in *.
  assert (I0 : 0 <= in_pos a c) by (destruct (ly_stride _ _ _ Hly), (ly_inoff _ _ _ Hly); unfold in_pos; nia).
  assert (L8 : lenZ z mod 8 = 0) by (unfold z; rewrite bytes_at_len; auto).
  pose proof (core_res_code z cap ltac:(lia)) as CC.
  pose proof (fun x => core_res_ok z cap x L8 ltac:(lia)) as CO.
  pose proof (fun x => core_res_nospace z cap x L8 ltac:(lia)) as CN.
  assert (CS : let '(r, n, w) := core_res z cap in is_bytes w /\ lenZ w <= cap /\ (r = 0 -> n = lenZ w) /\ (r <> 0 -> n = 0)).
  { pose proof (core_fun e z (lenZ z) (List.repeat 0 (Z.to_nat (cap + 2))) cap) as CF. 
    rewrite firstn_all2 in CF by (unfold lenZ; lia). destruct (core_res z cap) as [[r n] w].
    destruct CF as (B & F & N1 & N2 & _); auto.
    - unfold z, bytes_at. apply is_bytes_slice. apply (ly_in _ _ _ Hly).
    - apply is_bytes_repeat. unfold is_byte; lia.
    - now apply readable_all.
    - lia.
    - unfold lenZ. rewrite repeat_length. lia.
    - pose proof (ly_size _ _ _ Hly). lia. }
  destruct (core_res z cap) as [[r n] w]. destruct RES as (RR & RN & RW). destruct CS as (B & F & N1 & N2). specialize (RW ltac:(lia)).
  rewrite RR, RN. split; [|split].
  - intros x. rewrite (CO x). split.
    + intros (-> & -> & BX). specialize (N1 eq_refl). rewrite N1, RW in BX. now rewrite N1, BX.
    + intros EQ. injection EQ as -> -> ->. auto.
  - intros x DX HX. destruct (CN x DX HX) as [w' EW]. now injection EW as ->.
  - destruct CC as [->|CC]; auto. right. split; auto. apply N2. destruct CC as [-> | ->]; discriminate.
Qed.

Lemma batch_maybe order : chunks_ok e a -> schedule a order -> exists m', run_items e a order m = Done m' /\
  length (m_out m') = length (m_out m) /\
  (forall c, 0 <= c < a_num a ->
    let chunk := bytes_at (a_in a) (in_pos a c) (a_size a) in
    let result x := elem (m_ret m') c = 0 /\ elem (m_olen m') c = lenZ x /\ bytes_at (m_out m') (out_pos a c) (lenZ x) = x in
    (firstn 16 chunk <> MARKER -> result chunk) /\
    (forall z x, packed e (a_size a) chunk z -> lenZ z mod 8 = 0 -> denotes_842 z x -> lenZ x <= elem (m_olen m) c -> result x)) /\
  (forall p, (Z.of_nat p < a_outoff a \/ a_outoff a + a_size a * a_num a <= Z.of_nat p) -> nth p (m_out m') 0 = nth p (m_out m) 0).
Proof.
  intros HF HS. destruct (batch_res order (or_intror HF) HS) as (m' & E & LM & RES & OUT). exists m'. split; auto. split; auto. split; auto.
  intros c Hc chunk result. specialize (RES c Hc). unfold item_res in RES. destruct HF as (FA & S16 & LI & SZ). rewrite FA in RES. fold chunk in RES. cbv zeta in RES.
  destruct (SZ c Hc) as (ZF & _). pose proof (cap_ok c Hc) as CK. set (cap := elem (m_olen m) c) in *.
  assert (I0 : 0 <= in_pos a c) by (destruct (ly_stride _ _ _ Hly), (ly_inoff _ _ _ Hly); unfold in_pos; nia).
  assert (LC : lenZ chunk = a_size a) by (unfold chunk; rewrite bytes_at_len; auto; lia).
  split.
  - intros NM. destruct (list_eqb (firstn 16 chunk) MARKER) eqn:LE; [now apply list_eqb_eq in LE|]. destruct RES as (R & N & W). unfold result. rewrite R, N, LC. 
    split; auto. split; auto. rewrite <- LC. apply W. lia.
  - intros z x PK Z8 DX HX. pose proof PK as (pad & EP & _).
    assert (H16 : firstn 16 chunk = MARKER) by (rewrite EP; reflexivity). rewrite (proj2 (list_eqb_eq _ _) H16) in RES.
    assert (L24 : (24 + length pad + length z = length chunk)%nat).
    { rewrite EP, !app_length, native_bytes_length. change (length MARKER) with 16%nat. lia. }
    pose proof (ly_size _ _ _ Hly) as [SZ2 _].
    assert (NV : native_val e (slice 16 8 chunk) = lenZ z).
    { rewrite EP. unfold slice. change 16%nat with (length MARKER) at 1. rewrite skipn_app, Nat.sub_diag, skipn_all. cbn [app skipn].
      rewrite <- (native_bytes_length e 8 (lenZ z)) at 1. rewrite firstn_app, Nat.sub_diag, firstn_all, firstn_O, app_nil_r.
      apply native_val_bytes. unfold lenZ in *. lia. }
    rewrite NV in RES.
    assert (BZ : bytes_at chunk (a_size a - lenZ z) (lenZ z) = z).
    { unfold bytes_at, slice. rewrite <- LC. replace (Z.to_nat (lenZ chunk - lenZ z)) with (length chunk - length z)%nat by (unfold lenZ; lia).
      rewrite EP. rewrite !app_assoc. set (u := _ ++ pad). rewrite app_length. replace (length u + length z - length z)%nat with (length u) by lia.
      rewrite skipn_app, Nat.sub_diag, skipn_all. cbn [app skipn]. unfold lenZ. rewrite Nat2Z.id. apply firstn_all. }
    rewrite BZ in RES. destruct (Z.eqb_spec (lenZ z) 0) as [Z0|Z0].
    + exfalso. destruct z; [|rewrite lenZ_cons in Z0; unfold lenZ in Z0; lia]. destruct DX as (rest & ST & L).
      now apply stream_nonempty in ST.
    + pose proof (core_res_ok z cap x Z8 ltac:(lia)) as CO. rewrite (proj1 CO (conj DX HX)) in RES. destruct RES as (R1 & R2 & R3). unfold result. 
      rewrite R1, R2. split; auto. split; auto. apply R3. lia.
Qed.

(** The order of the work items and the shuffle map play no role. *)
Definition with_map (mp : option (list Z)) : cl_args :=
  mkA (a_format a) (a_size a) (a_stride a) (a_in a) (a_inoff a) (a_ilen a) (a_outoff a) (a_num a) mp.
Lemma Inv_map mp D L R m' : Inv e (with_map mp) m L R D m' -> Inv e a m L R D m'.
Proof. intros [? ? ? ? ?]. constructor; auto. Qed.
Lemma batch_any_order mp order1 order2 : sizes_ok a \/ chunks_ok e a ->
  (forall l, mp = Some l -> Permutation l (chunk_numbers (a_num a))) ->
  schedule a order1 -> schedule a order2 -> run_items e (with_map mp) order1 m = run_items e a order2 m.
Proof.
  intros HF HP S1 S2. destruct (ly_olen _ _ _ Hly) as (L & EL & _). destruct (ly_ret _ _ _ Hly) as (R & ER & _).
  assert (LY : layout_ok 2 (with_map mp) m). { pose proof Hly as []. constructor; auto. }
  assert (HF' : sizes_ok (with_map mp) \/ chunks_ok e (with_map mp)). { destruct HF as [HF|HF]; [left|right]; exact HF. }
  destruct (run_all e _ m LY HF' L R EL ER order1 S1) as (m1 & -> & I1).
  destruct (run_all e _ m Hly HF L R EL ER order2 S2) as (m2 & -> & I2). f_equal.
  apply Inv_map in I1. eapply Inv_unique; eauto.
Qed.
End Batch.

(** ** cl842_decompress *)
Lemma run_idle e a order m : Forall (fun g => a_num a <= g) order -> run_items e a order m = Done m.
Proof.
  induction 1 as [|g order G H IH]; [reflexivity|]. cbn [run_items]. unfold work_item at 1. destruct (Z.geb_spec g (a_num a)); [|lia]. rewrite bind_done. exact IH.
Qed.
Lemma cl842_core e dev rv inp out olen : 0 < lenZ inp <= 99999 ->
  cl842_decompress e dev rv inp out olen =
    ('(ret, n, m) <- decompress_core e inp (lenZ inp) dev olen ;;
     host <- store_bytes out 0 (firstn (Z.to_nat olen) m) ;; Done (ret, n, host)).
Proof.
  intros H. unfold cl842_decompress. cbv zeta.
  assert (N : u64 (lenZ inp + 99999 - 1) / 99999 = 1).
  { unfold u64. rewrite Z.mod_small by lia. symmetry. apply (Z.div_unique _ _ 1 (lenZ inp - 1)); lia. }
  rewrite N. destruct (Z.eqb_spec (lenZ inp) 0) as [NZ|NZ]; [lia|]. change (1 >? 1) with false. cbv iota.
  replace (map Z.of_nat (seq 0 (Z.to_nat (global_size 1)))) with (0 :: map Z.of_nat (seq 1 255)) by reflexivity.
  cbn [run_items]. unfold work_item. cbn [a_num a_map a_outoff a_size a_inoff a_stride a_ilen a_format a_in].
  change (0 >=? 1) with false. cbv iota. cbn [opt_get]. rewrite bind_done. cbv zeta.
  change (8 * (0 / 8 + 65536 / 8 * 0)) with 0. change (8 * (0 / 8 + 99999 / 8 * 0)) with 0. rewrite aget_ok by (cbn; lia). rewrite bind_done.
  change (nth (Z.to_nat 0) [lenZ inp] 0) with (lenZ inp). unfold item_core. cbn [m_olen m_out opt_get]. rewrite aget_ok by (cbn; lia). rewrite bind_done.
  change (nth (Z.to_nat 0) [olen] 0) with olen. cbn [Z.to_nat skipn firstn app].
  destruct (decompress_core e inp (lenZ inp) dev olen) as [[[ret n] mm]| |]; [|reflexivity|reflexivity]. rewrite !bind_done. cbn [m_ret].
  rewrite !opt_set_some, !bind_done by (cbn; lia).
  rewrite run_idle. 2: { apply Forall_forall. intros g G. apply in_map_iff in G. destruct G as (k & <- & K). apply in_seq in K. cbn [a_num]. lia. }
  rewrite bind_done. cbn [m_olen m_ret m_out]. rewrite !opt_get_some by (cbn; lia). reflexivity.
Qed.
Lemma cl842_exact e dev rv inp out olen x : is_bytes inp -> 0 < lenZ inp <= 99999 -> lenZ inp mod 8 = 0 ->
  is_bytes dev -> lenZ dev = Z.max 1 olen -> 0 <= olen <= lenZ out -> olen < 2 ^ 63 ->
  (observed (cl842_decompress e dev rv inp out olen) = Done (0, lenZ x, x) <-> denotes_842 inp x /\ lenZ x <= olen).
Proof.
  intros Hi Hl H8 Hd Ld Hc H63. rewrite cl842_core by auto.
  assert (HW : 8 * ((lenZ inp + 7) / 8) <= lenZ inp).
  { pose proof (Z.div_mod (lenZ inp) 8 ltac:(lia)). assert ((lenZ inp + 7) / 8 = lenZ inp / 8). { symmetry. apply (Z.div_unique _ _ _ 7); lia. } lia. }
  assert (WW : words_of inp (lenZ inp) = inp).
  { unfold words_of. pose proof (Z.div_mod (lenZ inp) 8 ltac:(lia)). apply firstn_all2. unfold lenZ in *. lia. }
  pose proof (core_exact e inp (lenZ inp) dev olen x Hi Hd ltac:(lia) HW ltac:(lia) H63) as CE. rewrite WW in CE. rewrite <- CE.
  pose proof (core_pure e inp (lenZ inp) dev olen Hi Hd (readable_all _ H8) ltac:(lia) H63) as CP.
  assert (GEN : forall ret n m, decompress_core e inp (lenZ inp) dev olen = Done (ret, n, m) -> length m = length dev /\ 0 <= n <= olen).
  { intros ret n m D. destruct (krun _ _ _ _) as [[y rest|c|]|]; [| | |destruct CP].
    - destruct CP as (mm & -> & _ & F & _ & E). rewrite D in E. destruct (rdb 32 rest); injection E as _ -> ->; rewrite app_length, skipn_length; unfold lenZ in *; lia.
    - destruct CP as (_ & CP). cbv zeta in CP. destruct CP as (_ & F & E). rewrite D in E. injection E as _ -> ->. rewrite app_length, skipn_length. unfold lenZ in *. lia.
    - congruence. }
  destruct (decompress_core e inp (lenZ inp) dev olen) as [[[ret n] m]| |] eqn:D; [|cbn; tauto|cbn; tauto]. rewrite bind_done.
  destruct (GEN _ _ _ eq_refl) as (LM & Hn).
  rewrite store_bytes_ok by (try lia; unfold lenZ in *; rewrite firstn_length; lia). rewrite bind_done. cbn [observed]. cbn [Z.to_nat firstn app].
  assert (FF : firstn (Z.to_nat n) (firstn (Z.to_nat olen) m ++ skipn (0 + length (firstn (Z.to_nat olen) m)) out) = firstn (Z.to_nat n) m).
  { rewrite firstn_app. rewrite firstn_firstn, firstn_length. rewrite Nat.min_l by lia.
    replace (Z.to_nat n - Nat.min (Z.to_nat olen) (length m))%nat with 0%nat by (unfold lenZ in *; lia). rewrite firstn_O. apply app_nil_r. }
  unfold splice. rewrite firstn_O, app_nil_l, FF. tauto.
Qed.
Lemma cl842_large e dev rv inp out olen : 99999 < lenZ inp < 2 ^ 63 -> cl842_decompress e dev rv inp out olen = Undef.
Proof.
  intros H. unfold cl842_decompress. cbv zeta. destruct (Z.eqb_spec (lenZ inp) 0); [lia|].
  assert (2 <= u64 (lenZ inp + 99999 - 1) / 99999). { unfold u64. rewrite Z.mod_small by lia. apply Z.div_le_lower_bound; lia. }
  destruct (Z.gtb_spec (u64 (lenZ inp + 99999 - 1) / 99999) 1); [reflexivity|lia].
Qed.
Lemma c42_soft e e' iaddr oaddr inp out olen x out2 olen2 :
  is_bytes inp -> lenZ inp mod 8 = 0 -> iaddr mod 8 = 0 -> oaddr mod 8 = 0 ->
  is_bytes out -> 0 <= olen <= lenZ out -> olen < 2 ^ 63 ->
  observed (optsw842_decompress e iaddr oaddr inp out olen) = Done (0, lenZ x, x) ->
  is_bytes out2 -> lenZ x <= olen2 <= lenZ out2 -> olen2 < 2 ^ 63 ->
  observed (decompress_core e' inp (lenZ inp) out2 olen2) = Done (0, lenZ x, x).
Proof.
  intros Hi H8 HA HO Ho Hc H63 E Ho2 Hc2 H632. apply c20 in E; auto. destruct E as (V & L).
  assert (LP : 0 <= lenZ x) by (unfold lenZ; lia). assert (LI : 0 <= lenZ inp) by (unfold lenZ; lia).
  apply core_exact; auto; try lia.
  { pose proof (Z.div_mod (lenZ inp) 8 ltac:(lia)). assert ((lenZ inp + 7) / 8 = lenZ inp / 8). { symmetry. apply (Z.div_unique _ _ _ 7); lia. } lia. }
  split; [|lia]. fold (whole inp) in V. rewrite whole_mod8 in V by auto.
  assert (WW : words_of inp (lenZ inp) = inp).
  { unfold words_of. pose proof (Z.div_mod (lenZ inp) 8 ltac:(lia)). apply firstn_all2. unfold lenZ in *. lia. }
  rewrite WW. destruct V as (rest & ST). exists (bits_of 32 (crc32 x) ++ rest). split; auto. rewrite app_length, bits_of_length. lia.
Qed.
