(** C44: what becomes of every chunk with the header, for MAYBE_COMPRESSED_CHUNKS. *)
From Coq Require Import ZArith List Bool Lia Permutation.
From Verif Require Import SpecBits SpecCrc Spec842 SpecCalls CBase BitsLemmas SerialFacts SerialProps SpecOcl OclModel OclExt OclProofs OclItems OclProps OptFinds PropOpt PropOcl.
Import ListNotations.
Open Scope Z_scope.

Section Maybe.
Variable e : endian.
Variable a : cl_args.
Variable m : cl_mem.
Hypothesis Hly : layout_ok 2 a m.
Hypothesis HF : chunks_ok e a.

(** The bytes of a chunk that no output was written to keep their values. *)
Lemma chunk_kept order m' c : schedule a order -> run_items e a order m = Done m' -> 0 <= c < a_num a -> snd (item_res e a c (elem (m_olen m) c)) = [] ->
  bytes_at (m_out m') (out_pos a c) (a_size a) = bytes_at (m_out m) (out_pos a c) (a_size a).
Proof.
  intros HS E Hc HW. destruct (ly_olen _ _ _ Hly) as (L & EL & _). destruct (ly_ret _ _ _ Hly) as (R & ER & _).
  destruct (run_all e a m Hly (or_intror HF) L R EL ER order HS) as (m1 & E1 & I). rewrite E in E1. apply Done_inj in E1. subst m1.
  pose proof Hly as [Ly1 Ly2 Ly3 Ly4 Ly5 Ly6 Ly7 _ _ _]. assert (O0 : 0 <= out_pos a c) by (unfold out_pos; nia).
  assert (OF : out_pos a c + a_size a + 2 <= lenZ (m_out m)) by (unfold out_pos; nia).
  pose proof (iv_len _ _ _ _ _ _ _ I) as LN.
  assert (SL : forall o, length o = length (m_out m) -> length (bytes_at o (out_pos a c) (a_size a)) = Z.to_nat (a_size a)).
  { intros o Ho. unfold bytes_at. rewrite slice_length; unfold lenZ in *; lia. }
  apply (nth_ext _ _ 0 0); [now rewrite !SL|]. rewrite SL by auto. intros n Hn. unfold bytes_at, slice.
  rewrite !nth_firstn_gen by lia. rewrite !nth_skipn_gen. rewrite (iv_out _ _ _ _ _ _ _ I). unfold expect. cbv zeta.
  set (q := Z.of_nat (Z.to_nat (out_pos a c) + n) - a_outoff a).
  assert (Q : q = a_size a * c + Z.of_nat n) by (unfold q, out_pos in *; lia).
  assert (QD : q / a_size a = c). { symmetry. apply (Z.div_unique q (a_size a) c (Z.of_nat n)); [|lia]. left. lia. }
  rewrite QD. unfold res_w, res. rewrite EL in HW. cbn [elem] in HW. rewrite HW. change (lenZ []) with 0.
  destruct (Z.ltb_spec (q mod a_size a) 0) as [X|X]; [pose proof (Z.mod_pos_bound q (a_size a) ltac:(lia)); lia|]. now rewrite !andb_false_r.
Qed.

Lemma packed_res c z : 0 <= c < a_num a -> packed e (a_size a) (bytes_at (a_in a) (in_pos a c) (a_size a)) z ->
  item_res e a c (elem (m_olen m) c) = if lenZ z =? 0 then (0, a_size a, []) else core_res z (elem (m_olen m) c).
Proof.
  intros Hc PK. unfold item_res. destruct HF as (FA & S16 & LI & SZ). rewrite FA. cbv zeta. set (chunk := bytes_at (a_in a) (in_pos a c) (a_size a)) in *.
  destruct PK as (pad & EP & LC). assert (H16 : firstn 16 chunk = MARKER) by (rewrite EP; reflexivity). rewrite (proj2 (list_eqb_eq _ _) H16).
  assert (L24 : (24 + length pad + length z = length chunk)%nat). { rewrite EP, !app_length, native_bytes_length. change (length MARKER) with 16%nat. lia. }
  pose proof (ly_size _ _ _ Hly) as [SZ2 _].
  assert (NV : native_val e (slice 16 8 chunk) = lenZ z).
  { rewrite EP. unfold slice. change 16%nat with (length MARKER) at 1. rewrite skipn_app, Nat.sub_diag, skipn_all. cbn [app skipn].
    rewrite <- (native_bytes_length e 8 (lenZ z)) at 1. rewrite firstn_app, Nat.sub_diag, firstn_all, firstn_O, app_nil_r. apply native_val_bytes. unfold lenZ in *. lia. }
  rewrite NV. assert (BZ : bytes_at chunk (a_size a - lenZ z) (lenZ z) = z); [|now rewrite BZ]. unfold bytes_at, slice. rewrite <- LC. replace (Z.to_nat (lenZ chunk - lenZ z)) with (length chunk - length z)%nat by (unfold lenZ; lia).
  rewrite EP. rewrite !app_assoc. set (u := _ ++ pad). rewrite app_length. replace (length u + length z - length z)%nat with (length u) by lia.
  rewrite skipn_app, Nat.sub_diag, skipn_all. cbn [app skipn]. unfold lenZ. rewrite Nat2Z.id. apply firstn_all.
Qed.
Lemma maybe_all order : schedule a order -> exists m', run_items e a order m = Done m' /\
  forall c z, 0 <= c < a_num a -> packed e (a_size a) (bytes_at (a_in a) (in_pos a c) (a_size a)) z -> lenZ z mod 8 = 0 ->
  (z = [] -> elem (m_ret m') c = 0 /\ elem (m_olen m') c = a_size a /\ bytes_at (m_out m') (out_pos a c) (a_size a) = bytes_at (m_out m) (out_pos a c) (a_size a)) /\
  (z <> [] ->
    (forall x, elem (m_ret m') c = 0 /\ elem (m_olen m') c = lenZ x /\ bytes_at (m_out m') (out_pos a c) (lenZ x) = x <-> denotes_842 z x /\ lenZ x <= elem (m_olen m) c) /\
    (forall x, denotes_842 z x -> elem (m_olen m) c < lenZ x -> elem (m_ret m') c = - ENOSPC) /\
    (elem (m_ret m') c = 0 \/ ((elem (m_ret m') c = - EINVAL \/ elem (m_ret m') c = - ENOSPC) /\ elem (m_olen m') c = 0))).
Proof.
  intros HS. destruct (batch_res e a m Hly order (or_intror HF) HS) as (m' & E & LM & RES & OUT). exists m'. split; auto.
  intros c z Hc PK Z8. pose proof (packed_res c z Hc PK) as IR. pose proof (RES c Hc) as RC. rewrite IR in RC. split.
  - intros ->. change (lenZ [] =? 0) with true in *. cbv iota in *. destruct RC as (RR & RN & _). rewrite RR, RN. split; auto. split; auto.
    eapply chunk_kept; eauto. now rewrite IR.
  - intros NZ. assert (Z0 : (lenZ z =? 0) = false). { apply Z.eqb_neq. destruct z; [contradiction|]. rewrite lenZ_cons. pose proof (lenZ_nonneg z0). lia. }
    rewrite Z0 in RC. pose proof (cap_ok a m Hly c Hc) as CK. set (cap := elem (m_olen m) c) in *.
    assert (BZ : is_bytes z).
    { destruct PK as (pad & EP & _). assert (B : is_bytes (bytes_at (a_in a) (in_pos a c) (a_size a))) by (unfold bytes_at; apply is_bytes_slice, (ly_in _ _ _ Hly)).
      rewrite EP in B. unfold is_bytes in *. rewrite !Forall_app in B. tauto. }
    pose proof (core_res_code z cap ltac:(lia)) as CC.
    pose proof (fun x => core_res_ok z cap x Z8 ltac:(lia)) as CO.
    pose proof (fun x => core_res_nospace z cap x Z8 ltac:(lia)) as CN.
    assert (CS : let '(r, n, w) := core_res z cap in is_bytes w /\ lenZ w <= cap /\ (r = 0 -> n = lenZ w) /\ (r <> 0 -> n = 0)).
    { pose proof (core_fun e z (lenZ z) (List.repeat 0 (Z.to_nat (cap + 2))) cap) as CF.
      rewrite firstn_all2 in CF by (unfold lenZ; lia). destruct (core_res z cap) as [[r n] w]. destruct CF as (B & F & N1 & N2 & _); auto.
      - apply is_bytes_repeat. unfold is_byte; lia.
      - now apply readable_all.
      - lia.
      - unfold lenZ. rewrite repeat_length. lia.
      - pose proof (ly_size _ _ _ Hly). lia. }
    destruct (core_res z cap) as [[r n] w]. destruct RC as (RR & RN & RW). destruct CS as (B & F & N1 & N2). specialize (RW ltac:(lia)).
    rewrite RR, RN. split; [|split].
    + intros x. rewrite (CO x). split.
      * intros (-> & -> & BX). specialize (N1 eq_refl). rewrite N1, RW in BX. now rewrite N1, BX.
      * intros EQ. injection EQ as -> -> ->. auto.
    + intros x DX HX. destruct (CN x DX HX) as [w' EW]. now injection EW as ->.
    + destruct CC as [->|CC]; auto. right. split; auto. apply N2. destruct CC as [-> | ->]; discriminate.
Qed.
End Maybe.

(** C44, exactly: the chunk with the header and the compressed data [z] is decompressed to [x] if and only if [z] denotes [x] and [x] fits; if it does not fit
    the return value is -ENOSPC; and each return value is 0 or one of two errors with the size 0.  With no compressed data the output is left as it is. *)
Theorem C44_ocl_packed_exact : forall e a m order, layout_ok 2 a m -> chunks_ok e a -> schedule a order ->
  exists m', run_items e a order m = Done m' /\
  forall c z, 0 <= c < a_num a -> packed e (a_size a) (bytes_at (a_in a) (in_pos a c) (a_size a)) z -> lenZ z mod 8 = 0 ->
  (z = [] -> elem (m_ret m') c = 0 /\ elem (m_olen m') c = a_size a /\ bytes_at (m_out m') (out_pos a c) (a_size a) = bytes_at (m_out m) (out_pos a c) (a_size a)) /\
  (z <> [] ->
    (forall x, elem (m_ret m') c = 0 /\ elem (m_olen m') c = lenZ x /\ bytes_at (m_out m') (out_pos a c) (lenZ x) = x <-> denotes_842 z x /\ lenZ x <= elem (m_olen m) c) /\
    (forall x, denotes_842 z x -> elem (m_olen m) c < lenZ x -> elem (m_ret m') c = - ENOSPC) /\
    (elem (m_ret m') c = 0 \/ ((elem (m_ret m') c = - EINVAL \/ elem (m_ret m') c = - ENOSPC) /\ elem (m_olen m') c = 0))).
Proof. intros e a m order HL HF HS. now apply maybe_all. Qed.
Print Assumptions C44_ocl_packed_exact.
Example C44_packed_case : layout_ok 2 maybe_args maybe_mem /\ chunks_ok LE maybe_args /\ schedule maybe_args (chunk_numbers 256) /\
  packed LE (a_size maybe_args) (bytes_at (a_in maybe_args) (in_pos maybe_args 0) (a_size maybe_args)) osample_z.
Proof. split; [apply C44_layout|]. split; [apply C44_layout|]. split; [apply Permutation_refl|]. exists []. split; reflexivity. Qed.

(** C44 fails for all raw chunks that start with the marker and eight bytes that are 0: they are reported as decompressed, but the output is
    what it was before; so the chunk is restored only if it was there already. *)
Theorem C44_ocl_marked_chunks_dropped_refuted : forall e a m order, layout_ok 2 a m -> chunks_ok e a -> schedule a order ->
  exists m', run_items e a order m = Done m' /\
  forall c data, 0 <= c < a_num a -> bytes_at (a_in a) (in_pos a c) (a_size a) = MARKER ++ List.repeat 0 8 ++ data ->
  elem (m_ret m') c = 0 /\ elem (m_olen m') c = a_size a /\
  (bytes_at (m_out m') (out_pos a c) (a_size a) = MARKER ++ List.repeat 0 8 ++ data <-> bytes_at (m_out m) (out_pos a c) (a_size a) = MARKER ++ List.repeat 0 8 ++ data).
Proof.
  intros e a m order HL HF HS. destruct (maybe_all e a m HL HF order HS) as (m' & E & A). exists m'. split; auto. intros c data Hc EC.
  destruct (A c [] Hc) as (B & _); [|reflexivity|].
  - exists data. rewrite app_nil_r. change (lenZ []) with 0. rewrite native_zero. split; [exact EC|].
    destruct HF as (_ & S16 & _ & SZ). destruct (SZ c Hc) as (ZF & _). apply bytes_at_len; [|lia|auto].
    destruct (ly_stride _ _ _ HL), (ly_inoff _ _ _ HL). unfold in_pos. nia.
  - destruct (B eq_refl) as (R & N & O). rewrite R, N, O. tauto.
Qed.
Print Assumptions C44_ocl_marked_chunks_dropped_refuted.
Example C44_dropped_case : chunks_ok LE marker_args /\ bytes_at (a_in marker_args) (in_pos marker_args 0) (a_size marker_args) = MARKER ++ List.repeat 0 8 ++ [].
Proof.
  split; [|reflexivity]. split; [reflexivity|]. split; [cbn; lia|]. split; [discriminate|]. intros c Hc. cbn [a_num marker_args] in Hc. assert (c = 0) as -> by lia.
  split; [vm_compute; discriminate|]. right. exists []. split; [|reflexivity]. exists []. split; reflexivity.
Qed.
