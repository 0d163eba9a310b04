(** The sample program for the streams: its invariant. *)
From Coq Require Import ZArith List Bool Lia Permutation.
From Verif Require Import SpecBits CBase BitsLemmas ConcLib SpecSync BarrierModel ChunkedModel StreamBlockModel SpecBlock SpecChunked BlockProps CompStreamModel SpecStream DecompStreamModel SpecDStream OclModel StreamSampleModel SpecStreamSample.
From Verif Require CompProps DecompProps.
From Verif Require Import StreamSampleComp StreamSampleDecomp.
Import ListNotations.
Open Scope Z_scope.

(** ** Restoring blocks, in any order *)
Lemma restored_length src mem off : block_offset (lenZ src) off -> lenZ mem = lenZ src -> lenZ (restored src mem off) = lenZ src.
Proof.
  intros (O1 & _ & O2) LM. unfold restored, slice, lenZ in *. rewrite !app_length, !firstn_length, !skipn_length.
  assert (0 < BLOCK_SIZE) by reflexivity. rewrite Z2Nat.inj_add by lia. lia.
Qed.
Lemma nth_slice a k (l : list Z) i d : (a + k <= length l)%nat -> (i < k)%nat -> nth i (firstn k (skipn a l)) d = nth (a + i) l d.
Proof.
  intros H1 H2. rewrite <- (firstn_skipn a l) at 2. rewrite app_nth2; rewrite firstn_length; [|lia]. replace (a + i - Nat.min a (length l))%nat with i by lia.
  rewrite <- (firstn_skipn k (skipn a l)) at 2. rewrite app_nth1; [reflexivity|]. rewrite firstn_length, skipn_length. lia.
Qed.
Lemma restored_nth src mem off i : block_offset (lenZ src) off -> lenZ mem = lenZ src ->
  nth i (restored src mem off) 0 = if (off <=? Z.of_nat i) && (Z.of_nat i <? off + BLOCK_SIZE) then nth i src 0 else nth i mem 0.
Proof.
  intros (O1 & _ & O2) LM. assert (B : 0 < BLOCK_SIZE) by reflexivity. unfold restored, slice, lenZ in *.
  rewrite Z2Nat.inj_add by lia. set (a := Z.to_nat off) in *. set (k := Z.to_nat BLOCK_SIZE) in *. assert (A : off = Z.of_nat a) by lia. assert (K : BLOCK_SIZE = Z.of_nat k) by lia. rewrite A, K in *.
  clearbody a k. clear A K. destruct (Z.leb_spec (Z.of_nat a) (Z.of_nat i)) as [H1|H1]; cbn [andb].
  - rewrite app_nth2; rewrite firstn_length; [|lia]. replace (i - Nat.min a (length mem))%nat with (i - a)%nat by lia.
    destruct (Z.ltb_spec (Z.of_nat i) (Z.of_nat a + Z.of_nat k)) as [H2|H2].
    + rewrite app_nth1; [|rewrite firstn_length, skipn_length; lia]. rewrite nth_slice by lia. f_equal. lia.
    + rewrite app_nth2; rewrite firstn_length, skipn_length; [|lia]. replace (i - a - Nat.min k (length src - a))%nat with (i - (a + k))%nat by lia.
      rewrite <- (firstn_skipn (a + k) mem) at 2. rewrite app_nth2; rewrite firstn_length; [|lia]. f_equal. lia.
  - rewrite app_nth1; [|rewrite firstn_length; lia]. rewrite <- (firstn_skipn a mem) at 2. rewrite app_nth1; [reflexivity|rewrite firstn_length; lia].
Qed.
Lemma restored_bytes src mem off : is_bytes src -> is_bytes mem -> is_bytes (restored src mem off).
Proof.
  intros S M. unfold restored, slice. repeat (apply is_bytes_app; split); auto using is_bytes_firstn, is_bytes_skipn.
Qed.
Lemma fold_restored_nth src offs : forall mem i, Forall (block_offset (lenZ src)) offs -> lenZ mem = lenZ src ->
  lenZ (fold_left (restored src) offs mem) = lenZ src /\
  ((exists o, In o offs /\ o <= Z.of_nat i < o + BLOCK_SIZE) -> nth i (fold_left (restored src) offs mem) 0 = nth i src 0) /\
  ((forall o, In o offs -> ~ o <= Z.of_nat i < o + BLOCK_SIZE) -> nth i (fold_left (restored src) offs mem) 0 = nth i mem 0).
Proof.
  induction offs as [|o offs IH]; intros mem i F LM; cbn [fold_left]; [split; [auto|split; [intros (o & [] & _)|auto]]|].
  inversion F as [|? ? F1 F2]. subst. destruct (IH (restored src mem o) i F2 (restored_length _ _ _ F1 LM)) as (A & B & C). split; [exact A|].
  pose proof (restored_nth src mem o i F1 LM) as X. split.
  - intros (o' & [->|IN] & H); [|apply B; eauto].
    assert (D : (exists o, In o offs /\ o <= Z.of_nat i < o + BLOCK_SIZE) \/ forall o, In o offs -> ~ o <= Z.of_nat i < o + BLOCK_SIZE).
    { destruct (existsb (fun o => (o <=? Z.of_nat i) && (Z.of_nat i <? o + BLOCK_SIZE)) offs) eqn:EX.
      - apply existsb_exists in EX. destruct EX as (o & IN & EX). left. exists o. split; [auto|lia].
      - right. intros o IN H0. assert (Y : existsb (fun o => (o <=? Z.of_nat i) && (Z.of_nat i <? o + BLOCK_SIZE)) offs = true) by (apply existsb_exists; exists o; split; [auto|lia]). congruence. }
    destruct D as [D|D]; [now apply B|]. rewrite (C D), X. replace (_ && _) with true by lia. reflexivity.
  - intros H. rewrite C by (intros; apply H; now right). rewrite X. specialize (H o (or_introl eq_refl)). replace (_ && _) with false by lia. reflexivity.
Qed.

Lemma forall2_len {A B} (R : A -> B -> Prop) l l' : Forall2 R l l' -> length l = length l'.
Proof. induction 1; cbn [length]; auto. Qed.
(** The offsets of the blocks, in order. *)
Definition all_offsets (L : Z) : list Z := map (fun i => BLOCK_SIZE * Z.of_nat i) (seq 0 (Z.to_nat (L / BLOCK_SIZE))).
Lemma all_offsets_in L o : In o (all_offsets L) <-> block_offset L o.
Proof.
  assert (B : 0 < BLOCK_SIZE) by reflexivity. unfold all_offsets, block_offset. rewrite in_map_iff. split.
  - intros (i & <- & IN). apply in_seq in IN. split; [lia|]. split; [rewrite Z.mul_comm; apply Z.mod_mul; lia|]. pose proof (Z.mul_div_le L BLOCK_SIZE B). nia.
  - intros (O1 & O2 & O3). pose proof (Z.div_mod o BLOCK_SIZE ltac:(lia)) as D. rewrite O2 in D. exists (Z.to_nat (o / BLOCK_SIZE)). assert (0 <= o / BLOCK_SIZE) by (apply Z.div_pos; lia).
    split; [lia|]. apply in_seq. split; [lia|]. assert (o / BLOCK_SIZE + 1 <= L / BLOCK_SIZE) by (apply Z.div_le_lower_bound; lia). lia.
Qed.
Lemma all_offsets_nodup L : NoDup (all_offsets L).
Proof. apply FinFun.Injective_map_NoDup; [|apply seq_NoDup]. intros i j H. assert (0 < BLOCK_SIZE) by reflexivity. nia. Qed.
Lemma offsets_number L offs : 0 <= L -> NoDup offs -> (forall o, In o offs <-> block_offset L o) -> lenZ offs = L / BLOCK_SIZE.
Proof.
  intros L0 ND H. assert (P : Permutation offs (all_offsets L)) by (apply NoDup_Permutation; auto using all_offsets_nodup; intros o; now rewrite H, all_offsets_in).
  unfold lenZ. rewrite (Permutation_length P). unfold all_offsets. rewrite map_length, seq_length. apply Z2Nat.id. apply Z.div_pos; [lia|reflexivity].
Qed.
Lemma restored_all src offs mem : Forall (block_offset (lenZ src)) offs -> (forall o, In o offs <-> block_offset (lenZ src) o) -> lenZ mem = lenZ src ->
  fold_left (restored src) offs mem = firstn (Z.to_nat (lenZ src / BLOCK_SIZE * BLOCK_SIZE)) src ++ skipn (Z.to_nat (lenZ src / BLOCK_SIZE * BLOCK_SIZE)) mem.
Proof.
  intros F H LM. assert (B : 0 < BLOCK_SIZE) by reflexivity. set (W := lenZ src / BLOCK_SIZE * BLOCK_SIZE).
  assert (HW : 0 <= W <= lenZ src). { unfold W. pose proof (Z.mul_div_le (lenZ src) BLOCK_SIZE B). pose proof (Z.div_pos (lenZ src) BLOCK_SIZE (lenZ_nonneg src) B). nia. }
  apply (nth_ext _ _ 0 0).
  - destruct (fold_restored_nth src offs mem 0 F LM) as (A & _ & _). unfold lenZ in *. rewrite app_length, firstn_length, skipn_length. lia.
  - intros i LI. destruct (fold_restored_nth src offs mem i F LM) as (A & B1 & B2). unfold lenZ in A, HW, LM. destruct (Z.ltb_spec (Z.of_nat i) W) as [C|C].
    + rewrite B1.
      * rewrite app_nth1 by (rewrite firstn_length; lia). rewrite <- (firstn_skipn (Z.to_nat W) src) at 1. rewrite app_nth1 by (rewrite firstn_length; lia). reflexivity.
      * exists (BLOCK_SIZE * (Z.of_nat i / BLOCK_SIZE)). pose proof (Z.div_mod (Z.of_nat i) BLOCK_SIZE ltac:(lia)). pose proof (Z.mod_pos_bound (Z.of_nat i) BLOCK_SIZE B). split; [|lia].
        apply H. split; [pose proof (Z.div_pos (Z.of_nat i) BLOCK_SIZE); nia|]. split; [rewrite Z.mul_comm; apply Z.mod_mul; lia|].
        unfold W in C. assert (Z.of_nat i / BLOCK_SIZE < lenZ src / BLOCK_SIZE) by (apply Z.div_lt_upper_bound; lia). unfold lenZ in *. nia.
    + rewrite B2.
      * rewrite app_nth2; rewrite firstn_length; [|lia]. replace (Nat.min _ _) with (Z.to_nat W) by lia. rewrite <- (firstn_skipn (Z.to_nat W) mem) at 1. rewrite app_nth2; rewrite firstn_length; [|lia]. f_equal. lia.
      * intros o IN X. apply H in IN. destruct IN as (O1 & O2 & O3). pose proof (Z.div_mod o BLOCK_SIZE ltac:(lia)) as D. rewrite O2 in D.
        assert (o / BLOCK_SIZE + 1 <= lenZ src / BLOCK_SIZE) by (apply Z.div_le_lower_bound; lia). unfold W in C. nia.
Qed.

Section Sample.
Variable e : endian.
Variable gc gd : chunked_impl.
Variable ndebug : bool.
Variable inp : list Z.
Variable iaddr daddr : Z.
Variable n : nat.
Variable crets : Z -> list Z.
Variable cbuf : Z -> Z * list Z.
Variable drets : Z -> list Z.
Hypothesis GC : In gc [sw842_compress_chunked e; optsw842_compress_chunked e].
Hypothesis GD : In gd [sw842_decompress_chunked e; optsw842_decompress_chunked e].
Hypothesis IB : is_bytes inp.
Hypothesis IL : lenZ inp <= 2 ^ 63.
Hypothesis N1 : (1 <= n)%nat.
Hypothesis N2 : Z.of_nat n < 2 ^ 32.
Hypothesis CR : forall off, length (crets off) = 16%nat.
Hypothesis CB : forall off, is_bytes (snd (cbuf off)) /\ lenZ (snd (cbuf off)) = BLOCK_SIZE.
Hypothesis DRET : forall k, length (drets k) = 16%nat.
Notation L := (lenZ inp).
Notation block_at := (the_block gc inp iaddr crets cbuf).
Hypothesis RAW : ndebug = true \/ forall off b j, block_offset L off -> block_at off = Done b -> ~ stored_raw b j.
Notation start := (sample_start inp n).
Notation step := (ystep gc gd ndebug inp iaddr daddr n crets cbuf drets).

Lemma L1 : 0 <= L <= 2 ^ 63.
Proof. split; [apply lenZ_nonneg|exact IL]. Qed.
Lemma block_good off : block_offset L off -> exists b, block_at off = Done b /\ (b_offset b =? SIZE_MAX) = false /\
  forall k mem, is_bytes mem -> lenZ mem = L -> decomp_handle_block ndebug gd (drets k) daddr mem b = Done (Some (true, restored inp mem off)).
Proof.
  intros (O1 & O2 & O3). destruct (CB off) as [CB1 CB2].
  destruct (c35 e gc gd (crets off) iaddr inp (fst (cbuf off)) (snd (cbuf off)) off GC GD IB CB1 CB2 (CR off) O1 O3) as (b & E & BO & D).
  exists b. split; [exact E|]. split.
  - rewrite BO. apply Z.eqb_neq. assert (0 < BLOCK_SIZE) by reflexivity. unfold SIZE_MAX. lia.
  - intros k mem M1 M2. apply D; auto; [lia|]. destruct RAW as [R|R]; auto. right. intros j. apply (R off b j); auto. split; auto.
Qed.

(** ** Steps of the threads of the streams *)
Lemma comp_thread_step ph y i y' : cfine n L ph (y_c y) -> y_cerr y = false -> comp_thread gc inp iaddr crets cbuf i y = Some y' ->
  exists c', cmeas n c' + 1 <= cmeas n (y_c y) /\ (exists t, nth_error (c_thr (y_c y)) i = Some t /\ fst t <> CExit) /\
  ((cfine n L ph c' /\ c_user c' = c_user (y_c y) /\ offsets (c_trace c') = offsets (c_trace (y_c y)) /\ y' = with_c c' y) \/
   (exists off b, (ph = P1 \/ ph = P2) /\ block_offset L off /\ block_at off = Done b /\ cfine n L ph c' /\ c_user c' = c_user (y_c y) /\
      offsets (c_trace c') = offsets (c_trace (y_c y)) ++ [off] /\ y' = mkY (y_pc y) c' (y_blocks y ++ [b]) false (y_latch y) (y_d y) (y_mem y) (y_derr y)) \/
   (ph = P2 /\ cfine n L P3 c' /\ c_user c' = match c_user (y_c y) with UFinalizing => UIdle | u => u end /\ offsets (c_trace c') = offsets (c_trace (y_c y)) /\
      y' = mkY (y_pc y) c' (y_blocks y) false true (y_d y) (y_mem y) (y_derr y))).
Proof.
  intros F CE E. unfold comp_thread in E. destruct (nth_error (c_thr (y_c y)) i) as [t|] eqn:Hi; [|discriminate E].
  assert (T0 : exists b, (forall l off, fst t = CCall l off true -> block_offset L off -> block_at off = Done b) /\
     match tstep (lenZ (c_thr (y_c y))) i false (c_g (y_c y)) t, cstep (AThread i false) (y_c y) with
     | Some (_, _, _, evs), Some c' => Some (comp_callback b evs (with_c c' y)) | _, _ => None end = Some y').
  { destruct t as [pc lt]. pose proof (Forall_nth_error _ _ _ _ (cf_thr _ _ _ _ F) Hi) as TF.
    destruct pc as [| |a| |l lo|l lo off|l off m|l off m g1 a|l off|l off|l off ok|a| |g1 a| |err pr|];
      try (exists (mkBlock 0 0 None [] None); split; [intros ? ? X; discriminate X|exact E]).
    - destruct (work_offset n N1 N2 L ph (y_c y) i l off lt (cf_reach _ _ _ _ F) (cf_shape _ _ _ _ F) Hi) as [_ V].
      destruct (block_good off V) as (b & EB & SM & _). rewrite EB, SM in E. exists b. split; [intros ? ? X; discriminate X|exact E].
    - destruct ok; [|contradiction TF]. cbn [tstep] in E.
      destruct (fine_thread n N1 N2 L L1 ph (y_c y) i _ _ _ _ _ F Hi eq_refl) as (c' & ST & TR & ME & [(X & _)|[(l' & off' & X & _ & _ & V & _)|(X & _)]]).
      + discriminate X.
      + injection X as <- <-. destruct (block_good off V) as (b & EB & SM & _). rewrite EB, SM in E. exists b. split; [|exact E]. intros l2 off2 X _. injection X as _ <-. exact EB.
      + destruct (g_cb (c_g (y_c y))); discriminate X. }
  destruct T0 as (b & HB & T0). destruct (tstep (lenZ (c_thr (y_c y))) i false (c_g (y_c y)) t) as [[[[g' t'] w] evs]|] eqn:T; [|discriminate T0].
  destruct (fine_thread n N1 N2 L L1 ph (y_c y) i t g' t' w evs F Hi T) as (c' & ST & TR & ME & C). rewrite ST in T0. injection T0 as <-. exists c'. split; [exact ME|]. split.
  { exists t. split; [reflexivity|]. intros X. destruct t as [pc lt]. cbn [fst] in X. subst pc. discriminate T. }
  destruct C as [(-> & F' & U)|[(l & off & X & -> & P & V & F' & U)|(-> & P & F' & U)]]; cbn [app] in TR; rewrite TR.
  - left. auto.
  - right; left. exists off, b. repeat (split; [eauto; fail|]). unfold comp_callback, with_c. cbn [y_cerr y_pc y_c y_blocks y_latch y_d y_mem y_derr]. rewrite CE. reflexivity.
  - right; right. repeat (split; [auto; fail|]). unfold comp_callback, with_c. cbn [y_cerr y_pc y_c y_blocks y_latch y_d y_mem y_derr]. rewrite CE. reflexivity.
Qed.
Lemma comp_thread_can ph y i t r : cfine n L ph (y_c y) -> nth_error (c_thr (y_c y)) i = Some t -> tstep (lenZ (c_thr (y_c y))) i false (c_g (y_c y)) t = Some r ->
  exists y', comp_thread gc inp iaddr crets cbuf i y = Some y'.
Proof.
  intros F Hi T. destruct r as [[[g' t'] w] evs]. destruct (fine_thread n N1 N2 L L1 ph (y_c y) i t g' t' w evs F Hi T) as (c' & ST & _).
  unfold comp_thread. rewrite Hi. destruct t as [pc lt].
  destruct pc as [| |a| |l lo|l lo off|l off m|l off m g1 a|l off|l off|l off ok|a| |g1 a| |err pr|]; rewrite ?T, ?ST; eauto.
  - destruct (block_at off) as [b| |]; eauto. destruct (b_offset b =? SIZE_MAX); [|rewrite T, ST; eauto]. cbn [tstep]. cbn [cstep]. rewrite Hi. cbn [tstep]. eauto.
  - destruct (block_at off) as [b| |]; eauto. destruct (b_offset b =? SIZE_MAX); [|rewrite T, ST; eauto]. cbn [cstep]. rewrite Hi. cbn [tstep] in *. eauto.
Qed.

(** The offset of the block number [k]. *)
Definition off_of (y : sys) (k : Z) : Z := nth (Z.to_nat k) (offsets (c_trace (y_c y))) 0.
Definition numbers (k : Z) : list Z := map Z.of_nat (seq 0 (Z.to_nat k)).
Lemma numbers_in k x : In x (numbers k) <-> 0 <= x < k.
Proof. unfold numbers. rewrite in_map_iff. split; [intros (i & <- & H); apply in_seq in H; lia|]. intros H. exists (Z.to_nat x). split; [lia|]. apply in_seq. lia. Qed.
Lemma numbers_len k : 0 <= k -> lenZ (numbers k) = k.
Proof. intros H. unfold numbers, lenZ. rewrite map_length, seq_length. lia. Qed.
Lemma numbers_next k : 0 <= k -> numbers k ++ [k] = numbers (k + 1).
Proof. intros H. unfold numbers. replace (Z.to_nat (k + 1)) with (Datatypes.S (Z.to_nat k)) by lia. rewrite seq_S, map_app. cbn [map]. rewrite Nat.add_0_l, Z2Nat.id by lia. reflexivity. Qed.

Record dgood (y : sys) : Prop := {
  dg_blocks : Forall2 (fun off b => block_at off = Done b) (offsets (c_trace (y_c y))) (y_blocks y);
  dg_valid : Forall (block_offset L) (offsets (c_trace (y_c y)));
  dg_acc : exists k, 0 <= k <= lenZ (y_blocks y) /\ accepted_list (d_trace (y_d y)) = numbers k;
  dg_bytes : is_bytes (y_mem y);
  dg_len : lenZ (y_mem y) = L }.
Lemma block_number y k : dgood y -> 0 < accepted k (d_trace (y_d y)) ->
  exists b, nth_error (y_blocks y) (Z.to_nat k) = Some b /\ block_at (off_of y k) = Done b /\ block_offset L (off_of y k).
Proof.
  intros G A. destruct (dg_acc _ G) as (m & M & AL). rewrite <- accepted_count, AL in A. apply dcount_in, numbers_in in A.
  destruct (nth_error (y_blocks y) (Z.to_nat k)) as [b|] eqn:Hb; [|apply nth_error_None in Hb; unfold lenZ in M; lia]. exists b. split; [reflexivity|].
  pose proof (forall2_len _ _ _ (dg_blocks _ G)) as LE. assert (LT : (Z.to_nat k < length (offsets (c_trace (y_c y))))%nat) by (rewrite LE; apply nth_error_Some; congruence).
  unfold off_of. split; [|exact (proj1 (Forall_forall _ _) (dg_valid _ G) _ (nth_In _ _ LT))].
  pose proof (dg_blocks _ G) as F2. revert F2 Hb LT. generalize (Z.to_nat k) as j. generalize (y_blocks y) as bs. generalize (offsets (c_trace (y_c y))) as os. clear.
  induction os as [|o os IH]; intros bs j F2 Hb LT; [cbn in LT; lia|]. inversion F2 as [|? b0 ? bs0 F0 F1]. subst. destruct j as [|j]; cbn [nth nth_error] in *; [injection Hb as <-; exact F0|].
  apply (IH bs0 j); auto. cbn [length] in LT. lia.
Qed.

Lemma decomp_thread_step ph y i y' : dfine n daddr ph (y_d y) -> dgood y -> decomp_thread gd ndebug drets i y = Some y' ->
  exists d', dmeasure n d' + 1 <= dmeasure n (y_d y) /\ (exists t, nth_error (d_thr (y_d y)) i = Some t /\ fst t <> DExit) /\
  accepted_list (d_trace d') = accepted_list (d_trace (y_d y)) /\
  ((dfine n daddr ph d' /\ d_user d' = d_user (y_d y) /\ handled_list (d_trace d') = handled_list (d_trace (y_d y)) /\ y' = with_d d' (y_mem y) y) \/
   (exists k, (ph = Q1 \/ ph = Q2) /\ dfine n daddr ph d' /\ d_user d' = d_user (y_d y) /\ block_offset L (off_of y k) /\
      handled_list (d_trace d') = handled_list (d_trace (y_d y)) ++ [k] /\ y' = with_d d' (restored inp (y_mem y) (off_of y k)) y) \/
   (ph = Q2 /\ dfine n daddr Q3 d' /\ d_user d' = match d_user (y_d y) with VFinalizing => VIdle | u => u end /\ handled_list (d_trace d') = handled_list (d_trace (y_d y)) /\
      y' = mkY (y_pc y) (y_c y) (y_blocks y) (y_cerr y) true d' (y_mem y) false)).
Proof.
  intros F G E. unfold decomp_thread in E. destruct (nth_error (d_thr (y_d y)) i) as [t|] eqn:Hi; [|discriminate E].
  assert (T0 : exists mem, match fst t with DHandle k => mem = restored inp (y_mem y) (off_of y k) /\ block_offset L (off_of y k) | _ => mem = y_mem y end /\
     match dtstep (lenZ (d_thr (y_d y))) i false (d_g (y_d y)) t, dstep (BThread i false) (y_d y) with
     | Some (_, _, _, evs), Some d' => Some (decomp_callback evs (with_d d' mem y)) | _, _ => None end = Some y').
  { destruct t as [pc lt]. destruct pc as [| |[]|[]|k|k| |g1 []| |err pr|]; try (exists (y_mem y); split; [reflexivity|exact E]).
    destruct (handle_number n N1 daddr ph (y_d y) i k lt (df_reach _ _ _ _ F) (df_shape _ _ _ _ F) Hi) as (_ & A & HP).
    destruct (block_number y k G A) as (b & Hb & BA & V). destruct (block_good _ V) as (b' & BA' & _ & D). rewrite BA in BA'. injection BA' as <-.
    rewrite Hb, HP, (D k (y_mem y) (dg_bytes _ G) (dg_len _ G)) in E. exists (restored inp (y_mem y) (off_of y k)). split; [exact (conj eq_refl V)|exact E]. }
  destruct T0 as (mem & HM & T0). destruct (dtstep (lenZ (d_thr (y_d y))) i false (d_g (y_d y)) t) as [[[[g' t'] w] evs]|] eqn:T; [|discriminate T0].
  destruct (dfine_thread n N1 daddr ph (y_d y) i t g' t' w evs F Hi T) as (d' & ST & TR & ME & C). rewrite ST in T0. injection T0 as <-. exists d'. split; [exact ME|]. split.
  { exists t. split; [reflexivity|]. intros X. destruct t as [pc lt]. cbn [fst] in X. subst pc. discriminate T. }
  assert (MS : (forall k, fst t <> DHandle k) -> mem = y_mem y) by (intros X; destruct (fst t) eqn:Y; auto; exfalso; eapply X; reflexivity).
  destruct C as [(-> & X & F' & U)|[(k & X & -> & P & _ & F' & U)|(-> & X & P & F' & U)]]; cbn [app] in TR; rewrite TR; cbn [accepted_list handled_list]; (split; [reflexivity|]).
  - left. rewrite (MS X). auto.
  - right; left. rewrite X in HM. destruct HM as [-> V]. exists k. repeat (split; [auto; fail|]). reflexivity.
  - right; right. rewrite (MS X). auto.
Qed.
Lemma decomp_thread_can ph y i t r : dfine n daddr ph (y_d y) -> nth_error (d_thr (y_d y)) i = Some t -> dtstep (lenZ (d_thr (y_d y))) i false (d_g (y_d y)) t = Some r ->
  exists y', decomp_thread gd ndebug drets i y = Some y'.
Proof.
  intros F Hi T. destruct r as [[[g' t'] w] evs]. destruct (dfine_thread n N1 daddr ph (y_d y) i t g' t' w evs F Hi T) as (d' & ST & _).
  unfold decomp_thread. rewrite Hi. destruct t as [pc lt]. destruct pc as [| |[]|[]|k|k| |g1 []| |err pr|]; rewrite ?T, ?ST; eauto.
  destruct (nth_error (y_blocks y) (Z.to_nat k)) as [b|]; eauto. destruct (decomp_handle_block _ _ _ _ _ b) as [[[ok mem]|]| |]; eauto.
  destruct ok; cbn [negb]; [rewrite T, ST; eauto|]. cbn [dstep]. rewrite Hi. cbn [dtstep]. eauto.
Qed.

(** ** The invariant *)
Definition cpart (pc : mpc) (c : cstate) (latch : bool) : Prop :=
  match pc with
  | MReady | MStart1 => cfine n L P0 c /\ c_user c = UIdle
  | MStart2 => cfine n L P1 c /\ c_user c = UStarting
  | MClear => cfine n L P1 c /\ c_user c = URunning
  | MFinalize => cfine n L P1 c /\ c_user c = URunning /\ latch = false
  | MWait => (cfine n L P2 c /\ c_user c = UFinalizing /\ latch = false) \/ (cfine n L P3 c /\ c_user c = UIdle /\ latch = true)
  | MQuit1 f => f = false /\ cfine n L P3 c /\ c_user c = UIdle
  | MQuit2 f => f = false /\ cfine n L P4 c /\ c_user c = UQuitting
  | MJoin f => f = false /\ cfine n L P4 c /\ c_user c = UGone
  | MAbort | MBroken => False
  | _ => cfine n L P4 c /\ c_user c = UGone /\ Forall (fun t => fst t = CExit) (c_thr c)
  end.
Definition early (pc : mpc) : bool :=
  match pc with MReady | MStart1 | MStart2 | MClear | MFinalize | MWait | MQuit1 _ | MQuit2 _ | MJoin _ => true | _ => false end.
Definition whole : Z := L / BLOCK_SIZE.
Definition final_result : bool := L mod BLOCK_SIZE =? 0.
Definition dpart (pc : mpc) (d : dstate) (latch : bool) : Prop :=
  let acc := accepted_list (d_trace d) in
  match pc with
  | MDReady | MDStart1 => dfine n daddr Q0 d /\ d_user d = VIdle /\ latch = false /\ acc = []
  | MDStart2 => dfine n daddr Q1 d /\ d_user d = VStarting /\ latch = false /\ acc = []
  | MDPush k => dfine n daddr Q1 d /\ d_user d = VRunning /\ latch = false /\ 0 <= k <= whole /\ acc = numbers k
  | MDFinalize => dfine n daddr Q1 d /\ d_user d = VRunning /\ latch = false /\ acc = numbers whole
  | MDWait => acc = numbers whole /\ ((dfine n daddr Q2 d /\ d_user d = VFinalizing /\ latch = false) \/ (dfine n daddr Q3 d /\ d_user d = VIdle /\ latch = true))
  | MDQuit1 f => acc = numbers whole /\ f = false /\ dfine n daddr Q3 d /\ d_user d = VIdle
  | MDQuit2 f => acc = numbers whole /\ f = false /\ dfine n daddr Q4 d /\ d_user d = VQuitting
  | MDJoin f => acc = numbers whole /\ f = false /\ dfine n daddr Q4 d /\ d_user d = VGone
  | MValidate => acc = numbers whole /\ dfine n daddr Q4 d /\ d_user d = VGone /\ Forall (fun t => fst t = DExit) (d_thr d)
  | MReturn r => r = final_result /\ acc = numbers whole /\ dfine n daddr Q4 d /\ d_user d = VGone /\ Forall (fun t => fst t = DExit) (d_thr d)
  | _ => d = new_dstream 0
  end.
Record yinv (y : sys) : Prop := {
  yi_c : cpart (y_pc y) (y_c y) (y_latch y);
  yi_d : dpart (y_pc y) (y_d y) (y_latch y);
  yi_cerr : y_cerr y = false;
  yi_derr : y_derr y = false;
  yi_blocks : Forall2 (fun off b => block_at off = Done b) (offsets (c_trace (y_c y))) (y_blocks y);
  yi_valid : Forall (block_offset L) (offsets (c_trace (y_c y)));
  yi_mem : y_mem y = fold_left (restored inp) (map (off_of y) (handled_list (d_trace (y_d y)))) (List.repeat 0 (length inp));
  yi_hand : Forall (block_offset L) (map (off_of y) (handled_list (d_trace (y_d y)))) }.

Definition cphase (pc : mpc) (latch : bool) : cph :=
  match pc with
  | MReady | MStart1 => P0 | MStart2 | MClear | MFinalize => P1 | MWait => if latch then P3 else P2 | MQuit1 _ => P3 | _ => P4
  end.
Definition dphase (pc : mpc) (latch : bool) : dph :=
  match pc with
  | MDReady | MDStart1 => Q0 | MDStart2 | MDPush _ | MDFinalize => Q1 | MDWait => if latch then Q3 else Q2 | MDQuit1 _ => Q3 | _ => Q4
  end.
Lemma inv_fine y : yinv y -> cfine n L (cphase (y_pc y) (y_latch y)) (y_c y).
Proof. intros I. pose proof (yi_c _ I) as C. destruct (y_pc y); cbn [cpart cphase] in *; try tauto. destruct C as [(C & _ & ->)|(C & _ & ->)]; exact C. Qed.
Lemma inv_dfine y : yinv y -> early (y_pc y) = false -> dfine n daddr (dphase (y_pc y) (y_latch y)) (y_d y).
Proof.
  intros I EA. pose proof (yi_d _ I) as D. pose proof (yi_c _ I) as C. destruct (y_pc y); cbn [dpart cpart dphase early] in *; try discriminate EA; try tauto. destruct D as [_ [(D & _ & ->)|(D & _ & ->)]]; exact D.
Qed.

(** All blocks have been delivered when the operation has ended. *)
Lemma ended_offsets ph c : (ph = P3 \/ ph = P4) -> cfine n L ph c -> NoDup (offsets (c_trace c)) /\ (forall o, In o (offsets (c_trace c)) <-> block_offset L o) /\ lenZ (offsets (c_trace c)) = whole.
Proof.
  intros PH F. assert (X : NoDup (offsets (c_trace c)) /\ (forall o, In o (offsets (c_trace c)) <-> block_offset L o)).
  { pose proof (cf_shape _ _ _ _ F) as SH. pose proof (cf_fail _ _ _ _ F) as FA.
    assert (Y : exists op ok, (c_trace c = EDone ok :: op ++ [EStart L 0] \/ c_trace c = EQuit :: EDone ok :: op ++ [EStart L 0]) /\ op_complete L 0 op ok /\ cancels op = 0).
    { destruct PH; subst ph; cbn [cshape] in SH; destruct SH as (op & ok & E & OC & CA); exists op, ok; auto. }
    destruct Y as (op & ok & E & OC & CA).
    assert (O : offsets (c_trace c) = offsets op) by (destruct E as [-> | ->]; cbn [offsets]; rewrite offsets_app; reflexivity).
    assert (ok = true) as ->. { apply (oc_ok _ _ _ _ OC). destruct E as [E|E]; rewrite E in FA; unfold failures in *; cbn [cnt] in FA; rewrite count_app in FA; cbn [cnt] in FA; lia. }
    rewrite O. now apply complete_offsets. }
  destruct X as [X1 X2]. split; [exact X1|]. split; [exact X2|]. apply offsets_number; auto. apply lenZ_nonneg.
Qed.
Lemma ended_blocks y : yinv y -> early (y_pc y) = false -> lenZ (y_blocks y) = whole.
Proof.
  intros I EA. pose proof (inv_fine y I) as F. assert (PH : cphase (y_pc y) (y_latch y) = P4) by (destruct (y_pc y); try discriminate EA; reflexivity). rewrite PH in F.
  destruct (ended_offsets P4 (y_c y) (or_intror eq_refl) F) as (_ & _ & LE). unfold lenZ in *. rewrite <- (forall2_len _ _ _ (yi_blocks _ I)). exact LE.
Qed.
Lemma whole_nonneg : 0 <= whole.
Proof. apply Z.div_pos; [apply lenZ_nonneg|reflexivity]. Qed.
Lemma inv_acc y : yinv y -> early (y_pc y) = false -> exists k, 0 <= k <= whole /\ accepted_list (d_trace (y_d y)) = numbers k.
Proof.
  intros I EA. pose proof (yi_d _ I) as D. pose proof (yi_c _ I) as C. pose proof whole_nonneg. destruct (y_pc y); cbn [dpart cpart early] in *; try discriminate EA; try contradiction;
    first [exists 0; split; [lia|tauto]|exists whole; split; [lia|tauto]|exists k; tauto].
Qed.
Lemma inv_good y : yinv y -> early (y_pc y) = false -> dgood y.
Proof.
  intros I EA. pose proof (ended_blocks y I EA) as LB. constructor; try apply I.
  - rewrite LB. exact (inv_acc y I EA).
  - rewrite (yi_mem _ I). assert (Z0 : is_bytes (List.repeat 0 (length inp))) by (unfold is_bytes; rewrite Forall_forall; intros x H; apply repeat_spec in H; subst; split; [discriminate|reflexivity]).
    revert Z0. generalize (List.repeat 0 (length inp)). induction (map _ _) as [|o l IH]; intros m M; cbn [fold_left]; auto. apply IH. now apply restored_bytes.
  - rewrite (yi_mem _ I). apply (fold_restored_nth inp _ _ 0); [apply I|]. unfold lenZ. now rewrite repeat_length.
Qed.
(** What was decompressed. *)
Lemma ended_mem y : yinv y -> (y_pc y = MValidate \/ exists r, y_pc y = MReturn r) ->
  y_mem y = firstn (Z.to_nat (whole * BLOCK_SIZE)) inp ++ List.repeat 0 (length inp - Z.to_nat (whole * BLOCK_SIZE)).
Proof.
  intros I PC. assert (EA : early (y_pc y) = false) by (destruct PC as [-> |(r & ->)]; reflexivity).
  pose proof (inv_fine y I) as F. assert (PH : cphase (y_pc y) (y_latch y) = P4) by (destruct PC as [-> |(r & ->)]; reflexivity). rewrite PH in F.
  destruct (ended_offsets P4 (y_c y) (or_intror eq_refl) F) as (_ & IN & LO).
  assert (D : accepted_list (d_trace (y_d y)) = numbers whole /\ dfine n daddr Q4 (y_d y)). { pose proof (yi_d _ I) as D. destruct PC as [PC|(r & PC)]; rewrite PC in D; cbn [dpart] in D; tauto. }
  destruct D as [AC DF].
  assert (HA : forall k, In k (handled_list (d_trace (y_d y))) <-> 0 <= k < whole).
  { intros k. rewrite <- numbers_in, <- AC, <- !dcount_in, accepted_count, handled_count.
    pose proof (df_shape _ _ _ _ DF) as SH. pose proof (df_fail _ _ _ _ DF) as FA. cbn [dshape] in SH. destruct SH as (op & ok & E & OC & CA).
    assert (ok = true) as ->. { apply (dc_ok _ _ _ OC). rewrite E in FA. unfold dfailures in *. cbn [cnt] in FA. rewrite dcount_app in FA. cbn [cnt] in FA. lia. }
    pose proof (dc_all _ _ _ OC eq_refl CA k) as X. rewrite E. unfold handled, accepted in *. cbn [cnt]. rewrite !dcount_app. cbn [cnt]. lia. }
  rewrite (yi_mem _ I), restored_all.
  - fold whole. f_equal. assert (X : forall (v : Z) m k, skipn k (List.repeat v m) = List.repeat v (m - k)) by (induction m as [|m IH]; intros [|k]; cbn [repeat skipn Nat.sub]; auto). apply X.
  - apply I.
  - intros o. rewrite in_map_iff, <- IN. split.
    + intros (k & <- & H). apply HA in H. unfold off_of. apply nth_In. unfold lenZ in LO. lia.
    + intros H. apply (In_nth _ _ 0) in H. destruct H as (j & LJ & <-). exists (Z.of_nat j). unfold off_of. rewrite Nat2Z.id. split; [reflexivity|]. apply HA. unfold lenZ in LO. lia.
  - unfold lenZ. now rewrite repeat_length.
Qed.

Lemma yinv_move y pc c ce latch d de : yinv y -> ce = false -> de = false -> offsets (c_trace c) = offsets (c_trace (y_c y)) -> handled_list (d_trace d) = handled_list (d_trace (y_d y)) ->
  cpart pc c latch -> dpart pc d latch -> yinv (mkY pc c (y_blocks y) ce latch d (y_mem y) de).
Proof.
  intros [I1 I2 I3 I4 I5 I6 I7 I8] CE DE O H C D. assert (OO : forall k, off_of (mkY pc c (y_blocks y) ce latch d (y_mem y) de) k = off_of y k) by (intros k; unfold off_of; cbn [y_c]; now rewrite O).
  constructor; cbn [y_pc y_c y_d y_latch y_cerr y_derr y_blocks y_mem]; auto; rewrite ?O; auto; rewrite H, (map_ext _ _ OO); auto.
Qed.
Lemma yinv_start : yinv start.
Proof.
  constructor; [split; [|reflexivity]; apply fine_new; [exact N1|exact L1]|..]; cbn; auto; constructor.
Qed.

(** ** What is left to do *)
Definition left (pc : mpc) : Z :=
  match pc with
  | MReturn _ | MAbort | MBroken => 0
  | MValidate => 1 | MDJoin _ => 2 | MDQuit2 _ => 3 | MDQuit1 _ => 4 | MDWait => 5 | MDFinalize => 6
  | MDPush k => 7 + (whole - k)
  | MDStart2 => 8 + whole | MDStart1 => 9 + whole | MDReady => 10 + whole
  | MJoin _ => 11 + whole | MQuit2 _ => 12 + whole | MQuit1 _ => 13 + whole | MWait => 14 + whole | MFinalize => 15 + whole
  | MClear => 16 + whole | MStart2 => 17 + whole | MStart1 => 18 + whole | MReady => 19 + whole
  end.
Definition M : Z := cbound n L + dbound n whole.
Definition pot (y : sys) : Z := left (y_pc y) * (M + 1) + cmeas n (y_c y) + (if early (y_pc y) then 0 else dmeasure n (y_d y)).
Lemma pot_rest y : yinv y -> 0 <= cmeas n (y_c y) + (if early (y_pc y) then 0 else dmeasure n (y_d y)) <= M.
Proof.
  intros I. pose proof (fine_bound n N1 N2 L L1 _ _ (inv_fine y I)) as B. unfold M. assert (0 <= dbound n whole) by (unfold dbound; pose proof whole_nonneg; nia).
  destruct (early (y_pc y)) eqn:EA; [lia|]. destruct (inv_acc y I EA) as (k & K & AC).
  pose proof (dfine_bound n N1 daddr _ _ whole (inv_dfine y I EA)) as X. rewrite AC, numbers_len in X by lia. lia.
Qed.
Lemma pot_move y y' : yinv y -> yinv y' -> left (y_pc y') + 1 <= left (y_pc y) -> pot y' + 1 <= pot y.
Proof. intros I I' H. pose proof (pot_rest y I). pose proof (pot_rest y' I'). unfold pot. nia. Qed.
Lemma pot_nonneg y : yinv y -> 0 <= pot y.
Proof.
  intros I. pose proof (pot_rest y I). assert (0 <= left (y_pc y)).
  { pose proof whole_nonneg. pose proof (yi_d _ I) as D. destruct (y_pc y); cbn [left dpart] in *; lia. }
  unfold pot. nia.
Qed.

Lemma list_eqb_refl l : list_eqb l l = true.
Proof. induction l as [|x l IH]; [reflexivity|]. cbn [list_eqb]. now rewrite Z.eqb_refl. Qed.

(** ** The main thread *)
Theorem main_inv j y y' : yinv y -> main_step inp daddr n j y = Some y' -> yinv y' /\ left (y_pc y') + 1 <= left (y_pc y).
Proof.
  intros I E. pose proof (yi_c _ I) as C. pose proof (yi_d _ I) as D. pose proof (yi_cerr _ I) as CE. pose proof (yi_derr _ I) as DE. pose proof whole_nonneg as W0. unfold main_step in E. unfold call_c, call_d in E.
  destruct (y_pc y) eqn:PC; cbn [cpart] in C; cbn [dpart] in D.
  - destruct (existsb not_started (c_thr (y_c y))); [discriminate E|]. injection E as <-. split; [|cbn [goto y_pc left]; lia]. apply (yinv_move y); auto.
  - destruct C as [F U]. destruct (fine_start1 n N1 L L1 _ F U) as (c' & ST & F' & U' & O). rewrite ST in E. injection E as <-. split; [|cbn [goto y_pc left]; lia]. apply (yinv_move y); cbn; auto.
  - destruct C as [F U]. destruct (fine_start2 n L _ F U) as (c' & ST & F' & U' & O). rewrite ST in E. injection E as <-. split; [|cbn [goto y_pc left]; lia]. apply (yinv_move y); cbn; auto. now rewrite O.
  - injection E as <-. split; [|cbn [y_pc left]; lia]. apply (yinv_move y); cbn; tauto.
  - destruct C as (F & U & LA). destruct (fine_finalize n N1 L _ F U) as (c' & ST & F' & U' & O). rewrite ST in E. injection E as <-. split; [|cbn [goto y_pc left]; lia]. apply (yinv_move y); cbn; auto.
  - destruct (y_latch y) eqn:LA; [|discriminate E]. injection E as <-. split; [|cbn [goto y_pc left]; lia]. rewrite (yi_cerr _ I).
    destruct C as [(_ & _ & X)|(F & U & _)]; [discriminate X|]. apply (yinv_move y); cbn; auto.
  - destruct C as (-> & F & U). destruct (fine_quit1 n N1 N2 L L1 _ F U) as (c' & ST & F' & U' & O). rewrite ST in E. injection E as <-. split; [|cbn [goto y_pc left]; lia]. apply (yinv_move y); cbn; auto.
  - destruct C as (-> & F & U). destruct (fine_quit2 n N1 L _ F U) as (c' & ST & F' & U' & O). rewrite ST in E. injection E as <-. split; [|cbn [goto y_pc left]; lia]. apply (yinv_move y); cbn; auto. now rewrite O.
  - destruct C as (-> & F & U). destruct (forallb exited (c_thr (y_c y))) eqn:EX; [|discriminate E]. injection E as <-. split; [|cbn [y_pc left]; lia].
    apply (yinv_move y); cbn [cpart dpart with_c with_d y_c y_d y_latch]; auto.
    + rewrite D. reflexivity.
    + split; [exact F|]. split; [exact U|]. rewrite Forall_forall. rewrite forallb_forall in EX. intros t IN. specialize (EX t IN). unfold exited in EX. destruct (fst t); try discriminate EX. reflexivity.
    + split; [apply dfine_new, N1|auto].
  - destruct (existsb dnot_started (d_thr (y_d y))); [discriminate E|]. injection E as <-. split; [|cbn [goto y_pc left]; lia]. apply (yinv_move y); auto.
  - destruct D as (F & U & LA & AC). destruct (dfine_start1 n daddr _ F U) as (d' & ST & F' & U' & O). rewrite ST in E. injection E as <-. split; [|cbn [goto y_pc left]; lia]. apply (yinv_move y); cbn; rewrite ?O; auto.
  - destruct D as (F & U & LA & AC). destruct (dfine_start2 n daddr _ F U) as (d' & ST & F' & U' & O). rewrite ST in E. injection E as <-. split; [|cbn [goto y_pc left]; lia]. apply (yinv_move y); cbn [cpart dpart with_c with_d y_c y_d y_latch]; rewrite ?O; auto.
    repeat (split; [auto; lia|]). exact AC.
  - destruct D as (F & U & LA & K & AC). pose proof (ended_blocks y I ltac:(rewrite PC; reflexivity)) as LB. rewrite LB in E. destruct (Z.ltb_spec k whole) as [H|H].
    + destruct (dstep (BPush k j) (y_d y)) as [d'|] eqn:ST; [|discriminate E]. injection E as <-. destruct (dfine_push n N1 daddr _ _ _ _ F U ST) as (F' & U' & TR). rewrite TR.
      split; [|cbn [goto y_pc left]; lia]. apply (yinv_move y); cbn [cpart dpart with_c with_d y_c y_d y_latch]; rewrite ?TR; cbn [handled_list accepted_list]; auto.
      repeat (split; [auto; lia|]). rewrite AC. apply numbers_next. lia.
    + injection E as <-. split; [|cbn [goto y_pc left]; lia]. assert (k = whole) by lia. subst k. apply (yinv_move y); auto. cbn [dpart]. auto.
  - destruct D as (F & U & LA & AC). destruct (dfine_finalize n N1 daddr _ F U) as (d' & ST & F' & U' & O). rewrite ST in E. injection E as <-. split; [|cbn [goto y_pc left]; lia].
    apply (yinv_move y); cbn [cpart dpart with_c with_d y_c y_d y_latch]; rewrite ?O; cbn [handled_list accepted_list]; auto.
  - destruct D as (AC & D). destruct (y_latch y) eqn:LA; [|discriminate E]. injection E as <-. split; [|cbn [goto y_pc left]; lia]. rewrite (yi_derr _ I).
    destruct D as [(_ & _ & X)|(F & U & _)]; [discriminate X|]. apply (yinv_move y); cbn [cpart dpart with_c with_d y_c y_d y_latch]; auto.
  - destruct D as (AC & -> & F & U). destruct (dfine_quit1 n N1 daddr _ F U) as (d' & ST & F' & U' & O). rewrite ST in E. injection E as <-. split; [|cbn [goto y_pc left]; lia].
    apply (yinv_move y); cbn [cpart dpart with_c with_d y_c y_d y_latch]; rewrite ?O; cbn [handled_list accepted_list]; auto.
  - destruct D as (AC & -> & F & U). destruct (dfine_quit2 n daddr _ F U) as (d' & ST & F' & U' & O). rewrite ST in E. injection E as <-. split; [|cbn [goto y_pc left]; lia].
    apply (yinv_move y); cbn [cpart dpart with_c with_d y_c y_d y_latch]; rewrite ?O; auto.
  - destruct D as (AC & -> & F & U). destruct (forallb dexited (d_thr (y_d y))) eqn:EX; [|discriminate E]. injection E as <-. split; [|cbn [goto y_pc left]; lia].
    apply (yinv_move y); cbn [cpart dpart with_c with_d y_c y_d y_latch]; auto. repeat (split; [auto; fail|]). rewrite Forall_forall. rewrite forallb_forall in EX. intros t IN. specialize (EX t IN). unfold dexited in EX. destruct (fst t); try discriminate EX. reflexivity.
  - injection E as <-. split; [|cbn [goto y_pc left]; lia]. apply (yinv_move y); cbn [cpart dpart with_c with_d y_c y_d y_latch]; auto. split; [|exact D].
    rewrite (ended_blocks y I ltac:(rewrite PC; reflexivity)), (ended_mem y I (or_introl PC)). unfold final_result. pose proof L1 as LL. assert (B : 0 < BLOCK_SIZE) by reflexivity.
    pose proof (Z.div_mod L BLOCK_SIZE ltac:(lia)) as DM. pose proof (Z.mod_pos_bound L BLOCK_SIZE B) as MB. fold whole in DM.
    assert (U6 : u64 (whole * BLOCK_SIZE) = whole * BLOCK_SIZE) by (unfold u64; apply Z.mod_small; lia). rewrite U6.
    destruct (Z.eqb_spec (L mod BLOCK_SIZE) 0) as [Z0|Z0].
    + replace (L =? whole * BLOCK_SIZE) with true by lia. cbn [andb]. replace (Z.to_nat (whole * BLOCK_SIZE)) with (length inp) by (unfold lenZ in *; lia).
      rewrite firstn_all, Nat.sub_diag, app_nil_r. apply list_eqb_refl.
    + replace (L =? whole * BLOCK_SIZE) with false by lia. reflexivity.
  - discriminate E.
  - discriminate E.
  - discriminate E.
Qed.

Lemma phase_c pc latch c : cpart pc c latch -> cfine n L (cphase pc latch) c.
Proof. intros C. destruct pc; cbn [cpart cphase] in *; try tauto. destruct C as [(C & _ & ->)|(C & _ & ->)]; exact C. Qed.

Theorem step_good a y y' : yinv y -> step a y = Some y' -> yinv y' /\ (if is_wake a then pot y' <= pot y + 1 else pot y' + 1 <= pot y).
Proof.
  intros I E. assert (E1 : match a with
    | YMain j => main_step inp daddr n j y
    | YComp i => comp_thread gc inp iaddr crets cbuf i y
    | YCompWake i => match cstep (ASpurious i) (y_c y) with Some c => Some (with_c c y) | None => None end
    | YDecomp i => decomp_thread gd ndebug drets i y
    | YDecompWake i => match dstep (BSpurious i) (y_d y) with Some d => Some (with_d d (y_mem y) y) | None => None end
    end = Some y') by (unfold ystep in E; destruct (y_pc y); try discriminate E; exact E). clear E.
  pose proof (yi_c _ I) as C. pose proof (yi_d _ I) as D. pose proof (yi_cerr _ I) as CE. pose proof (yi_derr _ I) as DE.
  destruct a as [j|i|i|i|i]; cbn [is_wake].
  - destruct (main_inv j y y' I E1) as [I' LE]. split; [exact I'|]. now apply pot_move.
  - destruct (comp_thread_step _ y i y' (inv_fine y I) (yi_cerr _ I) E1) as (c' & ME & (t & Hi & NX) & [(F & U & O & ->)|[(off & b & PH & V & BA & F & U & O & ->)|(PH & F & U & O & ->)]]).
    + split; [|unfold pot, with_c; cbn [y_pc y_c y_d]; lia]. apply (yinv_move y); auto.
      destruct (y_pc y); cbn [cpart cphase] in *; rewrite ?U; try tauto;
        try (exfalso; destruct C as (_ & _ & C); apply NX; exact (Forall_nth_error _ _ _ _ C Hi)).
      destruct C as [(X & Y & LA)|(X & Y & LA)]; rewrite LA in *; auto.
    + assert (EA : early (y_pc y) = true) by (destruct (y_pc y); cbn [cphase] in PH; destruct PH as [PH|PH]; try discriminate PH; reflexivity).
      assert (DN : y_d y = new_dstream 0) by (destruct (y_pc y); try discriminate EA; exact D).
      split; [|unfold pot; cbn [y_pc y_c y_d]; rewrite EA; lia].
      destruct I as [I1 I2 I3 I4 I5 I6 I7 I8]. constructor; cbn [y_pc y_c y_d y_latch y_cerr y_derr y_blocks y_mem]; auto.
      * destruct (y_pc y); cbn [cpart cphase] in *; rewrite ?U; try tauto; try (destruct PH as [PH|PH]; discriminate PH).
        destruct C as [(X & Y & LA)|(X & Y & LA)]; rewrite LA in *; auto.
      * rewrite O. apply Forall2_app; auto.
      * rewrite O. apply Forall_app. auto.
      * rewrite DN in *. exact I7.
      * rewrite DN. constructor.
    + assert (PC : y_pc y = MWait /\ y_latch y = false) by (destruct (y_pc y); cbn [cphase] in PH; try discriminate PH; destruct (y_latch y); try discriminate PH; auto).
      destruct PC as [PC LA]. split; [|unfold pot; cbn [y_pc y_c y_d]; lia].
      apply (yinv_move y); rewrite PC in *; cbn [cpart dpart] in *; auto. right. rewrite U. destruct C as [(X & Y & _)|(X & Y & Z)]; [rewrite Y; auto|congruence].
  - destruct (cstep (ASpurious i) (y_c y)) as [c'|] eqn:ST; [|discriminate E1]. injection E1 as <-.
    destruct (fine_spurious n N1 N2 L _ _ _ _ (inv_fine y I) ST) as (F & U & TR & ME). split; [|unfold pot, with_c; cbn [y_pc y_c y_d]; lia].
    apply (yinv_move y); rewrite ?TR; auto.
    assert (NX : Forall (fun t => fst t = CExit) (c_thr (y_c y)) -> False).
    { intros X. cbn [cstep] in ST. destruct (nth_error (c_thr (y_c y)) i) as [t|] eqn:Hi; [|discriminate ST]. pose proof (Forall_nth_error _ _ _ _ X Hi) as Y. destruct t as [pc lt]. cbn [fst] in Y. subst pc. discriminate ST. }
    destruct (y_pc y); cbn [cpart cphase] in *; rewrite ?U; try tauto.
    destruct C as [(X & Y & LA)|(X & Y & LA)]; rewrite LA in *; auto.
  - destruct (early (y_pc y)) eqn:EA.
    { assert (DN : y_d y = new_dstream 0) by (destruct (y_pc y); try discriminate EA; exact D). unfold decomp_thread in E1. rewrite DN in E1. destruct i; discriminate E1. }
    destruct (decomp_thread_step _ y i y' (inv_dfine y I EA) (inv_good y I EA) E1) as (d' & ME & (t & Hi & NX) & AC & [(F & U & O & ->)|[(k & PH & F & U & V & O & ->)|(PH & F & U & O & ->)]]).
    + split; [|unfold pot, with_d; cbn [y_pc y_c y_d]; rewrite EA; lia]. apply (yinv_move y); auto.
      destruct (y_pc y); try discriminate EA; cbn [dpart dphase cpart] in *; rewrite ?U, ?AC; try tauto.
      * destruct D as (X0 & [(X & Y & LA)|(X & Y & LA)]); rewrite LA in *; auto.
      * exfalso. destruct D as (_ & _ & _ & D). apply NX. exact (Forall_nth_error _ _ _ _ D Hi).
      * exfalso. destruct D as (_ & _ & _ & _ & D). apply NX. exact (Forall_nth_error _ _ _ _ D Hi).
    + split; [|unfold pot, with_d; cbn [y_pc y_c y_d]; rewrite EA; lia].
      destruct I as [I1 I2 I3 I4 I5 I6 I7 I8].
      assert (OO : forall q, off_of (with_d d' (restored inp (y_mem y) (off_of y k)) y) q = off_of y q) by reflexivity.
      constructor; cbn [with_d y_pc y_c y_d y_latch y_cerr y_derr y_blocks y_mem]; auto.
      * destruct (y_pc y); try discriminate EA; cbn [dpart dphase cpart] in *; rewrite ?U, ?AC; try tauto; try (destruct PH as [PH|PH]; discriminate PH).
        destruct D as (X0 & [(X & Y & LA)|(X & Y & LA)]); rewrite LA in *; auto.
      * rewrite O, map_app, fold_left_app. cbn [map fold_left]. rewrite I7 at 1. reflexivity.
      * rewrite O, map_app. apply Forall_app. split; [exact I8|]. constructor; [exact V|constructor].
    + assert (PC : y_pc y = MDWait /\ y_latch y = false) by (destruct (y_pc y); cbn [dphase] in PH; try discriminate PH; destruct (y_latch y); try discriminate PH; auto).
      destruct PC as [PC LA]. split; [|unfold pot; cbn [y_pc y_c y_d]; rewrite EA; lia].
      apply (yinv_move y); rewrite PC in *; cbn [cpart dpart] in *; auto. rewrite AC. destruct D as (X0 & [(X & Y & _)|(X & Y & Z)]); [|congruence]. split; [auto|]. right. rewrite U, Y. auto.
  - destruct (dstep (BSpurious i) (y_d y)) as [d'|] eqn:ST; [|discriminate E1]. injection E1 as <-. destruct (early (y_pc y)) eqn:EA.
    { assert (DN : y_d y = new_dstream 0) by (destruct (y_pc y); try discriminate EA; exact D). rewrite DN in ST. destruct i; discriminate ST. }
    destruct (dfine_spurious n N1 daddr _ _ _ _ (inv_dfine y I EA) ST) as (F & U & TR & ME). split; [|unfold pot, with_d; cbn [y_pc y_c y_d]; rewrite EA; lia].
    apply (yinv_move y); rewrite ?TR; auto.
    assert (NX : Forall (fun t => fst t = DExit) (d_thr (y_d y)) -> False).
    { intros X. cbn [dstep] in ST. destruct (nth_error (d_thr (y_d y)) i) as [t|] eqn:Hi; [|discriminate ST]. pose proof (Forall_nth_error _ _ _ _ X Hi) as Y. destruct t as [pc lt]. cbn [fst] in Y. subst pc. discriminate ST. }
    destruct (y_pc y); try discriminate EA; cbn [dpart dphase cpart] in *; rewrite ?U, ?TR; try tauto.
    destruct D as (X0 & [(X & Y & LA)|(X & Y & LA)]); rewrite LA in *; auto.
Qed.
Lemma reach_inv y : reachable step start y -> yinv y.
Proof. intros R. induction R as [|a s s' R IH ST]; [apply yinv_start|]. exact (proj1 (step_good a s s' IH ST)). Qed.

(** ** The theorems *)
Theorem c80_result y : reachable step start y -> y_pc y <> MAbort /\ y_pc y <> MBroken /\ forall r, y_pc y = MReturn r -> r = final_result /\
  y_mem y = firstn (Z.to_nat (whole * BLOCK_SIZE)) inp ++ List.repeat 0 (length inp - Z.to_nat (whole * BLOCK_SIZE)) /\
  Forall (fun t => fst t = CExit) (c_thr (y_c y)) /\ Forall (fun t => fst t = DExit) (d_thr (y_d y)).
Proof.
  intros R. pose proof (reach_inv y R) as I. pose proof (yi_c _ I) as C. split; [intros X; rewrite X in C; exact C|]. split; [intros X; rewrite X in C; exact C|].
  intros r X. pose proof (yi_d _ I) as D. pose proof (ended_mem y I) as EM. rewrite X in C, D. split; [apply D|]. split; [eauto|]. split; [apply C|apply D].
Qed.

Theorem c80_progress y : reachable step start y -> (exists r, y_pc y = MReturn r) \/ exists a y', is_wake a = false /\ step a y = Some y'.
Proof.
  intros R. pose proof (reach_inv y R) as I. pose proof (yi_c _ I) as C. pose proof (yi_d _ I) as D. pose proof (inv_fine y I) as F.
  destruct (match y_pc y with MReturn _ => true | _ => false end) eqn:RE; [left; destruct (y_pc y); try discriminate RE; eauto|right].
  assert (MAIN : forall j, (exists y', main_step inp daddr n j y = Some y') -> exists a y', is_wake a = false /\ step a y = Some y').
  { intros j (y' & E). exists (YMain j), y'. split; [reflexivity|]. unfold ystep. destruct (y_pc y); try exact E; contradiction C. }
  assert (COMP : forall i t r, nth_error (c_thr (y_c y)) i = Some t -> tstep (lenZ (c_thr (y_c y))) i false (c_g (y_c y)) t = Some r -> exists a y', is_wake a = false /\ step a y = Some y').
  { intros i t r Hi T. destruct (comp_thread_can _ y i t r F Hi T) as (y' & E). exists (YComp i), y'. split; [reflexivity|]. unfold ystep. destruct (y_pc y); try exact E; contradiction C. }
  assert (DEC : early (y_pc y) = false -> forall i t r, nth_error (d_thr (y_d y)) i = Some t -> dtstep (lenZ (d_thr (y_d y))) i false (d_g (y_d y)) t = Some r -> exists a y', is_wake a = false /\ step a y = Some y').
  { intros EA i t r Hi T. destruct (decomp_thread_can _ y i t r (inv_dfine y I EA) Hi T) as (y' & E). exists (YDecomp i), y'. split; [reflexivity|]. unfold ystep. destruct (y_pc y); try exact E; contradiction C. }
  unfold main_step, call_c, call_d in MAIN. destruct (y_pc y) eqn:PC; cbn [cpart] in C; cbn [dpart] in D; try discriminate RE; try contradiction.
  - destruct (existsb not_started (c_thr (y_c y))) eqn:EX; [|apply (MAIN 0%nat); eauto].
    apply existsb_exists in EX. destruct EX as ([pc lt] & IN & NS). apply In_nth_error in IN. destruct IN as [i Hi]. unfold not_started in NS. cbn [fst] in NS. destruct pc; try discriminate NS.
    eapply (COMP i); [exact Hi|reflexivity].
  - apply (MAIN 0%nat). destruct C as [F0 U]. destruct (fine_start1 n N1 L L1 _ F0 U) as (c' & ST & _). rewrite ST. eauto.
  - apply (MAIN 0%nat). destruct C as [F0 U]. destruct (fine_start2 n L _ F0 U) as (c' & ST & _). rewrite ST. eauto.
  - apply (MAIN 0%nat). eauto.
  - apply (MAIN 0%nat). destruct C as (F0 & U & _). destruct (fine_finalize n N1 L _ F0 U) as (c' & ST & _). rewrite ST. eauto.
  - destruct C as [(F0 & U & LA)|(F0 & U & LA)].
    + destruct (thread_or_stuck (y_c y)) as [ST|(i & t & r & Hi & T)]; [|eapply COMP; eauto]. exfalso. exact (CompProps.c33_progress n (y_c y) N1 N2 (cf_reach _ _ _ _ F0) U ST).
    + apply (MAIN 0%nat). rewrite LA. eauto.
  - apply (MAIN 0%nat). destruct C as (_ & F0 & U). destruct (fine_quit1 n N1 N2 L L1 _ F0 U) as (c' & ST & _). rewrite ST. eauto.
  - apply (MAIN 0%nat). destruct C as (_ & F0 & U). destruct (fine_quit2 n N1 L _ F0 U) as (c' & ST & _). rewrite ST. eauto.
  - destruct C as (_ & F0 & U). destruct (thread_or_stuck (y_c y)) as [ST|(i & t & r & Hi & T)]; [|eapply COMP; eauto].
    destruct (CompProps.c52_terminates n (y_c y) [] (y_c y) N1 N2 (cf_reach _ _ _ _ F0) U eq_refl) as [_ X]. specialize (X ST).
    apply (MAIN 0%nat). replace (forallb exited (c_thr (y_c y))) with true; [eauto|]. symmetry. apply forallb_forall. intros t IN. rewrite Forall_forall in X. unfold exited. now rewrite (X t IN).
  - destruct (existsb dnot_started (d_thr (y_d y))) eqn:EX; [|apply (MAIN 0%nat); eauto].
    apply existsb_exists in EX. destruct EX as ([pc lt] & IN & NS). apply In_nth_error in IN. destruct IN as [i Hi]. unfold dnot_started in NS. cbn [fst] in NS. destruct pc; try discriminate NS.
    eapply (DEC eq_refl i); [exact Hi|reflexivity].
  - apply (MAIN 0%nat). destruct D as (F0 & U & _). destruct (dfine_start1 n daddr _ F0 U) as (d' & ST & _). rewrite ST. eauto.
  - apply (MAIN 0%nat). destruct D as (F0 & U & _). destruct (dfine_start2 n daddr _ F0 U) as (d' & ST & _). rewrite ST. eauto.
  - destruct D as (F0 & U & _). destruct (dfine_can_push (y_d y) k U) as (j & d' & ST). apply (MAIN j). rewrite ST. destruct (k <? lenZ (y_blocks y)); eauto.
  - apply (MAIN 0%nat). destruct D as (F0 & U & _). destruct (dfine_finalize n N1 daddr _ F0 U) as (d' & ST & _). rewrite ST. eauto.
  - destruct D as [_ [(F0 & U & LA)|(F0 & U & LA)]].
    + destruct (dthread_or_stuck (y_d y)) as [ST|(i & t & r & Hi & T)]; [|eapply DEC; eauto]. exfalso. exact (DecompProps.c38_progress n (y_d y) N1 (df_reach _ _ _ _ F0) U ST).
    + apply (MAIN 0%nat). rewrite LA. eauto.
  - apply (MAIN 0%nat). destruct D as (_ & _ & F0 & U). destruct (dfine_quit1 n N1 daddr _ F0 U) as (d' & ST & _). rewrite ST. eauto.
  - apply (MAIN 0%nat). destruct D as (_ & _ & F0 & U). destruct (dfine_quit2 n daddr _ F0 U) as (d' & ST & _). rewrite ST. eauto.
  - destruct D as (_ & _ & F0 & U). destruct (dthread_or_stuck (y_d y)) as [ST|(i & t & r & Hi & T)]; [|eapply DEC; eauto].
    destruct (DecompProps.c53_terminates n (y_d y) [] (y_d y) N1 (df_reach _ _ _ _ F0) U eq_refl) as [_ X]. specialize (X ST).
    apply (MAIN 0%nat). replace (forallb dexited (d_thr (y_d y))) with true; [eauto|]. symmetry. apply forallb_forall. intros t IN. rewrite Forall_forall in X. unfold dexited. now rewrite (X t IN).
  - apply (MAIN 0%nat). eauto.
Qed.

Lemma run_pot l : forall y y', yinv y -> run step l y = Some y' -> yinv y' /\ pot y' + cnt (fun a => negb (is_wake a)) l <= pot y + cnt is_wake l.
Proof.
  induction l as [|a l IH]; intros y y' I E; cbn [run] in E.
  - injection E as <-. split; [exact I|cbn [cnt]; lia].
  - destruct (step a y) as [y1|] eqn:ST; [|discriminate E]. destruct (step_good a y y1 I ST) as [I1 P]. destruct (IH y1 y' I1 E) as [I' P']. split; [exact I'|]. cbn [cnt]. destruct (is_wake a); cbn [negb]; lia.
Qed.
Theorem c80_bound l y : run step l start = Some y ->
  let N := Z.of_nat n in let B := L / BLOCK_SIZE in
  cnt (fun a => negb (is_wake a)) l <= (B + 20) * (10 * B + N * ((N + 5) * (B + 1) + 28) + (3 * B + N * (N + 20)) + 1) + cnt is_wake l.
Proof.
  intros E. destruct (run_pot l start y yinv_start E) as [I P]. pose proof (pot_nonneg y I). pose proof (pot_rest start yinv_start) as PR.
  unfold pot in P at 2. cbn [sample_start y_pc left early y_c] in P, PR. cbn zeta. unfold M, cbound, dbound in *. fold whole. unfold whole in *. lia.
Qed.

Theorem c80_returns y : reachable step start y -> exists l y' r, run step l y = Some y' /\ y_pc y' = MReturn r.
Proof.
  assert (X : forall k y, reachable step start y -> pot y <= Z.of_nat k -> exists l y' r, run step l y = Some y' /\ y_pc y' = MReturn r).
  { induction k as [|k IH]; intros y0 R P; (destruct (c80_progress y0 R) as [(r & PC)|(a & y1 & W & ST)]; [exists [], y0, r; auto|]);
      destruct (step_good a y0 y1 (reach_inv y0 R) ST) as [I1 P1]; rewrite W in P1; pose proof (pot_nonneg y1 I1); [lia|].
    destruct (IH y1 (re_step _ _ _ _ _ R ST) ltac:(lia)) as (l & y' & r & E & PC). exists (a :: l), y', r. cbn [run]. rewrite ST. auto. }
  intros R. apply (X (Z.to_nat (pot y)) y R). pose proof (pot_nonneg y (reach_inv y R)). lia.
Qed.
End Sample.
