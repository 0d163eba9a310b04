(** The CUDA kernel as a thread that interleaves with others. *)
From Coq Require Import ZArith List Bool Lia.
From Verif Require Import SpecBits SpecCrc Spec842 CBase BitsLemmas SerialCompModel SerialDecompModel OptCompModel ConcLib SpecSync CudaModel SpecOcl CudaProofs GpuModel SpecGpu GpuProofs.
Import ListNotations.
Open Scope Z_scope.

Definition gbyte (b : nat) (v : Z) : Prop := is_byte v.

(** * A thread on one chunk of the memory *)
Section Chunk.
Variables (base : Z) (sz : nat).
Hypothesis Hbase : 0 <= base.
Definition area (b : nat) (i : Z) : Prop := b = O /\ base <= i < base + Z.of_nat sz.
(** The chunk of the memory is [chunk]. *)
Definition sees (m : gmem) (chunk : list Z) : Prop :=
  (0 < length m)%nat /\ base + Z.of_nat sz <= lenZ (nth 0 m []) /\ slice (Z.to_nat base) sz (nth 0 m []) = chunk.

Lemma sees_length m chunk : sees m chunk -> length chunk = sz.
Proof. intros (H0 & HL & <-). unfold lenZ in *. apply slice_length. lia. Qed.
Lemma sees_cell m chunk j : sees m chunk -> (j < sz)%nat -> cell m 0 (base + Z.of_nat j) = nth j chunk 0.
Proof.
  intros (H0 & HL & <-) Hj. unfold cell, slice. rewrite nth_firstn_gen by auto. rewrite nth_skipn_gen. f_equal. lia.
Qed.
Lemma sees_ext m chunk : (0 < length m)%nat -> base + Z.of_nat sz <= lenZ (nth 0 m []) -> length chunk = sz ->
  (forall j, (j < sz)%nat -> cell m 0 (base + Z.of_nat j) = nth j chunk 0) -> sees m chunk.
Proof.
  intros H0 HL LC H. split; auto. split; auto. apply nth_ext with (d := 0) (d' := 0).
  - rewrite LC. unfold lenZ in *. apply slice_length. lia.
  - intros j Hj. unfold slice in *. rewrite firstn_length in Hj. rewrite nth_firstn_gen by lia. rewrite nth_skipn_gen.
    rewrite <- H by lia. unfold cell. f_equal. lia.
Qed.
Lemma sees_local m m' chunk : agree area m m' -> sees m chunk -> sees m' chunk.
Proof.
  intros [[S1 S2] AG] H. pose proof (sees_length _ _ H) as LC. destruct H as (H0 & HL & E). apply sees_ext; auto.
  - lia.
  - unfold lenZ in *. now rewrite S2.
  - intros j Hj. rewrite AG; [apply sees_cell; [split; [|split]; assumption|auto]|lia|]. split; auto. lia.
Qed.

Notation wpc := (wp gbyte area area).
Lemma wpc_load A m chunk off n bs N (k : list Z -> prog A) Q : sees m chunk -> load_bytes chunk off n = Done bs -> 0 <= n ->
  wpc N (k bs) m Q -> wpc (S N) (Load 0 (base + off) n k) m Q.
Proof.
  intros HS HL Hn H. pose proof (sees_length _ _ HS) as LC. pose proof HS as (H0 & HB & _).
  unfold load_bytes in HL. destruct (Z.leb_spec 0 off); [|discriminate]. destruct (Z.leb_spec (off + n) (lenZ chunk)) as [L|]; [|discriminate].
  cbn [andb] in HL. injection HL as <-. unfold lenZ in *. cbn [wp]. split; [lia|]. split; [lia|]. split; [unfold lenZ; lia|].
  split; [intros j Hj; split; [reflexivity|lia]|]. intros bs Lb _ AB. replace bs with (firstn (Z.to_nat n) (skipn (Z.to_nat off) chunk)); auto.
  apply nth_ext with (d := 0) (d' := 0).
  - unfold lenZ in *. rewrite firstn_length, skipn_length. lia.
  - intros j Hj. rewrite firstn_length, skipn_length in Hj. unfold lenZ in *. rewrite nth_firstn_gen by lia. rewrite nth_skipn_gen.
    rewrite AB; [|lia|split; [reflexivity|lia]]. symmetry. rewrite <- sees_cell with (m := m) by (auto; lia). f_equal. lia.
Qed.
Lemma wpc_store A m chunk chunk' off bs N (k : prog A) Q : sees m chunk -> store_bytes chunk off bs = Done chunk' -> is_bytes bs ->
  (forall m', sees m' chunk' -> wpc N k m' Q) -> wpc (S N) (Store 0 (base + off) bs k) m Q.
Proof.
  intros HS HL HV H. pose proof (sees_length _ _ HS) as LC. pose proof HS as (H0 & HB & _).
  unfold store_bytes in HL. destruct (Z.leb_spec 0 off); [|discriminate]. destruct (Z.leb_spec (off + lenZ bs) (lenZ chunk)) as [L|]; [|discriminate].
  cbn [andb] in HL. injection HL as <-. cbn [wp]. unfold lenZ in L, HB. rewrite LC in L.
  split; [lia|]. split; [lia|]. split; [unfold lenZ; lia|]. split; [exact HV|]. split; [intros j Hj; split; [reflexivity|lia]|].
  apply H. assert (B : 0 <= base + off /\ base + off + lenZ bs <= lenZ (nth 0 m [])) by (unfold lenZ; lia).
  apply sees_ext.
  - unfold put. now rewrite setnth_length.
  - destruct (put_shape m 0 (base + off) bs) as [_ S2]; try tauto. unfold lenZ. rewrite S2. lia.
  - rewrite !app_length, firstn_length, skipn_length. lia.
  - intros j Hj. rewrite put_cell by (tauto || lia). cbn [Nat.eqb andb].
    destruct (Z.leb_spec (base + off) (base + Z.of_nat j)) as [J1|J1]; cbn [andb].
    + rewrite app_nth2; rewrite firstn_length; [|lia]. replace (Nat.min _ _) with (Z.to_nat off) by lia. unfold lenZ.
      destruct (Z.ltb_spec (base + Z.of_nat j) (base + off + Z.of_nat (length bs))).
      * rewrite app_nth1 by lia. f_equal. lia.
      * rewrite app_nth2 by lia. rewrite nth_skipn_gen. rewrite (sees_cell _ _ _ HS) by auto. f_equal. lia.
    + rewrite app_nth1 by (rewrite firstn_length; lia). rewrite nth_firstn_gen by lia. apply (sees_cell _ _ _ HS). auto.
Qed.

Lemma store_room mem i w m1 : store64 LE mem (8 * i) w = Done m1 -> length m1 = length mem /\ 8 * (i + 1) <= Z.of_nat (length mem).
Proof.
  unfold store64, store_bytes. assert (L8 : length (native_bytes LE 8 w) = 8%nat) by (unfold native_bytes; rewrite rev_length; reflexivity).
  revert L8. generalize (native_bytes LE 8 w) as bs. intros bs L8. replace (8 * (i + 1)) with (8 * i + 8) by lia. generalize (8 * i) as a. intros a.
  unfold lenZ. rewrite L8. destruct (Z.leb_spec 0 a); [|discriminate]. destruct (Z.leb_spec (a + Z.of_nat 8) (Z.of_nat (length mem))); [|discriminate].
  cbn [andb]. intros E. apply (f_equal (fun o => match o with Done m => length m | _ => O end)) in E. cbv beta iota in E.
  rewrite !app_length, firstn_length, skipn_length in E. lia.
Qed.
(** * The functions of the kernel *)
Definition hs (p : cstate) : cthread := mkH (c_in p) (c_bits p) (c_buffer p) base (c_out p).
Lemma cread_mem inp p n v q mem : cread_bits inp p n = Done (v, q) ->
  c_mem q = c_mem p /\ c_out q = c_out p /\
  cread_bits inp (mkC (c_in p) (c_bits p) (c_buffer p) mem (c_out p)) n = Done (v, mkC (c_in q) (c_bits q) (c_buffer q) mem (c_out q)).
Proof.
  unfold cread_bits. cbn [c_in c_bits c_buffer c_mem c_out]. intros H. destruct (c_bits p <? n).
  - destruct (load64 LE inp (8 * c_in p)) as [w| |]; cbn [bind] in *; try discriminate. injection H as <- <-. auto.
  - injection H as <- <-. auto.
Qed.
Lemma hread_ok inp p n v q : cread_bits inp p n = Done (v, q) -> hread_bits inp (hs p) n = Ret (v, hs q) /\ c_mem q = c_mem p /\ c_out q = c_out p.
Proof.
  intros H. destruct (cread_mem _ _ _ _ _ [] H) as (M & O & E). unfold hread_bits, hs. cbn [h_in h_bits h_buffer h_out h_base].
  rewrite E. cbn [bind lift c_in c_bits c_buffer]. rewrite O. auto.
Qed.
Lemma load_split chunk off a b bs : 0 <= a -> 0 <= b -> load_bytes chunk off (a + b) = Done bs ->
  exists b1 b2, load_bytes chunk off a = Done b1 /\ load_bytes chunk (off + a) b = Done b2 /\ bs = b1 ++ b2.
Proof.
  intros Ha Hb. unfold load_bytes. destruct (Z.leb_spec 0 off); [|discriminate]. destruct (Z.leb_spec (off + (a + b)) (lenZ chunk)); [|discriminate].
  cbn [andb]. intros [= <-]. destruct (Z.leb_spec (off + a) (lenZ chunk)); [|lia]. destruct (Z.leb_spec 0 (off + a)); [|lia].
  destruct (Z.leb_spec (off + a + b) (lenZ chunk)); [|lia]. cbn [andb]. eexists _, _. split; [reflexivity|]. split; [reflexivity|].
  replace (Z.to_nat (a + b)) with (Z.to_nat a + Z.to_nat b)%nat by lia. replace (Z.to_nat (off + a)) with (Z.to_nat a + Z.to_nat off)%nat by lia.
  rewrite (Nat.add_comm (Z.to_nat a) (Z.to_nat off)), <- skipn_add. generalize (skipn (Z.to_nat off) chunk) as l. generalize (Z.to_nat a) as x, (Z.to_nat b) as y. clear.
  induction x; intros y l; [reflexivity|]. destruct l as [|z l]; cbn [Nat.add firstn skipn app]; [destruct y; reflexivity|]. now rewrite <- IHx.
Qed.
Lemma hload_ok m chunk off d v N (Q : nat -> Z -> gmem -> Prop) : sees m chunk -> d = 2 \/ d = 4 \/ d = 8 -> cload chunk off d = Done v ->
  (forall N', (N <= N')%nat -> Q N' v m) -> wpc (N + 4) (hload (base + off) d) m Q.
Proof.
  intros HS Hd H HQ. unfold cload in H. unfold hload. destruct Hd as [-> | [-> | ->]];
    cbn [Z.eqb Z.gtb Z.compare Pos.eqb Pos.compare Pos.compare_cont] in *.
  - destruct (load_bytes chunk off 2) as [b0| |] eqn:L0; cbn [bind] in H; try discriminate. injection H as <-.
    replace (N + 4)%nat with (S (N + 3)) by lia. cbn [pbind]. eapply wpc_load; [exact HS|exact L0|lia|]. cbn [wp]. rewrite !app_nil_r. apply HQ. lia.
  - destruct (load_bytes chunk off 4) as [b4| |] eqn:L0; cbn [bind] in H; try discriminate. injection H as <-.
    destruct (load_split chunk off 2 2 b4 ltac:(lia) ltac:(lia) L0) as (b0 & b1 & L1 & L2 & ->).
    replace (N + 4)%nat with (S (S (N + 2))) by lia. cbn [pbind]. eapply wpc_load; [exact HS|exact L1|lia|].
    rewrite <- Z.add_assoc. eapply wpc_load; [exact HS|exact L2|lia|]. cbn [wp]. rewrite !app_nil_r. apply HQ. lia.
  - destruct (load_bytes chunk off 8) as [b8| |] eqn:L0; cbn [bind] in H; try discriminate. injection H as <-.
    destruct (load_split chunk off 2 6 b8 ltac:(lia) ltac:(lia) L0) as (b0 & c0 & L1 & L2 & ->).
    destruct (load_split chunk _ 2 4 c0 ltac:(lia) ltac:(lia) L2) as (b1 & c1 & L3 & L4 & ->).
    destruct (load_split chunk _ 2 2 c1 ltac:(lia) ltac:(lia) L4) as (b2 & b3 & L5 & L6 & ->).
    replace (N + 4)%nat with (S (S (S (S N)))) by lia. cbn [pbind]. eapply wpc_load; [exact HS|exact L1|lia|].
    rewrite <- !Z.add_assoc in *. eapply wpc_load; [exact HS|exact L3|lia|]. eapply wpc_load; [exact HS|exact L5|lia|].
    eapply wpc_load; [exact HS|exact L6|lia|]. cbn [wp]. apply HQ. lia.
Qed.
Definition good_field (f : Z * Z) : Prop := Z.shiftr (fst f) 7 = 0 \/ snd f = 2 \/ snd f = 4 \/ snd f = 8.
Lemma hfields_ok inp fs : Forall good_field fs -> forall p w bits v q m N (Q : nat -> Z * cthread -> gmem -> Prop), sees m (c_mem p) -> cfields inp fs p w bits = Done (v, q) ->
  (forall N', (N <= N')%nat -> Q N' (v, hs q) m) -> c_mem q = c_mem p /\ c_out q = c_out p /\ wpc (N + 4 * length fs) (hfields inp fs (hs p) w bits) m Q.
Proof.
  induction 1 as [|[t d] fs G HF IH]; intros p w bits v q m N Q HS H HQ; cbn [cfields hfields] in *.
  - injection H as <- <-. split; auto. split; auto. cbn [wp]. apply HQ. lia.
  - destruct (cread_bits inp p (Z.land t 127)) as [[x p1]| |] eqn:ER; cbn [bind] in H; try discriminate.
    destruct (hread_ok _ _ _ _ _ ER) as (-> & M1 & O1). cbn [pbind].
    destruct (Z.eqb_spec (Z.shiftr t 7) 0) as [E0|N0]; cbn [negb] in *.
    + cbn [bind] in H. rewrite <- M1 in HS.
      destruct (IH p1 _ _ v q m (N + 4)%nat Q HS H) as (M2 & O2 & W); [intros; apply HQ; lia|].
      split; [congruence|]. split; [congruence|]. cbn [pbind length]. replace (N + 4 * S (length fs))%nat with (N + 4 + 4 * length fs)%nat by lia. exact W.
    + destruct (cload (c_mem p1) (cget_index p1 d x (cfifo d)) d) as [y| |] eqn:EL; cbn [bind] in H; try discriminate.
      rewrite <- M1 in HS.
      destruct (IH p1 _ _ v q m N Q HS H) as (M2 & O2 & _); [exact HQ|].
      split; [congruence|]. split; [congruence|]. apply wp_bind.
      change (h_base (hs p1)) with base. change (hget_index (hs p1) d x (cfifo d)) with (cget_index p1 d x (cfifo d)).
      cbn [length]. replace (N + 4 * S (length fs))%nat with (N + 4 * length fs + 4)%nat by lia.
      apply hload_ok with (chunk := c_mem p1) (v := y); auto. { destruct G as [G|G]; [now elim N0|exact G]. }
      intros N' HN. replace N' with (N' - 4 * length fs + 4 * length fs)%nat by lia.
      eapply IH; [exact HS|exact H|]. intros. apply HQ. lia.
Qed.
Lemma hput_ok p w m1 m N (Q : nat -> cthread -> gmem -> Prop) : sees m (c_mem p) -> store64 LE (c_mem p) (8 * c_out p) w = Done m1 ->
  (forall m', sees m' m1 -> Q N (hs (mkC (c_in p) (c_bits p) (c_buffer p) m1 (c_out p + 1))) m') -> wpc (S N) (hput (hs p) w) m Q.
Proof.
  intros HS H HQ. unfold hput. cbn [hs h_base h_out]. eapply wpc_store; [exact HS|exact H| |].
  - unfold native_bytes. apply Forall_rev. apply be_bytes_is_bytes.
  - intros m' S'. exact (HQ m' S').
Qed.
Lemma hrepeat_ok n : forall p q m N (Q : nat -> cthread -> gmem -> Prop), sees m (c_mem p) -> crepeat n p = Done q ->
  (forall N' m', (N <= N')%nat -> sees m' (c_mem q) -> Q N' (hs q) m') -> wpc (N + 2 * n) (hrepeat n (hs p)) m Q.
Proof.
  induction n as [|n IH]; intros p q m N Q HS H HQ; cbn [crepeat hrepeat] in *.
  - injection H as <-. cbn [wp]. apply HQ; auto. lia.
  - unfold load64 in H. destruct (load_bytes (c_mem p) (8 * (c_out p - 1)) 8) as [bs| |] eqn:EL; cbn [bind] in H; try discriminate.
    destruct (store64 LE (c_mem p) (8 * c_out p) (native_val LE bs)) as [m1| |] eqn:ES; cbn [bind] in H; try discriminate.
    replace (N + 2 * S n)%nat with (S (S (N + 2 * n))) by lia. cbn [pbind]. cbn [h_base h_out hs]. eapply wpc_load; [exact HS|exact EL|lia|].
    apply (wp_bind gbyte). eapply hput_ok; [exact HS|exact ES|]. intros m' S'. eapply IH; [|exact H|exact HQ]. exact S'.
Qed.
Lemma templates_good fs : In fs dec_templates -> Forall good_field fs /\ length fs = 4%nat.
Proof.
  assert (C : forallb (fun fs => forallb (fun f => (Z.shiftr (fst f) 7 =? 0) || (snd f =? 2) || (snd f =? 4) || (snd f =? 8)) fs && (length fs =? 4)%nat) dec_templates = true)
    by (vm_compute; reflexivity).
  intros H. rewrite forallb_forall in C. apply C in H. apply andb_true_iff in H. destruct H as [H1 H2]. split; [|now apply Nat.eqb_eq].
  rewrite forallb_forall in H1. apply Forall_forall. intros f Hf. apply H1 in Hf. unfold good_field. lia.
Qed.
(** The words written: at most 17 accesses for each of them. *)
Definition grows (p q : cstate) : Prop :=
  c_out p <= c_out q /\ length (c_mem q) = length (c_mem p) /\ (8 * c_out p <= Z.of_nat (length (c_mem p)) -> 8 * c_out q <= Z.of_nat (length (c_mem p))).
Lemma grows_eq p q : c_out q = c_out p -> c_mem q = c_mem p -> grows p q.
Proof. intros H1 H2. unfold grows. rewrite H1, H2. repeat split; auto. lia. Qed.
Lemma grows_trans a b c : grows a b -> grows b c -> grows a c.
Proof. intros (A1 & A2 & A3) (B1 & B2 & B3). unfold grows. rewrite A2 in *. split; [lia|]. split; auto. Qed.
Lemma grows_put p w m1 : store64 LE (c_mem p) (8 * c_out p) w = Done m1 -> grows p (mkC (c_in p) (c_bits p) (c_buffer p) m1 (c_out p + 1)).
Proof. intros H. destruct (store_room _ _ _ _ H) as [L R]. unfold grows. cbn [c_out c_mem]. repeat split; auto. lia. Qed.
Lemma crepeat_out n : forall p q, crepeat n p = Done q -> grows p q /\ c_out q = c_out p + Z.of_nat n.
Proof.
  induction n as [|n IH]; intros p q H; cbn [crepeat] in H; [injection H as <-; split; [now apply grows_eq|lia]|].
  destruct (load64 LE (c_mem p) (8 * (c_out p - 1))) as [w| |]; cbn [bind] in H; try discriminate.
  destruct (store64 LE (c_mem p) (8 * c_out p) w) as [m| |] eqn:E; cbn [bind] in H; try discriminate.
  apply IH in H. cbn [c_out] in H. destruct H as [G ->]. split; [|lia]. eapply grows_trans; [eapply grows_put; exact E|exact G].
Qed.
Lemma cfields_out inp fs : forall p w bits v q, cfields inp fs p w bits = Done (v, q) -> c_mem q = c_mem p /\ c_out q = c_out p.
Proof.
  induction fs as [|[t d] fs IH]; intros p w bits v q H; cbn [cfields] in H; [injection H as <- <-; auto|].
  destruct (cread_bits inp p (Z.land t 127)) as [[x p1]| |] eqn:ER; cbn [bind] in H; try discriminate.
  destruct (hread_ok _ _ _ _ _ ER) as (_ & M1 & O1).
  destruct (if negb _ then _ else _) as [y| |]; cbn [bind] in H; try discriminate.
  apply IH in H. destruct H. split; congruence.
Qed.
Lemma cstep_out inp p b q : cstep inp p = Done (b, q) -> grows p q.
Proof.
  unfold cstep. intros H.
  destruct (cread_bits inp p OP_BITS) as [[op p1]| |] eqn:E1; cbn [bind] in H; try discriminate.
  destruct (hread_ok _ _ _ _ _ E1) as (_ & M1 & O1). apply grows_trans with (b := p1); [now apply grows_eq|].
  destruct (op =? OP_REPEAT).
  - destruct (cread_bits inp p1 REPEAT_BITS) as [[n p2]| |] eqn:E2; cbn [bind] in H; try discriminate.
    destruct (hread_ok _ _ _ _ _ E2) as (_ & M2 & O2).
    destruct (crepeat (Z.to_nat (n + 1)) p2) as [p3| |] eqn:E3; cbn [bind] in H; try discriminate. injection H as <- <-.
    apply crepeat_out in E3. destruct E3 as [G _]. apply grows_trans with (b := p2); [now apply grows_eq|exact G].
  - destruct (op =? OP_ZEROS).
    { destruct (store64 LE (c_mem p1) (8 * c_out p1) 0) as [m1| |] eqn:E; cbn [bind] in H; try discriminate. injection H as <- <-. eapply grows_put; exact E. }
    destruct (op =? OP_END); [injection H as <- <-; now apply grows_eq|].
    destruct (nth_error dec_templates (Z.to_nat op)) as [fs|]; [|discriminate].
    destruct (cfields inp fs p1 0 0) as [[w p2]| |] eqn:EF; cbn [bind] in H; try discriminate. apply cfields_out in EF. destruct EF.
    destruct (store64 LE (c_mem p2) (8 * c_out p2) (bswap64 w)) as [m1| |] eqn:E; cbn [bind] in H; try discriminate. injection H as <- <-.
    apply grows_trans with (b := p2); [now apply grows_eq|]. eapply grows_put; exact E.
Qed.
Lemma cloop_out inp f : forall p q, cloop f inp p = Done q -> grows p q.
Proof.
  induction f as [|f IH]; intros p q H; cbn [cloop] in H; [discriminate|].
  destruct (cstep inp p) as [[[] p1]| |] eqn:E; cbn [bind] in H; try discriminate; apply cstep_out in E.
  - now injection H as <-.
  - eapply grows_trans; eauto.
Qed.

Lemma hstep_ok inp p b q m N (Q : nat -> bool * cthread -> gmem -> Prop) : sees m (c_mem p) -> cstep inp p = Done (b, q) ->
  (forall N' m', (N <= N')%nat -> sees m' (c_mem q) -> Q N' (b, hs q) m') ->
  wpc (N + 17 * Z.to_nat (c_out q - c_out p)) (hstep inp (hs p)) m Q.
Proof.
  intros HS H HQ. unfold cstep in H. unfold hstep.
  destruct (cread_bits inp p OP_BITS) as [[op p1]| |] eqn:E1; cbn [bind] in H; try discriminate.
  destruct (hread_ok _ _ _ _ _ E1) as (-> & M1 & O1). cbn [pbind]. rewrite <- M1 in HS. rewrite <- O1. clear E1 M1 O1 p.
  destruct (op =? OP_REPEAT).
  - destruct (cread_bits inp p1 REPEAT_BITS) as [[n p2]| |] eqn:E2; cbn [bind] in H; try discriminate.
    destruct (hread_ok _ _ _ _ _ E2) as (-> & M2 & O2). cbn [pbind]. rewrite <- M2 in HS. rewrite <- O2. clear E2 M2 O2 p1.
    destruct (crepeat (Z.to_nat (n + 1)) p2) as [p3| |] eqn:E3; cbn [bind] in H; try discriminate. injection H as <- <-.
    destruct (crepeat_out _ _ _ E3) as [_ O3].
    replace (N + 17 * _)%nat with (N + 15 * Z.to_nat (n + 1) + 2 * Z.to_nat (n + 1))%nat by lia.
    apply wp_bind. eapply hrepeat_ok; [exact HS|exact E3|]. intros N' m' HN S'. cbn [wp]. apply HQ; auto. lia.
  - destruct (op =? OP_ZEROS).
    { destruct (store64 LE (c_mem p1) (8 * c_out p1) 0) as [m1| |] eqn:E; cbn [bind] in H; try discriminate. injection H as <- <-. cbn [c_out].
      replace (N + 17 * _)%nat with (S (N + 16)) by lia.
      apply wp_bind. eapply hput_ok; [exact HS|exact E|]. intros m' S'. cbn [wp]. apply HQ; auto. lia. }
    destruct (op =? OP_END).
    { injection H as <- <-. cbn [wp]. apply HQ; auto. lia. }
    destruct (nth_error dec_templates (Z.to_nat op)) as [fs|] eqn:ET; [|discriminate].
    destruct (templates_good fs (nth_error_In _ _ ET)) as [GF LF].
    destruct (cfields inp fs p1 0 0) as [[w p2]| |] eqn:EF; cbn [bind] in H; try discriminate.
    destruct (store64 LE (c_mem p2) (8 * c_out p2) (bswap64 w)) as [m1| |] eqn:E; cbn [bind] in H; try discriminate. injection H as <- <-. cbn [c_out].
    destruct (cfields_out _ _ _ _ _ _ _ EF) as [M2 O2].
    apply wp_bind. replace (N + 17 * _)%nat with (S N + 4 * length fs)%nat by lia.
    apply (hfields_ok inp fs GF p1 0 0 w p2 m (S N)); auto. intros N' HN. apply wp_bind.
    destruct N' as [|N']; [lia|]. rewrite <- M2 in HS. eapply hput_ok; [exact HS|exact E|]. intros m' S'. cbn [wp]. apply HQ; auto. lia.
Qed.
Lemma hloop_ok inp f : forall p q m N (Q : nat -> unit -> gmem -> Prop), sees m (c_mem p) -> cloop f inp p = Done q ->
  (forall N' m', (N <= N')%nat -> sees m' (c_mem q) -> Q N' tt m') ->
  wpc (N + 17 * Z.to_nat (c_out q - c_out p)) (hloop f inp (hs p)) m Q.
Proof.
  induction f as [|f IH]; intros p q m N Q HS H HQ; cbn [cloop hloop] in *; [discriminate|].
  destruct (cstep inp p) as [[[] p1]| |] eqn:E; cbn [bind] in H; try discriminate; apply wp_bind.
  - injection H as <-. apply (hstep_ok inp p true p1 m N); auto.
  - destruct (cstep_out _ _ _ _ E) as (O1 & _). destruct (cloop_out _ _ _ _ H) as (O2 & _).
    replace (N + 17 * Z.to_nat (c_out q - c_out p))%nat with (N + 17 * Z.to_nat (c_out q - c_out p1) + 17 * Z.to_nat (c_out p1 - c_out p))%nat by lia.
    apply (hstep_ok inp p false p1 m _ _ HS E). intros N' m' HN S'.
    replace N' with (N' - 17 * Z.to_nat (c_out q - c_out p1) + 17 * Z.to_nat (c_out q - c_out p1))%nat by lia.
    apply IH with (q := q); auto. intros. apply HQ; auto. lia.
Qed.
End Chunk.

(** * A launch *)
Section Launch.
Variables (W : Z) (inp : list Z) (n : Z) (x : Z -> list Z) (out : list Z).
Hypothesis HW : 0 <= W <= 1024.
Hypothesis Hn : 0 <= n <= 2 ^ 25.
Hypothesis Hinp : is_bytes inp.
Hypothesis H8 : lenZ inp mod 8 = 0.
Hypothesis Hx : forall c, 0 <= c < n -> lenZ (x c) <= W /\ exists rest, stream false [] (bytes_bits (skipn (Z.to_nat (2048 * (c mod 2 ^ 24))) inp)) (x c) rest.
Hypothesis Hout : is_bytes out.
(** The last chunk may be shorter than the others: [W] bytes suffice. *)
Hypothesis HM : 1024 * n + W <= lenZ out + 1024 /\ lenZ out < 2 ^ 63.

Let T := Z.to_nat n.
Definition tarea (t : nat) : nat -> Z -> Prop := area (1024 * Z.of_nat t) (Z.to_nat W).
Definition tchunk (c : Z) : list Z := x c ++ bytes_at out (1024 * c + lenZ (x c)) (W - lenZ (x c)).
Definition tpost (t : nat) (m : gmem) : Prop := sees (1024 * Z.of_nat t) (Z.to_nat W) m (tchunk (Z.of_nat t)).

Lemma nth_repeat_lt {A} (a d : A) k t : (t < k)%nat -> nth t (repeat a k) d = a.
Proof. revert t. induction k; intros [|t] H; cbn [repeat nth]; try lia; auto. apply IHk. lia. Qed.
Lemma area_disjoint t u b i : t <> u -> tarea t b i -> tarea u b i -> False.
Proof. unfold tarea, area. lia. Qed.
Lemma cuda_prog_ok t : (t < T)%nat -> wp gbyte (tarea t) (tarea t) 2176 (cuda_prog inp (Z.of_nat t)) [out] (fun _ _ m => tpost t m).
Proof.
  intros Ht. unfold T in Ht. assert (Hc : 0 <= Z.of_nat t < n) by lia. unfold cuda_prog. change (1024 / 8) with 128.
  set (i := Z.of_nat t mod 2 ^ 24).
  replace (u32 (128 * 2 * Z.of_nat t)) with (128 * 2 * i) by (unfold u32; change (2 ^ 32) with (128 * 2 * 2 ^ 24); rewrite Z.mul_mod_distr_l; lia).
  replace (u32 (128 * Z.of_nat t)) with (128 * Z.of_nat t) by (unfold u32; rewrite Z.mod_small; lia).
  replace (8 * (128 * 2 * i)) with (2048 * i) by lia. replace (8 * (128 * Z.of_nat t)) with (1024 * Z.of_nat t) by lia.
  destruct (Hx _ Hc) as (LX & rest & SX). unfold lenZ in HM, LX.
  set (chunk := slice (Z.to_nat (1024 * Z.of_nat t)) (Z.to_nat W) out).
  assert (LC : length chunk = Z.to_nat W) by (apply slice_length; lia).
  assert (CK : cuda_chunk (skipn (Z.to_nat (2048 * i)) inp) chunk = Done (x (Z.of_nat t) ++ skipn (length (x (Z.of_nat t))) chunk)).
  { apply (cuda_chunk_ok _ _ (x (Z.of_nat t)) rest); auto.
    - now apply is_bytes_skipn.
    - unfold chunk. now apply is_bytes_slice.
    - now apply skipn_mod8.
    - unfold lenZ. rewrite LC, Z2Nat.id by lia. lia.
    - unfold lenZ. rewrite LC. lia. }
  assert (TC : x (Z.of_nat t) ++ skipn (length (x (Z.of_nat t))) chunk = tchunk (Z.of_nat t)).
  { unfold tchunk, bytes_at. f_equal. unfold chunk, slice, lenZ. rewrite skipn_firstn_comm. f_equal; [lia|]. rewrite skipn_add. f_equal. lia. }
  rewrite TC in CK. unfold cuda_chunk in CK.
  destruct (cloop _ _ (mkC 0 0 0 chunk 0)) as [q| |] eqn:E; cbn [bind] in CK; try discriminate. injection CK as CK.
  destruct (cloop_out 0 _ _ _ _ E) as (O1 & O2 & O3). cbn [c_out c_mem] in O1, O2, O3. rewrite LC in O3.
  replace 2176%nat with (2176 - 17 * Z.to_nat (c_out q - 0) + 17 * Z.to_nat (c_out q - 0))%nat by lia.
  apply (hloop_ok (1024 * Z.of_nat t) (Z.to_nat W) ltac:(lia) _ _ (mkC 0 0 0 chunk 0) q); auto.
  - split; [cbn [length]; lia|]. split; [cbn [nth]; unfold lenZ; lia|reflexivity].
  - intros N' m' _ S'. unfold tpost. now rewrite <- CK.
Qed.

Lemma start_inv : minv gbyte T tarea tarea tpost [out] (cuda_start inp out n) (repeat 2176%nat T).
Proof.
  unfold cuda_start. fold T. constructor; cbn [g_mem g_thr].
  - intros b. destruct b as [|b]; cbn [nth]; [exact Hout|]. destruct b; constructor.
  - apply shape_refl.
  - now rewrite map_length, seq_length.
  - apply repeat_length.
  - intros t p H. assert (Ht : (t < T)%nat).
    { rewrite <- (seq_length T 0), <- (map_length (fun t => cuda_prog inp (Z.of_nat t))). apply nth_error_Some. congruence. }
    rewrite nth_error_map in H. rewrite (nth_error_nth' _ O) in H by (now rewrite seq_length). rewrite seq_nth in H by auto. cbn [option_map Nat.add] in H.
    injection H as <-. unfold tinv. replace (nth t (repeat 2176%nat T) O) with 2176%nat; [now apply cuda_prog_ok|].
    clear - Ht. revert t Ht. induction T as [|k IH]; intros [|t] Ht; cbn [repeat nth]; try lia. apply IH. lia.
  - auto.
Qed.

Lemma tpost_local t m1 m2 : (t < T)%nat -> agree (tarea t) m1 m2 -> tpost t m1 -> tpost t m2.
Proof. intros Ht AG. unfold tpost. apply sees_local; [lia|exact AG]. Qed.
Lemma nth_budget t : (nth t (repeat 2176%nat T) O <= 2176)%nat.
Proof. destruct (Nat.lt_ge_cases t T). - apply Nat.eq_le_incl. apply nth_repeat_lt. auto. - rewrite nth_overflow; [lia|now rewrite repeat_length]. Qed.
Lemma cuda_each l s t : run gstep l (cuda_start inp out n) = Some s -> (count_occ Nat.eq_dec l t <= 2176)%nat.
Proof.
  intros H. pose proof (run_each gbyte T tarea tarea area_disjoint tpost tpost_local [out] l _ _ _ start_inv H t). pose proof (nth_budget t). lia.
Qed.
(** The whole launch. *)
Lemma cuda_glaunch sched : let r := glaunch (cuda_start inp out n) sched in
  (r = NoFuel \/ exists out', r = Done [out'] /\ is_bytes out' /\ length out' = length out /\
     (forall c, 0 <= c < n -> bytes_at out' (1024 * c) W = tchunk c) /\ (forall p, 1024 * n + W <= Z.of_nat p + 1024 -> nth p out' 0 = nth p out 0)) /\
  ((forall t, 0 <= t < n -> (2176 <= count_occ Nat.eq_dec sched (Z.to_nat t))%nat) -> r <> NoFuel).
Proof.
  intros r. pose proof start_inv as I0. destruct (turns_inv gbyte T tarea tarea area_disjoint tpost tpost_local [out] sched _ _ I0) as (Ns & I & _).
  unfold r, glaunch. set (s := gturns (cuda_start inp out n) sched) in *.
  destruct (existsb _ (g_thr s)) eqn:EF.
  { exfalso. apply existsb_exists in EF. destruct EF as (p & IN & F). apply In_nth_error in IN. destruct IN as (t & E). destruct (no_fault _ _ _ _ _ _ _ _ t I) as [F1 _]. destruct p; try discriminate. auto. }
  split.
  - destruct (forallb _ (g_thr s)) eqn:EA; [right|now left].
    pose proof (mi_shape _ _ _ _ _ _ _ _ I) as [S1 S2]. pose proof (mi_valid _ _ _ _ _ _ _ _ I O) as VB. destruct (g_mem s) as [|out' [|]] eqn:EM; try discriminate. exists out'. split; auto.
    split; [exact VB|]. split; [apply (S2 O)|]. split.
    + intros c Hc. assert (E : nth_error (g_thr s) (Z.to_nat c) = Some (Ret tt)).
      { destruct (nth_error (g_thr s) (Z.to_nat c)) as [p|] eqn:E; [|apply nth_error_None in E; rewrite (mi_thr _ _ _ _ _ _ _ _ I) in E; unfold T in E; lia].
        rewrite forallb_forall in EA. specialize (EA p (nth_error_In _ _ E)). destruct p as [[]| | | |]; try discriminate. reflexivity. }
      apply (finished _ _ _ _ _ _ _ _ _ I) in E. rewrite EM in E. destruct E as (_ & _ & E). rewrite Z2Nat.id in E by lia. exact E.
    + intros p Hp. pose proof (mi_out _ _ _ _ _ _ _ _ I O (Z.of_nat p)) as C. rewrite EM in C. unfold cell in C. cbn [nth] in C. rewrite Nat2Z.id in C. apply C; [lia|].
      intros t Ht [_ A]. unfold T in Ht. lia.
  - intros HT. assert (EA : forallb (fun p => match p with Ret _ => true | _ => false end) (g_thr s) = true).
    { apply forallb_forall. intros p IN. apply In_nth_error in IN. destruct IN as (t & E).
      assert (Ht : (t < T)%nat) by (rewrite <- (mi_thr _ _ _ _ _ _ _ _ I); apply nth_error_Some; congruence).
      pose proof (turns_end gbyte T tarea tarea area_disjoint tpost tpost_local [out] sched _ _ t I0 Ht) as TE. fold s in TE.
      rewrite TE in E; [now injection E as <-|]. pose proof (nth_budget t). specialize (HT (Z.of_nat t) ltac:(unfold T in Ht; lia)). rewrite Nat2Z.id in HT. lia. }
    rewrite EA. discriminate.
Qed.
Lemma cuda_any_interleaving_mod l s : run gstep l (cuda_start inp out n) = Some s ->
  Z.of_nat (length l) <= 2176 * n /\
  exists out', g_mem s = [out'] /\ length out' = length out /\
  ~ data_race s /\
  (forall t p, nth_error (g_thr s) t = Some p -> p <> Fault /\ p <> Stuck /\ (p = Ret tt \/ exists s', gstep t s = Some s')) /\
  (forall c, 0 <= c < n -> nth_error (g_thr s) (Z.to_nat c) = Some (Ret tt) -> bytes_at out' (1024 * c) W = tchunk c) /\
  (forall p, 1024 * n + W <= Z.of_nat p + 1024 -> nth p out' 0 = nth p out 0).
Proof.
  intros H. destruct (run_inv gbyte T tarea tarea area_disjoint tpost) with (m0 := [out]) (l := l) (s := cuda_start inp out n) (Ns := repeat 2176%nat T) (s' := s) as (Ns & I & L).
  - intros t m1 m2 Ht AG. unfold tpost. apply sees_local; [lia|exact AG].
  - apply start_inv.
  - exact H.
  - split.
    { assert (LS : forall a k, list_sum (repeat a k) = (k * a)%nat) by (induction k as [|k IH]; [reflexivity|]; cbn [repeat]; change (list_sum (a :: repeat a k)) with (a + list_sum (repeat a k))%nat; rewrite IH; lia).
      rewrite LS in L. unfold T in L. lia. }
    pose proof (mi_shape _ _ _ _ _ _ _ _ I) as [S1 S2]. destruct (g_mem s) as [|out' [|]] eqn:EM; try discriminate. exists out'. split; auto.
    split; [apply (S2 O)|]. split; [|split; [|split]].
    + intros (t & u & p & q & b & j & NE & Et & Eu & Wt & Au). destruct p as [| |b1 i bs k| |]; try contradiction. destruct Wt as [-> Hj].
      pose proof (writes_in _ _ _ _ _ _ _ _ _ _ _ _ _ j I Et Hj) as Rt.
      assert (Ru : tarea u b j).
      { destruct q as [|b2 i2 n2 k2|b2 i2 bs2 k2| |]; try contradiction; destruct Au as [-> Hj2];
          [exact (reads_in _ _ _ _ _ _ _ _ _ _ _ _ _ j I Eu Hj2)|exact (writes_in _ _ _ _ _ _ _ _ _ _ _ _ _ j I Eu Hj2)]. }
      exact (area_disjoint t u b j NE Rt Ru).
    + intros t p E. destruct (no_fault _ _ _ _ _ _ _ _ t I) as [F1 F2]. split; [intros ->; now apply F1|]. split; [intros ->; now apply F2|].
      destruct p as [[]| | | |]; [now left| | | |]; right; (eapply not_blocked; [exact I|exact E|discriminate]).
    + intros c Hc E. apply (finished _ _ _ _ _ _ _ _ _ I) in E. rewrite EM in E. destruct E as (_ & _ & E). rewrite Z2Nat.id in E by lia. exact E.
    + intros p Hp. pose proof (mi_out _ _ _ _ _ _ _ _ I O (Z.of_nat p)) as C. rewrite EM in C. unfold cell in C. cbn [nth] in C. rewrite Nat2Z.id in C. apply C; [lia|].
      intros t Ht [_ A]. unfold T in Ht. lia.
Qed.
End Launch.
Lemma cuda_any_interleaving inp n x out : 0 <= n <= 2 ^ 24 -> is_bytes inp -> lenZ inp mod 8 = 0 ->
  (forall c, 0 <= c < n -> lenZ (x c) <= 1024 /\ exists rest, stream false [] (bytes_bits (skipn (Z.to_nat (2048 * c)) inp)) (x c) rest) ->
  is_bytes out -> 1024 * n <= lenZ out < 2 ^ 63 -> forall l s, run gstep l (cuda_start inp out n) = Some s ->
  Z.of_nat (length l) <= 2176 * n /\
  exists out', g_mem s = [out'] /\ length out' = length out /\
  ~ data_race s /\
  (forall t p, nth_error (g_thr s) t = Some p -> p <> Fault /\ p <> Stuck /\ (p = Ret tt \/ exists s', gstep t s = Some s')) /\
  (forall c, 0 <= c < n -> nth_error (g_thr s) (Z.to_nat c) = Some (Ret tt) -> bytes_at out' (1024 * c) 1024 = tchunk 1024 x out c) /\
  (forall p, 1024 * n <= Z.of_nat p -> nth p out' 0 = nth p out 0).
Proof.
  intros Hn Hi H8 Hx Ho HM l s HR.
  destruct (cuda_any_interleaving_mod 1024 inp n x out ltac:(lia) ltac:(lia) Hi H8) with (l := l) (s := s) as (A & out' & B1 & B2 & B3 & B4 & B5 & B6); auto; try lia.
  - intros c Hc. rewrite Z.mod_small by lia. auto.
  - split; auto. exists out'. repeat (split; auto). intros p Hp. apply B6. lia.
Qed.
