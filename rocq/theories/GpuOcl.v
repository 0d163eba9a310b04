(** The OpenCL kernel as work items that interleave. *)
From Coq Require Import ZArith List Bool Lia Permutation.
From Verif Require Import SpecBits SpecCrc Spec842 CBase BitsLemmas SerialCompModel SerialDecompModel OptCompModel ConcLib SpecSync SpecOcl OclModel OclExt OclProofs OclItems
  GpuModel SpecGpu GpuProofs GpuCuda GpuOclModel.
Import ListNotations.
Open Scope Z_scope.

Definition obyte (b : nat) (v : Z) : Prop := b = O -> is_byte v.

Lemma wp_weaken A V (L L' R R' : nat -> Z -> Prop) (p : prog A) : forall N m (Q Q' : nat -> A -> gmem -> Prop), (forall b i, L b i -> L' b i) -> (forall b i, R b i <-> R' b i) ->
  (forall N a m, Q N a m -> Q' N a m) -> wp V L R N p m Q -> wp V L' R' N p m Q'.
Proof.
  induction p as [a|b i n k IH|b i bs k IH| |]; intros N m Q Q' HL HR HQ H; cbn [wp] in *; auto.
  - destruct N; auto. destruct H as (A1 & A2 & A3 & AL & H). repeat (split; auto). intros bs B1 B2 B3. eapply IH; eauto. apply H; auto. intros j Hj Rj. apply B3; auto. now apply HR.
  - destruct N; auto. destruct H as (A1 & A2 & A3 & A4 & A5 & H). repeat (split; auto).
    + intros j Hj. apply HR. auto.
    + eapply IH; eauto.
Qed.

Section Item.
Variable e : endian.
Variable m0 : gmem.
Variables (base : Z) (sz : nat) (c : Z).
Hypothesis Hbase : 0 <= base.
Hypothesis Hsz : Z.of_nat sz < 2 ^ 63.
Variable sw : nat.
Hypothesis Hsw : sz = (8 * sw)%nat.
Hypothesis H3 : (2 < length m0)%nat.
Hypothesis Hroom : base + Z.of_nat sz + 2 <= lenZ (nth 0 m0 []).
Hypothesis Hc1 : 0 <= c < lenZ (nth 1 m0 []).
Hypothesis Hc2 : 0 <= c < lenZ (nth 2 m0 []).
(** Reads of the two bytes behind the chunk are accounted for. *)
Variable ovr : bool.
(** What the work item for chunk [c] writes and what it reads. *)
Definition orange (b : nat) (i : Z) : Prop := area base sz b i \/ (b = 1%nat /\ i = c) \/ (b = 2%nat /\ i = c).
Definition oread (b : nat) (i : Z) : Prop := area base (sz + if ovr then 2 else 0) b i \/ (b = 1%nat /\ i = c).
Definition so (m : gmem) (chunk : list Z) : Prop := shape m0 m /\ sees base sz m chunk.
Notation wpo := (wp obyte oread orange).

Lemma so_length m chunk : so m chunk -> length chunk = sz.
Proof. intros [_ H]. eapply sees_length; [exact Hbase|exact H]. Qed.
Lemma wpo_load A m chunk off n bs N (k : list Z -> prog A) Q : so m chunk -> load_bytes chunk off n = Done bs -> 0 <= n ->
  wpo N (k bs) m Q -> wpo (S N) (Load 0 (base + off) n k) m Q.
Proof.
  intros [SH HS] HL Hn H. pose proof (sees_length _ _ Hbase _ _ HS) as LC. pose proof HS as (H0 & HB & _).
  unfold load_bytes in HL. destruct (Z.leb_spec 0 off); [|discriminate]. destruct (Z.leb_spec (off + n) (lenZ chunk)) as [L|]; [|discriminate].
  cbn [andb] in HL. injection HL as <-. unfold lenZ in *. cbn [wp]. split; [lia|]. split; [lia|]. split; [unfold lenZ; lia|].
  split; [intros j Hj; left; split; [reflexivity|lia]|].
  intros bs Lb _ AB. replace bs with (firstn (Z.to_nat n) (skipn (Z.to_nat off) chunk)); auto.
  apply nth_ext with (d := 0) (d' := 0).
  - unfold lenZ in *. rewrite firstn_length, skipn_length. lia.
  - intros j Hj. rewrite firstn_length, skipn_length in Hj. unfold lenZ in *. rewrite nth_firstn_gen by lia. rewrite nth_skipn_gen.
    rewrite AB; [|lia|left; split; [reflexivity|lia]]. symmetry. rewrite <- sees_cell with (base := base) (sz := sz) (m := m) by (auto; lia). f_equal. lia.
Qed.
(** A load of which the end may lie behind the chunk: what is behind it can be anything. *)
Lemma wpo_any A m chunk off N (k : list Z -> prog A) Q : so m chunk -> 0 <= off -> off <= Z.of_nat sz -> (ovr = true \/ off + 2 <= Z.of_nat sz) ->
  (forall bs, length bs = 2%nat -> is_bytes bs -> (off + 2 <= Z.of_nat sz -> load_bytes chunk off 2 = Done bs) -> wpo N (k bs) m Q) ->
  wpo (S N) (Load 0 (base + off) 2 k) m Q.
Proof.
  intros [[SH1 SH2] HS] H0 HO HV H. pose proof (sees_length _ _ Hbase _ _ HS) as LC. pose proof HS as (HP & HB & _).
  cbn [wp]. split; [lia|]. split; [lia|]. split; [unfold lenZ in *; rewrite SH2; lia|].
  split; [intros j Hj; left; split; [reflexivity|destruct HV as [->|HV]; [|destruct ovr]; lia]|].
  intros bs Lb VB AB. unfold lenZ in Lb. apply H; [lia| |].
  - clear - VB. unfold is_bytes. revert VB. apply Forall_impl. intros x Hx. now apply Hx.
  - intros Hin. rewrite load_bytes_ok by (unfold lenZ; lia). f_equal. unfold slice. apply nth_ext with (d := 0) (d' := 0).
    + rewrite firstn_length, skipn_length. lia.
    + intros j Hj. rewrite firstn_length, skipn_length in Hj. rewrite nth_firstn_gen by lia. rewrite nth_skipn_gen.
      rewrite AB; [|lia|left; split; [reflexivity|lia]]. rewrite <- sees_cell with (base := base) (sz := sz) (m := m) by (auto; lia). f_equal. lia.
Qed.
Lemma wpo_store A m chunk chunk' off bs N (k : prog A) Q : so m chunk -> store_bytes chunk off bs = Done chunk' -> is_bytes bs ->
  (forall m', so m' chunk' -> wpo N k m' Q) -> wpo (S N) (Store 0 (base + off) bs k) m Q.
Proof.
  intros [SH HS] HL HV H. pose proof (sees_length _ _ Hbase _ _ HS) as LC. pose proof HS as (H0 & HB & _).
  unfold store_bytes in HL. destruct (Z.leb_spec 0 off); [|discriminate]. destruct (Z.leb_spec (off + lenZ bs) (lenZ chunk)) as [L|]; [|discriminate].
  cbn [andb] in HL. injection HL as <-. cbn [wp]. unfold lenZ in L, HB. rewrite LC in L.
  split; [lia|]. split; [lia|]. split; [unfold lenZ; lia|]. split; [revert HV; apply Forall_impl; intros ? ? _; assumption|].
  split; [intros j Hj; left; split; [reflexivity|lia]|].
  apply H. assert (B : 0 <= base + off /\ base + off + lenZ bs <= lenZ (nth 0 m [])) by (unfold lenZ; lia).
  split. { eapply shape_trans; [exact SH|]. apply put_shape; tauto. }
  apply sees_ext; [exact Hbase|..].
  - unfold GpuProofs.put. now rewrite setnth_length.
  - destruct (put_shape m 0 (base + off) bs) as [_ S2]; try tauto. unfold lenZ. rewrite S2. lia.
  - rewrite !app_length, firstn_length, skipn_length. lia.
  - intros j Hj. rewrite put_cell by (tauto || lia). cbn [Nat.eqb andb].
    destruct (Z.leb_spec (base + off) (base + Z.of_nat j)) as [J1|J1]; cbn [andb].
    + rewrite app_nth2; rewrite firstn_length; [|lia]. replace (Nat.min _ _) with (Z.to_nat off) by lia. unfold lenZ.
      destruct (Z.ltb_spec (base + Z.of_nat j) (base + off + Z.of_nat (length bs))).
      * rewrite app_nth1 by lia. f_equal. lia.
      * rewrite app_nth2 by lia. rewrite nth_skipn_gen. rewrite (sees_cell _ _ Hbase _ _ _ HS) by auto. f_equal. lia.
    + rewrite app_nth1 by (rewrite firstn_length; lia). rewrite nth_firstn_gen by lia. apply (sees_cell _ _ Hbase _ _ _ HS). auto.
Qed.

(** * The functions of the kernel, against those of OclModel.v on the chunk followed by two bytes *)
Definition tail : list Z := [0; 0].
Lemma Htail : length tail = 2%nat.
Proof. reflexivity. Qed.
Definition ks (p : kstate) : kstate := mkK (k_in p) (k_bits p) (k_buffer p) (k_la p) (k_err p) [] (k_out p).
Definition rel (m : gmem) (p : kstate) : Prop := exists chunk, k_mem p = chunk ++ tail /\ so m chunk.
Lemma rel_eq m p q : k_mem q = k_mem p -> rel m p -> rel m q.
Proof. unfold rel. intros ->. auto. Qed.
Lemma load_chunk chunk off n bs : length chunk = sz -> load_bytes (chunk ++ tail) off n = Done bs -> 0 <= n -> off + n <= Z.of_nat sz -> load_bytes chunk off n = Done bs.
Proof.
  intros LC. unfold load_bytes, lenZ. rewrite app_length. destruct (Z.leb_spec 0 off); cbn [andb]; [|discriminate]. destruct (_ <=? _); [|discriminate].
  intros E Hn Hin. destruct (Z.leb_spec (off + n) (Z.of_nat (length chunk))); [|lia]. rewrite <- E. f_equal. rewrite skipn_app, firstn_app, skipn_length.
  replace (Z.to_nat n - (length chunk - Z.to_nat off))%nat with O by lia. cbn [firstn]. now rewrite app_nil_r.
Qed.
Lemma store_chunk chunk off bs m1 : length chunk = sz -> store_bytes (chunk ++ tail) off bs = Done m1 -> off + lenZ bs <= Z.of_nat sz ->
  exists chunk', store_bytes chunk off bs = Done chunk' /\ m1 = chunk' ++ tail.
Proof.
  intros LC. unfold store_bytes, lenZ. rewrite app_length. destruct (Z.leb_spec 0 off); cbn [andb]; [|discriminate]. destruct (_ <=? _); [|discriminate].
  intros E Hin. destruct (Z.leb_spec (off + Z.of_nat (length bs)) (Z.of_nat (length chunk))); [|lia]. eexists. split; [reflexivity|].
  apply (f_equal (fun o => match o with Done x => x | _ => [] end)) in E. rewrite <- E. rewrite firstn_app, skipn_app.
  replace (Z.to_nat off - length chunk)%nat with O by lia. replace (Z.to_nat off + length bs - length chunk)%nat with O by lia. cbn [firstn skipn].
  now rewrite app_nil_r, <- !app_assoc.
Qed.
Lemma ks_read inp ilen p n v q : kread_bits e inp ilen p n = Done (v, q) -> kread_bits e inp ilen (ks p) n = Done (v, ks q).
Proof.
  unfold kread_bits. cbn [k_in k_bits k_buffer k_la k_err k_mem k_out ks]. destruct (k_bits p <? n).
  - destruct (_ >? ilen).
    + intros E. injection E as <- <-. destruct (k_err p =? 0); reflexivity.
    + intros E. apply bind_inv in E. destruct E as (l5 & -> & E). injection E as <- <-. reflexivity.
  - intros E. injection E as <- <-. reflexivity.
Qed.
Lemma ks_index p s i f o q : kget_index p s i f = (o, q) -> kget_index (ks p) s i f = (o, ks q).
Proof. unfold kget_index. cbn [ks k_out]. cbv zeta. destruct (_ >? k_out p * 8); intros E; injection E as <- <-; reflexivity. Qed.
Lemma index_inv p s i f o q : kget_index p s i f = (o, q) -> k_err q <> 0 \/ (q = p /\ 0 <= o < 2 ^ 64 /\ u64 (o + s) <= k_out p * 8).
Proof.
  unfold kget_index. cbv zeta. set (off := if k_out p * 8 >? f then _ else u64 _). assert (B : 0 <= off < 2 ^ 64) by (unfold off; destruct (_ >? f); unfold u64; apply Z.mod_pos_bound; lia).
  destruct (Z.gtb_spec (u64 (off + s)) (k_out p * 8)); intros E; injection E as <- <-; [left; cbn [kraise k_err]; discriminate|right; auto].
Qed.

Lemma half_bound bs : length bs = 2%nat -> is_bytes bs -> 0 <= swap_be_to_native16 e (native_val e bs) < 2 ^ 16.
Proof.
  intros L B. destruct bs as [|x [|y [|]]]; try discriminate. apply Forall_cons_iff in B. destruct B as [Bx B]. apply Forall_cons_iff in B. destruct B as [By _].
  unfold is_byte in *. destruct e; cbn [swap_be_to_native16 native_val].
  - rewrite swap16_spec. pose proof (be_val_bound (rev (be_bytes 2 (be_val (rev [x; y])))) (is_bytes_rev _ (be_bytes_is_bytes _ _))) as P. exact P.
  - unfold be_val. cbn [fold_left]. lia.
Qed.
Lemma high_half a b b' : 0 <= b < 2 ^ 16 -> 0 <= b' < 2 ^ 16 ->
  oshr (Z.lor (oshl a 48) (oshl b 32)) (64 - 2 * 8) = oshr (Z.lor (oshl a 48) (oshl b' 32)) (64 - 2 * 8).
Proof.
  intros Hb Hb'. unfold oshr. change ((64 - 2 * 8) mod 64) with 48. rewrite <- !Z.shiftr_div_pow2 by lia. rewrite !Z.shiftr_lor. f_equal.
  unfold oshl. change (32 mod 64) with 32. rewrite !Z.shiftr_div_pow2 by lia. rewrite !Z.mod_small by lia. rewrite !Z.div_small by lia. reflexivity.
Qed.

Definition qgood (f : Z * Z * Z) : Prop := let '(i, d, _) := f in i = 0 \/ d = 2 \/ d = 4.
Lemma kfields_good op : op < 25 -> Forall qgood (map (kfield op) [0; 1; 2; 3]).
Proof.
  intros Hop. assert (D1 : op / 5 <= 4) by (pose proof (Z.div_lt_upper_bound op 5 5 ltac:(lia) ltac:(lia)); lia). assert (D2 : op mod 5 <= 4) by (pose proof (Z.mod_pos_bound op 5 ltac:(lia)); lia).
  cbn [map]. apply Forall_cons; [|apply Forall_cons; [|apply Forall_cons; [|apply Forall_cons; [|constructor]]]];
    unfold qgood, kfield; cbn [Z.ltb Z.compare Pos.compare Pos.compare_cont];
    [set (o := op / 5) in *|set (o := op / 5) in *|set (o := op mod 5) in *|set (o := op mod 5) in *];
    clearbody o; unfold b2z; (destruct (Z.geb_spec o 4); [assert (EO : o = 4) by lia; rewrite EO; vm_compute; auto|right; left; reflexivity]).
Qed.
Lemma kfields_err fs : forall p params ob w b r q, kfields e fs p params ob w b = Done (r, q) -> k_err p = 0 ->
  match r with Some _ => k_err q = 0 | None => k_err q <> 0 end.
Proof.
  induction fs as [|[[ii ds] nb] fs IH]; intros p params ob w b r q H E0; cbn [kfields] in H; [injection H as <- <-; auto|].
  destruct (negb (ii =? 0)).
  - destruct (kget_index p ds _ _) as [o p1] eqn:G. destruct (Z.eqb_spec (k_err p1) 0) as [E1|E1]; cbn [negb] in H.
    + apply bind_inv in H. destruct H as (h0 & _ & H). apply bind_inv in H. destruct H as (h1 & _ & H). now apply IH in H.
    + injection H as <- <-. auto.
  - now apply IH in H.
Qed.
Lemma qfields_ok fs : Forall qgood fs -> forall p params ob w b r q m N (Q : nat -> option Z * kstate -> gmem -> Prop), rel m p -> 8 * k_out p <= Z.of_nat sz -> (ovr = true \/ 8 * k_out p + 8 <= Z.of_nat sz) ->
  kfields e fs p params ob w b = Done (r, q) -> (forall N', (N <= N')%nat -> Q N' (r, ks q) m) -> wpo (N + 2 * length fs) (qfields e base fs (ks p) params ob w b) m Q.
Proof.
  induction 1 as [|[[ii ds] nb] fs G HF IH]; intros p params ob w b r q m N Q HR HO HV H HQ; cbn [kfields qfields] in *.
  - injection H as <- <-. cbn [wp]. apply HQ. lia.
  - destruct (Z.eqb_spec ii 0) as [E0|E0]; cbn [negb] in *.
    + cbn [length]. replace (N + 2 * S (length fs))%nat with (N + 2 + 2 * length fs)%nat by lia. eapply IH; eauto. intros. apply HQ. lia.
    + destruct (kget_index p ds _ _) as [o p1] eqn:EG. rewrite (ks_index _ _ _ _ _ _ EG). change (k_err (ks p1)) with (k_err p1).
      apply index_inv in EG. destruct (Z.eqb_spec (k_err p1) 0) as [E1|E1]; cbn [negb] in *.
      * destruct EG as [EG|(-> & BO & LO)]; [contradiction|].
        apply bind_inv in H. destruct H as (h0 & L0 & H). apply bind_inv in H. destruct H as (h1 & L1 & H).
        unfold load16 in L0, L1. apply bind_inv in L0, L1. destruct L0 as (b0 & L0 & X0), L1 as (b1 & L1 & X1). injection X0 as <-. injection X1 as <-.
        destruct HR as (chunk & EM & SO). pose proof (so_length _ _ SO) as LC. rewrite EM in L0, L1.
        set (o' := Z.shiftr o 1) in *.
        assert (O0 : 0 <= o') by (unfold o'; apply Z.shiftr_nonneg; lia).
        assert (OO : 2 * o' <= o). { unfold o'. rewrite Z.shiftr_div_pow2 by lia. change (2 ^ 1) with 2. pose proof (Z.mul_div_le o 2 ltac:(lia)). lia. }
        assert (OG : o <= 2 * o' + 1). { unfold o'. rewrite Z.shiftr_div_pow2 by lia. change (2 ^ 1) with 2. pose proof (Z.mod_pos_bound o 2 ltac:(lia)). pose proof (Z.div_mod o 2 ltac:(lia)). lia. }
        assert (FIT : 2 * (o' + 1) + 2 <= Z.of_nat sz + 2 /\ length b1 = 2%nat).
        { revert L1. unfold load_bytes, lenZ. rewrite app_length, Htail, LC. destruct (_ <=? _); cbn [andb]; [|discriminate].
          destruct (Z.leb_spec (2 * (o' + 1) + 2) (Z.of_nat (sz + 2))); [|discriminate]. intros E. split; [lia|].
          apply (f_equal (fun o => match o with Done x => length x | _ => O end)) in E. cbv beta iota in E. rewrite firstn_length, skipn_length, app_length, Htail in E. lia. }
        destruct FIT as [FIT L2].
        cbn [length]. replace (N + 2 * S (length fs))%nat with (S (S (N + 2 * length fs))) by lia.
        eapply wpo_load; [exact SO|apply load_chunk; [exact LC|exact L0|lia|lia]|lia|].
        eapply wpo_any; [exact SO|lia|lia| |].
        { destruct HV as [HV|HV]; [now left|right]. destruct G as [G|[G|G]]; [contradiction|subst ds|subst ds]; unfold u64 in LO; rewrite Z.mod_small in LO by lia; lia. } intros bs Lb Bb AB.
        assert (VAL : oshr (Z.lor (oshl (swap_be_to_native16 e (native_val e b0)) 48) (oshl (swap_be_to_native16 e (native_val e bs)) 32)) (64 - ds * 8) =
                      oshr (Z.lor (oshl (swap_be_to_native16 e (native_val e b0)) 48) (oshl (swap_be_to_native16 e (native_val e b1)) 32)) (64 - ds * 8)).
        { destruct G as [G|[G|G]]; [contradiction|subst ds|subst ds].
          - destruct (Z_le_gt_dec (2 * (o' + 1) + 2) (Z.of_nat sz)) as [IN|OUT].
            + specialize (AB IN). rewrite (load_chunk _ _ _ _ LC L1) in AB by lia. injection AB as ->. reflexivity.
            + assert (P : 0 <= swap_be_to_native16 e (native_val e b1) < 2 ^ 16).
              { apply half_bound; auto. revert L1. unfold load_bytes. destruct (_ && _); [|discriminate]. intros E. apply (f_equal (fun o => match o with Done x => x | _ => [] end)) in E. cbv beta iota in E. rewrite <- E.
                replace (Z.to_nat (2 * (o' + 1))) with (length chunk) by lia. rewrite skipn_app, skipn_all, Nat.sub_diag. unfold tail. cbn [app skipn].
                repeat constructor; unfold is_byte; lia. }
              apply high_half; auto using half_bound.
          - assert (IN : 2 * (o' + 1) + 2 <= Z.of_nat sz). { unfold u64 in LO. rewrite Z.mod_small in LO by lia. lia. }
            specialize (AB IN). rewrite (load_chunk _ _ _ _ LC L1) in AB by lia. injection AB as ->. reflexivity. }
        rewrite VAL. eapply IH; [exists chunk; eauto|exact HO|exact HV|exact H|exact HQ].
      * injection H as <- <-. cbn [wp]. apply HQ. lia.
Qed.

(** A word that fits is written. *)
Definition kput (p : kstate) (m1 : list Z) : kstate := mkK (k_in p) (k_bits p) (k_buffer p) (k_la p) (k_err p) m1 (k_out p + 1).
Lemma qput_ok p w m1 m N (Q : nat -> kstate -> gmem -> Prop) : rel m p -> store64 e (k_mem p) (8 * k_out p) w = Done m1 -> k_out p * 8 + 8 <= Z.of_nat sz ->
  (forall m', rel m' (kput p m1) -> Q N (ks (kput p m1)) m') -> wpo (S N) (qput e base (ks p) w) m Q.
Proof.
  intros (chunk & EM & SO) HS HF HQ. unfold qput. change (k_out (ks p)) with (k_out p). rewrite EM in HS. unfold store64 in HS.
  assert (L8 : lenZ (native_bytes e 8 w) = 8) by (unfold lenZ; rewrite native_bytes_length; reflexivity).
  apply store_chunk in HS; [|eapply so_length; exact SO|lia]. destruct HS as (chunk' & HS & ->).
  eapply wpo_store; [exact SO|exact HS|apply native_bytes_bytes|]. intros m' SO'. cbn [wp]. apply (HQ m'). exists chunk'. auto.
Qed.
Lemma krepeat_out n : forall p q, krepeat e n p = Done q -> k_out q = k_out p + Z.of_nat n.
Proof.
  induction n as [|n IH]; intros p q H; cbn [krepeat] in H; [injection H as <-; lia|].
  apply bind_inv in H. destruct H as (w & _ & H). apply bind_inv in H. destruct H as (m1 & _ & H). apply IH in H. cbn [k_out] in H. lia.
Qed.
Lemma qrepeat_ok n : forall p q m N (Q : nat -> kstate -> gmem -> Prop), rel m p -> krepeat e n p = Done q -> k_out p * 8 + 8 * Z.of_nat n <= Z.of_nat sz ->
  (forall N' m', (N <= N')%nat -> rel m' q -> Q N' (ks q) m') -> wpo (N + 2 * n) (qrepeat e base n (ks p)) m Q.
Proof.
  induction n as [|n IH]; intros p q m N Q HR H HF HQ; cbn [krepeat qrepeat] in *.
  - injection H as <-. cbn [wp]. apply HQ; auto. lia.
  - apply bind_inv in H. destruct H as (w & L & H). apply bind_inv in H. destruct H as (m1 & S1 & H). unfold load64 in L. apply bind_inv in L. destruct L as (bs & L & X). injection X as <-.
    pose proof HR as (chunk & EM & SO). rewrite EM in L. apply load_chunk in L; [|eapply so_length; exact SO|lia|lia].
    replace (N + 2 * S n)%nat with (S (S (N + 2 * n))) by lia. change (k_out (ks p)) with (k_out p). eapply wpo_load; [exact SO|exact L|lia|].
    apply wp_bind. eapply qput_ok; [exact HR|exact S1|lia|]. intros m' R'. eapply IH; [exact R'|exact H|cbn [kput k_out]; lia|exact HQ].
Qed.
Lemma qdo_op_ok inp ilen olen p op q m N (Q : nat -> kstate -> gmem -> Prop) : rel m p -> kdo_op e inp ilen olen p op = Done q -> k_err p = 0 -> op <> 25 -> 8 * k_out p <= olen -> olen <= Z.of_nat sz -> (k_err q <> 0 -> ovr = true) ->
  (forall N' m', (N <= N')%nat -> rel m' q -> Q N' (ks q) m') ->
  ((k_err q = 0 /\ k_out q = k_out p + 1 /\ 8 * k_out q <= olen) \/ (k_err q <> 0 /\ k_out q = k_out p)) /\
  wpo (N + (if k_err q =? 0 then 9 else 8)) (qdo_op e base inp ilen olen (ks p) op) m Q.
Proof.
  intros HR H E0 N25 HO HL HE HQ. unfold kdo_op in H. unfold qdo_op. destruct (Z.geb_spec op OPS_MAX) as [G|G].
  { injection H as <-. split; [right; split; [discriminate|reflexivity]|]. cbn [wp]. apply HQ; [destruct (_ =? _); lia|]. revert HR. now apply rel_eq. }
  apply bind_inv in H. destruct H as ([v p1] & R & H). pose proof (kread_inv _ _ _ _ _ _ _ R) as (_ & RM & RO). rewrite (ks_read _ _ _ _ _ _ R). cbn [lift pbind].
  change (k_err (ks p1)) with (k_err p1). destruct (Z.eqb_spec (k_err p1) 0) as [E1|E1]; cbn [negb] in *.
  2: { injection H as <-. split; [right; auto|]. cbn [wp]. apply HQ; [destruct (_ =? _); lia|]. revert HR. now apply rel_eq. }
  apply bind_inv in H. destruct H as ([r p2] & F & H). pose proof (kfields_fix _ _ _ _ _ _ _ _ _ F) as (_ & FM & FO).
  pose proof (kfields_err _ _ _ _ _ _ _ _ F E1) as FE.
  assert (R1 : rel m p1) by (revert HR; now apply rel_eq).
  assert (R2 : rel m p2) by (revert HR; apply rel_eq; congruence).
  assert (W : forall N0 (Q0 : nat -> option Z * kstate -> gmem -> Prop), (forall N', (N0 <= N')%nat -> Q0 N' (r, ks p2) m) -> wpo (N0 + 8) (qfields e base (map (kfield op) [0; 1; 2; 3]) (ks p1) v (kopbits op) 0 0) m Q0).
  { intros N0 Q0 HQ0. apply (qfields_ok _ (kfields_good op ltac:(unfold OPS_MAX in G; lia)) p1 v (kopbits op) 0 0 r p2 m N0 Q0 R1); auto; [lia|].
    destruct r as [word|]; [|injection H as <-; left; auto]. rewrite Z.gtb_ltb in H. destruct (Z.ltb_spec olen (k_out p2 * 8 + 8)); [|right; lia].
    injection H as <-. left. apply HE. discriminate. }
  destruct r as [word|].
  - change (k_out (ks p2)) with (k_out p2) in *. destruct (k_out p2 * 8 + 8 >? olen) eqn:C.
    + injection H as <-. cbn [kraise k_err k_out]. split; [right; split; [discriminate|congruence]|]. apply wp_bind. apply W. intros N' HN.
      change (k_out (ks p2)) with (k_out p2). rewrite C. cbn [wp]. apply HQ; [exact HN|]. revert R2. now apply rel_eq.
    + apply bind_inv in H. destruct H as (m1 & S1 & H). injection H as <-. cbn [k_err k_out]. rewrite Z.gtb_ltb in C. apply Z.ltb_ge in C.
      split; [left; split; [exact FE|]; lia|]. rewrite FE. cbn [Z.eqb]. apply wp_bind. replace (N + 9)%nat with (S N + 8)%nat by lia. apply W. intros N' HN.
      change (k_out (ks p2)) with (k_out p2). rewrite Z.gtb_ltb. destruct (Z.ltb_spec olen (k_out p2 * 8 + 8)); [lia|].
      destruct N' as [|N']; [lia|]. eapply qput_ok; [exact R2|exact S1|lia|]. intros m' R'. apply HQ; [lia|exact R'].
  - injection H as <-. split; [right; split; [exact FE|congruence]|]. apply wp_bind.
    replace (if k_err p2 =? 0 then 9%nat else 8%nat) with 8%nat by (destruct (Z.eqb_spec (k_err p2) 0); [contradiction|reflexivity]).
    apply W. intros N' HN. cbn [wp]. apply HQ; auto.
Qed.
Definition final (r : Z + bool) : bool := match r with inr false => false | _ => true end.
Lemma qstep_ok inp ilen olen p r q m N (Q : nat -> (Z + bool) * kstate -> gmem -> Prop) : rel m p -> kstep e inp ilen olen p = Done (r, q) -> 8 * k_out p <= olen -> olen <= Z.of_nat sz -> (forall c, r = inl c -> c <> 0 -> ovr = true) ->
  (forall N' m', (N <= N')%nat -> rel m' q -> Q N' (r, ks q) m') ->
  (k_out p <= k_out q /\ 8 * k_out q <= olen) /\
  wpo (N + 9 * Z.to_nat (k_out q - k_out p) + (if final r then 8 else 0)) (qstep e base inp ilen olen (ks p)) m Q.
Proof.
  intros HR H HO HL HE HQ. unfold kstep in H. unfold qstep.
  apply bind_inv in H. destruct H as ([op p1] & R & H). pose proof (kread_inv _ _ _ _ _ _ _ R) as (_ & RM & RO). rewrite (ks_read _ _ _ _ _ _ R). cbn [lift pbind].
  change (k_err (ks p1)) with (k_err p1). rewrite <- RO in *. assert (R1 : rel m p1) by (revert HR; now apply rel_eq). clear R HR RM RO p.
  destruct (Z.eqb_spec (k_err p1) 0) as [E1|E1]; cbn [negb] in *.
  2: { injection H as <- <-. split; [lia|]. cbn [wp]. apply HQ; auto. lia. }
  destruct (op =? OP_REPEAT).
  { apply bind_inv in H. destruct H as ([rep p2] & R & H). pose proof (kread_inv _ _ _ _ _ _ _ R) as (_ & RM & RO). rewrite (ks_read _ _ _ _ _ _ R). cbn [lift pbind].
    change (k_err (ks p2)) with (k_err p2). change (k_out (ks p2)) with (k_out p2). rewrite <- RO in *. assert (R2 : rel m p2) by (revert R1; now apply rel_eq). clear R R1 RM RO E1 p1.
    destruct (negb (k_err p2 =? 0)). { injection H as <- <-. split; [lia|]. cbn [wp]. apply HQ; auto. lia. }
    destruct (k_out p2 =? 0). { injection H as <- <-. split; [lia|]. cbn [wp]. apply HQ; auto. lia. }
    destruct (_ >? olen) eqn:C. { injection H as <- <-. split; [lia|]. cbn [wp]. apply HQ; auto. lia. }
    rewrite Z.gtb_ltb in C. apply Z.ltb_ge in C.
    apply bind_inv in H. destruct H as (p3 & K & H). injection H as <- <-. pose proof (krepeat_out _ _ _ K) as KO. split; [lia|].
    apply wp_bind. cbn [final]. replace (N + 9 * _ + 0)%nat with (N + 7 * Z.to_nat (rep + 1) + 2 * Z.to_nat (rep + 1))%nat by lia.
    eapply qrepeat_ok; [exact R2|exact K|lia|]. intros N' m' HN R'. cbn [wp]. apply HQ; auto. lia. }
  destruct (op =? OP_ZEROS).
  { change (k_out (ks p1)) with (k_out p1). destruct (_ >? olen) eqn:C. { injection H as <- <-. split; [lia|]. cbn [wp]. apply HQ; auto. lia. }
    rewrite Z.gtb_ltb in C. apply Z.ltb_ge in C. apply bind_inv in H. destruct H as (m1 & S1 & H). injection H as <- <-. cbn [k_out final]. split; [lia|].
    replace (N + 9 * _ + 0)%nat with (S (N + 8)) by lia. apply wp_bind. eapply qput_ok; [exact R1|exact S1|lia|]. intros m' R'. cbn [wp]. apply HQ; [lia|exact R']. }
  destruct (op =? OP_END). { injection H as <- <-. split; [lia|]. cbn [wp]. apply HQ; auto. lia. }
  destruct (Z.eqb_spec op (OPS_MAX - 1)) as [E25|N25].
  { apply bind_inv in H. destruct H as ([v p2] & R & H). pose proof (kread_inv _ _ _ _ _ _ _ R) as (_ & RM & RO). rewrite (ks_read _ _ _ _ _ _ R). cbn [lift pbind].
    change (k_err (ks p2)) with (k_err p2). rewrite <- RO in *. assert (R2 : rel m p2) by (revert R1; now apply rel_eq). clear R R1 RM RO E1 p1.
    destruct (negb (k_err p2 =? 0)). { injection H as <- <-. split; [lia|]. cbn [wp]. apply HQ; auto. lia. }
    destruct (kget_index p2 8 v I8_FIFO_SIZE) as [o p3] eqn:G. pose proof (kget_index_fix _ _ _ _ _ _ G) as (_ & GM & GO). rewrite (ks_index _ _ _ _ _ _ G).
    apply index_inv in G. change (k_err (ks p3)) with (k_err p3). change (k_out (ks p3)) with (k_out p3).
    destruct (Z.eqb_spec (k_err p3) 0) as [E3|E3]; cbn [negb] in *.
    2: { injection H as <- <-. split; [lia|]. cbn [wp]. apply HQ; [lia|]. revert R2. now apply rel_eq. }
    destruct G as [G|(-> & BO & LO)]; [contradiction|]. destruct (_ >? olen) eqn:C. { injection H as <- <-. split; [lia|]. cbn [wp]. apply HQ; auto. lia. }
    rewrite Z.gtb_ltb in C. apply Z.ltb_ge in C. apply bind_inv in H. destruct H as (w & L & H). apply bind_inv in H. destruct H as (m1 & S1 & H). injection H as <- <-. cbn [k_out final]. split; [lia|].
    unfold load64 in L. apply bind_inv in L. destruct L as (bs & L & X). injection X as <-. pose proof R2 as (chunk & EM & SO). rewrite EM in L. pose proof (so_length _ _ SO) as LC.
    assert (FIT : 8 * Z.shiftr o 3 + 8 <= Z.of_nat sz).
    { assert (8 * Z.shiftr o 3 <= o < 8 * Z.shiftr o 3 + 8).
      { rewrite Z.shiftr_div_pow2 by lia. change (2 ^ 3) with 8. pose proof (Z.div_mod o 8 ltac:(lia)). pose proof (Z.mod_pos_bound o 8 ltac:(lia)). lia. }
      assert (8 * Z.shiftr o 3 + 8 <= Z.of_nat sz + 2).
      { revert L. unfold load_bytes, lenZ. rewrite app_length, Htail, LC. destruct (_ <=? _); cbn [andb]; [|discriminate]. destruct (Z.leb_spec (8 * Z.shiftr o 3 + 8) (Z.of_nat (sz + 2))); [lia|discriminate]. }
      unfold u64 in LO. rewrite Z.mod_small in LO by lia. lia. }
    replace (N + 9 * _ + 0)%nat with (S (S (N + 7))) by lia. eapply wpo_load; [exact SO|apply load_chunk; [exact LC|exact L|lia|exact FIT]|lia|].
    apply wp_bind. eapply qput_ok; [exact R2|exact S1|lia|]. intros m' R'. cbn [wp]. apply HQ; [lia|exact R']. }
  apply bind_inv in H. destruct H as (p2 & K & H).
  assert (QD : forall N0 (Q0 : nat -> kstate -> gmem -> Prop), (forall N' m', (N0 <= N')%nat -> rel m' p2 -> Q0 N' (ks p2) m') ->
    ((k_err p2 = 0 /\ k_out p2 = k_out p1 + 1 /\ 8 * k_out p2 <= olen) \/ (k_err p2 <> 0 /\ k_out p2 = k_out p1)) /\
    wpo (N0 + (if k_err p2 =? 0 then 9 else 8)) (qdo_op e base inp ilen olen (ks p1) op) m Q0).
  { intros N0 Q0. apply qdo_op_ok; auto. intros E2. destruct (Z.eqb_spec (k_err p2) 0); [contradiction|]. injection H as <- <-. eapply HE; eauto. }
  destruct (QD N (fun N' a m' => N' = N' -> wpo N' (if negb (k_err a =? 0) then Ret (inl (k_err a), a) else Ret (inr false, a)) m' Q)) as [D W].
  - intros N' m' HN R' _. change (k_err (ks p2)) with (k_err p2). destruct (Z.eqb_spec (k_err p2) 0) as [E2|E2]; cbn [negb] in *; injection H as <- <-; cbn [wp]; apply HQ; auto.
  - split. { destruct (negb (k_err p2 =? 0)); injection H as <- <-; lia. }
    apply wp_bind. eapply wp_mono; [|replace (N + _ + _)%nat with (N + (if (k_err p2 =? 0)%Z then 9 else 8))%nat; [exact W|]].
    + cbv beta. auto.
    + destruct D as [(E2 & O2 & _)|(E2 & O2)].
      * rewrite E2 in *. cbn [Z.eqb negb] in *. injection H as <- <-. cbn [final]. lia.
      * destruct (Z.eqb_spec (k_err p2) 0); [contradiction|]. cbn [negb] in H. injection H as <- <-. cbn [final]. lia.
Qed.
Lemma kstep_out inp ilen olen p r q m : rel m p -> kstep e inp ilen olen p = Done (r, q) -> 8 * k_out p <= olen -> olen <= Z.of_nat sz -> (forall c, r = inl c -> c <> 0 -> ovr = true) -> k_out p <= k_out q /\ 8 * k_out q <= olen.
Proof. intros HR H HO HL HE. eapply (qstep_ok inp ilen olen p r q m O (fun _ _ _ => True)); auto. Qed.
Lemma qloop_ok inp ilen olen f : forall p r q m N (Q : nat -> Z * kstate -> gmem -> Prop), rel m p -> kloop e f inp ilen olen p = Done (r, q) -> 8 * k_out p <= olen -> olen <= Z.of_nat sz -> (r <> 0 -> ovr = true) ->
  (forall N' m', (N <= N')%nat -> rel m' q -> Q N' (r, ks q) m') ->
  wpo (N + 9 * Z.to_nat (olen / 8 - k_out p) + 8) (qloop e base f inp ilen olen (ks p)) m Q.
Proof.
  induction f as [|f IH]; intros p r q m N Q HR H HO HL HE HQ; cbn [kloop qloop] in *; [discriminate|].
  apply bind_inv in H. destruct H as ([r1 p1] & K & H).
  assert (HS : forall c, r1 = inl c -> c <> 0 -> ovr = true) by (intros c1 -> C1; injection H as <- <-; auto).
  destruct (kstep_out _ _ _ _ _ _ _ HR K HO HL HS) as [O1 O2].
  assert (D1 : k_out p1 <= olen / 8) by (apply Z.div_le_lower_bound; lia).
  set (d := Z.to_nat (k_out p1 - k_out p)). set (d2 := Z.to_nat (olen / 8 - k_out p1)).
  replace (Z.to_nat (olen / 8 - k_out p)) with (d + d2)%nat by lia. apply wp_bind.
  destruct r1 as [c1|[]].
  - injection H as <- <-. replace (N + 9 * (d + d2) + 8)%nat with (N + 9 * d2 + 9 * d + 8)%nat by lia.
    apply (qstep_ok inp ilen olen p (inl c1) p1 m (N + 9 * d2)); auto. intros N' m' HN R'. cbn [wp]. apply HQ; auto. lia.
  - injection H as <- <-. replace (N + 9 * (d + d2) + 8)%nat with (N + 9 * d2 + 9 * d + 8)%nat by lia.
    apply (qstep_ok inp ilen olen p (inr true) p1 m (N + 9 * d2)); auto. intros N' m' HN R'. cbn [wp]. apply HQ; auto. lia.
  - replace (N + 9 * (d + d2) + 8)%nat with (N + 9 * d2 + 8 + 9 * d + 0)%nat by lia.
    apply (qstep_ok inp ilen olen p (inr false) p1 m (N + 9 * d2 + 8)); auto. intros N' m' HN R'.
    replace N' with (N' - (9 * d2 + 8) + 9 * d2 + 8)%nat by lia. eapply IH; [exact R'|exact H|exact O2|exact HL|exact HE|]. intros. apply HQ; auto. lia.
Qed.
Lemma qcore_ok inp ilen olen chunk r n mem m N (Q : nat -> Z * Z -> gmem -> Prop) : so m chunk -> decompress_core e inp ilen (chunk ++ tail) olen = Done (r, n, mem) -> 0 <= olen <= Z.of_nat sz -> (r <> 0 -> ovr = true) ->
  (forall N' m' chunk', (N <= N')%nat -> mem = chunk' ++ tail -> so m' chunk' -> Q N' (r, n) m') -> wpo (N + 9 * sw + 8) (qcore e base inp ilen olen) m Q.
Proof.
  intros SO H HO HE HQ. unfold decompress_core in H. unfold qcore.
  apply bind_inv in H. destruct H as (l0 & -> & H). apply bind_inv in H. destruct H as (l1 & -> & H). apply bind_inv in H. destruct H as (l2 & -> & H).
  apply bind_inv in H. destruct H as (l3 & -> & H). apply bind_inv in H. destruct H as (l4 & -> & H). apply bind_inv in H. destruct H as (l5 & -> & H).
  cbn [lift pbind]. apply bind_inv in H. destruct H as ([cc q] & K & H).
  set (p := mkK 0 0 0 [l0; l1; l2; l3; l4; l5] 0 (chunk ++ tail) 0) in *. change (mkK 0 0 0 [l0; l1; l2; l3; l4; l5] 0 [] 0) with (ks p).
  assert (R0 : rel m p) by (exists chunk; auto). apply wp_bind.
  assert (D : olen / 8 <= Z.of_nat sw) by (apply Z.div_le_upper_bound; lia). pose proof (Z.div_pos olen 8 ltac:(lia) ltac:(lia)).
  replace (N + 9 * sw + 8)%nat with (N + 9 * (sw - Z.to_nat (olen / 8 - k_out p)) + 9 * Z.to_nat (olen / 8 - k_out p) + 8)%nat by (cbn [k_out p]; lia).
  eapply qloop_ok; [exact R0|exact K|cbn [k_out p]; lia|lia| |].
  { intros C. destruct (Z.eqb_spec cc 0); [contradiction|]. injection H as <- <- <-. auto. } intros N' m' HN (chunk' & EM & SO'). cbn [fst snd].
  destruct (negb (cc =? 0)). { injection H as <- <- <-. cbn [wp]. eapply HQ; [lia|exact EM|exact SO']. }
  apply bind_inv in H. destruct H as ([crc q2] & R & H). pose proof (kread_inv _ _ _ _ _ _ _ R) as (_ & RM & RO). rewrite (ks_read _ _ _ _ _ _ R). cbn [lift pbind].
  change (k_err (ks q2)) with (k_err q2). change (k_out (ks q2)) with (k_out q2). rewrite <- RM in EM.
  destruct (negb (k_err q2 =? 0)); injection H as <- <- <-; cbn [wp]; (eapply HQ; [lia|exact EM|exact SO']).
Qed.

(** * The rest of the kernel *)
Lemma so_put m chunk b v : so m chunk -> (b = 1 \/ b = 2)%nat -> so (GpuProofs.put m b c [v]) chunk.
Proof.
  intros [[S1 S2] HS] Hb. assert (LB : (b < length m)%nat) by lia.
  assert (LV : c + lenZ [v] <= lenZ (nth b m [])) by (unfold lenZ in *; rewrite S2; cbn [length]; destruct Hb as [-> | ->]; lia).
  pose proof (put_shape m b c [v] ltac:(lia) LV) as PS. split; [eapply shape_trans; [split; eassumption|exact PS]|].
  pose proof (sees_length _ _ Hbase _ _ HS) as LC. pose proof HS as (H0 & HB & _). destruct PS as [P1 P2].
  apply sees_ext; [exact Hbase|lia|unfold lenZ in *; rewrite P2; lia|exact LC|]. intros j Hj. rewrite put_cell by (auto; lia).
  destruct (Nat.eqb_spec 0 b); [lia|]. cbn [andb]. apply (sees_cell _ _ Hbase _ _ _ HS). auto.
Qed.
Lemma wpo_set m chunk b v N (k : prog unit) Q : so m chunk -> (b = 1 \/ b = 2)%nat ->
  (forall m', so m' chunk -> cell m' b c = v -> (forall b', b' <> b -> cell m' b' c = cell m b' c) -> wpo N k m' Q) -> wpo (S N) (Store b c [v] k) m Q.
Proof.
  intros HS Hb H. pose proof HS as [[S1 S2] _]. cbn [wp]. assert (LB : (b < length m)%nat) by lia.
  assert (LV : c + lenZ [v] <= lenZ (nth b m [])) by (unfold lenZ in *; rewrite S2; cbn [length]; destruct Hb as [-> | ->]; lia).
  split; [exact LB|]. split; [lia|]. split; [exact LV|]. split; [constructor; [intros E; lia|constructor]|]. split.
  { intros j Hj. cbn [length] in Hj. replace (c + Z.of_nat j) with c by lia. right. destruct Hb as [-> | ->]; [left|right]; auto. }
  apply H; [now apply so_put|..].
  - rewrite put_cell by (auto; lia). rewrite Nat.eqb_refl. cbn [andb]. change (lenZ [v]) with 1. destruct (Z.leb_spec c c); [|lia]. destruct (Z.ltb_spec c (c + 1)); [|lia].
    rewrite Z.sub_diag. reflexivity.
  - intros b' N'. rewrite put_cell by (auto; lia). destruct (Nat.eqb_spec b' b); [contradiction|reflexivity].
Qed.
Lemma qfinish_ok m chunk n r N (Q : nat -> unit -> gmem -> Prop) : so m chunk -> (forall m', so m' chunk -> cell m' 1 c = n -> cell m' 2 c = r -> Q N tt m') ->
  wpo (S (S N)) (_ <~ qset true 1 c n ;; qset true 2 c r) m Q.
Proof.
  intros HS HQ. cbn [qset pbind]. eapply wpo_set; [exact HS|auto|]. intros m1 S1 C1 _. eapply wpo_set; [exact S1|auto|]. intros m2 S2 C2 CO. cbn [wp].
  apply HQ; auto. rewrite CO by lia. exact C1.
Qed.
Lemma qitem_core_ok m chunk inb iaddr ilen r n mem (Q : nat -> unit -> gmem -> Prop) : so m chunk -> 0 <= cell m 1 c <= Z.of_nat sz ->
  decompress_core e (skipn (Z.to_nat iaddr) inb) ilen (chunk ++ tail) (cell m 1 c) = Done (r, n, mem) -> (r <> 0 -> ovr = true) ->
  (forall N m' chunk', mem = chunk' ++ tail -> so m' chunk' -> cell m' 1 c = n -> cell m' 2 c = r -> Q N tt m') ->
  wpo (9 * sw + 11) (qitem_core e true true inb c iaddr ilen base) m Q.
Proof.
  intros HS HC HD HE HQ. unfold qitem_core. cbn [qget pbind]. replace (9 * sw + 11)%nat with (S (2 + 9 * sw + 8)) by lia. cbn [wp].
  pose proof HS as [[S1 S2] _]. split; [lia|]. split; [lia|]. split; [unfold lenZ in *; rewrite S2; lia|]. split; [intros j Hj; right; split; [reflexivity|lia]|].
  intros bs Lb _ AB. specialize (AB O). unfold lenZ in Lb. replace (c + Z.of_nat 0) with c in AB by lia. rewrite AB; [|lia|right; left; auto].
  apply wp_bind. eapply qcore_ok; [exact HS|exact HD|exact HC|exact HE|]. intros N' m' chunk' HN EM SO'.
  destruct N' as [|[|N']]; try lia. cbv beta iota. eapply qfinish_ok; [exact SO'|]. intros. eapply HQ; eauto.
Qed.
Lemma firstn_plus {A} n k (l : list A) : firstn (n + k) l = firstn n l ++ firstn k (skipn n l).
Proof. revert l. induction n as [|n IH]; intros [|x l]; cbn [Nat.add firstn skipn app]; auto; [now rewrite firstn_nil|now rewrite IH]. Qed.
Lemma put_put (M : list Z) o w1 w2 : (o + length w1 + length w2 <= length M)%nat -> OclItems.put (OclItems.put M o w1) (o + length w1) w2 = OclItems.put M o (w1 ++ w2).
Proof.
  intros H. apply nth_ext with (d := 0) (d' := 0).
  - rewrite !OclItems.put_length; rewrite ?OclItems.put_length, ?app_length; lia.
  - intros j _. rewrite !OclItems.put_nth; rewrite ?OclItems.put_length, ?app_length; try lia.
    destruct (Nat.leb_spec (o + length w1) j); destruct (Nat.ltb_spec j (o + length w1 + length w2)); destruct (Nat.leb_spec o j); destruct (Nat.ltb_spec j (o + length w1));
      destruct (Nat.ltb_spec j (o + (length w1 + length w2))); cbn [andb]; try lia; auto.
    + rewrite app_nth2 by lia. f_equal. lia.
    + rewrite app_nth1 by lia. reflexivity.
Qed.
Lemma qcopy_ok inb n : is_bytes inb -> forall iaddr off chunk m N (Q : nat -> unit -> gmem -> Prop), 0 <= iaddr -> iaddr + 8 * Z.of_nat n <= lenZ inb -> (off + 8 * n <= sz)%nat -> so m chunk ->
  (forall m', so m' (OclItems.put chunk off (slice (Z.to_nat iaddr) (8 * n) inb)) -> Q N tt m') -> wpo (N + n) (qcopy inb iaddr (base + Z.of_nat off) n) m Q.
Proof.
  intros HB. induction n as [|n IH]; intros iaddr off chunk m N Q I0 IL OL HS HQ; cbn [qcopy].
  - rewrite Nat.add_0_r. cbn [wp]. apply HQ. unfold OclItems.put, slice. rewrite Nat.mul_0_r. cbn [firstn app length]. rewrite Nat.add_0_r, firstn_skipn. exact HS.
  - rewrite load_bytes_ok by lia. cbn [lift pbind]. rewrite Nat.add_succ_r. pose proof (so_length _ _ HS) as LC.
    set (w1 := slice (Z.to_nat iaddr) (Z.to_nat 8) inb). assert (L1 : length w1 = 8%nat) by (apply slice_length; unfold lenZ in *; lia).
    eapply wpo_store with (off := Z.of_nat off); [exact HS|apply store_bytes_ok; unfold lenZ; lia|now apply is_bytes_slice|]. intros m' S'.
    replace (base + Z.of_nat off + 8) with (base + Z.of_nat (off + 8)) by lia. eapply IH with (chunk := OclItems.put chunk off w1).
    + lia. + lia. + lia.
    + rewrite Nat2Z.id in S'. exact S'.
    + intros m2 S2. apply HQ. replace (off + 8)%nat with (off + length w1)%nat in S2 by lia. rewrite put_put in S2.
      * replace (slice (Z.to_nat iaddr) (8 * S n) inb) with (w1 ++ slice (Z.to_nat (iaddr + 8)) (8 * n) inb); [exact S2|].
        unfold w1, slice. change (Z.to_nat 8) with 8%nat. replace (Z.to_nat (iaddr + 8)) with (Z.to_nat iaddr + 8)%nat by lia. rewrite <- skipn_add.
        replace (8 * S n)%nat with (8 + 8 * n)%nat by lia. symmetry. apply firstn_plus.
      * rewrite slice_length by (unfold lenZ in *; lia). lia.
Qed.

(** What the work item for chunk [c] leaves. *)
Definition left_by (r n : Z) (chunk : list Z) (m : gmem) : Prop := so m chunk /\ cell m 1 c = n /\ cell m 2 c = r.
Lemma qcore_res inb ip il m chunk cap : is_bytes inb -> is_bytes chunk -> so m chunk -> cell m 1 c = cap -> 0 <= cap <= Z.of_nat sz -> 0 <= ip -> 0 <= il -> il mod 8 = 0 -> ip + il <= lenZ inb ->
  let '(r, n, w) := core_res (bytes_at inb ip il) cap in (r <> 0 -> ovr = true) ->
  wpo (9 * sw + 11) (qitem_core e true true inb c ip il base) m (fun _ _ => left_by r n (w ++ skipn (length w) chunk)).
Proof.
  intros HB HC SO EC Hcap I0 L0 L8 IL. pose proof (so_length _ _ SO) as LC.
  pose proof (core_fun e (skipn (Z.to_nat ip) inb) il (chunk ++ tail) cap) as CF. unfold bytes_at, slice. destruct (core_res _ cap) as [[r n] w].
  assert (LI : lenZ (skipn (Z.to_nat ip) inb) = lenZ inb - ip) by (unfold lenZ in *; rewrite skipn_length; lia).
  destruct CF as (BW & FW & _ & _ & E).
  { now apply is_bytes_skipn. }
  { apply Forall_app. split; [exact HC|]. unfold tail. repeat constructor; unfold is_byte; lia. }
  { split; [lia|]. intros i Hi Hl. rewrite LI. pose proof (Z.div_mod il 8 ltac:(lia)). lia. }
  { lia. } { unfold lenZ. rewrite app_length, Htail. lia. } { lia. }
  intros HE. eapply qitem_core_ok; [exact SO|lia|rewrite EC; exact E|exact HE|]. intros N m' chunk' EM SO' C1 C2. split; [|auto].
  rewrite skipn_app in EM. replace (length w - length chunk)%nat with O in EM by (unfold lenZ in *; lia). cbn [skipn] in EM. rewrite app_assoc in EM. apply app_inv_tail in EM. now subst chunk'.
Qed.
Lemma qwork_ok a gid m chunk cap : 0 < a_size a < 2 ^ 63 /\ a_size a mod 8 = 0 -> 0 <= a_stride a /\ a_stride a mod 8 = 0 -> 0 <= a_inoff a /\ a_inoff a mod 8 = 0 -> 0 <= a_outoff a /\ a_outoff a mod 8 = 0 ->
  is_bytes (a_in a) -> sizes_ok a \/ chunks_ok e a -> base = out_pos a c -> Z.of_nat sz = a_size a -> 0 <= gid < a_num a -> opt_get (a_map a) gid gid = Done c -> 0 <= c < a_num a ->
  so m chunk -> is_bytes chunk -> cell m 1 c = cap -> 0 <= cap <= a_size a ->
  let '(r, n, w) := item_res e a c cap in (r <> 0 -> ovr = true) ->
  wpo (9 * sw + 11) (qwork e true true a gid) m (fun _ _ => left_by r n (w ++ skipn (length w) chunk)).
Proof.
  intros Hs Ht Hio Hoo Hin Hfmt EB ES Hg Hm Hc SO HB EC Hcap. unfold qwork. destruct (Z.geb_spec gid (a_num a)); [lia|].
  rewrite Hm. cbn [lift pbind]. cbv zeta. rewrite (oaddr_ok e a Hs Ht Hio Hoo Hfmt), (iaddr_ok e a Hs Ht Hio Hoo Hfmt), <- EB. assert (I0 := in_pos_nonneg a Ht Hio c ltac:(lia)). pose proof (so_length _ _ SO) as LCH.
  destruct Hfmt as [(FA & l & EI & Ll & SZ)|(FM & S16 & LI & SZ)].
  - unfold item_res. rewrite FA. rewrite EI, opt_get_some by lia. cbn [lift pbind]. destruct (SZ c Hc) as (Z0 & Z8 & ZF). rewrite EI in Z0, Z8, ZF. cbn [elem] in Z0, Z8, ZF.
    cbn [elem]. set (il := nth (Z.to_nat c) l 0) in *. apply (qcore_res (a_in a) (in_pos a c) il m chunk cap); auto. lia.
  - unfold item_res. rewrite FM. destruct (SZ c Hc) as (ZF & PK). cbv zeta in PK. set (ch := bytes_at (a_in a) (in_pos a c) (a_size a)) in *.
    assert (EL : exists v, opt_get (a_ilen a) c SIZE_MAX = Done v).
    { destruct (a_ilen a) as [l|]; [|eexists; reflexivity]. rewrite opt_get_some; eauto. specialize (LI l eq_refl). lia. }
    destruct EL as [v ->]. rewrite load_bytes_ok by lia. cbn [lift pbind].
    assert (LC : length ch = Z.to_nat (a_size a)) by (unfold ch, bytes_at; apply slice_length; unfold lenZ in *; lia).
    assert (H16 : slice (Z.to_nat (in_pos a c)) (Z.to_nat 16) (a_in a) = firstn 16 ch).
    { unfold ch, bytes_at. rewrite firstn_slice by lia. reflexivity. }
    rewrite H16. destruct (list_eqb (firstn 16 ch) MARKER) eqn:LE; cbn [negb].
    + apply list_eqb_eq in LE. destruct PK as [PK|(z & (pad & EP & _) & Z8)]; [congruence|].
      assert (L24 : (24 + length pad + length z = Z.to_nat (a_size a))%nat).
      { rewrite <- LC, EP, !app_length, native_bytes_length. change (length MARKER) with 16%nat. lia. }
      assert (LZ : lenZ z < 2 ^ 63) by (unfold lenZ; lia).
      assert (N64 : slice (Z.to_nat (in_pos a c + 16)) 8 (a_in a) = slice 16 8 ch).
      { unfold ch, bytes_at. rewrite slice_slice by lia. f_equal. lia. }
      assert (NV : native_val e (slice 16 8 ch) = lenZ z).
      { rewrite EP. unfold slice. change 16%nat with (length MARKER) at 1. rewrite skipn_app, Nat.sub_diag, skipn_all. cbn [app skipn].
        rewrite <- (native_bytes_length e 8 (lenZ z)) at 1. rewrite firstn_app, Nat.sub_diag, firstn_all, firstn_O, app_nil_r.
        apply native_val_bytes. unfold lenZ in *. lia. }
      rewrite load64_ok by lia. cbn [lift pbind]. rewrite N64, NV. destruct (Z.eqb_spec (lenZ z) 0) as [Z0|Z0].
      * intros _. unfold qitem_done. replace (9 * sw + 11)%nat with (S (S (9 * sw + 9))) by lia. eapply qfinish_ok; [exact SO|]. intros m' S' C1 C2. split; [|auto]. exact S'.
      * assert (LZP : 0 <= lenZ z) by (unfold lenZ; lia).
        unfold u64. rewrite Z.mod_small by (unfold lenZ in *; lia). rewrite div8.
        2: { rewrite Zminus_mod. replace (a_size a mod 8) with 0 by lia. rewrite Z8. reflexivity. }
        assert (BE : bytes_at ch (a_size a - lenZ z) (lenZ z) = bytes_at (a_in a) (in_pos a c + (a_size a - lenZ z)) (lenZ z)).
        { unfold ch, bytes_at. rewrite slice_slice by (unfold lenZ in *; lia). f_equal. unfold lenZ in *. lia. }
        rewrite BE. apply (qcore_res (a_in a) (in_pos a c + (a_size a - lenZ z)) (lenZ z) m chunk cap); auto; unfold lenZ in *; lia.
    + intros _. assert (SW : Z.to_nat (a_size a / 8) = sw). { rewrite <- ES. rewrite Hsw. rewrite Nat2Z.inj_mul. change (Z.of_nat 8) with 8. rewrite Z.mul_comm, Z.div_mul by lia. apply Nat2Z.id. }
      rewrite SW. apply wp_bind. replace (9 * sw + 11)%nat with (S (S (8 * sw + 9)) + sw)%nat by lia. replace base with (base + Z.of_nat 0) by lia.
      eapply qcopy_ok with (off := O); [exact Hin|lia|lia|lia|exact SO|]. intros m' S'. unfold qitem_done. eapply qfinish_ok; [exact S'|]. intros m2 S2 C1 C2. split; [|auto].
      unfold OclItems.put in S2. cbn [firstn app] in S2. rewrite Nat.add_0_l in S2. replace (8 * sw)%nat with (Z.to_nat (a_size a)) in S2 by lia. exact S2.
Qed.
Lemma left_local r n chunk m1 m2 : agree orange m1 m2 -> left_by r n chunk m1 -> left_by r n chunk m2.
Proof.
  intros [SH AG] ([S1 HS] & C1 & C2). split; [split|split].
  - eapply shape_trans; eassumption.
  - eapply sees_local; [exact Hbase| |exact HS]. split; [exact SH|]. intros b i Hi HA. apply AG; [exact Hi|now left].
  - rewrite AG; [exact C1|lia|right; left; auto].
  - rewrite AG; [exact C2|lia|right; right; auto].
Qed.
End Item.

(** * The launch *)
Section Launch.
Variable e : endian.
Variable a : cl_args.
Variable m0 : cl_mem.
Hypothesis Hly : layout_ok 2 a m0.
Hypothesis Hfmt : sizes_ok a \/ chunks_ok e a.
Variables L0 R0 : list Z.
Hypothesis EL0 : m_olen m0 = Some L0.
Hypothesis ER0 : m_ret m0 = Some R0.
Notation c_ret := (res_ret e a L0).
Notation c_n := (res_n e a L0).
Notation c_w := (res_w e a L0).
Notation num := (a_num a).
Let sz := Z.to_nat (a_size a).
Let sw := Z.to_nat (a_size a / 8).
Let G0 : gmem := [m_out m0; L0; R0].
Let T := Z.to_nat (global_size num).
Definition chunk0 (c : Z) : list Z := bytes_at (m_out m0) (out_pos a c) (a_size a).
Definition want (c : Z) : list Z := c_w c ++ skipn (length (c_w c)) (chunk0 c).

Lemma sz_ok : Z.of_nat sz = a_size a /\ sz = (8 * sw)%nat /\ Z.of_nat sw = a_size a / 8.
Proof.
  pose proof (ly_size _ _ _ Hly) as [S1 S2]. unfold sz, sw. pose proof (Z.div_mod (a_size a) 8 ltac:(lia)). pose proof (Z.div_pos (a_size a) 8 ltac:(lia) ltac:(lia)). lia.
Qed.
Lemma room c : 0 <= c < num -> 0 <= out_pos a c /\ out_pos a c + a_size a + 2 <= lenZ (m_out m0).
Proof. intros Hc. pose proof Hly as [Ly1 Ly2 Ly3 Ly4 Ly5 Ly6 Ly7 _ _ _]. unfold out_pos. nia. Qed.
Lemma chunk0_length c : 0 <= c < num -> length (chunk0 c) = sz.
Proof. intros Hc. pose proof (room c Hc). pose proof (ly_size _ _ _ Hly) as [S1 _]. unfold chunk0, bytes_at. fold sz. apply slice_length. unfold lenZ, sz in *. lia. Qed.
Lemma res_eq c : item_res e a c (nth (Z.to_nat c) L0 0) = (c_ret c, c_n c, c_w c).
Proof. unfold res_ret, res_n, res_w, res. destruct (item_res _ _ _ _) as [[? ?] ?]. reflexivity. Qed.
Lemma w_ok c : 0 <= c < num -> is_bytes (c_w c) /\ lenZ (c_w c) <= a_size a.
Proof.
  intros Hc. destruct (cmap_surj a m0 Hly c Hc) as (g & Hg & EC). destruct (cmap_ok a m0 Hly g Hg) as [CM _]. rewrite EC in CM.
  pose proof Hly as [Ly1 Ly2 Ly3 Ly4 Ly5 Ly6 Ly7 _ _ _]. pose proof (room c Hc) as [O0 OF]. destruct (L0_ok a m0 Hly L0 EL0) as [LL0 B0]. pose proof (R0_ok a m0 Hly R0 ER0) as LR0.
  pose proof (work_item_ok e a Ly2 Ly3 Ly4 Ly5 Ly6 Hfmt m0 g c L0 R0 Hg CM Hc LL0 LR0 EL0 ER0 (proj1 Ly7)) as W. cbv zeta in W.
  specialize (W (B0 c Hc) OF). rewrite res_eq in W. tauto.
Qed.
Lemma want_length c : 0 <= c < num -> length (want c) = sz.
Proof. intros Hc. destruct (w_ok c Hc) as [_ W]. unfold want. rewrite app_length, skipn_length, chunk0_length by auto. unfold sz, lenZ in *. lia. Qed.
Lemma expect_chunk c j : 0 <= c < num -> (j < sz)%nat -> expect e a m0 L0 (fun _ => true) (Z.to_nat (out_pos a c + Z.of_nat j)) = nth j (want c) 0.
Proof.
  intros Hc Hj. destruct (w_ok c Hc) as [_ W]. pose proof (room c Hc) as [O0 OF]. pose proof (ly_size _ _ _ Hly) as [S1 S2]. unfold expect. cbv zeta.
  set (q := Z.of_nat _ - a_outoff a). assert (Q : q = a_size a * c + Z.of_nat j) by (unfold q, out_pos in *; lia).
  assert (HJ : 0 <= Z.of_nat j < a_size a) by (unfold sz in Hj; lia).
  assert (QD : q / a_size a = c) by (symmetry; apply (Z.div_unique q (a_size a) c (Z.of_nat j)); [left; lia|lia]).
  assert (QM : q mod a_size a = Z.of_nat j) by (symmetry; apply (Z.mod_unique q (a_size a) c (Z.of_nat j)); [left; lia|lia]).
  rewrite QD, QM. destruct (Z.leb_spec 0 q); [|nia]. destruct (Z.ltb_spec c num); [|lia]. cbn [andb]. unfold want.
  destruct (Z.ltb_spec (Z.of_nat j) (lenZ (c_w c))); unfold lenZ in *.
  - rewrite app_nth1 by lia. now rewrite Nat2Z.id.
  - rewrite app_nth2 by lia. rewrite nth_skipn_gen. unfold chunk0, bytes_at, slice. rewrite nth_firstn_gen by lia. rewrite nth_skipn_gen. f_equal. lia.
Qed.

Lemma expect_out p : 0 > Z.of_nat p - a_outoff a \/ (Z.of_nat p - a_outoff a) / a_size a >= num -> nth p (m_out m0) 0 = expect e a m0 L0 (fun _ => true) p.
Proof.
  intros H. unfold expect. cbv zeta. destruct (Z.leb_spec 0 (Z.of_nat p - a_outoff a)); [|reflexivity]. destruct (Z.ltb_spec ((Z.of_nat p - a_outoff a) / a_size a) num); [lia|reflexivity].
Qed.

(** The cells of the work items. *)
Definition cm (t : nat) : Z := cmap a (Z.of_nat t).
Definition tR (t : nat) (b : nat) (i : Z) : Prop := Z.of_nat t < num /\ orange (out_pos a (cm t)) sz (cm t) b i.
Definition tL (t : nat) (b : nat) (i : Z) : Prop := Z.of_nat t < num /\ oread (out_pos a (cm t)) sz (cm t) (negb (c_ret (cm t) =? 0)) b i.
Definition tQ (t : nat) (m : gmem) : Prop := Z.of_nat t < num -> left_by G0 (out_pos a (cm t)) sz (cm t) (c_ret (cm t)) (c_n (cm t)) (want (cm t)) m.
Lemma cm_range t : Z.of_nat t < num -> 0 <= cm t < num.
Proof. intros Ht. apply (cmap_ok a m0 Hly (Z.of_nat t)). lia. Qed.
Lemma cm_inj t u : Z.of_nat t < num -> Z.of_nat u < num -> cm t = cm u -> t = u.
Proof. intros Ht Hu E. apply (cmap_inj a m0 Hly) in E; lia. Qed.
Lemma apart c d j : 0 <= c -> 0 <= d -> out_pos a c <= j < out_pos a c + a_size a -> out_pos a d <= j < out_pos a d + a_size a -> c = d.
Proof. pose proof (ly_size _ _ _ Hly) as [S1 _]. unfold out_pos. intros. nia. Qed.
Lemma tR_disjoint t u b i : t <> u -> tR t b i -> tR u b i -> False.
Proof.
  intros NE [Ht A] [Hu B]. destruct sz_ok as (ES & _ & _). pose proof (cm_range t Ht). pose proof (cm_range u Hu). apply NE. apply cm_inj; auto. unfold orange, area in A, B. rewrite ES in A, B.
  destruct A as [[-> A]|[[-> A]|[-> A]]]; destruct B as [[B0 B]|[[B0 B]|[B0 B]]]; try discriminate; try congruence. eapply apart; [| |exact A|exact B]; lia.
Qed.
Lemma base_nonneg t : Z.of_nat t < num -> 0 <= out_pos a (cm t).
Proof. intros Ht. apply (room (cm t)), cm_range, Ht. Qed.
Lemma tQ_local t m1 m2 : (t < T)%nat -> agree (tR t) m1 m2 -> tQ t m1 -> tQ t m2.
Proof.
  intros _ [SH AG] H Ht. specialize (H Ht). pose proof (cm_range t Ht) as CR. pose proof (R0_ok a m0 Hly R0 ER0) as LR0. destruct (L0_ok a m0 Hly L0 EL0) as [LL0 _].
  destruct sz_ok as (_ & E8 & _).
  eapply left_local; [now apply base_nonneg|exact E8| | | |exact H]; cbn [nth length G0]; try lia.
  split; [exact SH|]. intros b i Hi HR. apply AG; [exact Hi|]. split; auto.
Qed.
Lemma G0_sees c : 0 <= c < num -> so G0 (out_pos a c) sz G0 (chunk0 c).
Proof.
  intros Hc. destruct sz_ok as (ES & _ & _). pose proof (room c Hc). split; [apply shape_refl|]. split; [cbn [length G0]; lia|]. split; [cbn [nth G0]; lia|]. reflexivity.
Qed.
Lemma item_ok t : (t < T)%nat -> Z.of_nat t < num -> wp obyte (tL t) (tR t) (9 * sw + 11) (qwork e true true a (Z.of_nat t)) G0 (fun _ _ => tQ t).
Proof.
  intros HT Ht. pose proof (cm_range t Ht) as CR. destruct sz_ok as (ES & E8 & _). pose proof (room (cm t) CR) as [O0 OF].
  pose proof Hly as [Ly1 Ly2 Ly3 Ly4 Ly5 Ly6 Ly7 _ _ _]. destruct (L0_ok a m0 Hly L0 EL0) as [LL0 B0]. pose proof (R0_ok a m0 Hly R0 ER0) as LR0. destruct (cmap_ok a m0 Hly (Z.of_nat t) ltac:(lia)) as [CM _].
  pose proof (qwork_ok e G0 (out_pos a (cm t)) sz (cm t) O0 ltac:(lia) sw E8 ltac:(cbn [length G0]; lia) ltac:(cbn [nth G0]; lia) ltac:(cbn [nth G0]; lia) ltac:(cbn [nth G0]; lia)
    (negb (c_ret (cm t) =? 0)) a (Z.of_nat t) G0 (chunk0 (cm t)) (nth (Z.to_nat (cm t)) L0 0) Ly2 Ly3 Ly4 Ly5 Ly6 Hfmt eq_refl ES ltac:(lia) CM CR (G0_sees _ CR)) as W.
  rewrite res_eq in W. fold (want (cm t)) in W.
  assert (W' := W ltac:(unfold chunk0, bytes_at; apply is_bytes_slice; apply Ly7) eq_refl (B0 _ CR)). clear W.
  assert (W := W' ltac:(intros NZ; destruct (Z.eqb_spec (c_ret (cm t)) 0); [contradiction|reflexivity])). clear W'.
  revert W. apply wp_weaken.
  - intros b i H. split; auto.
  - intros b i. split; [intros H; split; auto|]. now intros [_ H].
  - intros N [] m H _. exact H.
Qed.
Definition budget (t : nat) : nat := if Z.of_nat t <? num then (9 * sw + 11)%nat else O.
Lemma ocl_inv : minv obyte T tL tR tQ G0 (ocl_start e a m0) (map budget (seq 0 T)).
Proof.
  assert (EM : gmem_of m0 = G0) by (unfold gmem_of; rewrite EL0, ER0; reflexivity).
  unfold ocl_start. rewrite EM. rewrite EL0, ER0. cbn [is_some]. unfold chunk_numbers. fold T. rewrite map_map. constructor; cbn [g_mem g_thr].
  - intros b. pose proof (proj1 (ly_out _ _ _ Hly)) as HB. destruct b as [|b]; cbn [nth G0].
    + revert HB. apply Forall_impl. intros x Hx _. exact Hx.
    + apply Forall_forall. intros x _ Hb. discriminate.
  - apply shape_refl.
  - now rewrite map_length, seq_length.
  - now rewrite map_length, seq_length.
  - intros t p H. assert (Ht : (t < T)%nat).
    { rewrite <- (seq_length T 0), <- (map_length (fun t => qwork e true true a (Z.of_nat t))). apply nth_error_Some. congruence. }
    rewrite nth_error_map in H. rewrite (nth_error_nth' _ O) in H by (now rewrite seq_length). rewrite seq_nth in H by auto. cbn [option_map Nat.add] in H.
    injection H as <-. unfold tinv. replace (nth t (map budget (seq 0 T)) O) with (budget t).
    2: { symmetry. apply nth_error_nth. rewrite nth_error_map, (nth_error_nth' _ O) by (now rewrite seq_length). rewrite seq_nth by auto. reflexivity. }
    unfold budget. destruct (Z.ltb_spec (Z.of_nat t) num) as [LT|GE]; [now apply item_ok|].
    unfold qwork. destruct (Z.geb_spec (Z.of_nat t) num); [|lia]. cbn [wp]. intros C. lia.
  - auto.
Qed.
Lemma budget_sum : Z.of_nat (list_sum (map budget (seq 0 T))) <= num * (9 * (a_size a / 8) + 11).
Proof.
  destruct sz_ok as (_ & _ & <-). pose proof (ly_num _ _ _ Hly) as N0.
  assert (H : forall k, Z.of_nat (list_sum (map budget (seq 0 k))) = Z.min (Z.of_nat k) num * (9 * Z.of_nat sw + 11)).
  { induction k as [|k IH]; [cbn [seq map list_sum fold_right Z.of_nat]; rewrite Z.min_l by lia; reflexivity|].
    rewrite seq_S, map_app, list_sum_app. cbn [map list_sum fold_right Nat.add]. rewrite Nat2Z.inj_add, IH, Nat.add_0_r. unfold budget.
    destruct (Z.ltb_spec (Z.of_nat k) num); [rewrite !Z.min_l by lia; lia|rewrite !Z.min_r by lia; lia]. }
  rewrite H. apply Z.mul_le_mono_nonneg_r; lia.
Qed.
Lemma thread_of c : 0 <= c < num -> exists t, (t < T)%nat /\ Z.of_nat t < num /\ cm t = c.
Proof.
  intros Hc. destruct (cmap_surj a m0 Hly c Hc) as (g & Hg & EC). exists (Z.to_nat g). pose proof (global_size_ge num (ly_num _ _ _ Hly)). unfold cm, T. rewrite Z2Nat.id by lia. repeat split; auto; lia.
Qed.
Lemma all_inv s Ns : minv obyte T tL tR tQ G0 s Ns -> (forall t p, nth_error (g_thr s) t = Some p -> p = Ret tt) ->
  exists o L R, g_mem s = [o; L; R] /\ Inv e a m0 L0 R0 (fun _ => true) (mkM o (Some L) (Some R)).
Proof.
  intros I HF. pose proof (mi_shape _ _ _ _ _ _ _ _ I) as [S1 S2]. destruct (g_mem s) as [|o [|L [|R [|]]]] eqn:EM; try discriminate. exists o, L, R. split; auto.
  destruct (L0_ok a m0 Hly L0 EL0) as [LL0 _]. pose proof (R0_ok a m0 Hly R0 ER0) as LR0. destruct sz_ok as (ES & _ & _).
  assert (P : forall c, 0 <= c < num -> left_by G0 (out_pos a c) sz c (c_ret c) (c_n c) (want c) [o; L; R]).
  { intros c Hc. destruct (thread_of c Hc) as (t & HT & Ht & <-). assert (E : nth_error (g_thr s) t = Some (Ret tt)).
    { destruct (nth_error (g_thr s) t) as [p|] eqn:E; [now rewrite (HF t p E)|]. apply nth_error_None in E. rewrite (mi_thr _ _ _ _ _ _ _ _ I) in E. lia. }
    apply (finished _ _ _ _ _ _ _ _ _ I) in E. rewrite EM in E. apply E. exact Ht. }
  pose proof (S2 O) as SO. pose proof (S2 1%nat) as SL. pose proof (S2 2%nat) as SR. cbn [nth G0] in SO, SL, SR.
  constructor; cbn [m_out m_olen m_ret].
  - exists L. split; auto. split; [unfold lenZ in *; lia|]. intros c Hc. destruct (P c Hc) as (_ & C & _). exact C.
  - exists R. split; auto. split; [unfold lenZ in *; lia|]. intros c Hc. destruct (P c Hc) as (_ & _ & C). exact C.
  - pose proof (mi_valid _ _ _ _ _ _ _ _ I O) as V. rewrite EM in V. cbn [nth] in V. revert V. apply Forall_impl. intros x Hx. now apply Hx.
  - exact SO.
  - intros p. pose proof (ly_size _ _ _ Hly) as [SZ _]. set (q := Z.of_nat p - a_outoff a).
    pose proof (Z.div_mod q (a_size a) ltac:(lia)) as DM. pose proof (Z.mod_pos_bound q (a_size a) ltac:(lia)) as MB. pose proof (ly_outoff _ _ _ Hly) as [OO _].
    destruct (Z_le_gt_dec 0 q) as [Q0|Q0]; [destruct (Z_lt_ge_dec (q / a_size a) num) as [QN|QN]|].
    + set (c := q / a_size a) in *. assert (C0 : 0 <= c) by (apply Z.div_pos; lia). set (j := Z.to_nat (q mod a_size a)).
      assert (EP : p = Z.to_nat (out_pos a c + Z.of_nat j)) by (unfold out_pos, j, q in *; lia). assert (Hj : (j < sz)%nat) by (unfold j; lia).
      rewrite EP at 2. rewrite expect_chunk by (auto; lia). destruct (P c ltac:(lia)) as ([_ HS] & _). pose proof (room c ltac:(lia)) as [O0 _].
      rewrite <- (sees_cell _ _ O0 _ _ j HS Hj). unfold cell. cbn [nth]. now rewrite <- EP.
    + rewrite <- (expect_out p) by (fold q; auto). pose proof (mi_out _ _ _ _ _ _ _ _ I O (Z.of_nat p) ltac:(lia)) as C. rewrite EM in C. unfold cell in C. cbn [nth G0] in C. rewrite Nat2Z.id in C.
      apply C. intros t HT [Ht [A|[[A _]|[A _]]]]; [|discriminate|discriminate]. destruct A as [_ A]. rewrite ES in A. pose proof (cm_range t Ht). unfold out_pos, q in *. nia.
    + rewrite <- (expect_out p) by (fold q; auto). pose proof (mi_out _ _ _ _ _ _ _ _ I O (Z.of_nat p) ltac:(lia)) as C. rewrite EM in C. unfold cell in C. cbn [nth G0] in C. rewrite Nat2Z.id in C.
      apply C. intros t HT [Ht [A|[[A _]|[A _]]]]; [|discriminate|discriminate]. destruct A as [_ A]. rewrite ES in A. pose proof (cm_range t Ht). unfold out_pos, q in *. nia.
Qed.

Lemma ocl_interleaved order l s : schedule a order -> run gstep l (ocl_start e a m0) = Some s ->
  Z.of_nat (length l) <= num * (9 * (a_size a / 8) + 11) /\
  (forall t p, nth_error (g_thr s) t = Some p -> p <> Fault /\ p <> Stuck /\ (p = Ret tt \/ exists s', gstep t s = Some s')) /\
  (forall t u p q b j, t <> u -> nth_error (g_thr s) t = Some p -> nth_error (g_thr s) u = Some q -> writes p b j -> ~ writes q b j) /\
  exists m', run_items e a order m0 = Done m' /\
    ((forall c, 0 <= c < num -> elem (m_ret m') c = 0) -> ~ data_race s) /\
    (forall g c, 0 <= g < num -> opt_get (a_map a) g g = Done c -> nth_error (g_thr s) (Z.to_nat g) = Some (Ret tt) ->
       bytes_at (nth 0 (g_mem s) []) (out_pos a c) (a_size a) = bytes_at (m_out m') (out_pos a c) (a_size a) /\
       nth (Z.to_nat c) (nth 1 (g_mem s) []) 0 = elem (m_olen m') c /\ nth (Z.to_nat c) (nth 2 (g_mem s) []) 0 = elem (m_ret m') c) /\
    ((forall t p, nth_error (g_thr s) t = Some p -> p = Ret tt) -> g_mem s = gmem_of m').
Proof.
  intros HS H. destruct (run_inv obyte T tL tR tR_disjoint tQ tQ_local G0 l _ _ _ ocl_inv H) as (Ns & I & LEN). destruct sz_ok as (ES & _ & _).
  split. { pose proof budget_sum. lia. }
  split.
  { intros t p E. destruct (no_fault _ _ _ _ _ _ _ _ t I) as [F1 F2]. split; [intros ->; now apply F1|]. split; [intros ->; now apply F2|].
    destruct p as [[]| | | |]; [now left| | | |]; right; (eapply not_blocked; [exact I|exact E|discriminate]). }
  assert (WW : forall t p b j, nth_error (g_thr s) t = Some p -> writes p b j -> tR t b j).
  { intros t p b j E W. destruct p as [| |b1 i bs k| |]; try contradiction. destruct W as [-> W]. exact (writes_in _ _ _ _ _ _ _ _ _ _ _ _ _ j I E W). }
  assert (RR : forall t p b j, nth_error (g_thr s) t = Some p -> accesses p b j -> tL t b j \/ tR t b j).
  { intros t p b j E W. destruct p as [|b1 i n k|b1 i bs k| |]; try contradiction; destruct W as [-> W];
      [left; exact (reads_in _ _ _ _ _ _ _ _ _ _ _ _ _ j I E W)|right; exact (writes_in _ _ _ _ _ _ _ _ _ _ _ _ _ j I E W)]. }
  split. { intros t u p q b j NE Et Eu Wt Wu. eapply (tR_disjoint t u b j NE); eauto. }
  destruct (run_all e a m0 Hly Hfmt L0 R0 EL0 ER0 order HS) as (m' & E & I'). exists m'. split; [exact E|].
  pose proof (iv_R _ _ _ _ _ _ _ I') as (R' & ER & LR & NR). pose proof (iv_L _ _ _ _ _ _ _ I') as (L' & EL & LL & NL). rewrite ER, EL. cbn [elem].
  split; [|split].
  - intros HZ (t & u & p & q & b & j & NE & Et & Eu & Wt & Au). pose proof (WW _ _ _ _ Et Wt) as Rt. apply (tR_disjoint t u b j NE Rt).
    destruct (RR _ _ _ _ Eu Au) as [[Hu Lu]|Ru]; [|exact Ru]. split; auto. pose proof (cm_range u Hu) as CR. rewrite <- (NR (cm u) CR), (HZ (cm u) CR) in Lu. cbn [Z.eqb negb] in Lu.
    destruct Lu as [Lu|Lu]; [left|right; left; exact Lu]. unfold area in *. rewrite Nat.add_0_r in Lu. exact Lu.
  - intros g c Hg HC EG. destruct (cmap_ok a m0 Hly g Hg) as [CM CR]. rewrite HC in CM. injection CM as EC. apply (finished _ _ _ _ _ _ _ _ _ I) in EG.
    assert (Hgn : Z.of_nat (Z.to_nat g) < num) by lia. specialize (EG Hgn). unfold cm in EG. rewrite Z2Nat.id in EG by lia. rewrite <- EC in EG, CR. destruct EG as ([_ HSE] & C1 & C2).
    unfold cell in C1, C2. rewrite C1, C2, NL, NR by exact CR. split; [|auto]. pose proof (room c CR) as [O0 OF].
    assert (HM : sees (out_pos a c) sz [m_out m'] (want c)).
    { apply sees_ext; [exact O0|cbn [length]; lia|cbn [nth]; unfold lenZ in *; rewrite (iv_len _ _ _ _ _ _ _ I'); lia|now apply want_length|].
      intros j Hj. unfold cell. cbn [nth]. rewrite (iv_out _ _ _ _ _ _ _ I'). now apply expect_chunk. }
    destruct HSE as (_ & _ & A). destruct HM as (_ & _ & B). unfold bytes_at. fold sz. cbn [nth] in B. now rewrite A, B.
  - intros HF. destruct (all_inv s Ns I HF) as (o & L & R & EM & J). pose proof (Inv_unique e a m0 L0 R0 _ _ _ I' J) as ->. exact EM.
Qed.
End Launch.

Lemma ocl_any_interleaving e a m order l s : layout_ok 2 a m -> sizes_ok a \/ chunks_ok e a -> schedule a order -> run gstep l (ocl_start e a m) = Some s ->
  Z.of_nat (length l) <= a_num a * (9 * (a_size a / 8) + 11) /\
  (forall t p, nth_error (g_thr s) t = Some p -> p <> Fault /\ p <> Stuck /\ (p = Ret tt \/ exists s', gstep t s = Some s')) /\
  exists m', run_items e a order m = Done m' /\
    (forall g c, 0 <= g < a_num a -> opt_get (a_map a) g g = Done c -> nth_error (g_thr s) (Z.to_nat g) = Some (Ret tt) ->
       bytes_at (nth 0 (g_mem s) []) (out_pos a c) (a_size a) = bytes_at (m_out m') (out_pos a c) (a_size a) /\
       nth (Z.to_nat c) (nth 1 (g_mem s) []) 0 = elem (m_olen m') c /\ nth (Z.to_nat c) (nth 2 (g_mem s) []) 0 = elem (m_ret m') c) /\
    ((forall t p, nth_error (g_thr s) t = Some p -> p = Ret tt) -> m_olen m' <> None /\ m_ret m' <> None /\ g_mem s = gmem_of m').
Proof.
  intros HL HF HS HR. destruct (ly_olen _ _ _ HL) as (L0 & EL & _). destruct (ly_ret _ _ _ HL) as (R0 & ER & _).
  destruct (ocl_interleaved e a m HL HF L0 R0 EL ER order l s HS HR) as (A & B & _ & m' & E & _ & D & F). split; [exact A|]. split; [exact B|]. exists m'. split; [exact E|]. split; [exact D|].
  intros HA. destruct (run_all e a m HL HF L0 R0 EL ER order HS) as (m2 & E2 & I). rewrite E in E2. injection E2 as <-.
  destruct (iv_L _ _ _ _ _ _ _ I) as (? & -> & _). destruct (iv_R _ _ _ _ _ _ _ I) as (? & -> & _). split; [discriminate|]. split; [discriminate|]. now apply F.
Qed.
Lemma ocl_no_race e a m order l s : layout_ok 2 a m -> sizes_ok a \/ chunks_ok e a -> schedule a order -> run gstep l (ocl_start e a m) = Some s ->
  (forall t u p q b j, t <> u -> nth_error (g_thr s) t = Some p -> nth_error (g_thr s) u = Some q -> writes p b j -> ~ writes q b j) /\
  exists m', run_items e a order m = Done m' /\ ((forall c, 0 <= c < a_num a -> elem (m_ret m') c = 0) -> ~ data_race s).
Proof.
  intros HL HF HS HR. destruct (ly_olen _ _ _ HL) as (L0 & EL & _). destruct (ly_ret _ _ _ HL) as (R0 & ER & _).
  destruct (ocl_interleaved e a m HL HF L0 R0 EL ER order l s HS HR) as (_ & _ & A & m' & E & B & _). split; [exact A|]. exists m'. auto.
Qed.
